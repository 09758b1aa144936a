(** Specification of labeled hashes (C34-C36), independent of the model in Lhash.v. *)
From Verif Require Import Prelude.

(** Name, number and digest size in bits of the supported algorithms (README of the package:
    the name says the size; BLAKE3 has 256 bits). *)
Definition hash_table : list (bytes * N * nat) :=
  [ (lit "SHA2_224", 8%N, 224); (lit "SHA2_256", 9%N, 256); (lit "SHA2_384", 10%N, 384); (lit "SHA2_512", 11%N, 512);
    (lit "SHA2_512_224", 12%N, 224); (lit "SHA2_512_256", 13%N, 256);
    (lit "SHA3_224", 16%N, 224); (lit "SHA3_256", 17%N, 256); (lit "SHA3_384", 18%N, 384); (lit "SHA3_512", 19%N, 512);
    (lit "BLAKE2s_256", 24%N, 256);
    (lit "BLAKE2b_256", 25%N, 256); (lit "BLAKE2b_384", 26%N, 384); (lit "BLAKE2b_512", 27%N, 512);
    (lit "BLAKE3", 32%N, 256) ].
(** The algorithm of new checksums of text and JSON files: BLAKE2b_256 in the table. *)
Definition checksum_alg : N := 25%N.
Example checksum_alg_named : In (lit "BLAKE2b_256", checksum_alg, 256) hash_table.
Proof. unfold hash_table, checksum_alg. cbn [In]. tauto. Qed.
Definition supported (alg : N) : Prop := exists name bits, In (name, alg, bits) hash_table.
(** [d] has the length of a digest of algorithm [alg]. *)
Definition digest_of_alg (alg : N) (d : bytes) : Prop := exists name bits, In (name, alg, bits) hash_table /\ 8 * length d = bits.
(** A hash function family that honours the sizes. *)
Definition hash_family (H : N -> bytes -> bytes) : Prop := forall alg data, supported alg -> digest_of_alg alg (H alg data).

(** The base-128 encoding of a number, least significant group first; not necessarily minimal. *)
Inductive leb128 : bytes -> N -> Prop :=
| leb_last b : (b2n b < 128)%N -> leb128 [b] (b2n b)
| leb_more b e v : (128 <= b2n b)%N -> leb128 e v -> leb128 (b :: e) (b2n b - 128 + 128 * v).
