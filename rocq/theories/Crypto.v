(** Cryptographic primitives and the operating system's randomness, as a
    record of functions.  Theorems quantify over all such records; the laws
    they need are explicit hypotheses ([crypto_laws]). *)
From Verif Require Import Prelude Tools.

(** The loaded private key of a signet is an interface value: nil, a typed nil
    (ed25519.go:73,101 and rsa-keys.go load a public key together with a nil
    pointer/slice of private key type), or a key. *)
Inductive privkey := PNil | PTypedNil | PKey (k : bytes).

Record crypto := mkCrypto {
  (* RandomBytes(n), random.go; the first argument numbers the draws *)
  cr_rand : nat -> nat -> option bytes;
  (* hash tool name, message *)
  cr_hash : bytes -> bytes -> bytes;
  (* KDF tool name, hash name, nonce, secret, offset, size: the bytes of the output
     stream; None when the stream is exhausted (HKDF: 255 digests) *)
  cr_kdf : bytes -> bytes -> bytes -> bytes -> nat -> nat -> option bytes;
  (* stream cipher tool name, key, iv, length: key stream *)
  cr_stream : bytes -> bytes -> bytes -> nat -> bytes;
  (* AEAD tool name, key, nonce, associated data, plaintext/ciphertext *)
  cr_seal : bytes -> bytes -> bytes -> bytes -> bytes -> bytes;
  cr_open : bytes -> bytes -> bytes -> bytes -> bytes -> option bytes;
  (* MAC tool name, hash name, key, message *)
  cr_mac : bytes -> bytes -> bytes -> bytes -> bytes;
  (* password derivation: tool name, password, salt, size *)
  cr_pwd : bytes -> bytes -> bytes -> Z -> option bytes;
  (* key generation: tool name, draw: public and private key *)
  cr_gen : bytes -> nat -> option (bytes * bytes);
  (* ECDH: tool name, private, public *)
  cr_shared : bytes -> bytes -> bytes -> bytes;
  (* key encapsulation: tool name, hash, public key, key, draw *)
  cr_encap : bytes -> bytes -> bytes -> bytes -> nat -> option bytes;
  cr_unwrap : bytes -> bytes -> bytes -> bytes -> option bytes;
  (* signatures: tool name, hash name, key, digest(, draw) *)
  cr_sign : bytes -> bytes -> bytes -> bytes -> nat -> option bytes;
  cr_verify : bytes -> bytes -> bytes -> bytes -> bytes -> bool;
  (* Signet.LoadKey of a tool: stored key, public flag -> public and private key *)
  cr_load : bytes -> bytes -> bool -> outcome (bytes * privkey);
  (* Signet.StoreKey of a public signet *)
  cr_store_pub : bytes -> bytes -> bytes;
  (* rsa.PublicKey.Size()*8 *)
  cr_rsa_bits : bytes -> Z;
  (* password.go CalculatePasswordSecurityLevel(password, iterations) *)
  cr_pw_level : bytes -> Z -> Z
}.

Definition xor_byte (a b : byte) : byte := n2b (N.lxor (b2n a) (b2n b)).
Fixpoint xor_bytes (d k : bytes) : bytes :=
  match d, k with
  | x :: d', y :: k' => xor_byte x y :: xor_bytes d' k'
  | _, _ => d
  end.

(** [pair_ok cr t pub priv]: a key pair of tool [t], as produced by key generation. *)
Definition pair_ok (cr : crypto) (t pub priv : bytes) : Prop :=
  exists i, cr_gen cr t i = Some (pub, priv).

(** The functional-correctness laws of the primitives (no security assumption). *)
Record crypto_laws (cr : crypto) : Prop := {
  law_rand : forall i n b, cr_rand cr i n = Some b -> length b = n;
  law_kdf : forall t h nc s o n b, cr_kdf cr t h nc s o n = Some b -> length b = n;
  law_stream : forall t k iv n, length (cr_stream cr t k iv n) = n;
  law_aead : forall t k n ad d, cr_open cr t k n ad (cr_seal cr t k n ad d) = Some d;
  law_dh : forall t p1 s1 p2 s2, pair_ok cr t p1 s1 -> pair_ok cr t p2 s2 ->
           cr_shared cr t s1 p2 = cr_shared cr t s2 p1;
  law_encap : forall t h p s k i w, pair_ok cr t p s -> cr_encap cr t h p k i = Some w ->
           cr_unwrap cr t h s w = Some k;
  law_sign : forall t h p s m i sg, pair_ok cr t p s -> cr_sign cr t h s m i = Some sg ->
           cr_verify cr t h p m sg = true;
  law_store : forall t p s, pair_ok cr t p s -> exists pv,
           cr_load cr t (cr_store_pub cr t p) true = Ok (p, pv)
}.
