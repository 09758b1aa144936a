(** Labeled hashes: lhash/labeledhash.go and lhash/algs.go.
    The digest functions themselves are a parameter [H] (algorithm, data => digest); the only
    law used is the length of a digest.  Reading a file or reader is modelled by the bytes it
    yields (labeledhash.go:36-62, a read error is an [Err] of the caller). *)
From Verif Require Import Prelude Container Encodings.

(** lhash/algs.go:29-48 (the numbers) and :50-94 (new(); Size() of the hash it returns).
    [None] is the nil returned for an unknown number. *)
Definition alg_size (a : N) : option N :=
  match a with
  | 8 => Some 28 | 9 => Some 32 | 10 => Some 48 | 11 => Some 64 | 12 => Some 28 | 13 => Some 32
  | 16 => Some 28 | 17 => Some 32 | 18 => Some 48 | 19 => Some 64
  | 24 => Some 32 | 25 => Some 32 | 26 => Some 48 | 27 => Some 64
  | 32 => Some 32
  | _ => None
  end%N.
Definition SHA2_256 : N := 9.
Definition BLAKE2b_256 : N := 25.

(** lhash/algs.go:96-140 String. *)
Definition alg_name (a : N) : bytes :=
  match a with
  | 8 => lit "SHA2_224" | 9 => lit "SHA2_256" | 10 => lit "SHA2_384" | 11 => lit "SHA2_512"
  | 12 => lit "SHA2_512_224" | 13 => lit "SHA2_512_256"
  | 16 => lit "SHA3_224" | 17 => lit "SHA3_256" | 18 => lit "SHA3_384" | 19 => lit "SHA3_512"
  | 24 => lit "BLAKE2s_256" | 25 => lit "BLAKE2b_256" | 26 => lit "BLAKE2b_384" | 27 => lit "BLAKE2b_512"
  | 32 => lit "BLAKE3"
  | _ => lit "unknown"
  end%N.

(** labeledhash.go:18-22. *)
Record lhash := LH { lh_alg : N; lh_digest : bytes }.

(** labeledhash.go:25-34 Digest and :48-62 DigestFromReader: a nil hasher panics. *)
Definition lh_of (H : N -> bytes -> bytes) (alg : N) (data : bytes) : outcome lhash :=
  match alg_size alg with
  | None => Panic
  | Some _ => Ok (LH alg (H alg data))
  end.

(** labeledhash.go:140-145 Bytes. *)
Definition lh_bytes (h : lhash) : bytes := uvarint (lh_alg h) ++ block (lh_digest h).

(** labeledhash.go:65-95 Load. *)
Definition lh_load (raw : bytes) : outcome lhash :=
  do (alg, c1) <- get_n64 raw;
  do (digest, c2) <- get_block c1;
  match c2 with
  | _ :: _ => Err EOther
  | [] =>
      match alg_size alg with
      | None => Err EOther
      | Some s => if (blen digest =? s)%N then Ok (LH alg digest) else Err EOther
      end
  end.

(** labeledhash.go:148-162 Hex, Base64, Base58; :98-127 FromHex, FromBase64, FromBase58. *)
Definition lh_hex (h : lhash) : bytes := hex_encode (lh_bytes h).
Definition lh_base64 (h : lhash) : bytes := b64_encode true (lh_bytes h).
Definition lh_base58 (h : lhash) : bytes := b58_encode (lh_bytes h).
Definition lh_from_hex (s : bytes) : outcome lhash := do raw <- hex_decode s; lh_load raw.
Definition lh_from_base64 (s : bytes) : outcome lhash := do raw <- b64_decode true s; lh_load raw.
Definition lh_from_base58 (s : bytes) : outcome lhash := do raw <- b58_decode s; lh_load raw.

(** labeledhash.go:166-169 Equal, 174-176 EqualRaw (subtle.ConstantTimeCompare also compares the lengths). *)
Definition lh_equal (a b : lhash) : bool := (lh_alg a =? lh_alg b)%N && bytes_eqb (lh_digest a) (lh_digest b).
Definition lh_equal_raw (a : lhash) (digest : bytes) : bool := bytes_eqb (lh_digest a) digest.
(** labeledhash.go:179-212 Matches, MatchesData, MatchesString, MatchesFile, MatchesReader. *)
Definition lh_matches (H : N -> bytes -> bytes) (h : lhash) (data : bytes) : outcome bool :=
  do d <- lh_of H (lh_alg h) data; Ok (lh_equal h d).
