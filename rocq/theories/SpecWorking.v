(** Specification: cryptographic primitives in working order (used by C19, C20, C69). *)
From Verif Require Import Prelude Tools Crypto.

(** What the key derivation tools can deliver with every registered hash: HKDF stops after 255 digests, and the
    shortest digest in hashtools is that of SHA2-224 (tools/gostdlib/hkdf.go, RFC 5869). *)
Definition kdf_limit : nat := 255 * 28.

(** Primitives that do not fail: the operating system gives random bytes, a key derivation delivers up to its limit,
    key exchange tools generate keys and never agree on an empty secret, Ed25519 signs, SCRYPT-20 derives a key from
    every password.  (No statement about RSA, whose operations fail when the key is too small.) *)
Record working (cr : crypto) : Prop := {
  wk_rand : forall i n, exists b, cr_rand cr i n = Some b;
  wk_kdf : forall t h nonce secret o n, o + n <= kdf_limit -> exists b, cr_kdf cr t h nonce secret o n = Some b;
  wk_gen : forall t i, In t tool_registry -> t_purpose t = PKeyExchange -> exists p, cr_gen cr (t_name t) i = Some p;
  wk_shared : forall t k p, cr_shared cr t k p <> [];
  wk_sign : forall h k m i, exists v, cr_sign cr (lit "Ed25519") h k m i = Some v;
  wk_pwd : forall pw salt n, (0 < n)%Z -> exists k, cr_pwd cr (lit "SCRYPT-20") pw salt n = Some k /\ k <> []
}.
