(** Specification of key storage (C26): which key pairs the schemes have, and how they are written. *)
From Verif Require Import Prelude Container Tools KeyStore.

(** A key pair as the key generation of the scheme makes it.  For RSA, that crypto/x509 reads back what it wrote. *)
Inductive generated (e : ext) : logic -> pubkey e -> prvkey e -> Prop :=
| gen_x25519 p s : length p = 32 -> length s = 32 -> x_check e p = true -> generated e LX (PubX p) (SX s)
| gen_nist curve x y s : fits (big_bytes x) -> fits (big_bytes y) -> n_check e curve x y = true -> generated e (LN curve) (PubN x y) (SN s)
| gen_ed25519 seed p : length seed = 32 -> length p = 32 -> generated e LE (PubE p) (SE (seed ++ p))
| gen_rsa k : r_parse_priv e (r_priv_bytes e k) = Some k -> r_validate e k = true -> r_parse_pub e (r_pub_bytes e (r_public e k)) = Some (r_public e k) ->
    generated e LR (PubR (r_public e k)) (SR k).
(** The key that a signing or opening operation would use, if any. *)
Definition usable {e} (s : prvkey e) : bool := match s with SX _ | SN _ | SE _ | SR _ => true | _ => false end.
