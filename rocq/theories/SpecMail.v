(** Specification of getting to know each other and writing (C70). *)
From Verif Require Import Prelude Tools Crypto Letter Session KeyStore Signets TrustStore Wizard Generate.

Section Mail.
Variables (cr : crypto) (jundump : bytes -> option sdata).
(** A directory trust store has the public key (or the private key), without password protection, of a key with this ID. *)
Definition has_public (dir : bytes) (w : fs) (id scheme p : bytes) : Prop :=
  exists d none, dir_get jundump dir w id true = Ok d /\ d_id d = id /\ d_scheme d = scheme /\ d_prot d = None
    /\ cr_load cr scheme (d_key d) (d_public d) = Ok (p, none).
Definition has_private (dir : bytes) (w : fs) (id scheme k : bytes) : Prop :=
  exists d p, dir_get jundump dir w id false = Ok d /\ d_id d = id /\ d_scheme d = scheme /\ d_prot d = None
    /\ cr_load cr scheme (d_key d) (d_public d) = Ok (p, PKey k).
(** The friend's store has the public half of a key whose private half is in the owner's store. *)
Definition introduced (dirF : bytes) (wF : fs) (dirO : bytes) (wO : fs) (id scheme : bytes) : Prop :=
  exists p k, has_public dirF wF id scheme p /\ has_private dirO wO id scheme k /\ pair_ok cr scheme p k.
End Mail.

(** A reference to a signet in the trust store, as the envelope files have them. *)
Definition refers (sg : signet) : Prop := sg_key sg = [] /\ sg_id sg <> [].

(** The keys that the commands store are the ones the sessions work with: loading agrees, and generated keys are pairs. *)
Definition as_loaded {e} (kb : prvkey e -> bytes) (s : prvkey e) : privkey :=
  match s with SNil => PNil | SNilE | SNilR => PTypedNil | s => PKey (kb s) end.
Record same_tools {e} (cr : crypto) (pb : pubkey e -> bytes) (kb : prvkey e -> bytes) (gen : bytes -> Z -> option (pubkey e * prvkey e)) : Prop := {
  st_load : forall scheme key public p s, load_keys scheme key public = Ok (p, s) -> cr_load cr scheme key public = Ok (pb p, as_loaded kb s);
  st_gen : forall t n p s, gen t n = Some (p, s) -> pair_ok cr t (pb p) (kb s)
}.
