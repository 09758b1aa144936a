(** Specification vocabulary for C72: goroutines that share a MemTrustStore (no proofs). *)
From Verif Require Import Prelude Requirements Tools Crypto Letter Session Core Envelope Shared.

(** The trust store as somebody sees it who has it for himself. *)
Definition world_of (store : bytes -> bool -> option nat) (h : heap) create ask : world :=
  mkWorld (Some (fun id r => match store id r with Some p => Ok (h p) | None => Err ESignetNotFound end)) create ask.

(** LoadKey has been called on the signet, or has nothing to do: it holds a shared key or a
    password, or something that cannot be loaded. *)
Definition settled (reg : list tool) (cr : crypto) (sg : signet) : Prop :=
  sg_pub sg <> None \/ sg_scheme sg = scheme_key \/ sg_scheme sg = scheme_pw
  \/ forall n, load_key reg cr sg <> Ok n.

(** The same signet, except that the private key may not be there yet if the store's signet was
    not loaded at first. *)
Inductive maybe_half (reg : list tool) (cr : crypto) (store : bytes -> bool -> option nat) (h : heap) (sg : signet) : signet -> Prop :=
| mh_same : maybe_half reg cr store h sg sg
| mh_half id r p : store id r = Some p -> ~ settled reg cr (h p) -> load_key reg cr (h p) = Ok sg ->
    maybe_half reg cr store h sg (with_priv sg (sg_priv (h p))).

Definition maybe_half_envelope reg cr store h (e e' : envelope) : Prop :=
  exists su a b d, e_suite e = Some su /\ e' = set_signets e su a b d
    /\ Forall2 (maybe_half reg cr store h) (e_secrets e) a
    /\ Forall2 (maybe_half reg cr store h) (e_senders e) b
    /\ Forall2 (maybe_half reg cr store h) (e_recipients e) d.
