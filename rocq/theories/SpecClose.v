(** Specification: when an envelope can be closed (C69). *)
From Verif Require Import Prelude Tools Crypto Letter Session.

(** Everything in the envelope is usable by the writer: no secret is empty, the public keys of all recipients and the
    private keys of all senders are there. *)
Record usable (e : envelope) : Prop := {
  us_secret : forall sg, In sg (e_secrets e) -> sg_key sg <> [];
  us_recipient : forall sg, In sg (e_recipients e) -> sg_pub sg <> None;
  us_sender : forall sg, In sg (e_senders e) -> exists k, sg_priv sg = PKey k
}.
