(** Specification of correspondence through trust stores (C54): what the reader of a letter has to have. *)
From Verif Require Import Prelude Requirements Tools Crypto Letter Session Core Envelope.

(** The trust store of [w] has the signet [n] for an ID, without password protection. *)
Definition holds (w : world) (id : bytes) (recipient : bool) (n : signet) : Prop :=
  exists g, w_signet w = Some g /\ g id recipient = Ok n /\ sg_prot n = false.
(** The keys of a signet, loaded already or not. *)
Definition loads (cr : crypto) (n : signet) (p : bytes) (k : privkey) : Prop :=
  (sg_pub n = Some p /\ sg_priv n = k)
  \/ (sg_pub n = None /\ cr_load cr (sg_scheme n) (sg_key n) (sg_public n) = Ok (p, k)).
(** The user knows the password of a signet. *)
Definition remembers (w : world) (id pw : bytes) : Prop :=
  exists f, w_get w = Some f
    /\ forall asked, sg_id asked = id -> exists n, f asked = Ok n /\ sg_scheme n = scheme_pw /\ sg_key n = pw.

(** The reader [w] can read letters of the writer's envelope [e] (with the writer's keys loaded): everybody
    has an ID; the reader has the same secrets, the private keys of the recipients and the public keys of the
    senders; the secrets are all keys or all passwords. *)
Record reader (cr : crypto) (w : world) (e : envelope) : Prop := {
  rd_ids : forall sg, In sg (e_secrets e ++ e_senders e ++ e_recipients e) -> sg_id sg <> [];
  rd_one : Forall (fun sg => sg_scheme sg = scheme_key) (e_secrets e) \/ Forall (fun sg => sg_scheme sg = scheme_pw) (e_secrets e);
  rd_key : forall sg, In sg (e_secrets e) -> sg_scheme sg = scheme_key ->
    exists n, holds w (sg_id sg) false n /\ sg_scheme n = scheme_key /\ sg_key n = sg_key sg;
  rd_pw : forall sg, In sg (e_secrets e) -> sg_scheme sg = scheme_pw -> remembers w (sg_id sg) (sg_key sg);
  rd_recipient : forall sg, In sg (e_recipients e) ->
    exists n p p' k, holds w (sg_id sg) false n /\ sg_scheme n = sg_scheme sg
      /\ sg_pub sg = Some p /\ loads cr n p' (PKey k) /\ pair_ok cr (sg_scheme sg) p k;
  rd_sender : forall sg, In sg (e_senders e) ->
    exists n p k k', holds w (sg_id sg) true n /\ sg_scheme n = sg_scheme sg
      /\ sg_priv sg = PKey k /\ loads cr n p k' /\ pair_ok cr (sg_scheme sg) p k
}.

(** The writer's envelope, as the user made it: a registered suite, version 1, and no lower level than the default. *)
Record writable (c : config) (e : envelope) (su : suite) : Prop := {
  wr_suite : get_suite suite_registry (e_suite_id e) = Some su;
  wr_cached : e_suite e = None \/ e_suite e = Some su;
  wr_version : e_version e = 1%N;
  wr_level : (0 < e_level e)%Z -> (c_default_level c <= e_level e)%Z
}.

(** The reader's requirements; nil stands for all of them. *)
Definition wanted (required : option reqs) : list N :=
  match required with Some q => q | None => [Confidentiality; Integrity; RecipientAuthentication; SenderAuthentication] end.
