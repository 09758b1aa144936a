(** Specification of the interactive commands (C62, C63). *)
From Verif Require Import Prelude Requirements Tools Crypto Session Core Envelope Signets TrustStore SpecExport Wizard.

Section Spec.
Variables (c : config) (cr : crypto) (undump : bytes -> option sdata) (eundump : bytes -> option edata) (dir : bytes).

(** All files but that of the envelope [n] are the same. *)
Definition only_envelope (w w' : fs) (n : bytes) : Prop := forall p, p <> envelope_path dir n -> read w' p = read w p.

(** An envelope that holds references only, and was found to be valid: a session was made of signets with the same IDs and schemes
    and the suite of the envelope, and the envelope holds the security level of that session. *)
Definition no_keys (v : edata) : Prop := Forall bare (ev_secrets v) /\ Forall bare (ev_senders v) /\ Forall bare (ev_recipients v).
Definition named_by (l : list signet) : list (N * bytes * bytes) := map (fun sg => (sg_version sg, sg_id sg, sg_scheme sg)) l.
Definition passed (v : edata) : Prop :=
  no_keys v /\ exists e s su,
    new_session c tool_registry hash_registry cr e = Ok s /\ ev_level v = s_level s /\ ev_level v <> 0%Z
    /\ get_suite suite_registry (ev_suite v) = Some su /\ e_suite e = Some su
    /\ references v = [named_by (e_secrets e); named_by (e_senders e); named_by (e_recipients e)].

(** The envelope can be used with this trust store: keys are found and a session starts, with the level the envelope names. *)
Definition works (w : fs) (v : edata) : Prop :=
  exists s, correspondence c suite_registry tool_registry hash_registry cr (store_world undump dir w) (env_of v) = Ok s
    /\ s_level s = ev_level v /\ (0 < ev_level v)%Z.

(** Every signet is found under its own ID, and password signets hold no key. *)
Record orderly (w : fs) : Prop := {
  od_ids : forall id r d, dir_get undump dir w id r = Ok d -> d_id d = id;
  od_pw : forall id r d, dir_get undump dir w id r = Ok d -> d_scheme d = scheme_pw -> d_key d = [] }.
End Spec.

(** The store holds, in a file of a signet or recipient, one with this ID, public or not, of a scheme. *)
Definition stored_signet (undump : bytes -> option sdata) (files : list (path * bytes)) (public : bool) (scheme : bytes -> Prop) (id : bytes) : Prop :=
  exists p b d, In (p, b) files /\ undump b = Some d /\ d_id d = id /\ d_public d = public /\ scheme (d_scheme d).
(** A tool of one of the purposes. *)
Definition tool_for (ps : list purpose) (scheme : bytes) : Prop := exists t, In t tool_registry /\ t_name t = scheme /\ In (t_purpose t) ps.
(** The envelope refers to nothing but what was in it, list by list, and what is in the store: passwords and keys as secrets,
    private signing keys as senders, public keys as recipients. *)
Definition known_signets (undump : bytes -> option sdata) (files : list (path * bytes)) (old : option edata) (v : edata) : Prop :=
  (forall d, In d (ev_secrets v) -> (exists o d', old = Some o /\ In d' (ev_secrets o) /\ d_id d' = d_id d)
     \/ stored_signet undump files false (fun s => s = scheme_pw \/ s = scheme_key) (d_id d))
  /\ (forall d, In d (ev_senders v) -> (exists o d', old = Some o /\ In d' (ev_senders o) /\ d_id d' = d_id d)
     \/ stored_signet undump files false (tool_for [PSigning]) (d_id d))
  /\ (forall d, In d (ev_recipients v) -> (exists o d', old = Some o /\ In d' (ev_recipients o) /\ d_id d' = d_id d)
     \/ stored_signet undump files true (tool_for [PKeyExchange; PKeyEncapsulation]) (d_id d)).

(** The presets for a new envelope. *)
Definition presets : list bytes :=
  [lit "Encrypt with password"; lit "Encrypt with key"; lit "Encrypt for someone and sign"; lit "Encrypt for someone but don't sign";
   lit "Sign a file (wrapped)"; lit "Sign a file (separate sig)"].
Definition starts (item line : bytes) : Prop := exists r, line = item ++ r.
(** Answers from the menus: the suite menu and the menus of signets have no blank lines. *)
Definition from_menus (rs : list reply) : Prop :=
  (forall r1 a b r2, rs = r1 ++ Choose a :: Choose b :: r2 -> starts (lit "Suite") a -> fields b <> [])
  /\ (forall ls l, In (ChooseMany ls) rs -> In l ls -> fields l <> []).

(** ** manage *)
(** A word: not empty and without white space. *)
Definition one_word (x : bytes) : Prop := x <> [] /\ forall p a b, In p Text.space_runes -> x <> a ++ p ++ b.
(** The path of a signet's file. *)
Definition signet_path (dir : bytes) (d : sdata) : path := join_path dir (storage_id (d_id d) (d_public d)).
(** [d] is the first with its ID, [v] the first with its name in a list. *)
Definition first_with_id (l : list sdata) (d : sdata) : Prop := exists l1 l2, l = l1 ++ d :: l2 /\ Forall (fun e => d_id e <> d_id d) l1.
Definition first_with_name (l : list edata) (v : edata) : Prop := exists l1 l2, l = l1 ++ v :: l2 /\ Forall (fun e => ev_name e <> ev_name v) l1.
(** Answers for the menus of manage: no line is blank. *)
Definition no_blank (rs : list reply) : Prop :=
  (forall l, In (Choose l) rs -> fields l <> []) /\ (forall ls l, In (ChooseMany ls) rs -> In l ls -> fields l <> []).
(** No envelope in the store carries keys. *)
Definition keyless (eundump : bytes -> option edata) (w : fs) : Prop :=
  forall p b v, read w p = Some b -> eundump b = Some v -> Forall (fun d => d_key d = []) (ev_secrets v ++ ev_senders v ++ ev_recipients v).
