(** Specification vocabulary for session properties (no proofs; read together
    with the theorems of PropSession.v). *)
From Verif Require Import Prelude Requirements Tools Crypto Session.

(** The effective minimum security level: the process-wide minimum if one is
    set, else the envelope's, else the default. *)
Definition level_floor (c : config) (e : envelope) : Z :=
  (if 0 <? c_min_level c then c_min_level c
   else if 0 <? e_level e then e_level e else c_default_level c)%Z.

(** Which guarantee a tool of which purpose contributes (tools/tool.go:33-72,
    comments on the Purpose constants). *)
Definition gives (p : purpose) (a : N) : bool :=
  match p with
  | PKeyDerivation => false
  | PPassDerivation => (a =? SenderAuthentication)%N || (a =? RecipientAuthentication)%N
  | PKeyExchange | PKeyEncapsulation => (a =? RecipientAuthentication)%N
  | PSigning => (a =? Integrity)%N || (a =? SenderAuthentication)%N
  | PIntegratedCipher => (a =? Confidentiality)%N || (a =? Integrity)%N
  | PCipher => (a =? Confidentiality)%N
  | PMAC => (a =? Integrity)%N
  end.

(** The tools a suite names. *)
Definition suite_tool (reg : list tool) (su : suite) (t : tool) : Prop :=
  exists id, In id (su_tools su) /\ tools_get reg (fst (parse_tool_id id)) = Ok t.

(** The envelope holds a pre-shared key. *)
Definition has_key_secret (e : envelope) : Prop :=
  exists sg, In sg (e_secrets e) /\ sg_scheme sg = scheme_key.

(** A guarantee is delivered by a tool of the suite or by a pre-shared key. *)
Definition delivers (reg : list tool) (su : suite) (e : envelope) (a : N) : Prop :=
  (exists t, suite_tool reg su t /\ gives (t_purpose t) a = true)
  \/ (has_key_secret e /\ (a = SenderAuthentication \/ a = RecipientAuthentication)).

(** The parts of a session that may have a security level: a tool alone, a tool
    with one of the signets it works with, and a pre-shared key. *)
Inductive part_of (s : session) : option inst -> option signet -> Prop :=
| part_tool i : In i (s_all s) -> part_of s (Some i) None
| part_password i sg : In i (s_all s) -> t_purpose (i_tool i) = PPassDerivation ->
    In sg (e_secrets (s_env s)) -> sg_scheme sg = scheme_pw -> part_of s (Some i) (Some sg)
| part_recipient i sg : In i (s_all s) ->
    t_purpose (i_tool i) = PKeyExchange \/ t_purpose (i_tool i) = PKeyEncapsulation ->
    In sg (e_recipients (s_env s)) -> sg_scheme sg = t_name (i_tool i) -> part_of s (Some i) (Some sg)
| part_sender i sg : In i (s_all s) -> t_purpose (i_tool i) = PSigning ->
    In sg (e_senders (s_env s)) -> sg_scheme sg = t_name (i_tool i) -> part_of s (Some i) (Some sg)
| part_key sg : In sg (e_secrets (s_env s)) -> sg_scheme sg = scheme_key -> part_of s None (Some sg).

(** The security level of a tool (with its hash) by itself: the smaller of the
    two, where 0 means "has none of its own". *)
Definition tool_rating (t : tool) (h : option hashtool) : Z :=
  match h with
  | None => t_level t
  | Some h => if (t_level t =? 0)%Z then h_level h else Z.min (t_level t) (h_level h)
  end.

(** The tools whose level depends on the size of the signet's key. *)
Definition rsa_tool (name : bytes) : Prop := name = lit "RSA-OAEP" \/ name = lit "RSA-PSS".
(** How often the tools that turn a password into a key hash it. *)
Inductive hash_rounds : bytes -> Z -> Prop :=
| rounds_scrypt : hash_rounds (lit "SCRYPT-20") (2 ^ 20)
| rounds_pbkdf2 : hash_rounds (lit "PBKDF2-SHA2-256") 20000
| rounds_other name : name <> lit "SCRYPT-20" -> name <> lit "PBKDF2-SHA2-256" -> hash_rounds name 1.

(** [rated cr i sg l]: [l] is the security level of a part; 0: the part has none. *)
Inductive rated (cr : crypto) : option inst -> option signet -> Z -> Prop :=
| rated_tool i : ~ rsa_tool (t_name (i_tool i)) ->
    rated cr (Some i) None (tool_rating (i_tool i) (i_hash i))
| rated_tool_signet i sg : ~ rsa_tool (t_name (i_tool i)) ->
    sg_scheme sg <> scheme_key -> sg_scheme sg <> scheme_pw ->
    rated cr (Some i) (Some sg) (tool_rating (i_tool i) (i_hash i))
| rated_rsa i : rsa_tool (t_name (i_tool i)) -> rated cr (Some i) None 0
| rated_rsa_signet i sg sg' p : rsa_tool (t_name (i_tool i)) ->
    sg_scheme sg <> scheme_key -> sg_scheme sg <> scheme_pw ->
    load_key cr sg = Ok sg' -> sg_pub sg' = Some p -> (0 <= rsa_level_for_size (cr_rsa_bits cr p))%Z ->
    rated cr (Some i) (Some sg) (rsa_level_for_size (cr_rsa_bits cr p))
| rated_key i sg : sg_scheme sg = scheme_key ->
    rated cr i (Some sg) (8 * Z.of_nat (length (sg_key sg)))
| rated_no_password i sg : sg_scheme sg = scheme_pw -> sg_key sg = [] -> rated cr i (Some sg) 0
| rated_password i sg n : sg_scheme sg = scheme_pw -> sg_key sg <> [] ->
    hash_rounds (t_name (i_tool i)) n -> (0 <= cr_pw_level cr (sg_key sg) n)%Z ->
    rated cr (Some i) (Some sg) (cr_pw_level cr (sg_key sg) n).

(** The names of a suite's tools are pairwise distinct (a suite may name the same
    tool twice with different arguments; no registered suite does). *)
Definition distinct_tools (su : suite) : Prop :=
  NoDup (map (fun id => fst (parse_tool_id id)) (su_tools su)).

(** Every signet of the envelope has a tool of the suite to work with. *)
Definition signets_served (reg : list tool) (su : suite) (e : envelope) : Prop :=
  (forall sg, In sg (e_secrets e) -> sg_scheme sg = scheme_key
     \/ (sg_scheme sg = scheme_pw /\ exists t, suite_tool reg su t /\ t_purpose t = PPassDerivation))
  /\ (forall sg, In sg (e_senders e) ->
       exists t, suite_tool reg su t /\ t_purpose t = PSigning /\ t_name t = sg_scheme sg)
  /\ (forall sg, In sg (e_recipients e) ->
       exists t, suite_tool reg su t /\ (t_purpose t = PKeyExchange \/ t_purpose t = PKeyEncapsulation)
                 /\ t_name t = sg_scheme sg).

(** Every tool of the suite that works with signets finds one. *)
Definition tools_served (reg : list tool) (su : suite) (e : envelope) : Prop :=
  forall t, suite_tool reg su t ->
    match t_purpose t with
    | PPassDerivation => exists sg, In sg (e_secrets e) /\ sg_scheme sg = scheme_pw
    | PKeyExchange | PKeyEncapsulation => exists sg, In sg (e_recipients e) /\ sg_scheme sg = t_name t
    | PSigning => exists sg, In sg (e_senders e) /\ sg_scheme sg = t_name t
    | _ => True
    end.
