(** Specification of what `jess list` says of an entry (C76). *)
From Coq Require Import Init.Byte.
From Verif Require Import Prelude Requirements Tools SpecColumns.

(** The cells follow each other in a line, with at least three spaces between. *)
Inductive spaced : list bytes -> bytes -> Prop :=
| spaced_last c : spaced [c] c
| spaced_more c d r k l : 3 <= k -> spaced (d :: r) l -> spaced (c :: d :: r) (c ++ repeat x20 k ++ l).
(** A line shows cells, if need be without an empty cell at the end. *)
Definition shows (cells : list bytes) (line : bytes) : Prop :=
  spaced cells line \/ (last cells [] = [] /\ spaced (removelast cells) line).

(** Words separated by a comma and a space. *)
Inductive comma_list : list bytes -> bytes -> Prop :=
| comma_none : comma_list [] []
| comma_last w : comma_list [w] w
| comma_more w v r t : comma_list (v :: r) t -> comma_list (w :: v :: r) (w ++ lit ", " ++ t).

Definition level_text (level : Z) (c : bytes) : Prop := exists ds, c = ds ++ lit " b/s" /\ reads_as ds (Z.to_N level).
(** Statuses are 0 (deprecated), 1 (permitted) and 2 (recommended). *)
Definition remark (status : N) (c : bytes) : Prop :=
  (status = 0%N /\ c = lit "DEPRECATED") \/ (status = 2%N /\ c = lit "recommended") \/ (status <> 0%N /\ status <> 2%N /\ c = []).
Definition purpose_text (p : purpose) (c : bytes) : Prop :=
  In (p, c) [(PKeyDerivation, lit "KeyDerivation"); (PPassDerivation, lit "PassDerivation"); (PKeyExchange, lit "KeyExchange");
             (PKeyEncapsulation, lit "KeyEncapsulation"); (PSigning, lit "Signing"); (PIntegratedCipher, lit "IntegratedCipher");
             (PCipher, lit "Cipher"); (PMAC, lit "MAC")].
(** A tool whose level depends on its key says so; one without a level says nothing. *)
Definition tool_level_text (t : tool) (c : bytes) : Prop :=
  (In ONeedsSecurityLevel (t_options t) /\ c = lit "dynamic b/s (set manually via --seclevel)")
  \/ (~ In ONeedsSecurityLevel (t_options t) /\ ((t_level t = 0%Z /\ c = []) \/ (t_level t <> 0%Z /\ level_text (t_level t) c))).
Inductive says_suite (s : suite) (l : bytes) : Prop :=
| says_suite_of level tools note : level_text (su_level s) level -> comma_list (su_tools s) tools -> remark (su_status s) note ->
    shows [su_id s; req_short (su_provides s); level; tools; note] l -> says_suite s l.
Inductive says_tool (who what : bytes -> bytes) (t : tool) (l : bytes) : Prop :=
| says_tool_of use level : purpose_text (t_purpose t) use -> tool_level_text t level ->
    shows [t_name t; use; level; who (t_name t); what (t_name t)] l -> says_tool who what t l.
Inductive says_hash (who what : bytes -> bytes) (h : hashtool) (l : bytes) : Prop :=
| says_hash_of level : level_text (h_level h) level -> shows [h_name h; level; who (h_name h); what (h_name h)] l -> says_hash who what h l.
