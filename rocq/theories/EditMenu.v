(** cmd/cfg-envelope.go:87-107: the menu in which an envelope is edited ([Wizard.edit] models what the chosen line does). *)
From Coq Require Import Init.Byte.
From Verif Require Import Prelude Requirements Tools Crypto Letter Session Core Wizard Columns ReqText.

(** cmd/format.go:51-60 formatSignetName; 131-137 formatSignetNames. *)
Definition signet_name (sg : signet) : bytes :=
  match sg_info sg with
  | Some i => if nonempty (in_name i) then in_name i else if nonempty (sg_id sg) then sg_id sg else lit "[unknown]"
  | None => if nonempty (sg_id sg) then sg_id sg else lit "[unknown]"
  end.
Definition signet_names (l : list signet) : bytes := comma_join (map signet_name l).
(** cmd/format.go:124-129 formatRequirements. *)
Definition reqs_text (r : reqs) : bytes := if req_empty r then lit "none (unsafe)" else req_string r.
(** cfg-envelope.go:90-103. *)
Definition edit_rows (id : bytes) (su : suite) (secrets recipients senders : list signet) : list (list bytes) :=
  [ [lit "Done"; lit "save and return"];
    [[]];
    [lit "Suite"; id];
    [[]; lit "provides " ++ reqs_text (su_provides su)];
    [[]; lit "and " ++ level_cell (su_level su)];
    [lit "Secrets"; signet_names secrets];
    [lit "Recipients"; signet_names recipients];
    [lit "Senders"; signet_names senders];
    [[]];
    [lit "Export"; lit "export to text format"];
    [lit "Abort"; lit "discard changes and return"];
    [lit "Delete"; lit "delete and return"] ].
Definition edit_menu (runes : bytes -> nat) (e : envelope) (su : suite) : list bytes :=
  format_columns runes (edit_rows (e_suite_id e) su (e_secrets e) (e_recipients e) (e_senders e)).
