(** The texts of requirements.go: String and the error of CheckComplianceTo. *)
From Verif Require Import Prelude Requirements Armor.

(** requirements.go:94-103: an attribute that has no case is left out. *)
Definition req_name (a : N) : option bytes :=
  if (a =? Confidentiality)%N then Some (lit "Confidentiality")
  else if (a =? Integrity)%N then Some (lit "Integrity")
  else if (a =? RecipientAuthentication)%N then Some (lit "RecipientAuthentication")
  else if (a =? SenderAuthentication)%N then Some (lit "SenderAuthentication")
  else None.
(** requirements.go:91-105: the names of all attributes, in order. *)
Fixpoint req_names (r : reqs) : list bytes :=
  match r with [] => [] | a :: r' => match req_name a with Some n => n :: req_names r' | None => req_names r' end end.
Definition req_string (r : reqs) : bytes := join (lit ", ") (req_names r).
(** requirements.go:73-87: the text of the error of CheckComplianceTo, if there is one. *)
Definition req_report (r required : reqs) : option bytes :=
  match req_missing r required [] with
  | [] => None
  | m => Some (lit "missing security requirements: " ++ req_string m)
  end.
