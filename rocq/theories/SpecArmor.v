(** Specification of signature files (C37, C38), independent of the model's search functions. *)
From Coq Require Import Init.Byte.
From Verif Require Import Prelude.

Definition begin_line : bytes := lit "-----BEGIN JESS SIGNATURE-----".
Definition end_line : bytes := lit "-----END JESS SIGNATURE-----".
Definition contains (p l : bytes) : Prop := exists a b, l = a ++ p ++ b.

(** How a file is read: the text before the first begin line, then everything (at least one
    character) up to the next end line, and so on.  [sections_of file texts bodies rest]: [texts] are the
    texts before the sections, [bodies] the contents of the sections, [rest] the text after the last. *)
Inductive sections_of : bytes -> list bytes -> list bytes -> bytes -> Prop :=
| sec_none rest : (forall a c b, rest = a ++ begin_line ++ c ++ end_line ++ b -> c = []) -> sections_of rest [] [] rest
| sec_one t c file ts cs rest : c <> [] ->
    (forall a r, t ++ begin_line = a ++ begin_line ++ r -> r = []) ->
    (forall a r, a <> [] -> c ++ end_line = a ++ end_line ++ r -> r = []) ->
    sections_of file ts cs rest ->
    sections_of (t ++ begin_line ++ c ++ end_line ++ file) (t :: ts) (c :: cs) rest.

(** A text that a section can safely follow: empty or complete lines, without a begin line in it. *)
Definition plain_text (t : bytes) : Prop := (t = [] \/ exists t', t = t' ++ [x0a]) /\ ~ contains begin_line t.
(** The line break after a section belongs to it. *)
Definition without_eol (l : bytes) : bytes :=
  match l with
  | x0d :: x0a :: r => r
  | x0d :: r => r
  | x0a :: r => r
  | _ => l
  end.
(** What is left when the sections and their line breaks are cut out. *)
Fixpoint cut (ts : list bytes) (rest : bytes) : bytes :=
  match ts with
  | [] => without_eol rest
  | t :: r => without_eol t ++ cut r rest
  end.
(** [t] is the first text, which has no section before it. *)
Definition kept (ts : list bytes) (rest : bytes) : bytes :=
  match ts with
  | [] => rest
  | t :: r => t ++ cut r rest
  end.
