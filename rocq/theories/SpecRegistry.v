(** Specification of the registries (C77). *)
From Verif Require Import Prelude.
Section Spec.
Variable X : Type.
Variable name : X -> bytes.
(** The last, the first registration of a name in a history. *)
Definition latest (h : list X) (n : bytes) (x : X) : Prop := exists a b, h = a ++ x :: b /\ name x = n /\ forall y, In y b -> name y <> n.
Definition earliest (h : list X) (n : bytes) (x : X) : Prop := exists a b, h = a ++ x :: b /\ name x = n /\ forall y, In y a -> name y <> n.
Definition distinct (h : list X) : Prop := NoDup (map name h).
End Spec.
Arguments latest {X}. Arguments earliest {X}. Arguments distinct {X}.
