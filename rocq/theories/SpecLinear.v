(** Specification vocabulary for C73: linearizability (no proofs). *)
From Coq Require Import Permutation.
From Verif Require Import Prelude Tools Signets TrustStore SpecStore Mutex.

(** [a] comes before [b] in the list. *)
Definition before {A} (a b : A) (l : list A) : Prop := exists l1 l2 l3, l = l1 ++ a :: l2 ++ b :: l3.

(** One after the other: from state [s], the calls with these answers, to state [s']. *)
Inductive one_by_one {A Op Re : Type} (spec : Op -> A -> Re -> A -> Prop) : A -> list (nat * Op * Re) -> A -> Prop :=
| obo_none s : one_by_one spec s [] s
| obo_more s n o r s1 l s2 : spec o s r s1 -> one_by_one spec s1 l s2 -> one_by_one spec s ((n, o, r) :: l) s2.

(** The calls that returned, and maybe some that did not yet, can be put in one order such that
    - they give these answers when they are made one after the other, and
    - a call that returned before another one was made comes before that one. *)
Definition linearizable {A Op Re : Type} (spec : Op -> A -> Re -> A -> Prop) (s : A) (h : list (event Op Re)) : Prop :=
  exists order s',
    one_by_one spec s order s'
    /\ NoDup (map (fun x => fst (fst x)) order)
    /\ (forall n o r, In (n, o, r) order -> exists t, In (Inv n t o) h)
    /\ (forall n t r, In (Res n t r) h -> exists o, In (n, o, r) order /\ forall t' o', In (Inv n t' o') h -> t' = t /\ o' = o)
    /\ (forall a b t t' r o, before (Res a t r) (Inv b t' o) h -> In b (map (fun x => fst (fst x)) order) -> before a b (map (fun x => fst (fst x)) order)).

(** The entries of a map, each once, in some order. *)
Definition entries (m : maps) (l : list sdata) : Prop :=
  exists keys, NoDup keys /\ (forall id r, In (id, r) keys <-> m_sig m id r <> None) /\ Forall2 (fun k d => m_sig m (fst k) (snd k) = Some d) keys l.
(** The in-memory store, with its SelectSignets: nothing if any entry has a scheme that is not asked for (C32). *)
Definition mem_map (o : mem_op) (m : maps) (r : mem_re) (m' : maps) : Prop :=
  match o with
  | MCall c => (r, m') = (MAnswer (fst (mem_spec c m)), snd (mem_spec c m))
  | MSelect f schemes _ => m' = m /\ exists l sel, entries m l /\ r = MSelected sel
      /\ (Forall (of_scheme schemes) l /\ selected f schemes l sel \/ ~ Forall (of_scheme schemes) l /\ sel = [])
  end.
(** Go's iteration over a map: every key once, in any order. *)
Definition iterates (o : mem_op) : Prop := match o with MSelect _ _ order => forall m, Permutation (order m) (map fst m) | MCall _ => True end.
