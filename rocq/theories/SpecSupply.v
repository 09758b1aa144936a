(** Specification of the signet supply (C42): a bounded first-in first-out queue. *)
From Coq Require Import ZArith.
From Verif Require Import Prelude.

Inductive op := OGet | OFill (amount : Z).
Inductive response := RGet (r : option nat) | RFill (full failed : bool).

(** [made g next want]: the signets a call generates that wants [want] of them, when the next has number [next]
    and [g] says which generations succeed; it stops at the first failure. *)
Fixpoint made (g : nat -> bool) (next want : nat) : list nat :=
  match want with
  | O => []
  | S k => if g next then next :: made g (S next) k else []
  end.
Section Queue.
Variables (g : nat -> bool) (cap : nat).
(** One call on the queue [q]; new queue, the number of the next generation, the response. *)
Definition queue_op (o : op) (q : list nat) (next : nat) : list nat * nat * response :=
  match o with
  | OGet => match q with [] => ([], next, RGet None) | x :: r => (r, next, RGet (Some x)) end
  | OFill amount =>
      let want := Nat.min (Z.to_nat amount) (cap - length q) in
      let new := made g next want in
      if length new =? want then (q ++ new, next + want, RFill (length (q ++ new) =? cap) false)
      else (q ++ new, S (next + length new), RFill false true)
  end.
Fixpoint queue_run (ops : list op) (q : list nat) (next : nat) : list nat * nat * list response :=
  match ops with
  | [] => (q, next, [])
  | o :: r => let '(q1, n1, a) := queue_op o q next in let '(q2, n2, rs) := queue_run r q1 n1 in (q2, n2, a :: rs)
  end.
End Queue.
(** The amounts for which no Go int overflows. *)
Definition fits (cap : nat) (o : op) : Prop :=
  match o with OGet => True | OFill amount => (- 2 ^ 63 <= amount < 2 ^ 63 - Z.of_nat cap)%Z end.
Definition handed_out (rs : list response) : list nat := flat_map (fun r => match r with RGet (Some x) => [x] | _ => [] end) rs.
