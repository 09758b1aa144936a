(** What is said about the source of randomness, in terms of the calls that were made and that returned.
    Call number [n] is the event at position [n] of the history. *)
From Verif Require Import Prelude Mutex Random.

Definition history : Type := list (event rng_op rng_re).
(** The event at position [n] is that goroutine [t] calls [o]. *)
Definition made (h : history) (n t : nat) (o : rng_op) : Prop := nth_error h n = Some (Inv n t o).
(** No SetCustomRNG has returned by position [n]. *)
Definition none_set_by (h : history) (n : nat) : Prop := forall m t, ~ In (Res m t Done) (firstn n h).
(** Every call of SetCustomRNG has returned before the next one is made. *)
Definition set_one_at_a_time (h : history) : Prop :=
  forall m t r m' t' r', made h m t (SetRNG r) -> made h m' t' (SetRNG r') -> (m < m')%nat ->
    exists k, (m < k < m')%nat /\ nth_error h k = Some (Res m t Done).
(** No other call of SetCustomRNG was made before call [m]. *)
Definition first_set (h : history) (m : nat) (r : nat) : Prop :=
  (exists t, made h m t (SetRNG r)) /\ forall m' t' r', made h m' t' (SetRNG r') -> (m <= m')%nat.
(** All calls of SetCustomRNG have returned, and there was one. *)
Definition set_and_quiet (h : history) : Prop :=
  (exists m t, In (Res m t Done) h) /\ forall m t r, made h m t (SetRNG r) -> In (Res m t Done) h.
