(** Specification of tables and menus (C76). *)
From Coq Require Import Init.Byte.
From Verif Require Import Prelude Signets Session.

(** Text that can stand in a cell: no tab, line feed, vertical tab, form feed, carriage return, 0xff. *)
Definition plain_text (c : bytes) : Prop := forall b, In b c -> ~ In b [x09; x0a; x0b; x0c; x0d; xff].
(** Rows with at least one cell of plain text; the last row begins with text. *)
Definition plain_table (t : list (list bytes)) : Prop :=
  (forall r, In r t -> r <> [] /\ forall c, In c r -> plain_text c) /\ hd [] (last t [[]]) <> [].
(** What is shown of a table: an empty cell at the very end is no cell. *)
Definition shown_table (t s : list (list bytes)) : Prop :=
  exists r x, t = r ++ [x] /\ ((last x [] <> [] /\ s = t) \/ (last x [] = [] /\ s = r ++ [removelast x])).
(** The cells of a row, each but the last filled up to its column's width. *)
Fixpoint filled (runes : bytes -> nat) (ws : list nat) (r : list bytes) : bytes :=
  match ws, r with w :: ws', c :: r' => c ++ repeat x20 (w - runes c) ++ filled runes ws' r' | _, _ => concat r end.
(** The widths of the columns fit a row: every cell but the last is followed by at least three spaces. *)
Definition fits (runes : bytes -> nat) (r : list bytes) (ws : list nat) : Prop :=
  length r = S (length ws) /\ forall j c w, nth_error r j = Some c -> nth_error ws j = Some w -> runes c + 3 <= w.
(** Columns that two consecutive rows share have one width. *)
Definition aligned (wss : list (list nat)) : Prop :=
  forall i a b j v w, nth_error wss i = Some a -> nth_error wss (S i) = Some b -> nth_error a j = Some v -> nth_error b j = Some w -> v = w.
(** No cell has more than [m] bytes, no row more than [k] cells, and that keeps lines far below 64 KiB. *)
Definition small_table (m k : nat) (t : list (list bytes)) : Prop :=
  (forall r, In r t -> length r <= k /\ forall c, In c r -> length c <= m) /\ (N.of_nat (S k) * (2 * N.of_nat m + 8) < 65536)%N.
(** The registries: the table has a header and one line per entry, which begins with the entry's name. *)
Definition named_lines (fields : bytes -> list bytes) (names lines : list bytes) : Prop := Forall2 (fun n l => hd_error (fields l) = Some n) names lines.

(** What an entry of the signet menu is called, and what it is said to be. *)
Definition shown_name (d : sdata) (n : bytes) : Prop :=
  n <> [] /\ ((exists i, d_info d = Some i /\ in_name i = n)
              \/ ((forall i, d_info d = Some i -> in_name i = []) /\ ((n = d_id d) \/ (d_id d = [] /\ n = lit "[unknown]")))).
Definition shown_kind (d : sdata) (k : bytes) : Prop :=
  (d_scheme d = lit "key" /\ k = lit "key") \/ (d_scheme d = lit "pw" /\ k = lit "password")
  \/ (d_scheme d <> lit "key" /\ d_scheme d <> lit "pw" /\ ((d_public d = true /\ k = lit "recipient") \/ (d_public d = false /\ k = lit "signet"))).
(** Decimal digits that read as the number, without leading zeros. *)
Definition reads_as (ds : bytes) (n : N) : Prop :=
  (forall b, In b ds -> (48 <= b2n b <= 57)%N) /\ fold_left (fun a b => (a * 10 + (b2n b - 48))%N) ds 0%N = n /\ ds <> [] /\ (hd x30 ds = x30 -> ds = [x30]).
