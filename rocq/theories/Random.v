(** random.go: the source of randomness, for goroutines that set and use it at the same time.
    An access to customRandReader or to the flag is one step and the steps of goroutines interleave in every order; an
    assignment of the reader is taken to be atomic (in Go it is not synchronised, and an interface value has two words). *)
From Verif Require Import Prelude Mutex.

(** What Random() gives back: crypto/rand.Reader (random.go:20), the reader that a call of SetCustomRNG was given, or nil. *)
Inductive source := Builtin | Custom (r : nat) | NoReader.
(** random.go:10-13. *)
Record vars := mkVars { v_reader : option nat; v_flag : bool }.
Definition vars_start : vars := mkVars None false.

Inductive rng_op := SetRNG (r : nat) | GetRandom.
Inductive rng_re := Done | Got (s : source).

(** random.go:18 reads the reader after random.go:17 has seen the flag. *)
Definition read_reader : body vars rng_re :=
  Access (fun v => v) (fun v => Return (Got (match v_reader v with Some r => Custom r | None => NoReader end))).
(** random.go:42 and random.go:41. *)
Definition raise_flag : body vars rng_re := Access (fun v => mkVars (v_reader v) true) (fun _ => Return Done).
Definition store_reader (r : nat) : body vars rng_re := Access (fun v => mkVars (Some r) (v_flag v)) (fun _ => raise_flag).
(** random.go:39-44 SetCustomRNG, random.go:16-21 Random. *)
Definition rng_code (o : rng_op) : body vars rng_re :=
  match o with
  | SetRNG r => Access (fun v => v) (fun v => if negb (v_flag v) then store_reader r else Return Done)
  | GetRandom => Access (fun v => v) (fun v => if v_flag v then read_reader else Return (Got Builtin))
  end.

(** Goroutine [t] is idle or in the middle of call number [n]. *)
Inductive rng_status := Rest | Running (n : nat) (o : rng_op) (b : body vars rng_re).
Record rng_sys := mkRng { rvars : vars; rthreads : nat -> rng_status; rpast : list (event rng_op rng_re) }.

Inductive rng_step : rng_sys -> rng_sys -> Prop :=
| rs_call y t o : rthreads y t = Rest ->
    rng_step y (mkRng (rvars y) (upd (rthreads y) t (Running (length (rpast y)) o (rng_code o))) (rpast y ++ [Inv (length (rpast y)) t o]))
| rs_access y t n o change next : rthreads y t = Running n o (Access change next) ->
    rng_step y (mkRng (change (rvars y)) (upd (rthreads y) t (Running n o (next (rvars y)))) (rpast y))
| rs_return y t n o r : rthreads y t = Running n o (Return r) ->
    rng_step y (mkRng (rvars y) (upd (rthreads y) t Rest) (rpast y ++ [Res n t r])).

Definition rng_start : rng_sys := mkRng vars_start (fun _ => Rest) [].
Inductive rng_steps : rng_sys -> rng_sys -> Prop :=
| rss_refl y : rng_steps y y
| rss_step y y' y'' : rng_steps y y' -> rng_step y' y'' -> rng_steps y y''.

(** An io.Reader: asked for [n] bytes it puts some bytes into the buffer and reports their number and possibly an
    error; a reader that follows the documentation of io.Reader never reports more than it was asked for. *)
Definition io_reader : Type := nat -> bytes * option err.

(** random.go:24-36 RandomBytes: one call of Read; make of a negative size panics. *)
Definition read_random (rd : io_reader) (n : Z) : outcome bytes :=
  if (n <? 0)%Z then Panic
  else let '(got, e) := rd (Z.to_nat n) in
       match e with
       | Some e => Err e
       | None => if Nat.eqb (length got) (Z.to_nat n) then Ok got else Err EOther   (* ErrInsufficientRandom *)
       end.
