(** password.go: the estimate of a password's strength.  Floating point arithmetic (float64, math.Pow, math.Log2, the conversion to int) is a
    parameter: the model computes exactly the same expression with whatever operations it is given. *)
From Coq Require Import Init.Byte.
From Verif Require Import Prelude.

(** password.go:10-16. *)
Definition char_sets : list bytes :=
  [ lit "abcdefghijklmnopqrstuvwxyz"; lit "ABCDEFGHIJKLMNOPQRSTUVWXYZ"; lit "0123456789"; lit "- .,_";
    lit "!" ++ [x22] ++ lit "#$%&'()*+/:;<=>?@[\]^`{|}~" ].
(** password.go:20 passwordExtraPoolSize. *)
Definition extra_pool : Z := 32.

(** len(s) as an int. *)
Definition blenZ (s : bytes) : Z := Z.of_nat (length s).
(** password.go:94-103 countRuneInString, for the characters of the sets (all ASCII: one byte each). *)
Definition count (pw : bytes) (c : byte) : Z := Z.of_nat (length (filter (byte_eqb c) pw)).

(** password.go:53-66, the inner loop: characters found, distinct characters found, whether any was found; None: return -1. *)
Fixpoint scan_set (pw chars : bytes) (st : Z * Z * bool) : option (Z * Z * bool) :=
  match chars with
  | [] => Some st
  | c :: r =>
      let cnt := count pw c in
      if (cnt * 4 >=? blenZ pw)%Z then None
      else let '(found, distinct, some) := st in
           scan_set pw r (if (cnt >? 0)%Z then (found + cnt, distinct + 1, true)%Z else st)
  end.
(** password.go:49-72, the outer loop: characters found, distinct characters found, pool size. *)
Fixpoint scan (pw : bytes) (sets : list bytes) (st : Z * Z * Z) : option (Z * Z * Z) :=
  match sets with
  | [] => Some st
  | s :: r =>
      let '(found, distinct, pool) := st in
      match scan_set pw s (found, distinct, false) with
      | None => None
      | Some (found', distinct', some) => scan pw r (found', distinct', if some then pool + blenZ s else pool)%Z
      end
  end.

Record floats := mkFloats {
  F : Type;
  f_of : Z -> F;                     (* float64(int) *)
  f_pow : F -> F -> F; f_log2 : F -> F; f_sub : F -> F -> F; f_mul : F -> F -> F;
  f_int : F -> Z }.                  (* int(float64) *)

Section Level.
Variable fl : floats.
(** password.go:85-89. *)
Definition estimate (pool len iterations : Z) : F fl :=
  let combinations := f_pow fl (f_of fl pool) (f_of fl len) in
  let entropy := f_log2 fl combinations in
  let guesses := f_pow fl (f_of fl 2) (f_sub fl entropy (f_of fl 1)) in
  f_log2 fl (f_mul fl guesses (f_of fl iterations)).
(** password.go:40-92 CalculatePasswordSecurityLevel. *)
Definition password_level (pw : bytes) (iterations : Z) : Z :=
  match scan pw char_sets (0, 0, 0)%Z with
  | None => -1
  | Some (found, distinct, pool) =>
      if (distinct * 4 <=? blenZ pw)%Z then -1
      else f_int fl (estimate (if (found <? blenZ pw)%Z then pool + extra_pool else pool)%Z (blenZ pw) iterations)
  end.
(** cmd/password.go:54-88 createPassword without the lookup of leaked passwords: the password typed twice. *)
Definition create_password (pw1 pw2 : bytes) (min_level : Z) : option bytes :=
  if (password_level pw1 20000 <? min_level)%Z then None else if bytes_eqb pw1 pw2 then Some pw1 else None.
End Level.
