(** Specification of the password check (C44). *)
From Verif Require Import Prelude.

(** The printable ASCII characters, in five groups. *)
Definition printable (b : byte) : Prop := (32 <= b2n b < 127)%N.
Inductive group := Lower | Upper | Digit | Common | Special.
Definition group_of (b : byte) : option group :=
  let n := b2n b in
  if ((n <? 32) || (126 <? n))%N then None
  else if ((97 <=? n) && (n <=? 122))%N then Some Lower
  else if ((65 <=? n) && (n <=? 90))%N then Some Upper
  else if ((48 <=? n) && (n <=? 57))%N then Some Digit
  else if existsb (byte_eqb b) (lit "- .,_") then Some Common
  else Some Special.
Definition group_size (g : group) : Z := match g with Lower | Upper => 26 | Digit => 10 | Common => 5 | Special => 28 end.
Definition uses (pw : bytes) (g : group) : bool := existsb (fun b => match group_of b, g with Some Lower, Lower | Some Upper, Upper | Some Digit, Digit | Some Common, Common | Some Special, Special => true | _, _ => false end) pw.
Definition uses_other (pw : bytes) : bool := existsb (fun b => match group_of b with None => true | _ => false end) pw.
(** The number of characters an attacker has to try: all of the groups used, and 32 if there are others. *)
Definition pool_size (pw : bytes) : Z :=
  fold_right (fun g n => (if uses pw g then group_size g else 0) + n)%Z (if uses_other pw then 32 else 0)%Z [Lower; Upper; Digit; Common; Special].
(** The two rules: no printable character makes up a quarter of the password or more, and the printable characters are used less than
    four times each on average. *)
Definition occurs (b : byte) (pw : bytes) : nat := length (filter (byte_eqb b) pw).
Definition diverse (pw : bytes) : Prop :=
  (forall b, printable b -> 4 * occurs b pw < length pw)
  /\ exists distinct, NoDup distinct /\ (forall b, In b distinct <-> In b pw /\ printable b) /\ length pw < 4 * length distinct.
