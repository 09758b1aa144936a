(** Specification of the password prompt (C68). *)
From Coq Require Import Init.Byte.
From Verif Require Import Prelude SpecText.

(** The digits the lookup service uses. *)
Definition hex_digits (l : bytes) : bytes :=
  flat_map (fun b => [nth (N.to_nat (b2n b / 16)) (lit "0123456789ABCDEF") x00; nth (N.to_nat (b2n b mod 16)) (lit "0123456789ABCDEF") x00]) l.
(** Of the digits of the hash, the first five are for the service. *)
Definition disclosed (digits : bytes) : bytes := firstn 5 digits.
Definition undisclosed (digits : bytes) : bytes := skipn 5 digits.
(** A list of leaked passwords, read to its end: every line short enough to be read. *)
Definition readable (body : bytes) : Prop := exists ls, lines_of body ls /\ Forall short_line ls.
(** The list mentions the password with these digits. *)
Definition mentioned (digits body : bytes) : Prop := exists ls l r, lines_of body ls /\ In l ls /\ l = undisclosed digits ++ r.
