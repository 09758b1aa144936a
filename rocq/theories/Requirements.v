(** requirements.go *)
From Verif Require Import Prelude.

(** requirements.go:9-14. *)
Definition Confidentiality : N := 0.
Definition Integrity : N := 1.
Definition RecipientAuthentication : N := 2.
Definition SenderAuthentication : N := 3.

(** requirements.go:17-19: a slice of uint8, modelled as the list itself;
    the methods that mutate the receiver return the new list. *)
Definition reqs : Type := list N.

(** requirements.go:22-24. *)
Definition newEmptyRequirements : reqs := [].
(** requirements.go:27-36. *)
Definition newRequirements : reqs :=
  [Confidentiality; Integrity; RecipientAuthentication; SenderAuthentication].

(** requirements.go:39-41. *)
Definition req_empty (r : reqs) : bool := match r with [] => true | _ => false end.

(** requirements.go:44-51. *)
Fixpoint req_has (r : reqs) (a : N) : bool :=
  match r with [] => false | x :: r' => if N.eqb x a then true else req_has r' a end.

(** requirements.go:54-59. *)
Definition req_add (r : reqs) (a : N) : reqs := if req_has r a then r else r ++ [a].

(** requirements.go:62-70: removes the first occurrence. *)
Fixpoint req_remove (r : reqs) (a : N) : reqs :=
  match r with [] => [] | x :: r' => if N.eqb x a then r' else x :: req_remove r' a end.

(** requirements.go:75-82: the attributes of [required] that [r] lacks. *)
Fixpoint req_missing (r required missing : reqs) : reqs :=
  match required with
  | [] => missing
  | a :: rest => req_missing r rest (if req_has r a then missing else req_add missing a)
  end.
(** requirements.go:73-87. *)
Definition req_check (r required : reqs) : outcome unit :=
  match req_missing r required [] with [] => Ok tt | _ => Err EOther end.

(** requirements.go:126-141 SerializeToNoSpec ('C' 67, 'I' 73, 'R' 82, 'S' 83). *)
Definition req_no_spec (r : reqs) : bytes :=
  (if req_has r Confidentiality then [] else [n2b 67])
  ++ (if req_has r Integrity then [] else [n2b 73])
  ++ (if req_has r RecipientAuthentication then [] else [n2b 82])
  ++ (if req_has r SenderAuthentication then [] else [n2b 83]).

(** requirements.go:108-123 ShortString. *)
Definition req_short (r : reqs) : bytes :=
  (if req_has r Confidentiality then [n2b 67] else [])
  ++ (if req_has r Integrity then [n2b 73] else [])
  ++ (if req_has r RecipientAuthentication then [n2b 82] else [])
  ++ (if req_has r SenderAuthentication then [n2b 83] else []).

(** requirements.go:144-161; Go ranges over runes, but every rune outside
    ASCII starts with a byte above 127 and is rejected like any other. *)
Fixpoint parse_no_spec_from (r : reqs) (s : bytes) : outcome reqs :=
  match s with
  | [] => Ok r
  | b :: s' =>
      if N.eqb (b2n b) 67 then parse_no_spec_from (req_remove r Confidentiality) s'
      else if N.eqb (b2n b) 73 then parse_no_spec_from (req_remove r Integrity) s'
      else if N.eqb (b2n b) 82 then parse_no_spec_from (req_remove r RecipientAuthentication) s'
      else if N.eqb (b2n b) 83 then parse_no_spec_from (req_remove r SenderAuthentication) s'
      else Err EOther
  end.
(** requirements.go:144-161. *)
Definition parse_no_spec (s : bytes) : outcome reqs := parse_no_spec_from newRequirements s.

(** Sequences of mutations, as a caller can perform them on one instance. *)
Inductive req_op := ROpAdd (a : N) | ROpRemove (a : N).
Definition req_step (r : reqs) (o : req_op) : reqs :=
  match o with ROpAdd a => req_add r a | ROpRemove a => req_remove r a end.
