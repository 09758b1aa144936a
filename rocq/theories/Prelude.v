(** Common base of the model: outcomes, bytes, Go strings.

    Models no code of /repo by itself.  Conventions:
    - a Go [[]byte] or [string] is a [list byte] ([bytes]); nil and the empty
      slice are identified unless a definition says otherwise;
    - a Go function result [(T, error)] is an [outcome T]: [Ok], [Err] or
      [Panic] (index out of range, nil dereference). *)
From Coq Require Export List Arith NArith ZArith Lia Bool.
From Coq Require Export ZifyBool ZifyNat ZifyN.
From Coq Require Strings.Byte Strings.String.
Export ListNotations.
Export Coq.Strings.String.StringSyntax.
Open Scope list_scope.

Notation byte := Coq.Init.Byte.byte.
Definition bytes : Type := list byte.

(** A Go string/byte literal. *)
Definition lit (s : Coq.Strings.String.string) : bytes := Coq.Strings.String.list_byte_of_string s.
Arguments lit s%string_scope.

Definition b2n (b : byte) : N := Coq.Strings.Byte.to_N b.
Definition n2b (n : N) : byte :=
  match Coq.Strings.Byte.of_N (n mod 256) with Some b => b | None => Coq.Init.Byte.x00 end.

Definition byte_eqb : byte -> byte -> bool := Coq.Strings.Byte.eqb.

Fixpoint bytes_eqb (a b : bytes) : bool :=
  match a, b with
  | [], [] => true
  | x :: a', y :: b' => byte_eqb x y && bytes_eqb a' b'
  | _, _ => false
  end.

(** Error classes that callers of the library can tell apart; everything
    else is [EOther] (an error whose text the model does not track). *)
Inductive err : Type :=
| EOther
| ENotEnoughData          (* container: not enough data *)
| EVarint                 (* varint decoding errors *)
| EWireVersion            (* letter-wire.go:28 ErrIncompatibleWireFormatVersion *)
| EFileVersion            (* letter-file.go:18 ErrIncompatibleFileFormatVersion *)
| EIntegrity              (* errors.go ErrIntegrityViolation *)
| EConfidentiality        (* errors.go ErrConfidentialityViolation *)
| EAuthenticity           (* errors.go ErrAuthenticityViolation *)
| ESignetNotFound         (* errors.go:  signet not found *)
| EEnvelopeNotFound
| EProtected              (* tools/errors.go ErrProtected *)
| ENotFound               (* tools/errors.go ErrNotFound *)
| ENotImplemented         (* tools/errors.go ErrNotImplemented *)
| EInvalidKey
| EChecksumMismatch       (* filesig ErrChecksumFailed *)
| EChecksumMissing.       (* filesig ErrChecksumMissing *)

Inductive outcome (A : Type) : Type :=
| Ok (a : A)
| Err (e : err)
| Panic.
Arguments Ok {A} _.
Arguments Err {A} _.
Arguments Panic {A}.

Definition bind {A B} (x : outcome A) (f : A -> outcome B) : outcome B :=
  match x with Ok a => f a | Err e => Err e | Panic => Panic end.
Declare Scope out_scope.
Notation "'do' x <- e ; f" := (bind e (fun x => f))
  (at level 200, x pattern, e at level 100, f at level 200, right associativity) : out_scope.
Open Scope out_scope.

Definition is_ok {A} (x : outcome A) : bool := match x with Ok _ => true | _ => false end.
Definition of_option {A} (e : err) (o : option A) : outcome A :=
  match o with Some a => Ok a | None => Err e end.
Definition guard (b : bool) (e : err) : outcome unit := if b then Ok tt else Err e.

(** Sequential map that stops at the first failure (a Go [for] loop with
    [if err != nil { return }]). *)
Fixpoint mapM {A B} (f : A -> outcome B) (l : list A) : outcome (list B) :=
  match l with
  | [] => Ok []
  | a :: l' => do b <- f a; do bs <- mapM f l'; Ok (b :: bs)
  end.

Fixpoint foldM {A S} (f : S -> A -> outcome S) (s : S) (l : list A) : outcome S :=
  match l with
  | [] => Ok s
  | a :: l' => do s' <- f s a; foldM f s' l'
  end.

Fixpoint iterM {A} (f : A -> outcome unit) (l : list A) : outcome unit :=
  match l with
  | [] => Ok tt
  | a :: l' => do _ <- f a; iterM f l'
  end.

(** Length of a slice as a number. *)
Definition blen (b : bytes) : N := N.of_nat (length b).
