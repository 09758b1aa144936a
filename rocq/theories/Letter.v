(** letter.go, letter-wire.go, letter-file.go: the letter, its wire and file
    formats and the associated data. *)
From Verif Require Import Prelude Container.

(** letter.go:34-44  type Seal. *)
Record seal := mkSeal { seal_scheme : bytes; seal_id : bytes; seal_value : bytes }.

(** letter.go:18-31  type Letter.  [Version] is a Go uint8, kept as [N] with
    the bound where it matters.  [Keys]/[Signatures] are slices of pointers;
    a nil pointer is only possible after JSON/DSD parsing and is modelled in
    Envelope.v. *)
Record letter := mkLetter {
  l_version : N;
  l_suite : bytes;
  l_nonce : bytes;
  l_keys : list seal;
  l_data : bytes;
  l_mac : bytes;
  l_sigs : list seal;
  l_apply : bool
}.

Definition l_empty : letter := mkLetter 0 [] [] [] [] [] [] false.

Definition set_data (l : letter) (d : bytes) : letter :=
  mkLetter (l_version l) (l_suite l) (l_nonce l) (l_keys l) d (l_mac l) (l_sigs l) (l_apply l).
Definition set_mac (l : letter) (m : bytes) : letter :=
  mkLetter (l_version l) (l_suite l) (l_nonce l) (l_keys l) (l_data l) m (l_sigs l) (l_apply l).
Definition set_sigs (l : letter) (s : list seal) : letter :=
  mkLetter (l_version l) (l_suite l) (l_nonce l) (l_keys l) (l_data l) (l_mac l) s (l_apply l).
Definition set_keys (l : letter) (k : list seal) : letter :=
  mkLetter (l_version l) (l_suite l) (l_nonce l) k (l_data l) (l_mac l) (l_sigs l) (l_apply l).

Definition nonempty {A} (l : list A) : bool := match l with [] => false | _ => true end.

(** ** Wire format *)

(** letter-wire.go:41-51  the flags varint. *)
Definition wire_flags (l : letter) : N :=
  ((if (0 <? l_version l)%N then 1 else 0)
   + (if nonempty (l_keys l) then 2 else 0)
   + (if l_apply l then 4 else 0))%N.

(** letter-wire.go:66-69. *)
Definition wire_seal (s : seal) : bytes := block (seal_id s) ++ block (seal_value s).

(** letter-wire.go:31-85  Letter.ToWire (never returns an error). *)
Definition to_wire (l : letter) : bytes :=
  uvarint 1
  ++ uvarint (wire_flags l)
  ++ (if (0 <? l_version l)%N then uvarint (l_version l) ++ block (l_suite l) else [])
  ++ (if nonempty (l_keys l)
      then uvarint (N.of_nat (length (l_keys l))) ++ concat (map wire_seal (l_keys l)) else [])
  ++ block (l_nonce l) ++ block (l_data l) ++ block (l_mac l).

(** letter-wire.go:154-167. *)
Fixpoint get_seals (n : nat) (c : bytes) : outcome (list seal * bytes) :=
  match n with
  | O => Ok ([], c)
  | S n' =>
      do (id, c1) <- get_block c;
      do (v, c2) <- get_block c1;
      do (r, c3) <- get_seals n' c2;
      Ok (mkSeal [] id v :: r, c3)
  end.

(** letter-wire.go:129-143: version and suite, if the setup flag is set. *)
Definition get_setup (w : nat) (flags : N) (c : bytes) : outcome ((N * bytes) * bytes) :=
  if N.testbit flags 0
  then do (n, c) <- get_n8 w c; do (s, c) <- get_block c; Ok ((n, s), c)
  else Ok ((0%N, []), c).

(** letter-wire.go:145-168: the keys, if the flag is set. *)
Definition get_keys (w : nat) (flags : N) (c : bytes) : outcome (list seal * bytes) :=
  if N.testbit flags 1
  then do (n, c) <- get_n8 w c; get_seals (N.to_nat n) c
  else Ok ([], c).

(** letter-wire.go:95-189  LetterFromWire: the letter and the bytes that
    remain in the container.  [w]: see [get_n8]. *)
Definition letter_from_wire (w : nat) (c : bytes) : outcome (letter * bytes) :=
  do (v, c) <- get_n8 w c;
  if negb (v =? 1)%N then Err EWireVersion else
  do (flags, c) <- get_n64 c;
  do (vs, c) <- get_setup w flags c;
  do (keys, c) <- get_keys w flags c;
  do (nonce, c) <- get_block c;
  do (data, c) <- get_block c;
  do (mac, c) <- get_block c;
  Ok (mkLetter (fst vs) (snd vs) nonce keys data mac [] (N.testbit flags 2), c).

(** letter-wire.go:90-92  LetterFromWireData. *)
Definition letter_from_wire_data (w : nat) (d : bytes) : outcome letter :=
  do (l, _) <- letter_from_wire w d; Ok l.

(** ** File format *)

(** letter-file.go:22-49 ToFileFormat.  [dump] is dsd.DumpIndent(letter, JSON, tab).
    The result is paired with the letter after the call, since the function
    takes the data out of the letter and puts it back only on success. *)
Definition to_file_format (dump : letter -> outcome bytes) (l : letter)
  : outcome bytes * letter :=
  let l0 := set_data l [] in
  match dump l0 with
  | Ok h => (Ok (uvarint 1 ++ block (h ++ [n2b 10]) ++ block (l_data l)), set_data l0 (l_data l))
  | Err e => (Err e, l0)
  | Panic => (Panic, l0)
  end.

(** letter-file.go:52-82 LetterFromFileFormat; [load] is dsd.Load into a fresh letter. *)
Definition letter_from_file_format (w : nat) (load : bytes -> outcome letter) (c : bytes)
  : outcome letter :=
  do (v, c) <- get_n8 w c;
  if negb (v =? 1)%N then Err EFileVersion else
  do (h, c) <- get_block c;
  do l <- load h;
  do (d, _) <- get_block c;
  Ok (set_data l d).

(** ** Associated data *)

(** letter.go:250-263. *)
Definition ad_seal (s : seal) : bytes :=
  (if nonempty (seal_scheme s) then uvarint 16 ++ block (seal_scheme s) else [])
  ++ (if nonempty (seal_id s) then uvarint 17 ++ block (seal_id s) else [])
  ++ (if nonempty (seal_value s) then uvarint 18 ++ block (seal_value s) else []).

(** letter.go:222-225: each seal is preceded by its index. *)
Fixpoint ad_seals (i : nat) (ks : list seal) : bytes :=
  match ks with
  | [] => []
  | s :: ks' => uvarint (N.of_nat i) ++ ad_seal s ++ ad_seals (S i) ks'
  end.

(** letter.go:201-229  Letter.compileAssociatedData. *)
Definition assoc_data (l : letter) : bytes :=
  (if (0 <? l_version l)%N then uvarint 1 ++ uvarint (l_version l) else [])
  ++ (if nonempty (l_suite l) then uvarint 2 ++ block (l_suite l) else [])
  ++ (if nonempty (l_nonce l) then uvarint 3 ++ block (l_nonce l) else [])
  ++ (if nonempty (l_keys l)
      then uvarint 4 ++ uvarint (N.of_nat (length (l_keys l))) ++ ad_seals 0 (l_keys l) else []).

(** letter.go:231-248  Letter.compileAssociatedSigningData; the argument is the
    already compiled associated data or nil (recomputed when empty). *)
Definition assoc_signing_data (l : letter) (ad : bytes) : bytes :=
  let ad' := if nonempty ad then ad else assoc_data l in
  if nonempty (l_mac l) then ad' ++ uvarint 5 ++ block (l_mac l) else ad'.
