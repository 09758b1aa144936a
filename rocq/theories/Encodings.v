(** Text encodings used by /repo: encoding/hex, encoding/base64 (raw, standard and URL
    alphabet) and github.com/mr-tron/base58 (BTC alphabet).  These packages are NOT in /repo;
    the definitions state what the model assumes of them (DESIGN.md, trusted base).
    Uses: lhash/labeledhash.go:98-162, filesig/format_armor.go:51-103, import_export.go,
    filesig/main.go. *)
From Coq Require Import Init.Byte.
From Verif Require Import Prelude.

(** ** encoding/hex *)
Definition hex_alphabet : bytes := lit "0123456789abcdef".
Definition hex_digit (n : N) : byte := nth (N.to_nat n) hex_alphabet x00.
(** Decoding accepts both cases. *)
Definition hex_val (b : byte) : option N :=
  let n := b2n b in
  if ((48 <=? n) && (n <=? 57))%N then Some (n - 48)%N
  else if ((97 <=? n) && (n <=? 102))%N then Some (n - 87)%N
  else if ((65 <=? n) && (n <=? 70))%N then Some (n - 55)%N
  else None.
Fixpoint hex_encode (l : bytes) : bytes :=
  match l with
  | [] => []
  | b :: r => hex_digit (b2n b / 16) :: hex_digit (b2n b mod 16) :: hex_encode r
  end.
Fixpoint hex_decode (l : bytes) : outcome bytes :=
  match l with
  | [] => Ok []
  | a :: b :: r =>
      match hex_val a, hex_val b with
      | Some x, Some y => do t <- hex_decode r; Ok (n2b (x * 16 + y) :: t)
      | _, _ => Err EOther
      end
  | _ => Err EOther
  end.

(** ** encoding/base64 without padding *)
Definition b64_common : bytes := lit "ABCDEFGHIJKLMNOPQRSTUVWXYZabcdefghijklmnopqrstuvwxyz0123456789".
Definition b64_alphabet (url : bool) : bytes := b64_common ++ (if url then lit "-_" else lit "+/").
Definition b64_digit (url : bool) (n : N) : byte := nth (N.to_nat n) (b64_alphabet url) x00.
Fixpoint index_of (b : byte) (l : bytes) : option N :=
  match l with
  | [] => None
  | x :: r => if byte_eqb x b then Some 0%N else option_map N.succ (index_of b r)
  end.
Definition b64_val (url : bool) (b : byte) : option N := index_of b (b64_alphabet url).

Fixpoint b64_groups (l : bytes) : list N :=
  match l with
  | a :: b :: c :: r =>
      (b2n a / 4 :: b2n a mod 4 * 16 + b2n b / 16 :: b2n b mod 16 * 4 + b2n c / 64 :: b2n c mod 64 :: b64_groups r)%N
  | [a; b] => [b2n a / 4; b2n a mod 4 * 16 + b2n b / 16; b2n b mod 16 * 4]%N
  | [a] => [b2n a / 4; b2n a mod 4 * 16]%N
  | [] => []
  end.
Definition b64_encode (url : bool) (l : bytes) : bytes := map (b64_digit url) (b64_groups l).

(** Decoding skips CR and LF; bits left over at the end are ignored (the encodings are not
    strict). *)
Fixpoint b64_bytes (l : list N) : outcome bytes :=
  match l with
  | a :: b :: c :: d :: r =>
      do t <- b64_bytes r;
      Ok (n2b (a * 4 + b / 16) :: n2b (b mod 16 * 16 + c / 4) :: n2b (c mod 4 * 64 + d) :: t)%N
  | [a; b; c] => Ok [n2b (a * 4 + b / 16); n2b (b mod 16 * 16 + c / 4)]%N
  | [a; b] => Ok [n2b (a * 4 + b / 16)]%N
  | [] => Ok []
  | _ => Err EOther
  end.
Definition is_newline (b : byte) : bool := byte_eqb b x0a || byte_eqb b x0d.
Definition b64_decode (url : bool) (l : bytes) : outcome bytes :=
  do ds <- mapM (fun b => of_option EOther (b64_val url b)) (filter (fun b => negb (is_newline b)) l);
  b64_bytes ds.

(** ** base58 *)
Definition b58_alphabet : bytes := lit "123456789ABCDEFGHJKLMNPQRSTUVWXYZabcdefghijkmnopqrstuvwxyz".
Definition b58_digit (n : N) : byte := nth (N.to_nat n) b58_alphabet x00.
Definition b58_val (b : byte) : option N := index_of b b58_alphabet.

(** The number written with the digits [l], most significant first. *)
Definition value (base : N) (l : list N) : N := fold_left (fun a d => a * base + d)%N l 0%N.
(** The digits of a number, most significant first, without leading zeros. *)
Fixpoint digits_aux (fuel : nat) (base n : N) (acc : list N) : list N :=
  match fuel with
  | O => acc
  | S f => if (n =? 0)%N then acc else digits_aux f base (n / base) ((n mod base)%N :: acc)
  end.
Definition digits (base n : N) : list N := digits_aux (N.to_nat (N.size n)) base n [].
Fixpoint leading (x : N) (l : list N) : nat :=
  match l with
  | d :: r => if (d =? x)%N then S (leading x r) else 0
  | [] => 0
  end.
(** Each leading zero byte becomes one leading digit zero, and back. *)
Definition rebase (b1 b2 : N) (l : list N) : list N :=
  repeat 0%N (leading 0 l) ++ digits b2 (value b1 l).
Definition b58_encode (l : bytes) : bytes := map b58_digit (rebase 256 58 (map b2n l)).
Definition b58_decode (s : bytes) : outcome bytes :=
  match s with
  | [] => Err EOther
  | _ => do ds <- mapM (fun b => of_option EOther (b58_val b)) s;
         Ok (map n2b (rebase 58 256 ds))
  end.
