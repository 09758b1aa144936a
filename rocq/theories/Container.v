(** The part of github.com/safing/structures/container and its varint helper
    that /repo uses.  These packages are NOT in /repo (go.mod: safing/structures);
    the definitions below state what the model assumes of them (DESIGN.md,
    trusted base).  A container is modelled by the bytes still unread. *)
From Verif Require Import Prelude.

(** varint.Pack64 = encoding/binary.PutUvarint; used by AppendNumber and
    AppendInt (letter.go:208-262, letter-wire.go:35-79, letter-file.go:26-43).
    Ten groups of seven bits cover every uint64. *)
Fixpoint uvarint_aux (fuel : nat) (n : N) : bytes :=
  match fuel with
  | O => [n2b n]
  | S f => if (n <? 128)%N then [n2b n] else n2b (n mod 128 + 128) :: uvarint_aux f (n / 128)
  end.
Definition uvarint (n : N) : bytes := uvarint_aux 9 n.

(** AppendAsBlock: length as varint, then the bytes. *)
Definition block (b : bytes) : bytes := uvarint (blen b) ++ b.

(** varint.Unpack64 = encoding/binary.Uvarint on the next ten bytes:
    too short => error, more than 64 bits => error, non-minimal encodings
    accepted. *)
Fixpoint get_n64_aux (fuel : nat) (c : bytes) : outcome (N * bytes) :=
  match c with
  | [] => Err EVarint
  | b :: c' =>
      match fuel with
      | O => if (b2n b <? 2)%N then Ok (b2n b, c') else Err EVarint
      | S f => if (b2n b <? 128)%N then Ok (b2n b, c')
               else do (v, r) <- get_n64_aux f c'; Ok ((b2n b - 128) + 128 * v, r)%N
      end
  end.
Definition get_n64 (c : bytes) : outcome (N * bytes) := get_n64_aux 9 c.

(** varint.Unpack8.  One byte below 128, else the second byte must be 1 and
    the value is the first byte; [w] is the number of bytes then consumed
    (the source of the helper is not in /repo; theorems that depend on it
    say so, the others hold for every [w]). *)
Definition get_n8 (w : nat) (c : bytes) : outcome (N * bytes) :=
  match c with
  | [] => Err EVarint
  | b :: c' =>
      if (b2n b <? 128)%N then Ok (b2n b, c')
      else match c' with
           | [] => Err EVarint
           | b1 :: _ => if (b2n b1 =? 1)%N then Ok (b2n b, skipn w c) else Err EVarint
           end
  end.

(** Container.Get(n int): n <= 0 (also: a length of 2^63 and above, which
    wraps to a negative int) returns no bytes; too few bytes is an error. *)
Definition get_bytes (n : N) (c : bytes) : outcome (bytes * bytes) :=
  if (2 ^ 63 <=? n)%N then Ok ([], c)
  else if (blen c <? n)%N then Err ENotEnoughData
  else Ok (firstn (N.to_nat n) c, skipn (N.to_nat n) c).

(** Container.GetNextBlock. *)
Definition get_block (c : bytes) : outcome (bytes * bytes) :=
  do (n, c1) <- get_n64 c; get_bytes n c1.

(** Blocks whose length is representable as a Go int.  Every Go slice is. *)
Definition fits (b : bytes) : Prop := (blen b < 2 ^ 63)%N.
Definition fitsb (b : bytes) : bool := (blen b <? 2 ^ 63)%N.
