(** cmd/format_sig.go: what the sign and verify commands print about signatures.  [names] is what the trust store says about
    an ID: GetSignet(id, true) fails (None), or gives a signet, with or without an Info that holds the name. *)
From Coq Require Import Init.Byte.
From Verif Require Import Prelude Tools Crypto Letter Session Core Envelope Lhash Encodings Armor FileSig.

(** fd.MetaData of format_sig.go:61-72 as a sorted list.  A Go map is ranged over in any order, but its keys are distinct, so
    sort.Sort (by key, bytewise) always leads to this list (C66_any_order). *)
Fixpoint key_ltb (a b : bytes) : bool :=
  match a, b with
  | _, [] => false
  | [], _ :: _ => true
  | x :: a', y :: b' => if (b2n x <? b2n y)%N then true else if (b2n y <? b2n x)%N then false else key_ltb a' b'
  end.
Fixpoint put_entry (e : bytes * bytes) (l : list (bytes * bytes)) : list (bytes * bytes) :=
  match l with
  | [] => [e]
  | x :: r => if key_ltb (fst e) (fst x) then e :: l else x :: put_entry e r
  end.
Fixpoint sort_entries (l : list (bytes * bytes)) : list (bytes * bytes) :=
  match l with [] => [] | e :: r => put_entry e (sort_entries r) end.
(** The entries of a map: the first entry of each key counts. *)
Fixpoint entries_but (seen : list bytes) (m : list (bytes * bytes)) : list (bytes * bytes) :=
  match m with
  | [] => []
  | (k, v) :: r => if existsb (bytes_eqb k) seen then entries_but seen r else (k, v) :: entries_but (k :: seen) r
  end.
Definition map_entries (m : list (bytes * bytes)) : list (bytes * bytes) := entries_but [] m.

(** A FileData as formatSignature looks at it: VerificationError(), the Signatures of Signature(), FileHash(), MetaData. *)
Record shown := mkShown { sh_error : option bytes; sh_sigs : option (list (option seal)); sh_hash : option lhash; sh_meta : list (bytes * bytes) }.

Section Report.
Variable names : bytes -> option (option bytes).
(** The argument of "Signed By: " in format_sig.go:45-52, and cmd-verify.go:217-223, 252-258.  Without Info there is a nil
    dereference, and for a null entry too. *)
Definition signer (s : option seal) : outcome bytes :=
  match s with
  | None => Panic
  | Some v => match names (seal_id v) with
              | None => Ok (seal_id v)
              | Some None => Panic
              | Some (Some n) => Ok (n ++ lit " (" ++ seal_id v ++ lit ")")
              end
  end.
Definition ln (l : bytes) : bytes := l ++ [x0a].
(** format_sig.go:36-73 formatSignature. *)
Definition format_signature (fd : shown) : outcome bytes :=
  let status := match sh_error fd with None => lit "Verification: OK" | Some e => lit "Verification FAILED: " ++ e end in
  do by_ <- match sh_sigs fd with
            | None => Ok []
            | Some sigs => do l <- mapM signer sigs; Ok ([x0a] ++ concat (map (fun s => ln (lit "Signed By: " ++ s)) l))
            end;
  let hash := match sh_hash fd with
              | None => []
              | Some h => [x0a] ++ ln (lit "Hash Alg: " ++ alg_name (lh_alg h)) ++ ln (lit "Hash Sum: " ++ hex_encode (lh_digest h))
              end in
  let meta := match map_entries (sh_meta fd) with
              | [] => []
              | m => [x0a] ++ ln (lit "Metadata:") ++ concat (map (fun kv => ln (lit "    " ++ fst kv ++ lit ": " ++ snd kv)) (sort_entries m))
              end in
  Ok (ln status ++ by_ ++ hash ++ meta).
(** format_sig.go:12-34 formatSignatures.  The header is inside the loop, and there is no case for more than two. *)
Definition format_signatures (filename signame : bytes) (fds : list shown) : outcome bytes :=
  do blocks <- match fds with
               | [fd] => format_signature fd
               | [_; _] =>
                   do l <- mapM (fun fd => do b <- format_signature fd; Ok (lit "2 Signatures:" ++ [x0a; x0a; x0a] ++ b ++ [x0a; x0a])) fds;
                   Ok (concat l)
               | _ => Ok []
               end;
  let files := match filename, signame with
               | [], [] => []
               | _, _ => [x0a] ++ ln (lit "File: " ++ filename) ++ ln (lit "Sig:  " ++ signame)
               end in
  Ok (blocks ++ files).
End Report.
