(** filesig/json.go: checksums and signatures in JSON files.
    The JSON packages (github.com/tidwall/gjson, sjson, pretty) are NOT in /repo.  What the model assumes of them:
    a valid text has a syntax tree, in which strings and keys keep their literal text; gjson.Get finds the first
    member with the key, sjson.Delete removes that one, sjson.Set replaces its value or puts a new member first;
    pretty.PrettyOptions keeps the tree, and with SortKeys sorts the members of all objects (stable, by literal key).
    Parameters: [render] the text pretty.PrettyOptions makes of a tree, [esc]/[unesc] quoting of strings.
    Top-level arrays and scalars hold no members; setting one there is an error. *)
From Coq Require Import Init.Byte.
From Verif Require Import Prelude Requirements Tools Crypto Letter Session Core Envelope Encodings Lhash Text FileSig.

Inductive json :=
| JStr (lit : bytes)
| JAtom (lit : bytes)                    (* number, true, false, null *)
| JArr (l : list json)
| JObj (ms : list (bytes * json)).
Notation members := (list (bytes * json)).

(** json.go:18-23 *)
Definition json_checksum_key : bytes := lit "_jess-checksum".
Definition json_signature_key : bytes := lit "_jess-signature".

(** pretty.PrettyOptions with SortKeys. *)
Fixpoint insert_member (m : bytes * json) (l : members) : members :=
  match l with
  | [] => [m]
  | x :: r => if bytes_leb (fst m) (fst x) then m :: l else x :: insert_member m r
  end.
Fixpoint sort_members (l : members) : members := match l with [] => [] | m :: r => insert_member m (sort_members r) end.
Fixpoint sort_json (j : json) : json :=
  match j with
  | JArr l => JArr (map sort_json l)
  | JObj ms => JObj (sort_members (map (fun m => (fst m, sort_json (snd m))) ms))
  | _ => j
  end.

Section Json.
Variables (esc unesc : bytes -> bytes) (render : json -> bytes).

Fixpoint get_member (k : bytes) (ms : members) : option json :=
  match ms with
  | [] => None
  | (k', v) :: r => if bytes_eqb (unesc k') k then Some v else get_member k r
  end.
Fixpoint del_member (k : bytes) (ms : members) : members :=
  match ms with
  | [] => []
  | (k', v) :: r => if bytes_eqb (unesc k') k then r else (k', v) :: del_member k r
  end.
Fixpoint replace_member (k : bytes) (j : json) (ms : members) : members :=
  match ms with
  | [] => []
  | (k', v) :: r => if bytes_eqb (unesc k') k then (k', j) :: r else (k', v) :: replace_member k j r
  end.
Definition json_get (k : bytes) (d : json) : option json := match d with JObj ms => get_member k ms | _ => None end.
Definition json_del (k : bytes) (d : json) : json := match d with JObj ms => JObj (del_member k ms) | _ => d end.
Definition json_set (k : bytes) (j : json) (d : json) : outcome json :=
  match d with
  | JObj ms => Ok (JObj (match get_member k ms with Some _ => replace_member k j ms | None => (esc k, j) :: ms end))
  | _ => Err EOther
  end.

(** json.go:173-183, 195-205: the strings of an array, or the one string. *)
Definition json_strings (o : option json) : list bytes :=
  match o with
  | Some (JArr l) => flat_map (fun j => match j with JStr s => [unesc s] | _ => [] end) l
  | Some (JStr s) => [unesc s]
  | _ => []
  end.
(** json.go:158-223 jsonSplit, for a valid text with tree [d]. *)
Definition json_split (d : json) : json * list bytes * list bytes :=
  let checksums := json_strings (json_get json_checksum_key d) in
  let d1 := json_del json_checksum_key d in
  let signatures := json_strings (json_get json_signature_key d1) in
  let d2 := json_del json_signature_key d1 in
  (sort_json d2, checksums, signatures).

(** json.go:233-250, 252-269: nothing, one string, or an array of strings. *)
Definition json_put (k : bytes) (ss : list bytes) (d : json) : outcome json :=
  match ss with
  | [] => Ok d
  | [s] => json_set k (JStr (esc s)) d
  | _ => json_set k (JArr (map (fun s => JStr (esc s)) ss)) d
  end.
(** json.go:225-279 jsonAddMeta. *)
Definition json_add_meta (d : json) (checksums signatures : list bytes) : outcome json :=
  do d1 <- json_put json_checksum_key checksums d; json_put json_signature_key signatures d1.

(** json.go:26-45 AddJSONChecksum; [None]: not a JSON text. *)
Definition add_json_checksum (H : N -> bytes -> bytes) (data : option json) : outcome json :=
  do d <- of_option EOther data;
  let '(content, checksums, signatures) := json_split d in
  do h <- lh_of H BLAKE2b_256 (render content);
  json_add_meta content (compact (sort (checksums ++ [lh_base58 h]))) (compact (sort signatures)).

(** json.go:55-68 *)
Definition check_json (H : N -> bytes -> bytes) (content checksum : bytes) : outcome unit :=
  match lh_from_base58 checksum with
  | Ok h => do b <- lh_matches H h content; if b then Ok tt else Err EChecksumMismatch
  | _ => Err EChecksumMismatch
  end.
(** json.go:48-76 VerifyJSONChecksum. *)
Definition verify_json_checksum (H : N -> bytes -> bytes) (data : option json) : outcome unit :=
  do d <- of_option EOther data;
  let '(content, checksums, _) := json_split d in
  do _ <- iterM (check_json H (render content)) checksums;
  match checksums with [] => Err EChecksumMissing | _ => Ok tt end.

Section Signature.
Variables (c : config) (cr : crypto) (w : world).
Variables (load : bytes -> option raw_letter) (dump : letter -> outcome bytes).
(** json.go:78-118 AddJSONSignature; [full]: the session's closing round is new, [dr] numbers the random draws. *)
Definition add_json_signature (data : option json) (e : envelope) (full : bool) (dr : nat) : outcome json :=
  do s <- correspondence c suite_registry tool_registry hash_registry cr w e;
  do su <- load_suite suite_registry e;
  do _ <- req_check (su_provides su) file_sig_reqs;
  do d <- of_option EOther data;
  let '(content, checksums, signatures) := json_split d in
  do l <- fst (close_session c cr s full (render content) (rt_start dr None));
  do sig <- dump (set_data l []);
  json_add_meta d (compact (sort checksums)) (compact (sort (signatures ++ [b64_encode true sig]))).

(** json.go:127-148 *)
Definition with_data (r : raw_letter) (content : bytes) : raw_letter := mkRaw (set_data (rw_letter r) content) (rw_keys r) (rw_sigs r).
Definition check_json_signature (content : bytes) (dr : nat) (sig : bytes) : outcome unit :=
  do raw <- b64_decode true sig;
  do r <- of_option EOther (load raw);
  letter_verify c suite_registry tool_registry hash_registry cr w (Some file_sig_reqs) (with_data r content) dr.
(** json.go:120-156 VerifyJSONSignature. *)
Definition verify_json_signature (data : option json) (dr : nat) : outcome unit :=
  do d <- of_option EOther data;
  let '(content, _, signatures) := json_split d in
  do _ <- iterM (check_json_signature (render content) dr) signatures;
  match signatures with [] => Err EOther | _ => Ok tt end.
End Signature.
End Json.
