(** filesig/text.go and text_yaml.go: checksums in text files.
    [H]: the digest functions.  A failing scan (a line of more than 64 KiB, bufio.Scanner) is an [Err]. *)
From Coq Require Import Init.Byte.
From Verif Require Import Prelude Encodings Lhash Search.

(** ** Go's strings/bytes.TrimSpace: the UTF-8 encodings of the runes with unicode.IsSpace. *)
Definition space_runes : list bytes :=
  [ [x09]; [x0a]; [x0b]; [x0c]; [x0d]; [x20]; [xc2; x85]; [xc2; xa0]; [xe1; x9a; x80];
    [xe2; x80; x80]; [xe2; x80; x81]; [xe2; x80; x82]; [xe2; x80; x83]; [xe2; x80; x84]; [xe2; x80; x85]; [xe2; x80; x86];
    [xe2; x80; x87]; [xe2; x80; x88]; [xe2; x80; x89]; [xe2; x80; x8a];
    [xe2; x80; xa8]; [xe2; x80; xa9]; [xe2; x80; xaf]; [xe2; x81; x9f]; [xe3; x80; x80] ].
Fixpoint strip_first (ps : list bytes) (l : bytes) : option bytes :=
  match ps with
  | [] => None
  | p :: r => match strip_prefix p l with Some t => Some t | None => strip_first r l end
  end.
Fixpoint strip_all (ps : list bytes) (fuel : nat) (l : bytes) : bytes :=
  match fuel with
  | O => l
  | S f => match strip_first ps l with Some t => strip_all ps f t | None => l end
  end.
Definition ltrim (l : bytes) : bytes := strip_all space_runes (length l) l.
Definition rtrim (l : bytes) : bytes := rev (strip_all (map (@rev byte) space_runes) (length l) (rev l)).
Definition trim_space (l : bytes) : bytes := rtrim (ltrim l).
(** strings.Trim(s, cutset). *)
Fixpoint drop_set (set l : bytes) : bytes :=
  match l with
  | x :: r => if existsb (byte_eqb x) set then drop_set set r else l
  | [] => []
  end.
Definition trim_set (set l : bytes) : bytes := rev (drop_set set (rev (drop_set set l))).

(** ** Lines: text.go:218-232 scanRawLines under a bufio.Scanner with its default buffer: a line (with its line
    break) has at most 64 KiB, an unterminated last line less than that. *)
Definition max_token : N := 65536.
Fixpoint raw_lines (cur l : bytes) : list bytes :=
  match l with
  | [] => match cur with [] => [] | _ => [cur] end
  | x :: r => if byte_eqb x x0a then (cur ++ [x]) :: raw_lines [] r else raw_lines (cur ++ [x]) r
  end.
Definition line_fits (l : bytes) : bool :=
  if has_suffix [x0a] l then (blen l <=? max_token)%N else (blen l <? max_token)%N.
Definition scan (data : bytes) : outcome (list bytes) :=
  let ls := raw_lines [] data in
  if forallb line_fits ls then Ok ls else Err EOther.

(** text.go:17-21. *)
Definition key_prefix : bytes := lit "jess-".
Definition checksum_key : bytes := key_prefix ++ lit "checksum".

(** text.go:103-123 textSplit. *)
Definition meta_prefix (sign : bytes) : bytes := sign ++ lit " " ++ key_prefix.
Definition text_split (data sign : bytes) : outcome (bytes * list bytes) :=
  do ls <- scan data;
  let is_meta := has_prefix (meta_prefix sign) in
  Ok (trim_space (concat (filter (fun l => negb (is_meta l)) ls)),
      map (fun l => trim_space (trim_prefix sign l)) (filter is_meta ls)).

(** text.go:125-141 detectLineEndFormat. *)
Definition line_end (data : bytes) : bytes :=
  match find_sub [x0a] data with
  | None => [x0a]
  | Some ([], _) => [x0a]
  | Some (a, _) => if has_suffix [x0d] a then [x0d; x0a] else [x0a]
  end.

(** text.go:203-210 textWriteMetaLines. *)
Definition meta_text (metas : list bytes) (sign le : bytes) : bytes := concat (map (fun m => sign ++ lit " " ++ m ++ le) metas).

(** text.go:173-197: the lines up to the first that is no comment; the rest. *)
Fixpoint split_comment (sign : bytes) (ls : list bytes) : bytes * option bytes :=
  match ls with
  | [] => ([], None)
  | l :: r => if has_prefix sign l then let (a, b) := split_comment sign r in (l ++ a, b)
              else ([], Some (concat ls))
  end.

(** text.go:31-44: an unknown placement is representable. *)
Inductive placement := Top | Bottom | AfterComment | DefaultPlacement | OtherPlacement.
(** text.go:143-201 textAddMeta: an unknown placement writes nothing at all. *)
Definition text_add_meta (data : bytes) (metas : list bytes) (sign : bytes) (p : placement) : outcome bytes :=
  let le := line_end data in
  let mt := meta_text metas sign le in
  match p with
  | Top => Ok (mt ++ data ++ le)
  | Bottom => Ok (data ++ le ++ le ++ mt)
  | AfterComment | DefaultPlacement =>
      do ls <- scan data;
      let (a, b) := split_comment sign ls in
      Ok (a ++ mt ++ match b with Some r => r | None => [] end ++ le)
  | OtherPlacement => Ok []
  end.

(** slices.Sort on strings (bytewise order) and slices.Compact. *)
Fixpoint bytes_leb (a b : bytes) : bool :=
  match a, b with
  | [], _ => true
  | _ :: _, [] => false
  | x :: a', y :: b' => if byte_eqb x y then bytes_leb a' b' else (b2n x <? b2n y)%N
  end.
Fixpoint insert (x : bytes) (l : list bytes) : list bytes :=
  match l with
  | [] => [x]
  | y :: r => if bytes_leb x y then x :: l else y :: insert x r
  end.
Fixpoint sort (l : list bytes) : list bytes := match l with [] => [] | x :: r => insert x (sort r) end.
Fixpoint compact (l : list bytes) : list bytes :=
  match l with
  | x :: r => match r with
              | y :: _ => if bytes_eqb x y then compact r else x :: compact r
              | [] => [x]
              end
  | [] => []
  end.

Section Checksum.
Variable H : N -> bytes -> bytes.
(** text.go:47-64 AddTextFileChecksum. *)
Definition add_text_checksum (data sign : bytes) (p : placement) : outcome bytes :=
  do (content, metas) <- text_split data sign;
  do h <- lh_of H BLAKE2b_256 content;
  text_add_meta content (compact (sort (metas ++ [checksum_key ++ lit ": " ++ lh_base58 h]))) sign p.

(** text.go:77-93: one line; nothing to check if it is no checksum line. *)
Definition is_checksum_line (m : bytes) : bool := has_prefix checksum_key m.
Definition checksum_text (m : bytes) : bytes := trim_set (lit ":= ") (trim_space (trim_prefix checksum_key m)).
Definition check_line (content m : bytes) : outcome unit :=
  match lh_from_base58 (checksum_text m) with
  | Ok h => do b <- lh_matches H h content; if b then Ok tt else Err EChecksumMismatch
  | _ => Err EChecksumMismatch
  end.
(** text.go:67-101 VerifyTextFileChecksum. *)
Definition verify_text_checksum (data sign : bytes) : outcome unit :=
  do (content, metas) <- text_split data sign;
  let cs := filter is_checksum_line metas in
  do _ <- iterM (check_line content) cs;
  match cs with [] => Err EChecksumMissing | _ => Ok tt end.
End Checksum.

(** text_yaml.go *)
Definition add_yaml_checksum (H : N -> bytes -> bytes) (data : bytes) (p : placement) : outcome bytes := add_text_checksum H data (lit "#") p.
Definition verify_yaml_checksum (H : N -> bytes -> bytes) (data : bytes) : outcome unit := verify_text_checksum H data (lit "#").
