(** filesig/format_armor.go: signature sections in text files.
    [dump]/[load] are Letter.ToDSD(dsd.CBOR) and LetterFromDSD (letter.go:165-184; the codec is
    third party): [load] gives the letter with possible nil seals ([raw_letter]).  Go's regexp works on
    UTF-8 runes; both markers start with an ASCII byte, which never lies inside a rune, so the
    search is a search on bytes. *)
From Coq Require Import Init.Byte.
From Verif Require Import Prelude Letter Envelope Encodings Search.

(** format_armor.go:13-17. *)
Definition armor_start : bytes := lit "-----BEGIN JESS SIGNATURE-----".
Definition armor_end : bytes := lit "-----END JESS SIGNATURE-----".
Definition line_length : nat := 64.

(** One match of the regular expression START(.+?)END (format_armor.go:20): the leftmost start, then at
    least one character, then the nearest end.  If the leftmost start has no end, no later one has. *)
Definition next_section (l : bytes) : option (bytes * bytes * bytes) :=
  match find_sub armor_start l with
  | Some (a, x :: r) => match find_sub armor_end r with
                        | Some (m, b) => Some (a, x :: m, b)
                        | None => None
                        end
  | _ => None
  end.
(** FindAllSubmatch (format_armor.go:34): the contents of all matches in order.  Every match is longer
    than nothing, so the length of the text is enough fuel. *)
Fixpoint sections (fuel : nat) (l : bytes) : list bytes :=
  match fuel with
  | O => []
  | S f => match next_section l with
           | Some (_, c, b) => c :: sections f b
           | None => []
           end
  end.
Definition all_sections (l : bytes) : list bytes := sections (length l) l.

(** \r?\n? (format_armor.go:21). *)
Definition skip_eol (l : bytes) : bytes :=
  let l1 := match l with x :: r => if byte_eqb x x0d then r else l | [] => l end in
  match l1 with x :: r => if byte_eqb x x0a then r else l1 | [] => l1 end.
(** sigFileArmorRemoveMatcher.ReplaceAll(data, nil) (format_armor.go:21, 116). *)
Fixpoint remove_fuel (fuel : nat) (l : bytes) : bytes :=
  match fuel with
  | O => l
  | S f => match next_section l with
           | Some (a, _, b) => a ++ remove_fuel f (skip_eol b)
           | None => l
           end
  end.
Definition remove_sections (l : bytes) : bytes := remove_fuel (length l) l.

(** \s in Go: tab, LF, FF, CR, space (format_armor.go:22). *)
Definition is_space (b : byte) : bool :=
  byte_eqb b x09 || byte_eqb b x0a || byte_eqb b x0c || byte_eqb b x0d || byte_eqb b x20.
Definition no_space (l : bytes) : bytes := filter (fun b => negb (is_space b)) l.

(** format_armor.go:36-49: what is taken from one match. *)
Definition captured (c : bytes) : bytes := trim_prefix armor_start (trim_suffix armor_end (no_space c)).

(** format_armor.go:52-72: the letters that can be read, and the last problem. *)
Fixpoint parse_captured (load : bytes -> option raw_letter) (cs : list bytes) : list raw_letter * bool :=
  match cs with
  | [] => ([], false)
  | c :: r =>
      let '(ls, warn) := parse_captured load r in
      match b64_decode false (captured c) with
      | Ok d => match load d with
                | Some l => (l :: ls, warn)
                | None => (ls, true)
                end
      | _ => (ls, true)
      end
  end.
(** format_armor.go:29-73 ParseSigFile: the letters and whether a warning is returned. *)
Definition parse_sig_file (load : bytes -> option raw_letter) (data : bytes) : list raw_letter * bool :=
  parse_captured load (all_sections data).

(** format_armor.go:88-100: lines of 64 characters. *)
Fixpoint chunks (fuel : nat) (l : bytes) : list bytes :=
  match fuel with
  | O => []
  | S f => match l with
           | [] => []
           | _ => if Nat.ltb line_length (length l) then firstn line_length l :: chunks f (skipn line_length l) else [l]
           end
  end.
Fixpoint join (sep : bytes) (ls : list bytes) : bytes :=
  match ls with
  | [] => []
  | [l] => l
  | l :: r => l ++ sep ++ join sep r
  end.
(** format_armor.go:76-103 MakeSigFileSection. *)
Definition armor_text (d : bytes) : bytes :=
  let e := b64_encode false d in
  join [x0a] (armor_start :: chunks (S (length e)) e ++ [armor_end]).
Definition make_section (dump : letter -> outcome bytes) (l : letter) : outcome bytes :=
  do d <- dump l; Ok (armor_text d).

(** format_armor.go:106-123 AddToSigFile. *)
Definition add_to_sig_file (dump : letter -> outcome bytes) (l : letter) (data : bytes) (remove : bool) : outcome bytes :=
  do s <- make_section dump l;
  Ok ((if remove then remove_sections data else data) ++ [x0a] ++ s).
