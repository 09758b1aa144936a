(** cmd/format.go:15-40 formatColumns with the parts of text/tabwriter and bufio.Scanner it uses, cmd/format.go:42-162 (the cells),
    the tables of cmd/cmd-list.go:20-73 and the menu of cmd/cfg-signet.go:219-290 pickSignet (multi = false). *)
From Coq Require Import Init.Byte.
From Verif Require Import Prelude Encodings Requirements Tools Crypto Letter Session Core Envelope Signets TrustStore Wizard.

(** ** text/tabwriter with NewWriter(buf, 8, 4, 3, ' ', 0): minwidth 8, padding 3, padded with spaces, no flags.
    Text without 0xff (tabwriter.Escape), which would switch the separators off. *)
Definition ends_line (b : byte) : bool := byte_eqb b x0a || byte_eqb b x0c.
Definition ends_cell (b : byte) : bool := byte_eqb b x09 || byte_eqb b x0b.

(** Split at every byte that satisfies [p]; always at least one piece. *)
Fixpoint split_at (p : byte -> bool) (l : bytes) : list bytes :=
  match l with
  | [] => [[]]
  | b :: r => if p b then [] :: split_at p r
              else match split_at p r with [] => [[b]] | x :: xs => (b :: x) :: xs end
  end.

(** Write: lines of cells.  Flush appends the rest of the text as a cell if it is not empty; if it is, the cell before it,
    which a tab has ended, is the last one of its line. *)
Fixpoint drop_empty_end (cells : list bytes) : list bytes :=
  match cells with
  | [] => []
  | [[]] => []
  | c :: r => c :: drop_empty_end r
  end.
Fixpoint flush_last (ls : list (list bytes)) : list (list bytes) :=
  match ls with [] => [] | [l] => [drop_empty_end l] | l :: r => l :: flush_last r end.
Definition text_lines (text : bytes) : list (list bytes) := flush_last (map (split_at ends_cell) (split_at ends_line text)).

Section Width.
(** unicode/utf8.RuneCount: any function that counts no more than the bytes. *)
Variable runes : bytes -> nat.

(** A line in the making: what is printed of it, and the cells to come. *)
Definition making : Type := bytes * list bytes.
(** format: a column block is a run of consecutive lines with a cell in the column that is not their last one; its width is
    the largest cell plus the padding, or the minimal width. *)
Fixpoint block_width (ls : list making) : nat :=
  match ls with
  | (_, c :: _ :: _) :: r => Nat.max (runes c + 3) (block_width r)
  | _ => 8
  end.
Definition padded (c : bytes) (w : nat) : bytes := c ++ spaces (w - runes c).     (* writePadding *)
(** The next column of all lines; [w]: the width of the block that the line before belongs to.  (The writer goes block by
    block and, within a block, column by column; a line that ends in a column separates the blocks of all later columns.) *)
Fixpoint next_column (w : option nat) (ls : list making) : list making :=
  match ls with
  | [] => []
  | (out, c :: d :: rest) :: r =>
      let bw := match w with Some v => v | None => block_width ls end in
      (out ++ padded c bw, d :: rest) :: next_column (Some bw) r
  | l :: r => l :: next_column None r
  end.
Fixpoint columns (n : nat) (ls : list making) : list making :=
  match n with O => ls | S m => columns m (next_column None ls) end.
Definition most_cells (ls : list (list bytes)) : nat := fold_right (fun l n => Nat.max (length l) n) 0 ls.
Definition laid_out (ls : list (list bytes)) : list bytes :=
  map (fun l => fst l ++ concat (snd l)) (columns (most_cells ls) (map (fun l => ([], l)) ls)).
Fixpoint join (sep : byte) (l : list bytes) : bytes :=                               (* strings.Join *)
  match l with [] => [] | [x] => x | x :: r => x ++ sep :: join sep r end.
Definition tabwritten (text : bytes) : bytes := join x0a (laid_out (text_lines text)).

(** bufio.Scanner with ScanLines: lines without their line feed and one carriage return; nothing after a final line feed;
    an error (format.go:35-37: nil) when 64 KiB hold no line feed. *)
Definition too_long (l : bytes) : bool := (65536 <=? N.of_nat (length l))%N.
Definition drop_cr (l : bytes) : bytes := match rev l with x0d :: r => rev r | _ => l end.
Fixpoint drop_last_empty (l : list bytes) : list bytes :=
  match l with [] => [] | [[]] => [] | x :: r => x :: drop_last_empty r end.
Definition scanned (text : bytes) : list bytes :=
  let ls := split_at (fun b => byte_eqb b x0a) text in
  if existsb too_long ls then [] else map drop_cr (drop_last_empty ls).

Definition format_columns (table : list (list bytes)) : list bytes := scanned (tabwritten (join x0a (map (join x09) table))).
End Width.

(** ** Cells *)
(** The decimal digits of a number (fmt %d of a level, which is never negative). *)
Fixpoint digits (fuel : nat) (n : N) (acc : bytes) : bytes :=
  match fuel with
  | O => acc
  | S f => let acc' := n2b (48 + n mod 10) :: acc in if (n <? 10)%N then acc' else digits f (n / 10) acc'
  end.
Definition decimal (n : Z) : bytes := digits 20 (Z.to_N n) [].
Definition level_cell (l : Z) : bytes := decimal l ++ lit " b/s".                       (* format.go:42-44 *)
(** tools/tool.go:141-162 FormatPurpose. *)
Definition purpose_cell (p : purpose) : bytes :=
  match p with
  | PKeyDerivation => lit "KeyDerivation" | PPassDerivation => lit "PassDerivation" | PKeyExchange => lit "KeyExchange"
  | PKeyEncapsulation => lit "KeyEncapsulation" | PSigning => lit "Signing" | PIntegratedCipher => lit "IntegratedCipher"
  | PCipher => lit "Cipher" | PMAC => lit "MAC"
  end.
(** format.go:46-54 formatToolSecurityLevel. *)
Definition tool_level_cell (t : tool) : bytes :=
  if has_option t ONeedsSecurityLevel then lit "dynamic b/s (set manually via --seclevel)"
  else if (t_level t =? 0)%Z then [] else level_cell (t_level t).
(** format.go:151-160 formatSuiteStatus (suite.go:4-8). *)
Definition status_cell (s : N) : bytes :=
  if (s =? 0)%N then lit "DEPRECATED" else if (s =? 2)%N then lit "recommended" else [].
(** format.go:56-65, 67-78, 80-87, 89-100: the cells of a signet. *)
Definition name_cell (d : sdata) : bytes :=
  match d_info d with
  | Some i => if nonempty (in_name i) then in_name i else if nonempty (d_id d) then d_id d else lit "[unknown]"
  | None => if nonempty (d_id d) then d_id d else lit "[unknown]"
  end.
Definition keyed_scheme (d : sdata) : bool := bytes_eqb (d_scheme d) (lit "key") || bytes_eqb (d_scheme d) (lit "pw").
Definition type_cell (d : sdata) : bytes :=
  if bytes_eqb (d_scheme d) (lit "key") then lit "key" else if bytes_eqb (d_scheme d) (lit "pw") then lit "password"
  else if d_public d then lit "recipient" else lit "signet".
Definition scheme_cell (d : sdata) : bytes := if keyed_scheme d then [] else d_scheme d.
Definition signet_purpose_cell (reg : list tool) (d : sdata) : bytes :=
  if keyed_scheme d then [] else match tools_get reg (d_scheme d) with Ok t => purpose_cell (t_purpose t) | _ => lit "[unknown]" end.
(** cfg-signet.go:230-238, 250-257; [level]: format.go:102-122 formatSignetSecurityLevel, what the tool says of the key. *)
Definition signet_cells (reg : list tool) (level : sdata -> bytes) (d : sdata) : list bytes :=
  [name_cell d; type_cell d; scheme_cell d; signet_purpose_cell reg d; level d; d_id d].
(** cfg-signet.go:219-258, 276-280: the menu with the entry "done" on top. *)
Definition signet_menu (runes : bytes -> nat) (reg : list tool) (level : sdata -> bytes) (done : bytes) (all : list sdata) : list bytes :=
  format_columns runes ([done] :: map (signet_cells reg level) all).

(** strings.Join(tools, ", "). *)
Fixpoint comma_join (l : list bytes) : bytes :=
  match l with [] => [] | [x] => x | x :: r => x ++ lit ", " ++ comma_join r end.

(** ** cmd-list.go:20-73: the tables; [who], [what]: author and comment of a tool or hash tool. *)
Definition suite_cells (s : suite) : list bytes :=
  [su_id s; req_short (su_provides s); level_cell (su_level s); comma_join (su_tools s); status_cell (su_status s)].
Definition suites_table (suites : list suite) : list (list bytes) :=
  [lit "Name/ID"; lit "Provides"; lit "Security Level"; lit "Tools"; lit "Notes"] :: map suite_cells suites.
Definition tool_cells (who what : bytes -> bytes) (t : tool) : list bytes :=
  [t_name t; purpose_cell (t_purpose t); tool_level_cell t; who (t_name t); what (t_name t)].
Definition tools_table (who what : bytes -> bytes) (tools : list tool) : list (list bytes) :=
  [lit "Name/ID"; lit "Purpose"; lit "Security Level"; lit "Author"; lit "Comment"] :: map (tool_cells who what) tools.
Definition hash_cells (who what : bytes -> bytes) (h : hashtool) : list bytes :=
  [h_name h; level_cell (h_level h); who (h_name h); what (h_name h)].
Definition hashes_table (who what : bytes -> bytes) (hashes : list hashtool) : list (list bytes) :=
  [lit "Name/ID"; lit "Security Level"; lit "Author"; lit "Comment"] :: map (hash_cells who what) hashes.
(** What the command prints. *)
Definition println (l : bytes) : bytes := l ++ [x0a].
Definition list_command (runes : bytes -> nat) (who what : bytes -> bytes) (suites : list suite) (tools : list tool) (hashes : list hashtool) : bytes :=
  lit "Suites" ++ [x0a; x0a] ++ concat (map println (format_columns runes (suites_table suites)))
  ++ [x0a; x0a] ++ lit "Tools" ++ [x0a; x0a] ++ concat (map println (format_columns runes (tools_table who what tools)))
  ++ [x0a; x0a] ++ lit "HashTools" ++ [x0a; x0a] ++ concat (map println (format_columns runes (hashes_table who what hashes))).
