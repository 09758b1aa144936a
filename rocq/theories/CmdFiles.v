(** cmd/cmd-open.go, cmd/cmd-close.go, cmd/cmd-checksum.go: the commands that write files.
    A name leads to a file by [node], so that several names (relative names, links) may lead to the same file.  A command is its result
    ([Ok] is exit status 0) and the list of what it did; stopping it at any point leaves a prefix of that list done.  Nothing else changes
    files while a command runs.  Not modelled: cobra (flags, usage texts), the umask, the ownership of files. *)
From Coq Require Import Init.Byte.
From Verif Require Import Prelude Requirements Tools Crypto Letter Session Core Envelope Lhash Search Text Json Cmd.

(** What a name leads to: a file with its mode, or something else (a directory, ...) of some size, that is neither read nor written. *)
Inductive entry := File (mode : N) (content : bytes) | Special (size : Z).
Definition disk := nat -> option entry.
Inductive ask := AskBig (f : bytes) | AskOverwrite (f : bytes).
Inductive event :=
| Asked (q : ask)
| Opened (f : bytes) (mode : N)                  (* os.O_CREATE|os.O_TRUNC *)
| Wrote (f : bytes) (b : byte)
| Printed (b : byte).

Record system := mkSystem {
  sy_node : bytes -> nat;
  sy_disk : disk;
  sy_hidden : bytes -> bool;                     (* os.Stat fails, and not with fs.ErrNotExist *)
  sy_no_read : bytes -> bool;                    (* os.ReadFile fails *)
  sy_no_write : bytes -> bool;                   (* os.OpenFile for writing fails *)
  sy_room : bytes -> option nat;                 (* the write fails after so many bytes; "-" is stdout *)
  sy_no_close : bytes -> bool;                   (* Close fails *)
  sy_stdin : option bytes;
  sy_answer : ask -> option bool                 (* None: the question failed *)
}.

Definition upd (dk : disk) (n : nat) (x : entry) : disk := fun m => if (m =? n)%nat then Some x else dk m.
Definition apply (node : bytes -> nat) (dk : disk) (e : event) : disk :=
  match e with
  | Opened f mode => upd dk (node f) (File (match dk (node f) with Some (File m _) => m | _ => mode end) [])
  | Wrote f b => match dk (node f) with Some (File m c) => upd dk (node f) (File m (c ++ [b])) | _ => dk end
  | _ => dk
  end.
Definition disk_after (sy : system) (es : list event) : disk := fold_left (apply (sy_node sy)) es (sy_disk sy).
Definition printed (es : list event) : bytes := flat_map (fun e => match e with Printed b => [b] | _ => [] end) es.

Definition cmd := (outcome unit * list event)%type.
Definition after (es : list event) (k : cmd) : cmd := (fst k, es ++ snd k).
Definition try {A} (x : outcome A) (k : A -> cmd) : cmd := match x with Ok a => k a | Err e => (Err e, []) | Panic => (Panic, []) end.

Section Commands.
Variables (c : config) (cr : crypto) (w : world) (sy : system).

Inductive stat_result := Exists (size : Z) | Missing | Unknown.
Definition stat_file (f : bytes) : stat_result :=
  if sy_hidden sy f then Unknown
  else match sy_disk sy (sy_node sy f) with
       | Some (File _ b) => Exists (Z.of_nat (length b))
       | Some (Special n) => Exists n
       | None => Missing
       end.
Definition question (q : ask) (k : cmd) : cmd :=
  after [Asked q] match sy_answer sy q with None => (Err EOther, []) | Some false => (Ok tt, []) | Some true => k end.

(** cmd-open.go:47-62, cmd-close.go:58-73. *)
Definition check_input (f : bytes) (k : cmd) : cmd :=
  if bytes_eqb f stdio then k
  else match stat_file f with
       | Exists n => if (n >? warn_size)%Z then question (AskBig f) k else k
       | _ => (Err EOther, [])
       end.
(** cmd-open.go:63-77, cmd-close.go:74-88. *)
Definition check_output (f : bytes) (k : cmd) : cmd :=
  if bytes_eqb f stdio then k
  else match stat_file f with
       | Exists _ => question (AskOverwrite f) k
       | Missing => k
       | Unknown => (Err EOther, [])
       end.
(** cmd-open.go:79-88, cmd-close.go:90-99. *)
Definition load_file (f : bytes) : outcome bytes :=
  if bytes_eqb f stdio then of_option EOther (sy_stdin sy)
  else if sy_no_read sy f then Err EOther
       else match sy_disk sy (sy_node sy f) with Some (File _ b) => Ok b | _ => Err EOther end.
(** Writing, up to the place where it fails. *)
Definition feed (f : bytes) (put : byte -> event) (data : bytes) : cmd :=
  match sy_room sy f with
  | Some n => if (n <? length data)%nat then (Err EOther, map put (firstn n data))
              else (if sy_no_close sy f then Err EOther else Ok tt, map put data)
  | None => (if sy_no_close sy f then Err EOther else Ok tt, map put data)
  end.
(** cmd-open.go:107-132, cmd-close.go:113-134 (container.WriteAllTo writes the parts one after the other), os.WriteFile. *)
Definition write_file (f : bytes) (mode : N) (data : bytes) : cmd :=
  if sy_no_write sy f then (Err EOther, [])
  else match sy_disk sy (sy_node sy f) with
       | Some (Special _) => (Err EOther, [])
       | _ => after [Opened f mode] (feed f (Wrote f) data)
       end.
Definition write_out (f : bytes) (data : bytes) : cmd :=
  if bytes_eqb f stdio then feed f Printed data else write_file f 384 data.            (* 0o600 *)

(** cmd-open.go:30-133 RunE.  [output]: the --output flag; [requirements]: from the --no flag. *)
Section Open.
Variables (parse_letter : bytes -> outcome raw_letter) (requirements : option reqs) (d : nat).
Definition open_name (output f : bytes) : outcome bytes :=
  match output with
  | [] => if negb (has_suffix (lit ".letter") f) || (length f <? 8)%nat then Err EOther else Ok (trim_suffix (lit ".letter") f)
  | _ => Ok output
  end.
Definition open_cmd (output : bytes) (args : list bytes) : cmd :=
  match args with
  | [f] =>
      try (open_name output f) (fun out =>
      check_input f (check_output out (
      try (load_file f) (fun data =>
      try (parse_letter data) (fun l =>
      let reqs := match requirements with Some q => q | None => newRequirements end in
      try (letter_open c suite_registry tool_registry hash_registry cr w (Some reqs) l d) (fun plain =>
      write_out out plain))))))
  | _ => (Err EOther, [])
  end.
End Open.

(** cmd-close.go:29-135 RunE. *)
Section Close.
Variables (get_envelope : bytes -> outcome envelope) (dump : letter -> outcome bytes) (full : bool) (d : nat).
Definition close_name (output f : bytes) : outcome bytes :=
  match output with
  | [] => if has_suffix ext_letter f then Err EOther else Ok (f ++ ext_letter)
  | _ => Ok output
  end.
Definition close_cmd (output : bytes) (args : list bytes) : cmd :=
  match args with
  | [f; kw; name] =>
      if bytes_eqb kw (lit "with") then
        try (get_envelope name) (fun e =>
        try (correspondence c suite_registry tool_registry hash_registry cr w e) (fun s =>
        try (close_name output f) (fun out =>
        check_input f (check_output out (
        try (load_file f) (fun data =>
        try (fst (close_session c cr s full data (rt_start d None))) (fun l =>
        try (fst (to_file_format dump l)) (fun text =>
        write_out out text))))))))
      else (Err EOther, [])
  | _ => (Err EOther, [])
  end.
End Close.

(** cmd-checksum.go:43-81 handleChecksumAdd, 83-111 handleChecksumVerify.  [parse] is the tree of a JSON text, [render] the text of a tree. *)
Section Checksum.
Variables (esc unesc : bytes -> bytes) (render : json -> bytes) (parse : bytes -> option json) (H : N -> bytes -> bytes).
(** filepath.Ext: from the last dot of the last element on. *)
Fixpoint ext_rev (r acc : bytes) : bytes :=
  match r with
  | [] => []
  | b :: r' => if byte_eqb b x2f then [] else if byte_eqb b x2e then b :: acc else ext_rev r' (b :: acc)
  end.
Definition file_ext (f : bytes) : bytes := ext_rev (rev f) [].
Definition add_checksum (f data : bytes) : outcome bytes :=
  let x := file_ext f in
  if bytes_eqb x (lit ".json") then do j <- add_json_checksum esc unesc render H (parse data); Ok (render j)
  else if bytes_eqb x (lit ".yml") || bytes_eqb x (lit ".yaml") then add_yaml_checksum H data AfterComment
  else if bytes_eqb x (lit ".txt") then add_text_checksum H data (lit "#") AfterComment
  else Err EOther.
Definition check_checksum (f data : bytes) : outcome unit :=
  let x := file_ext f in
  if bytes_eqb x (lit ".json") then verify_json_checksum unesc render H (parse data)
  else if bytes_eqb x (lit ".yml") || bytes_eqb x (lit ".yaml") then verify_yaml_checksum H data
  else if bytes_eqb x (lit ".txt") then verify_text_checksum H data (lit "#")
  else Err EOther.
(** os.ReadFile of the name, also if it is "-". *)
Definition read_file (f : bytes) : outcome bytes :=
  if sy_no_read sy f then Err EOther
  else match sy_disk sy (sy_node sy f) with Some (File _ b) => Ok b | _ => Err EOther end.
Definition checksum_add_cmd (args : list bytes) : cmd :=
  match args with
  | [f] =>
      try (read_file f) (fun data =>
      try (add_checksum f data) (fun out =>
      match stat_file f, sy_disk sy (sy_node sy f) with
      | Exists _, Some (File mode _) => write_file f mode out
      | _, _ => (Err EOther, [])
      end))
  | _ => (Err EOther, [])
  end.
Definition checksum_verify_cmd (args : list bytes) : cmd :=
  match args with
  | [f] => try (read_file f) (fun data => (check_checksum f data, []))
  | _ => (Err EOther, [])
  end.
End Checksum.
End Commands.
