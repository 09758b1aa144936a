(** Specification of the commands that write files (C57-C59): what a run, stopped at any point, may have done. *)
From Verif Require Import Prelude Requirements Tools Crypto Letter Session Core Envelope Cmd CmdFiles.

Section Spec.
Variable sy : system.

(** A run in which [done] happened changed no file and printed nothing. *)
Definition nothing (done : list event) : Prop := (forall n, disk_after sy done n = sy_disk sy n) /\ printed done = [].
(** A run in which [done] happened wrote [part] to [out] ("-" is stdout) and changed nothing else.  A file that was there
    keeps its mode, a new one has the mode [mode]. *)
Definition wrote (out : bytes) (mode : N) (part : bytes) (done : list event) : Prop :=
  (out = lit "-" /\ printed done = part /\ forall n, disk_after sy done n = sy_disk sy n)
  \/ (out <> lit "-" /\ printed done = []
      /\ (exists m, disk_after sy done (sy_node sy out) = Some (File m part)
            /\ ((exists old, sy_disk sy (sy_node sy out) = Some (File m old)) \/ (sy_disk sy (sy_node sy out) = None /\ m = mode)))
      /\ forall n, n <> sy_node sy out -> disk_after sy done n = sy_disk sy n).

(** What is read from a name ("-" is stdin). *)
Definition reads (f data : bytes) : Prop :=
  (f = lit "-" /\ sy_stdin sy = Some data)
  \/ (f <> lit "-" /\ exists m, sy_disk sy (sy_node sy f) = Some (File m data)).

Definition entry_size (e : entry) : Z := match e with File _ b => Z.of_nat (length b) | Special n => n end.
Definition present (f : bytes) : Prop := f <> lit "-" /\ exists e, sy_disk sy (sy_node sy f) = Some e.
Definition big (f : bytes) : Prop := f <> lit "-" /\ exists e, sy_disk sy (sy_node sy f) = Some e /\ (entry_size e > 12000000)%Z.
(** The user was asked [q] during [done] and agreed. *)
Definition agreed (q : ask) (done : list event) : Prop := In (Asked q) done /\ sy_answer sy q = Some true.
(** The user does not want to load a big input file, or not to overwrite the output file. *)
Definition refused (f out : bytes) : Prop :=
  (big f /\ sy_answer sy (AskBig f) = Some false)
  \/ (present out /\ sy_answer sy (AskOverwrite out) = Some false).
(** The user was asked what there was to ask and agreed. *)
Definition consented (f out : bytes) (done : list event) : Prop :=
  (big f -> agreed (AskBig f) done) /\ (present out -> agreed (AskOverwrite out) done).

(** Nothing stands in the way: the system lets the command read [f] and write all of [data] to [out]. *)
Definition readable (f : bytes) : Prop := f = lit "-" \/ (sy_hidden sy f = false /\ sy_no_read sy f = false).
Definition writable_file (out data : bytes) : Prop :=
  (forall n, sy_room sy out = Some n -> (length data <= n)%nat) /\ sy_no_close sy out = false
  /\ (out = lit "-" \/ (sy_hidden sy out = false /\ sy_no_write sy out = false /\ forall z, sy_disk sy (sy_node sy out) <> Some (Special z))).
Definition agreeable (f out : bytes) : Prop :=
  (big f -> sy_answer sy (AskBig f) = Some true) /\ (present out -> sy_answer sy (AskOverwrite out) = Some true).
End Spec.

(** The names of the output files: given, or derived from the input. *)
Definition open_output (flag f out : bytes) : Prop :=
  (flag <> [] /\ out = flag) \/ (flag = [] /\ out <> [] /\ f = out ++ lit ".letter").
Definition close_output (flag f out : bytes) : Prop :=
  (flag <> [] /\ out = flag) \/ (flag = [] /\ out = f ++ lit ".letter" /\ forall a, f <> a ++ lit ".letter").

(** The plaintext of a letter file that opens with the requirements: by default all four. *)
Definition authentic (c : config) (cr : crypto) (w : world) (parse : bytes -> outcome raw_letter) (requirements : option reqs) (d : nat)
  (data plain : bytes) : Prop :=
  exists l, parse data = Ok l
    /\ letter_open c suite_registry tool_registry hash_registry cr w
         (Some match requirements with Some q => q | None => [Confidentiality; Integrity; RecipientAuthentication; SenderAuthentication] end) l d = Ok plain.
(** The letter file that the envelope [name] of the trust store makes of [data]. *)
Definition sealed (c : config) (cr : crypto) (w : world) (get_envelope : bytes -> outcome envelope) (dump : letter -> outcome bytes) (full : bool) (d : nat)
  (name data text : bytes) : Prop :=
  exists e s l r, get_envelope name = Ok e /\ correspondence c suite_registry tool_registry hash_registry cr w e = Ok s
    /\ close_session c cr s full data (rt_start d None) = (Ok l, r) /\ fst (to_file_format dump l) = Ok text.

(** The system after a run. *)
Definition then_ (sy : system) (es : list event) : system :=
  mkSystem (sy_node sy) (disk_after sy es) (sy_hidden sy) (sy_no_read sy) (sy_no_write sy) (sy_room sy) (sy_no_close sy) (sy_stdin sy) (sy_answer sy).
(** The kinds of files with checksums, by their names. *)
Definition json_name (f : bytes) : Prop := exists a, f = a ++ lit ".json".
Definition text_name (f : bytes) : Prop := exists a, f = a ++ lit ".yml" \/ f = a ++ lit ".yaml" \/ f = a ++ lit ".txt".
