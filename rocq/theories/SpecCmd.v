(** Specification of the verify command (C45). *)
From Verif Require Import Prelude Requirements Tools Crypto Letter Session Core Envelope Lhash Search Armor FileSig SpecFile Cmd.

Section Spec.
Variables (c : config) (cr : crypto) (w : world) (H : N -> bytes -> bytes).
Variables (load : bytes -> option raw_letter) (load_fd : bytes -> option filedata).
Variable parse_letter : bytes -> outcome raw_letter.
Variables (glob : bytes -> option (list bytes)) (stat : bytes -> option stat_info) (walk : bytes -> list (bytes * bool)).
Variables (contents : bytes -> option bytes) (stdin : bytes) (confirm : bytes -> option bool).
Variables (metadata : list (bytes * bytes)) (requirements : option reqs) (d : nat).

(** The letter file (or stdin) holds a letter that verifies with the trust store for the requirements: by default
    integrity and sender authentication. *)
Definition letter_genuine (f : bytes) : Prop :=
  exists data r, (if bytes_eqb f (lit "-") then data = stdin else contents f = Some data) /\ parse_letter data = Ok r
    /\ letter_verify c suite_registry tool_registry hash_registry cr w
         (Some match requirements with Some q => q | None => [Integrity; SenderAuthentication] end) r d = Ok tt.
(** The file has a signature file beside it with at least one letter, all its sections are readable, and each letter is a
    valid signature of the file with the metadata asked for. *)
Definition file_genuine (f : bytes) : Prop :=
  exists data text letters, contents f = Some data /\ contents (f ++ lit ".sig") = Some text /\ parse_sig_file load text = (letters, false)
    /\ letters <> [] /\ forall r, In r letters -> exists fd, signature_of c cr w H load_fd metadata d data r fd.
(** [f] is checked: a letter, or a file with its signature file, by either name. *)
Inductive letter_name : bytes -> Prop := LN_stdin : letter_name (lit "-") | LN_ext a : letter_name (a ++ lit ".letter").
Inductive verified (f : bytes) : Prop :=
  | V_letter : letter_name f -> letter_genuine f -> verified f
  | V_file : ~ letter_name f -> (forall a, f <> a ++ lit ".sig") -> file_genuine f -> verified f
  | V_sig a : ~ letter_name f -> f = a ++ lit ".sig" -> file_genuine a -> verified f.
(** The user did not want to load a big letter. *)
Definition declined (f : bytes) : Prop := letter_name f /\ (exists i, stat f = Some i /\ (st_size i > 12000000)%Z) /\ confirm f = Some false.

(** The files to check: what the patterns match, and in directories the letters and signature files. *)
Definition matched (args : list bytes) (f : bytes) : Prop := exists a m, In a args /\ glob a = Some m /\ In f m.
Inductive target (args : list bytes) (t : bytes) : Prop :=
  | T_file i : matched args t -> stat t = Some i -> st_dir i = false -> target args t
  | T_in f i : matched args f -> stat f = Some i -> st_dir i = true -> In (t, false) (walk f) -> (exists a, t = a ++ lit ".sig" \/ t = a ++ lit ".letter") -> target args t.
(** A target that also has a signature file of its own among the targets, while being itself a letter or signature file. *)
Definition shadowed (args : list bytes) (t : bytes) : Prop := target args (t ++ lit ".sig") /\ exists a, t = a ++ lit ".sig" \/ t = a ++ lit ".letter" \/ t = lit "-".
End Spec.
