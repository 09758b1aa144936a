(** cmd/cmd-sign.go: the sign command, on the system of CmdFiles.v. *)
From Coq Require Import Init.Byte.
From Verif Require Import Prelude Requirements Tools Crypto Letter Session Core Envelope Lhash Search FileSig Report Cmd CmdFiles.

Section Sign.
Variables (c : config) (cr : crypto) (w : world) (sy : system) (H : N -> bytes -> bytes).
Variables (dump : letter -> outcome bytes) (dump_fd : filedata -> outcome bytes) (get_envelope : bytes -> outcome envelope).
Variables (names : bytes -> option (option bytes)).                (* see Report.v *)
Variables (metadata : list (bytes * bytes)) (rest : bytes) (full : bool) (d : nat).    (* the --metadata flag; for the others see FileSig.v *)

(** cmd-sign.go:43-51. *)
Definition sign_name (output f : bytes) : outcome bytes :=
  match output with
  | [] => if has_suffix ext_sig f then Err EOther else Ok (f ++ ext_sig)
  | _ => Ok output
  end.
(** helpers.go:37-46: the data, "-" is stdin; 54: os.ReadFile of the signature file, also if it is called "-". *)
Definition sign_source (f : bytes) : source := FromFile match load_file sy f with Ok b => Some b | _ => None end.
Definition sign_old (out : bytes) : sig_read :=
  if sy_no_read sy out then SigError
  else match sy_disk sy (sy_node sy out) with
       | None => SigMissing
       | Some (File _ b) => SigText b
       | Some (Special _) => SigError
       end.
(** fmt.Print: the error is ignored. *)
Definition print (t : bytes) : list event := map Printed match sy_room sy stdio with Some n => firstn n t | None => t end.
(** FileData as SignFileData leaves it (filesig/main.go:59-79): with its hash, without a letter. *)
Definition unsigned (fd : filedata) : shown :=
  mkShown None None (match lh_load (fd_hash fd) with Ok h => Some h | _ => None end) (fd_meta fd).
(** cmd-sign.go:29-60 RunE.  The signature file is written as it is called (helpers.go:73-76); no question is asked. *)
Definition sign_cmd (output : bytes) (args : list bytes) : cmd :=
  match args with
  | [f; kw; name] =>
      if bytes_eqb kw (lit "with") then
        try (get_envelope name) (fun e =>
        try (sign_name output f) (fun out =>
        try (sign_file c cr w H dump dump_fd (sign_source f) (sign_old out) e metadata rest full d) (fun x =>
        match write_file sy out 420 (fst x) with                   (* 0o0644 *)
        | (Ok _, es) => try (format_signatures names f out [unsigned (snd x)]) (fun t => (Ok tt, es ++ print t))
        | (r, es) => (r, es)
        end)))
      else (Err EOther, [])
  | _ => (Err EOther, [])
  end.
End Sign.
