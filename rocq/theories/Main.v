(** cmd/main.go: the global flags, the environment, and what they set up for the commands.  Parameters: the environment, what
    os.Stat says about a path (None: an error, Some b: it is there, and is a directory or not), whether the self-check of a keyring
    works (Keyring.v), and what a trust store gives for an ID.  cobra's parsing of the command line is not modelled. *)
From Coq Require Import Init.Byte.
From Verif Require Import Prelude Requirements Tools Crypto Letter Session Core Envelope TrustStore FileSig Cmd CmdFiles CmdSign.

(** cmd/main.go:31-38; for a directory the path as it was given (it is cleaned again wherever it is used, TrustStore.v). *)
Inductive trust_store := DirStore (dir : bytes) | RingStore (name : bytes).
Record flags := mkFlags { fl_dir : bytes; fl_ring : bytes; fl_no : bytes; fl_level : Z; fl_keysize : Z }.
(** defaults.go:25-34. *)
Definition set_min_level (l : Z) (c : config) : config := mkConfig l l (c_default_ks c) (c_min_ks c).
Definition set_default_ks (k : Z) (c : config) : config := mkConfig (c_default_level c) (c_min_level c) k k.

Section Main.
Variables (env : bytes -> option bytes) (stat : path -> option bool) (ring_works : bytes -> bool).
Definition lookup_env (k : bytes) : bytes := match env k with Some v => v | None => [] end.
(** truststores/dir.go:244-262, keyring.go:28-47. *)
Definition new_dir_store (d : bytes) : outcome trust_store :=
  match stat (clean_path d) with Some true => Ok (DirStore d) | _ => Err EOther end.
Definition new_ring_store (n : bytes) : outcome trust_store := if ring_works n then Ok (RingStore n) else Err EOther.
(** A flag, or the first of two variables. *)
Definition flag_or_env (v k1 k2 : bytes) : bytes :=
  match v with
  | [] => match lookup_env k1 with [] => lookup_env k2 | v1 => v1 end
  | _ => v
  end.
(** cmd/main.go:62-90. *)
Definition pick_store (fl : flags) : outcome (option trust_store) :=
  match flag_or_env (fl_dir fl) (lit "JESS_TS_DIR") (lit "JESS_TSDIR") with
  | [] =>
      match flag_or_env (fl_ring fl) (lit "JESS_TS_KEYRING") (lit "JESS_TSKEYRING") with
      | [] => Ok None
      | n => do s <- new_ring_store n; Ok (Some s)
      end
  | d => do s <- new_dir_store d; Ok (Some s)
  end.
(** main.go:61-109 initGlobalFlags: the trust store, the requirements, and the settings of the process. *)
Definition setup := (option trust_store * option reqs * config)%type.
Definition init_global_flags (fl : flags) : outcome setup :=
  do st <- pick_store fl;
  do rq <- match fl_no fl with [] => Ok None | _ => do q <- parse_no_spec (fl_no fl); Ok (Some q) end;
  let c := if (0 <? fl_level fl)%Z then set_min_level (fl_level fl) default_config else default_config in
  let c := if (0 <? fl_keysize fl)%Z then set_default_ks (fl_keysize fl) c else c in
  Ok (st, rq, c).

(** The commands; those with PreRunE: requireTrustStore (main.go:111-116) stop without one. *)
Inductive command := Close | Configure | Generate | Manage | Sign | Verify | Open | Export | Backup | Import | Checksum | List | Version.
Definition requires_store (k : command) : bool :=
  match k with Close | Configure | Generate | Manage | Sign | Verify => true | _ => false end.
Definition start (fl : flags) (k : command) : outcome setup :=
  do s <- init_global_flags fl;
  match fst (fst s) with
  | None => if requires_store k then Err EOther else Ok s
  | Some _ => Ok s
  end.

(** The commands with what is set up.  registerPasswordCallbacks: cmd-open.go:31, cmd-close.go:31, cmd-sign.go:31. *)
Section Commands.
Variables (cr : crypto) (signets : trust_store -> bytes -> bool -> outcome signet) (envelopes : trust_store -> bytes -> outcome envelope).
Variables (ask_new : signet -> Z -> outcome signet) (ask : signet -> outcome signet).
Definition asking (st : option trust_store) : world := mkWorld (option_map signets st) (Some ask_new) (Some ask).
Definition silent (st : option trust_store) : world := mkWorld (option_map signets st) None None.
Definition envelope_of (st : option trust_store) (n : bytes) : outcome envelope := match st with Some s => envelopes s n | None => Panic end.
Definition launch (fl : flags) (k : command) (body : setup -> cmd) : cmd :=
  match start fl k with Ok s => body s | Err x => (Err x, []) | Panic => (Panic, []) end.

Definition jess_open fl sy parse d output args : cmd :=
  launch fl Open (fun '(st, rq, c) => open_cmd c cr (asking st) sy parse rq d output args).
Definition jess_close fl sy dump full d output args : cmd :=
  launch fl Close (fun '(st, rq, c) => close_cmd c cr (asking st) sy (envelope_of st) dump full d output args).
Definition jess_sign fl sy H dump dump_fd names metadata rest full d output args : cmd :=
  launch fl Sign (fun '(st, rq, c) => sign_cmd c cr (asking st) sy H dump dump_fd (envelope_of st) names metadata rest full d output args).
Definition jess_verify fl H load load_fd parse glob statf walk contents stdin confirm names metadata d args : outcome (list line) :=
  do (sr, c) <- start fl Verify;
  let (st, rq) := (sr : option trust_store * option reqs) in
  verify_cmd c cr (silent st) H load load_fd parse glob statf walk contents stdin confirm names metadata rq d args.
(** cmd-import-export.go:53, 100: a method of a nil interface is called. *)
Definition jess_export fl (body : trust_store -> bytes -> outcome bytes) args : outcome bytes :=
  do s <- start fl Export;
  match args with
  | [id] => match fst (fst s) with Some st => body st id | None => Panic end
  | _ => Err EOther
  end.
End Commands.
End Main.
