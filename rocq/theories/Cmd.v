(** cmd/cmd-verify.go: the verify command.  Parameters: what filepath.Glob, os.Stat and filepath.Walk find, what the files
    contain, what the user answers when asked about a big file, and the parser of letter files.  Nothing changes the files
    while the command runs.  The texts of errors and warnings are left out. *)
From Coq Require Import Init.Byte.
From Verif Require Import Prelude Requirements Tools Crypto Letter Session Core Envelope Lhash Search Armor FileSig Report.

(** What the command prints: "[ OK ] f signed by a, b", "[FAIL] f failed to verify: ...", "[WARN] f failed to read: ...", or a
    text. *)
Inductive line := LOk (f : bytes) (signed_by : list bytes) | LFail (f : bytes) | LWarn (f : bytes) | LText (t : bytes).
Record stat_info := mkStat { st_dir : bool; st_size : Z }.

Section Verify.
Variables (c : config) (cr : crypto) (w : world) (H : N -> bytes -> bytes).
Variables (load : bytes -> option raw_letter) (load_fd : bytes -> option filedata).      (* DSD codecs *)
Variable parse_letter : bytes -> outcome raw_letter.                                      (* LetterFromFileFormat *)
Variables (glob : bytes -> option (list bytes)) (stat : bytes -> option stat_info).
Variable walk : bytes -> list (bytes * bool).           (* the paths visited, and whether there was an error at it *)
Variables (contents : bytes -> option bytes) (stdin : bytes).
Variable confirm : bytes -> option bool.                (* None: the question failed *)
Variable names : bytes -> option (option bytes).        (* trustStore.GetSignet(id, true), see Report.v *)
Variables (metadata : list (bytes * bytes)) (requirements : option reqs) (d : nat).

Definition stdio : bytes := lit "-".
Definition ext_letter : bytes := lit ".letter".
Definition ext_sig : bytes := lit ".sig".
Definition warn_size : Z := 12000000.

(** cmd-verify.go:164-236 verifyLetter: the signers, and what is printed if not [silent].  `return nil, nil` if the user
    declines. *)
Definition verify_letter_rest (silent : bool) (f : bytes) : outcome (list bytes * list line) :=
  do data <- of_option EOther (if bytes_eqb f stdio then Some stdin else contents f);
  do r <- parse_letter data;
  let reqs := match requirements with Some q => q | None => req_remove (req_remove newRequirements Confidentiality) RecipientAuthentication end in
  do _ <- letter_verify c suite_registry tool_registry hash_registry cr w (Some reqs) r d;
  do signed_by <- mapM (signer names) (rw_sigs r);
  Ok (signed_by, if silent then [] else [LText (ln (lit "Verification: OK") ++ ln (lit "Signed By: " ++ join (lit ", ") signed_by))]).
Definition verify_letter (silent : bool) (f : bytes) : outcome (list bytes * list line) :=
  do _ <- guard (match metadata with [] => true | _ => false end) EOther;
  if bytes_eqb f stdio then verify_letter_rest silent f
  else
    do info <- of_option EOther (stat f);
    if (st_size info >? warn_size)%Z then
      match confirm f with
      | None => Err EOther
      | Some false => Ok ([], [])
      | Some true => verify_letter_rest silent f
      end
    else verify_letter_rest silent f.

(** cmd-verify.go:238-262 verifySig, with filesig.VerifyFile of the file and its signature file.  If that gives no error, each
    letter of the signature file has its FileData, in order, and the hash in it is well-formed. *)
Definition shown_of (x : raw_letter * filedata) : shown :=
  mkShown None (Some (rw_sigs (fst x))) (match lh_load (fd_hash (snd x)) with Ok h => Some h | _ => None end) (fd_meta (snd x)).
Definition verify_sig (silent : bool) (f : bytes) : outcome (list bytes * list line) :=
  let src := if bytes_eqb f stdio then FromStdin stdin else FromFile (contents f) in
  do (results, e) <- verify_file c cr w H load load_fd src (contents (f ++ ext_sig)) metadata d;
  if (e : bool) then Err EOther else
  match contents (f ++ ext_sig) with
  | None => Err EOther
  | Some text =>
      let letters := fst (parse_sig_file load text) in
      if silent then do signed_by <- mapM (signer names) (flat_map rw_sigs letters); Ok (signed_by, [])
      else do t <- format_signatures names f (f ++ ext_sig) (map shown_of (combine letters (map fst (results : list (filedata * bool))))); Ok ([], [LText t])
  end.

(** cmd-verify.go:120-162 verify: the error, the names remembered, what is printed.  A file that is
    remembered is not looked at again. *)
Definition is_letter (f : bytes) : bool := bytes_eqb f stdio || has_suffix ext_letter f.
Definition base (f : bytes) : bytes := trim_suffix ext_sig f.
Definition verify (bulk : bool) (seen : list bytes) (f : bytes) : outcome (bool * list bytes * list line) :=
  if existsb (bytes_eqb f) seen then Ok (true, seen, [])
  else if is_letter f then
    match verify_letter bulk f with
    | Panic => Panic
    | Ok (by_, ls) => Ok (true, f :: seen, if bulk then [LOk f by_] else ls)
    | Err _ => Ok (false, f :: seen, if bulk then [LFail f] else [])
    end
  else
    let b := base f in
    match verify_sig bulk b with
    | Panic => Panic
    | Ok (by_, ls) => Ok (true, (b ++ ext_sig) :: b :: seen, if bulk then [LOk b by_] else ls)
    | Err _ => Ok (false, (b ++ ext_sig) :: b :: seen, if bulk then [LFail b] else [])
    end.

(** The counters of the command (fails, warnings), the names seen and the lines printed. *)
Record tally := mkTally { ta_fails : nat; ta_warns : nat; ta_seen : list bytes; ta_lines : list line }.
Definition check (t : tally) (f : bytes) : outcome tally :=
  do (r, ls) <- verify true (ta_seen t) f;
  let (ok, seen) := (r : bool * list bytes) in
  Ok (mkTally (if ok then ta_fails t else S (ta_fails t)) (ta_warns t) seen (ta_lines t ++ ls)).
Definition warn (t : tally) (f : bytes) : tally := mkTally (ta_fails t) (S (ta_warns t)) (ta_seen t) (ta_lines t ++ [LWarn f]).
(** cmd-verify.go:75-99: the callback never returns an error, so neither does filepath.Walk. *)
Fixpoint visit (entries : list (bytes * bool)) (t : tally) : outcome tally :=
  match entries with
  | [] => Ok t
  | (p, true) :: r => visit r (warn t p)
  | (p, false) :: r =>
      if has_suffix ext_sig p || has_suffix ext_letter p then do t' <- check t p; visit r t' else visit r t
  end.
(** cmd-verify.go:66-104. *)
Fixpoint go_through (files : list bytes) (t : tally) : outcome tally :=
  match files with
  | [] => Ok t
  | f :: r =>
      match stat f with
      | None => go_through r (warn t f)
      | Some info => do t' <- (if st_dir info then visit (walk f) t else check t f); go_through r t'
      end
  end.
(** cmd-verify.go:56-64: a pattern without matches adds nothing. *)
Fixpoint resolve (args : list bytes) : outcome (list bytes) :=
  match args with
  | [] => Ok []
  | a :: r => do m <- of_option EOther (glob a); do l <- resolve r; Ok (m ++ l)
  end.
Definition bulk (args : list bytes) : outcome (list line) :=
  do files <- resolve args;
  do t <- go_through files (mkTally 0 0 [] []);
  if (0 <? ta_fails t)%nat || (0 <? ta_warns t)%nat then Err EOther else Ok (ta_lines t).
(** cmd-verify.go:30-115 RunE: [Ok] is exit status 0. *)
Definition verify_cmd (args : list bytes) : outcome (list line) :=
  match args with
  | [a] =>
      do m <- of_option EOther (glob a);
      match m with
      | [] => Err EOther
      | [f] =>
          do info <- of_option EOther (stat f);
          if st_dir info then bulk args
          else do (r, ls) <- verify false [] f; if fst (r : bool * list bytes) then Ok ls else Err EOther
      | _ => bulk args
      end
  | _ => bulk args
  end.
End Verify.
