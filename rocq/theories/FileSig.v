(** filesig/helpers.go and filesig/main.go: signing and verifying files.
    Parameters: [H] the digest functions, [dump]/[load] the CBOR codec of letters, [dump_fd]/[load_fd] the MsgPack
    codec of FileData (dsd, third party).  SignedAt is part of [fd_rest] (opaque).  The file system is modelled
    by the contents the calls read and write. *)
From Coq Require Import Init.Byte.
From Verif Require Import Prelude Requirements Tools Crypto Letter Session Core Envelope Lhash Search Armor.

(** filesig/main.go:15-17 *)
Definition file_sig_reqs : reqs := req_remove (req_remove newRequirements RecipientAuthentication) Confidentiality.

(** filesig/main.go:19-29.  A Go map is an association list; the first entry counts. *)
Record filedata := FD { fd_hash : bytes; fd_meta : list (bytes * bytes); fd_rest : bytes }.
Fixpoint assoc {A} (k : bytes) (l : list (bytes * A)) : option A :=
  match l with
  | [] => None
  | (k', v) :: r => if bytes_eqb k' k then Some v else assoc k r
  end.

(** Where VerifyFile reads the data from: a file (None: it cannot be read), or stdin with the bytes that are
    still unread. *)
Inductive source := FromFile (o : option bytes) | FromStdin (unread : bytes).
(** Reading everything: stdin is empty afterwards. *)
Definition read_source (s : source) : option bytes * source :=
  match s with
  | FromFile o => (o, s)
  | FromStdin b => (Some b, FromStdin [])
  end.

Section FileSig.
Variables (c : config) (cr : crypto) (w : world) (H : N -> bytes -> bytes).
Variables (load : bytes -> option raw_letter) (load_fd : bytes -> option filedata).
Variables (dump : letter -> outcome bytes) (dump_fd : filedata -> outcome bytes).

(** filesig/main.go:102-113: every required entry is in the signed metadata. *)
Definition meta_ok (required meta : list (bytes * bytes)) : bool :=
  forallb (fun kv => match assoc (fst kv) meta with Some v => bytes_eqb v (snd kv) | None => false end) required.

(** main.go:85-123 VerifyFileData: the file data if it could be parsed, and its hash if there was no error. *)
Definition verify_file_data (r : raw_letter) (required : list (bytes * bytes)) (d : nat) : outcome (option filedata * option lhash) :=
  match load_fd (l_data (rw_letter r)) with
  | None => Ok (None, None)
  | Some fd =>
      match letter_open c suite_registry tool_registry hash_registry cr w (Some file_sig_reqs) r d with
      | Panic => Panic
      | Err _ => Ok (Some fd, None)
      | Ok _ =>
          if meta_ok required (fd_meta fd) then
            match lh_load (fd_hash fd) with
            | Ok h => Ok (Some fd, Some h)
            | Err _ => Ok (Some fd, None)
            | Panic => Panic
            end
          else Ok (Some fd, None)
      end
  end.

(** helpers.go:105-146: good results, bad results, whether there was an error. *)
Fixpoint verify_all (sigs : list raw_letter) (required : list (bytes * bytes)) (src : source) (d : nat)
  : outcome (list filedata * list filedata * bool) :=
  match sigs with
  | [] => Ok ([], [], false)
  | r :: rest =>
      do v <- verify_file_data r required d;
      match v with
      | (Some fd, Some h) =>
          let (content, src') := read_source src in
          do (gb, e) <- verify_all rest required src' d;
          let (good, bad) := (gb : list filedata * list filedata) in
          match content with
          | None => Ok (good, fd :: bad, true)
          | Some data =>
              do h' <- lh_of H (lh_alg h) data;
              if lh_equal h h' then Ok (fd :: good, bad, e) else Ok (good, fd :: bad, true)
          end
      | (o, _) =>
          do (gb, e) <- verify_all rest required src d;
          let (good, bad) := (gb : list filedata * list filedata) in
          Ok (good, match o with Some fd => fd :: bad | None => bad end, true)
      end
  end.

(** helpers.go:85-147 VerifyFile; [sigfile]: content of the signature file (None: cannot be read).  The results
    carry their verification status (FileData.VerificationError() == nil). *)
Definition verify_file (src : source) (sigfile : option bytes) (required : list (bytes * bytes)) (d : nat)
  : outcome (list (filedata * bool) * bool) :=
  match sigfile with
  | None => Ok ([], true)
  | Some text =>
      match parse_sig_file load text with
      | ([], _) => Ok ([], true)
      | (sigs, warn) =>
          do (gb, e) <- verify_all sigs required src d;
          let (good, bad) := (gb : list filedata * list filedata) in
          Ok (map (fun fd => (fd, true)) good ++ map (fun fd => (fd, false)) bad, warn || e)
      end
  end.

(** hashtools/*.go: the labeled algorithm of each registered hash tool. *)
Definition labeled_alg (name : bytes) : option N :=
  assoc name
    [ (lit "SHA2-224", 8); (lit "SHA2-256", 9); (lit "SHA2-384", 10); (lit "SHA2-512", 11);
      (lit "SHA2-512-224", 12); (lit "SHA2-512-256", 13);
      (lit "SHA3-224", 16); (lit "SHA3-256", 17); (lit "SHA3-384", 18); (lit "SHA3-512", 19);
      (lit "BLAKE2s-256", 24); (lit "BLAKE2b-256", 25); (lit "BLAKE2b-384", 26); (lit "BLAKE2b-512", 27);
      (lit "BLAKE3", 32) ]%N.

Fixpoint trim_left (cut l : bytes) : bytes :=
  match l with
  | x :: r => if existsb (byte_eqb x) cut then trim_left cut r else l
  | [] => []
  end.
Definition trim_chars (cut l : bytes) : bytes := rev (trim_left cut (rev (trim_left cut l))).
Definition paren_open : byte := x28.
Definition until (b : byte) (l : bytes) : bytes := match find_sub [b] l with Some (a, _) => a | None => l end.
(** helpers.go:24-35: the hash of the first tool that names one. *)
Fixpoint suite_hash_alg (tools : list bytes) : option N :=
  match tools with
  | [] => None
  | t :: r => match find_sub [paren_open] t with
              | Some (_, rest) => labeled_alg (trim_chars (lit "()") (until paren_open rest))
              | None => suite_hash_alg r
              end
  end.

(** main.go:47-80 SignFileData; [rest] is what is signed besides hash and metadata (the time). *)
Definition sign_file_data (e : envelope) (h : lhash) (meta : list (bytes * bytes)) (rest : bytes) (full : bool) (d : nat)
  : outcome (letter * filedata) :=
  do s <- correspondence c suite_registry tool_registry hash_registry cr w e;
  do su <- load_suite suite_registry e;
  do _ <- req_check (su_provides su) file_sig_reqs;
  let fd := FD (lh_bytes h) meta rest in
  do data <- dump_fd fd;
  do l <- fst (close_session c cr s full data (rt_start d None));
  Ok (l, fd).

(** What os.ReadFile of the signature file gives. *)
Inductive sig_read := SigMissing | SigError | SigText (t : bytes).
(** helpers.go:18-79 SignFile: the new content of the signature file. *)
Definition sign_file (src : source) (sr : sig_read) (e : envelope) (meta : list (bytes * bytes)) (rest : bytes) (full : bool) (d : nat)
  : outcome (bytes * filedata) :=
  do su <- load_suite suite_registry e;
  do alg <- of_option EOther (suite_hash_alg (su_tools su));
  do content <- of_option EOther (fst (read_source src));
  do h <- lh_of H alg content;
  do (l, fd) <- sign_file_data e h meta rest full d;
  match sr with
  | SigText t => do new <- add_to_sig_file dump l t true; Ok (new, fd)
  | SigMissing => do new <- make_section dump l; Ok (new, fd)
  | SigError => Err EOther
  end.
End FileSig.
