(** cmd/password.go: how the command line tool asks for passwords, and the lookup of leaked passwords.  Parameters: SHA-1, what
    the lookup service answers, the arithmetic of Password.v.  survey asks again as long as its validator refuses an answer. *)
From Coq Require Import Init.Byte.
From Verif Require Import Prelude Tools Crypto Session Encodings Search Text Password.

(** An answer on the terminal; None: interrupted. *)
Definition answer := option bytes.
(** What leaves the program: a request for the list of a prefix, and what is logged. *)
Inductive trace := Requested (prefix : bytes) | Logged (line : bytes).
(** What http.Get gives: the status (which nobody looks at), the body, and whether reading it ended in an error. *)
Record response := mkResponse { rs_status : N; rs_body : bytes; rs_broken : bool }.
(** strings.ToUpper of hex digits. *)
Definition to_upper (b : byte) : byte := if ((97 <=? b2n b) && (b2n b <=? 122))%N then n2b (b2n b - 32) else b.
(** bufio.ScanLines: without the line break, and without a carriage return before it. *)
Definition chomp (l : bytes) : bytes := let l' := trim_suffix [x0a] l in trim_suffix [x0d] l'.
Fixpoint until_too_long (ls : list bytes) : list bytes :=
  match ls with [] => [] | l :: r => if line_fits l then l :: until_too_long r else [] end.

Section Ask.
Variables (fl : floats) (sha1 : bytes -> bytes) (http_get : bytes -> option response).
(** password.go:105-148 checkForWeakPassword.  The second log line, with the fields, is left out. *)
Definition check_weak (pw : bytes) : outcome unit * list trace :=
  let sum := hex_encode (sha1 pw) in
  let prefix := map to_upper (firstn 5 sum) in
  let suffix := map to_upper (skipn 5 sum) in
  match http_get prefix with
  | None => (Err EOther, [Requested prefix])
  | Some rs =>
      let ls := raw_lines [] (rs_body rs) in
      match find (has_prefix suffix) (map chomp (until_too_long ls)) with
      | Some l => (Err EOther, [Requested prefix; Logged l])
      | None => (if forallb line_fits ls && negb (rs_broken rs) then Ok tt else Err EOther, [Requested prefix])
      end
  end.
(** survey.AskOne with a validator. *)
Fixpoint ask_valid (valid : bytes -> bool) (answers : list answer) : option (bytes * list answer) :=
  match answers with
  | [] | None :: _ => None
  | Some a :: r => if valid a then Some (a, r) else ask_valid valid r
  end.
(** password.go:54-103 createPassword; [check]: the answer to the last question. *)
Definition create (answers : list answer) (check : option bool) (min_level : Z) : outcome bytes * list trace :=
  match ask_valid (fun pw => negb (password_level fl pw 20000 <? min_level)%Z) answers with
  | None => (Err EOther, [])
  | Some (pw1, r) =>
      match r with
      | Some pw2 :: _ =>
          if bytes_eqb pw1 pw2 then
            match check with
            | None => (Err EOther, [])
            | Some false => (Ok pw1, [])
            | Some true => match check_weak pw1 with
                           | (Ok _, t) => (Ok pw1, t)
                           | (Err e, t) => (Err e, t)
                           | (Panic, t) => (Panic, t)
                           end
            end
          else (Err EOther, [])
      | _ => (Err EOther, [])
      end
  end.
(** password.go:40-52 getPassword. *)
Definition get_password (answers : list answer) : outcome bytes := match answers with Some pw :: _ => Ok pw | _ => Err EOther end.
(** cmd/password.go:22-38, password.go:27-37: the callbacks.  Only the key of the signet changes. *)
Definition with_key (sg : signet) (pw : bytes) : signet :=
  mkSignet (sg_version sg) (sg_id sg) (sg_scheme sg) pw (sg_public sg) (sg_prot sg) (sg_info sg) (sg_pub sg) (sg_priv sg).
Definition create_callback answers check (sg : signet) (min_level : Z) : outcome signet :=
  do pw <- fst (create answers check min_level); Ok (with_key sg pw).
Definition get_callback answers (sg : signet) : outcome signet := do pw <- get_password answers; Ok (with_key sg pw).
End Ask.
