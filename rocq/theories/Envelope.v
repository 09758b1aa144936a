(** envelope.go, letter.go:46-145 and the parts of signet.go they use: from a letter and a
    trust store to a session, and the one-step operations Letter.Open, Letter.Verify and
    Letter.WireCorrespondence. *)
From Verif Require Import Prelude Requirements Tools Crypto Letter Session Core.

(** The user's environment: the trust store (truststore.go:23-26; None: nil), and the
    password callbacks (password.go:26-37; None: not set), which get the signet (and the
    minimum security level) and fill in its key. *)
Record world := mkWorld {
  w_signet : option (bytes -> bool -> outcome signet);
  w_create : option (signet -> Z -> outcome signet);
  w_get : option (signet -> outcome signet)
}.

(** What the user is asked, in order. *)
Inductive question := AskCreate (id : bytes) | AskGet (id : bytes).

Definition set_info (sg : signet) (i : option sinfo) : signet :=
  mkSignet (sg_version sg) (sg_id sg) (sg_scheme sg) (sg_key sg) (sg_public sg) (sg_prot sg) i (sg_pub sg) (sg_priv sg).
Definition set_loaded (sg : signet) (p : bytes) (k : privkey) : signet :=
  mkSignet (sg_version sg) (sg_id sg) (sg_scheme sg) (sg_key sg) (sg_public sg) (sg_prot sg) (sg_info sg) (Some p) k.

(** Tools that work with signets; the others have ToolLogicBase.LoadKey
    (tools/toollogic.go:279-281), which is an error. *)
Definition uses_signets (t : tool) : bool :=
  match t_purpose t with PKeyExchange | PKeyEncapsulation | PSigning => true | _ => false end.

(** signet.go:169-187 LoadKey, 201-213 loadTool. *)
Definition load_key (reg : list tool) (cr : crypto) (sg : signet) : outcome signet :=
  match sg_pub sg with
  | Some _ => Ok sg
  | None =>
      if sg_prot sg then Err EOther else
      do t <- tools_get reg (sg_scheme sg);
      if uses_signets t
      then do (p, k) <- cr_load cr (t_name t) (sg_key sg) (sg_public sg); Ok (set_loaded sg p k)
      else Err EOther
  end.

(** envelope.go:254-268: the name shown to the user comes from the trust store. *)
Definition named (st : option (bytes -> bool -> outcome signet)) (sg : signet) : signet :=
  if match sg_info sg with Some i => nonempty (in_name i) | None => false end then sg
  else match st with
       | Some g => if nonempty (sg_id sg) then
                     match g (sg_id sg) false with
                     | Ok n => match sg_info n with
                               | Some i => match sg_info sg with
                                           | None => set_info sg (Some i)
                                           | Some i0 => set_info sg (Some (mkInfo (in_name i) (in_rest i0)))
                                           end
                               | None => sg
                               end
                     | _ => sg
                     end
                   else sg
       | None => sg
       end.

(** envelope.go:245-274 fillPassword. *)
Definition fill_password (w : world) (sg : signet) (create : bool) (level : Z) : outcome signet * list question :=
  if create
  then match w_create w with
       | None => (Ok sg, [])
       | Some f => (f (named (w_signet w) sg) level, [AskCreate (sg_id sg)])
       end
  else match w_get w with
       | None => (Ok sg, [])
       | Some f => (f (named (w_signet w) sg), [AskGet (sg_id sg)])
       end.

(** envelope.go:181-243 prepSignets: [recipients] stays false for the rest of the loop
    after a key signet ("spills to next loop"). *)
Definition prep_loaded (reg : list tool) (cr : crypto) (sg : signet) : outcome signet :=   (* 222-238 *)
  if sg_prot sg then Err EOther
  else if bytes_eqb (sg_scheme sg) scheme_key || bytes_eqb (sg_scheme sg) scheme_pw then Ok sg
  else load_key reg cr sg.
Definition fetch (w : world) (sg : signet) (recipients : bool) : outcome signet :=          (* 198-219 *)
  if negb (nonempty (sg_id sg)) then Err EOther else
  match w_signet w with
  | None => Err EOther
  | Some g => do n <- other (g (sg_id sg) recipients);
              if nonempty (sg_scheme sg) && negb (bytes_eqb (sg_scheme sg) (sg_scheme n)) then Err EOther else Ok n
  end.
Fixpoint prep_signets (reg : list tool) (cr : crypto) (w : world) (level : Z) (recipients : bool) (l : list signet)
  : outcome (list signet) * list question :=
  match l with
  | [] => (Ok [], [])
  | sg :: l' =>
      let is_key := bytes_eqb (sg_scheme sg) scheme_key in
      let '(x, asked, recipients') :=
        if nonempty (sg_key sg) then (prep_loaded reg cr sg, [], recipients)
        else if bytes_eqb (sg_scheme sg) scheme_pw
        then let '(x, a) := fill_password w sg (negb recipients) level in (other x, a, recipients)
        else let rec := if is_key then false else recipients in
             (bind (fetch w sg rec) (prep_loaded reg cr), [], rec) in
      match x with
      | Ok n => let '(y, asked') := prep_signets reg cr w level recipients' l' in
                (do ns <- y; Ok (n :: ns), asked ++ asked')
      | Err e => (Err e, asked)
      | Panic => (Panic, asked)
      end
  end.

Definition set_signets (e : envelope) (su : suite) (a b d : list signet) : envelope :=
  mkEnvelope (e_version e) (e_name e) (e_suite_id e) (Some su) a b d (e_level e) (e_opening e).

(** envelope.go:106-115 LoadSuite. *)
Definition load_suite (sreg : list suite) (e : envelope) : outcome suite :=
  match e_suite e with Some su => Ok su | None => of_option EOther (get_suite sreg (e_suite_id e)) end.

(** envelope.go:166-178 PrepareSignets; 56-77 initCorrespondence up to newSession. *)
Definition prepare (sreg : list suite) (reg : list tool) (cr : crypto) (w : world) (e : envelope)
  : outcome envelope * list question :=
  match load_suite sreg e with
  | Ok su =>
      match prep_signets reg cr w (su_level su) (e_opening e) (e_secrets e) with
      | (Ok a, q1) =>
          match prep_signets reg cr w (su_level su) (e_opening e) (e_senders e) with
          | (Ok b, q2) =>
              match prep_signets reg cr w (su_level su) (negb (e_opening e)) (e_recipients e) with
              | (Ok d, q3) => (Ok (set_signets e su a b d), q1 ++ q2 ++ q3)
              | (Err x, q3) => (Err x, q1 ++ q2 ++ q3)
              | (Panic, q3) => (Panic, q1 ++ q2 ++ q3)
              end
          | (Err x, q2) => (Err x, q1 ++ q2)
          | (Panic, q2) => (Panic, q1 ++ q2)
          end
      | (Err x, q1) => (Err x, q1)
      | (Panic, q1) => (Panic, q1)
      end
  | Err x => (Err x, [])
  | Panic => (Panic, [])
  end.

Section Letters.
Variables (c : config) (sreg : list suite) (reg : list tool) (hreg : list hashtool) (cr : crypto) (w : world).

(** envelope.go:52-77 Correspondence / initCorrespondence (both modes are the same). *)
Definition correspondence (e : envelope) : outcome session :=
  do e' <- fst (prepare sreg reg cr w e); new_session c reg hreg cr e'.

(** envelope.go:80-92 WireCorrespondence. *)
Definition wire_correspondence (e : envelope) : outcome session :=
  do s <- correspondence e; do _ <- init_wire s; Ok s.

(** A letter as the parsers of JSON and DSD give it: a list of seals may hold nil. *)
Record raw_letter := mkRaw { rw_letter : letter; rw_keys : list (option seal); rw_sigs : list (option seal) }.
Definition seals_of (l : list (option seal)) : list seal := flat_map (fun x => match x with Some s => [s] | None => [] end) l.
Definition raw (l : letter) : raw_letter := mkRaw l (map Some (l_keys l)) (map Some (l_sigs l)).
Definition complete (r : raw_letter) : letter := set_keys (set_sigs (rw_letter r) (seals_of (rw_sigs r))) (seals_of (rw_keys r)).

Definition refer (v : N) (s : seal) : signet := mkSignet v (seal_id s) (seal_scheme s) [] false false None None PNil.
Definition is_secret (s : seal) : bool := bytes_eqb (seal_scheme s) scheme_key || bytes_eqb (seal_scheme s) scheme_pw.

(** letter.go:47-105 Envelope. *)
Definition letter_envelope (required : option reqs) (r : raw_letter) : outcome envelope :=
  let l := rw_letter r in
  do _ <- guard (negb (l_version l =? 0)%N) EOther;
  do _ <- guard (nonempty (l_suite l)) EOther;
  do su <- of_option EOther (get_suite sreg (l_suite l));
  do _ <- req_check (su_provides su) (match required with Some q => q | None => newRequirements end);
  if existsb is_none (rw_keys r) || existsb is_none (rw_sigs r) then Panic else
  let ids := filter (fun s => nonempty (seal_id s)) (seals_of (rw_keys r)) in
  Ok (mkEnvelope (l_version l) [] (l_suite l) (Some su)
        (map (refer (l_version l)) (filter is_secret ids))
        (map (refer (l_version l)) (seals_of (rw_sigs r)))
        (map (refer (l_version l)) (filter (fun s => negb (is_secret s)) ids))
        0 true).

(** letter.go:108-120 Open, 123-135 Verify, 138-145 WireCorrespondence; [d] numbers the
    random draws. *)
Definition letter_open (required : option reqs) (r : raw_letter) (d : nat) : outcome bytes :=
  do e <- letter_envelope required r;
  do s <- correspondence e;
  fst (open_session c cr s (complete r) (rt_start d None)).
Definition letter_verify (required : option reqs) (r : raw_letter) (d : nat) : outcome unit :=
  do e <- letter_envelope required r;
  do s <- correspondence e;
  fst (verify_session cr s (complete r) (rt_start d None)).
Definition letter_wire (r : raw_letter) : outcome session :=
  do e <- letter_envelope (Some reqs_no_sender) r;
  wire_correspondence e.
End Letters.
