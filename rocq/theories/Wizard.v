(** cmd/cmd-configure.go, cmd/cmd-manage.go, cmd/cfg-envelope.go and the menus of cmd/cfg-signet.go: the interactive commands
    `configure` and `manage` on a directory trust store.

    The user's side is the list of the answers given to the prompts (package survey): a line chosen from a menu, or the lines
    chosen from a menu with several choices.  Where the list ends, or the answer is of the other kind, the prompt returns an
    error (interrupt).  The model accepts any line, not only those shown: that adds behaviours.  What is printed is left out,
    except for exported texts. *)
From Verif Require Import Prelude Encodings Requirements Tools Crypto Letter Session Core Envelope Signets TrustStore.
From Verif Require Text.

Inductive reply := Choose (line : bytes) | ChooseMany (lines : list bytes).

(** strings.Fields: around runs of white space ([Text.space_runes]; no rune contains another one's first byte). *)
Definition word (cur : bytes) : list bytes := match cur with [] => [] | _ => [rev cur] end.
Fixpoint fields_from (fuel : nat) (cur l : bytes) : list bytes :=
  match fuel with
  | O => word cur
  | S f => match Text.strip_first Text.space_runes l with
           | Some r => word cur ++ fields_from f [] r
           | None => match l with [] => word cur | b :: r => fields_from f (b :: cur) r end
           end
  end.
Definition fields (l : bytes) : list bytes := fields_from (S (length l)) [] l.

(** A signet and an envelope as they are loaded from a file: io.go:39-55, 84-107. *)
Definition is_some {A} (o : option A) : bool := match o with Some _ => true | None => false end.
Definition signet_of (d : sdata) : signet :=
  mkSignet (d_version d) (d_id d) (d_scheme d) (d_key d) (d_public d) (is_some (d_prot d)) (d_info d) None PNil.
Definition env_of (v : edata) : envelope :=
  mkEnvelope (ev_version v) (ev_name v) (ev_suite v) (get_suite suite_registry (ev_suite v))
    (map signet_of (ev_secrets v)) (map signet_of (ev_senders v)) (map signet_of (ev_recipients v)) (ev_level v) false.
(** envelope.go:279-301 CleanSignets: what is left of a signet; the serialised fields of a cleaned envelope. *)
Definition cleaned (sg : signet) : signet := mkSignet (sg_version sg) (sg_id sg) (sg_scheme sg) [] false false None None PNil.
Definition clean_env (e : envelope) : envelope :=
  mkEnvelope (e_version e) (e_name e) (e_suite_id e) (e_suite e) (map cleaned (e_secrets e)) (map cleaned (e_senders e)) (map cleaned (e_recipients e))
    (e_level e) (e_opening e).
Definition cleaned_data (sg : signet) : sdata := mkData (sg_version sg) (sg_id sg) (sg_scheme sg) [] false None None None.
Definition saved (e : envelope) : edata :=
  mkEnv (e_version e) (e_name e) (e_suite_id e) (map cleaned_data (e_secrets e)) (map cleaned_data (e_senders e)) (map cleaned_data (e_recipients e)) (e_level e).

Definition with_level (e : envelope) (l : Z) : envelope :=
  mkEnvelope (e_version e) (e_name e) (e_suite_id e) (e_suite e) (e_secrets e) (e_senders e) (e_recipients e) l (e_opening e).
Definition with_suite (e : envelope) (id : bytes) (su : option suite) : envelope :=
  mkEnvelope (e_version e) (e_name e) id su (e_secrets e) (e_senders e) (e_recipients e) (e_level e) (e_opening e).
Definition with_secrets (e : envelope) (l : list signet) : envelope :=
  mkEnvelope (e_version e) (e_name e) (e_suite_id e) (e_suite e) l (e_senders e) (e_recipients e) (e_level e) (e_opening e).
Definition with_senders (e : envelope) (l : list signet) : envelope :=
  mkEnvelope (e_version e) (e_name e) (e_suite_id e) (e_suite e) (e_secrets e) l (e_recipients e) (e_level e) (e_opening e).
Definition with_recipients (e : envelope) (l : list signet) : envelope :=
  mkEnvelope (e_version e) (e_name e) (e_suite_id e) (e_suite e) (e_secrets e) (e_senders e) l (e_level e) (e_opening e).

(** A signet by its ID only: cfg-signet.go:198-204. *)
Definition stub (id : bytes) : signet := mkSignet 0 id [] [] false false None None PNil.

(** cfg-signet.go:144-181: the five scopes. *)
Inductive scope := ScPassword | ScKey | ScSecrets | ScRecipient | ScSender.
Definition names_of (p : purpose -> bool) : list bytes := map t_name (filter (fun t => p (t_purpose t)) tool_registry).
Definition scope_schemes (s : scope) : list bytes :=
  match s with
  | ScPassword => [scheme_pw]
  | ScKey => [scheme_key]
  | ScSecrets => [scheme_pw; scheme_key]
  | ScRecipient => names_of (fun p => match p with PKeyExchange | PKeyEncapsulation => true | _ => false end)
  | ScSender => names_of (fun p => match p with PSigning => true | _ => false end)
  end.
Definition scope_filter (s : scope) : filter_kind := match s with ScRecipient => FilterRecipientOnly | _ => FilterSignetOnly end.
Definition scope_current (s : scope) (e : envelope) : list signet :=
  match s with ScPassword | ScKey => [] | ScSecrets => e_secrets e | ScRecipient => e_recipients e | ScSender => e_senders e end.

Section Wizard.
Variables (c : config) (cr : crypto).
Variables (jundump : bytes -> option sdata) (jedump : edata -> option bytes) (jeundump : bytes -> option edata).   (* JSON, of the files *)
Variable (edump : edata -> option bytes).                                                  (* CBOR, of the text formats *)
Variable (walk : fs -> list (path * bytes)).                    (* the files under the directory, in the order of filepath.Walk *)
Variable (dir : bytes).

(** The trust store as the library sees it; these commands do not register password callbacks. *)
Definition store_world (w : fs) : world :=
  mkWorld (Some (fun id r => do d <- dir_get jundump dir w id r; Ok (signet_of d))) None None.

(** envelope.go:181-243 prepSignets: the list as a failed (or successful) run leaves it.  A fetched signet is put back before
    its key is loaded. *)
Fixpoint prep_left (w : fs) (recipients : bool) (l : list signet) : list signet :=
  match l with
  | [] => []
  | sg :: l' =>
      if nonempty (sg_key sg) then
        match prep_loaded tool_registry cr sg with Ok n => n :: prep_left w recipients l' | _ => sg :: l' end
      else if bytes_eqb (sg_scheme sg) scheme_pw then sg :: prep_left w recipients l'
      else let rec := if bytes_eqb (sg_scheme sg) scheme_key then false else recipients in
           match fetch (store_world w) sg rec with
           | Ok n => match prep_loaded tool_registry cr n with Ok n' => n' :: prep_left w rec l' | _ => n :: l' end
           | _ => sg :: l'
           end
  end.
Definition prep_ok (w : fs) (su : suite) (recipients : bool) (l : list signet) : bool :=
  match fst (prep_signets tool_registry cr (store_world w) (su_level su) recipients l) with Ok _ => true | _ => false end.
(** envelope.go:52-77: the envelope after a Correspondence that failed. *)
Definition env_left (w : fs) (e : envelope) : envelope :=
  match load_suite suite_registry e with
  | Ok su =>
      let e := with_suite e (e_suite_id e) (Some su) in
      let e1 := with_secrets e (prep_left w (e_opening e) (e_secrets e)) in
      if prep_ok w su (e_opening e) (e_secrets e) then
        let e2 := with_senders e1 (prep_left w (e_opening e) (e_senders e)) in
        if prep_ok w su (e_opening e) (e_senders e)
        then with_recipients e2 (prep_left w (negb (e_opening e)) (e_recipients e))
        else e2
      else e1
  | _ => e
  end.
(** cfg-envelope.go:76-84: the status of the envelope, kept in its security level (0: not valid). *)
Definition status (w : fs) (e : envelope) : outcome envelope :=
  let e := with_level e 0 in
  match fst (prepare suite_registry tool_registry cr (store_world w) e) with
  | Ok e' => match new_session c tool_registry hash_registry cr e' with
             | Ok s => Ok (with_level e' (s_level s))
             | Err _ => Ok e'
             | Panic => Panic
             end
  | Err _ => Ok (env_left w e)
  | Panic => Panic
  end.

(** cfg-signet.go:292-314: the chosen entries of the menu, by the last word of the line. *)
Fixpoint picked (current candidates : list signet) (lines : list bytes) : outcome (list bytes) :=
  match lines with
  | [] => Ok []
  | line :: r =>
      match rev (fields line) with
      | [] => Panic                                                          (* fields[len(fields)-1] *)
      | id :: _ =>
          do ids <- picked current candidates r;
          if existsb (fun sg => bytes_eqb id (sg_id sg)) current || existsb (fun sg => bytes_eqb id (sg_id sg)) candidates
          then Ok (id :: ids) else Ok ids
      end
  end.
(** cfg-signet.go:143-217 selectSignets, up to the prompt and from it on. *)
Definition candidates (w : fs) (s : scope) : outcome (list signet) :=
  do l <- dir_select jundump (scope_filter s) (scope_schemes s) (walk w) [];
  match l with [] => Err EOther | _ => Ok (map signet_of l) end.
Definition put_signets (s : scope) (e : envelope) (l : list signet) : envelope :=
  match s with
  | ScPassword | ScKey | ScSecrets => with_secrets e l
  | ScRecipient => with_recipients e l
  | ScSender => with_senders e l
  end.
Definition select_signets (w : fs) (s : scope) (e : envelope) (rs : list reply) : outcome (envelope * list reply) :=
  do cs <- candidates w s;
  match rs with
  | ChooseMany lines :: rs' => do ids <- picked (scope_current s e) cs lines; Ok (put_signets s e (map stub ids), rs')
  | _ => Err EOther
  end.

(** The result of a command: how it ends, the files, the texts it printed, and the answers that were not asked for. *)
Definition ran := (outcome unit * fs * list bytes * list reply)%type.
Definition print (t : bytes) (r : ran) : ran := let '(o, w, ts, rs) := r in (o, w, t :: ts, rs).
Definition failed {A} (x : outcome A) (w : fs) (rs : list reply) : ran :=
  (match x with Ok _ => Ok tt | Err e => Err e | Panic => Panic end, w, [], rs).
Definition stored (x : outcome fs) (w : fs) (rs : list reply) : ran :=
  match x with Ok w' => (Ok tt, w', [], rs) | _ => failed x w rs end.

(** cfg-envelope.go:72-152 editEnvelope with 154-180 editEnvelopeSuite. *)
Definition menu (line : bytes) (item : bytes) : bool := has_prefix line item.
Fixpoint edit (rs : list reply) (w : fs) (e : envelope) : ran :=
  match status w e with
  | Ok e1 =>
      match e_suite e1 with
      | None => (Panic, w, [], rs)                                        (* envelope.Suite().Provides *)
      | Some _ =>
          match rs with
          | Choose line :: rs1 =>
              if menu line (lit "Done") then
                if (e_level e1 =? 0)%Z then edit rs1 w e1
                else stored (dir_store_envelope jedump dir w (saved e1)) w rs1
              else if menu line (lit "Export") then
                if (e_level e1 =? 0)%Z then edit rs1 w e1
                else match export_envelope edump false (saved e1) with
                     | Ok t => print t (edit rs1 w (clean_env e1))
                     | x => failed x w rs1
                     end
              else if menu line (lit "Abort") then (Ok tt, w, [], rs1)
              else if menu line (lit "Delete") then stored (dir_delete_envelope dir w (e_name e1)) w rs1
              else if menu line (lit "Suite") then
                match rs1 with
                | Choose line2 :: rs2 =>
                    match fields line2 with
                    | [] => (Panic, w, [], rs2)                           (* strings.Fields(selectedSuite)[0] *)
                    | id :: _ => match get_suite suite_registry id with
                                 | Some su => edit rs2 w (with_suite e1 id (Some su))
                                 | None => (Err EOther, w, [], rs2)
                                 end
                    end
                | _ => (Err EOther, w, [], rs1)
                end
              else
                match (if menu line (lit "Secrets") then Some ScSecrets
                       else if menu line (lit "Recipients") then Some ScRecipient
                       else if menu line (lit "Senders") then Some ScSender else None) with
                | None => edit rs1 w e1
                | Some sc =>
                    match candidates w sc with
                    | Ok cs =>
                        match rs1 with
                        | ChooseMany lines :: rs2 =>
                            match picked (scope_current sc e1) cs lines with
                            | Ok ids => edit rs2 w (put_signets sc e1 (map stub ids))
                            | x => failed x w rs2
                            end
                        | _ => (Err EOther, w, [], rs1)
                        end
                    | x => failed x w rs1
                    end
                end
          | _ => (Err EOther, w, [], rs)
          end
      end
  | x => failed x w rs
  end.

(** cfg-envelope.go:13-70 newEnvelope. *)
Definition preset (line : bytes) : option (bytes * list scope) :=
  if bytes_eqb line (lit "Encrypt with password") then Some (lit "pw_v1", [ScPassword])
  else if bytes_eqb line (lit "Encrypt with key") then Some (lit "key_v1", [ScKey])
  else if bytes_eqb line (lit "Encrypt for someone and sign") then Some (lit "v1", [ScRecipient; ScSender])
  else if bytes_eqb line (lit "Encrypt for someone but don't sign") then Some (lit "rcpt_v1", [ScRecipient])
  else if bytes_eqb line (lit "Sign a file (wrapped)") then Some (lit "sign_v1", [ScSender])
  else if bytes_eqb line (lit "Sign a file (separate sig)") then Some (lit "signfile_v1", [ScSender])
  else None.
Fixpoint select_all (w : fs) (scs : list scope) (e : envelope) (rs : list reply) : outcome (envelope * list reply) :=
  match scs with
  | [] => Ok (e, rs)
  | s :: scs' => do (e', rs') <- select_signets w s e rs; select_all w scs' e' rs'
  end.
Definition new_envelope (w : fs) (name : bytes) (rs : list reply) : outcome (envelope * list reply) :=
  match Text.trim_space name with
  | [] => Err EOther
  | n =>
      match rs with
      | Choose line :: rs1 =>
          match preset line with
          | Some (suite, scs) => select_all w scs (mkEnvelope 1 n suite None [] [] [] 0 false) rs1
          | None => Ok (mkEnvelope 1 n [] None [] [] [] 0 false, rs1)
          end
      | _ => Err EOther
      end
  end.

(** cmd-configure.go:22-50. *)
Definition configure (args : list bytes) (rs : list reply) (w : fs) : ran :=
  match args with
  | [] => (Err EOther, w, [], rs)
  | name :: _ =>
      if nice name then
        match dir_get_envelope jeundump suite_registry dir w name with
        | Ok v => edit rs w (env_of v)
        | Err EEnvelopeNotFound =>
            match new_envelope w name rs with
            | Ok (e, rs') => edit rs' w e
            | x => failed x w rs
            end
        | x => failed x w rs
        end
      else (Err EOther, w, [], rs)
  end.

(** ** manage *)
(** format.go:15-40 formatColumns: text/tabwriter ends every cell but the last of a row with at least three spaces (padding 3, cells
    without tabs, line breaks and 0xff; widths are not tracked).  One row of a menu: the cells, each with its padding. *)
Definition spaces (n : nat) : bytes := repeat Coq.Init.Byte.x20 n.
Fixpoint row (cells : list (bytes * nat)) (last : bytes) : bytes :=
  match cells with [] => last | (x, n) :: r => x ++ spaces (3 + n) ++ row r last end.

(** cfg-signet.go:219-315 pickSignet with multi = false: None for the entry "done". *)
Definition pick_one (all : list sdata) (done line : bytes) : outcome (option sdata) :=
  if has_prefix line (done ++ lit " ") then Ok None
  else match rev (fields line) with
       | [] => Panic
       | id :: _ => Ok (find (fun d => bytes_eqb id (d_id d)) all)
       end.
(** cmd-manage.go:56-106 manageSignets. *)
Fixpoint manage_signets (rs : list reply) (w : fs) : ran :=
  match dir_select jundump FilterAny [] (walk w) [] with
  | Ok all =>
      match rs with
      | Choose line :: rs1 =>
          match pick_one all (lit "Done") line with
          | Ok None => (Ok tt, w, [], rs1)
          | Ok (Some d) =>
              match rs1 with
              | Choose action :: rs2 =>
                  if bytes_eqb action (lit "Delete") then
                    match dir_delete dir w (d_id d) (d_public d) with
                    | Ok w' => manage_signets rs2 w'
                    | x => failed x w rs2
                    end
                  else manage_signets rs2 w
              | _ => (Err EOther, w, [], rs1)
              end
          | x => failed x w rs1
          end
      | _ => (Err EOther, w, [], rs)
      end
  | x => failed x w rs
  end.
(** cmd-manage.go:108-157 manageEnvelopes.  Every round takes an answer, so [fuel] above their number is enough. *)
Fixpoint manage_envelopes (fuel : nat) (rs : list reply) (w : fs) : ran :=
  match fuel with
  | O => (Err EOther, w, [], rs)
  | S fuel' =>
      match dir_envelopes jeundump suite_registry (walk w) [] with
      | Ok all =>
          match rs with
          | Choose line :: rs1 =>
              if has_prefix line (lit "Done") then (Ok tt, w, [], rs1)
              else match fields line with
                   | [] => (Panic, w, [], rs1)
                   | name :: _ =>
                       match find (fun v => bytes_eqb (ev_name v) name) all with
                       | None => manage_envelopes fuel' rs1 w
                       | Some v =>
                           match edit rs1 w (env_of v) with
                           | (Ok _, w', ts, rs2) => let '(o, w2, ts2, rs3) := manage_envelopes fuel' rs2 w' in (o, w2, ts ++ ts2, rs3)
                           | r => r
                           end
                       end
                   end
          | _ => (Err EOther, w, [], rs)
          end
      | x => failed x w rs
      end
  end.
(** cmd-manage.go:28-53. *)
Definition manage (rs : list reply) (w : fs) : ran :=
  match rs with
  | Choose line :: rs1 =>
      if bytes_eqb line (lit "Envelopes") then manage_envelopes (S (length rs1)) rs1 w
      else if bytes_eqb line (lit "Signets") then manage_signets rs1 w
      else (Ok tt, w, [], rs1)
  | _ => (Err EOther, w, [], rs)
  end.
End Wizard.
