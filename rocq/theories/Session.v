(** session.go:59-561 newSession and security levels; session-wire.go:61-90
    initWireSession; the parts of envelope.go and signet.go they use. *)
From Verif Require Import Prelude Requirements Tools Crypto Letter.

(** fmt.Errorf without %w: the class of the error is lost. *)
Definition other {A} (x : outcome A) : outcome A :=
  match x with Err _ => Err EOther | y => y end.

Definition scheme_key : bytes := lit "key".       (* signet.go:20 *)
Definition scheme_pw : bytes := lit "pw".         (* signet.go:19 *)

(** signet.go:46-53 SignetInfo: the name, and everything else. *)
Record sinfo := mkInfo { in_name : bytes; in_rest : bytes }.

(** signet.go:24-43.  Protection is only tested for nil ([sg_prot]); Signature is
    never read.  [sg_pub]/[sg_priv]: loaded keys. *)
Record signet := mkSignet {
  sg_version : N;
  sg_id : bytes;
  sg_scheme : bytes;
  sg_key : bytes;
  sg_public : bool;
  sg_prot : bool;
  sg_info : option sinfo;
  sg_pub : option bytes;
  sg_priv : privkey
}.

(** envelope.go:13-41. *)
Record envelope := mkEnvelope {
  e_version : N;
  e_name : bytes;
  e_suite_id : bytes;
  e_suite : option suite;
  e_secrets : list signet;
  e_senders : list signet;
  e_recipients : list signet;
  e_level : Z;
  e_opening : bool
}.

(** defaults.go:6-10. *)
Record config := mkConfig {
  c_default_level : Z; c_min_level : Z; c_default_ks : Z; c_min_ks : Z }.
Definition default_config : config := mkConfig 128 0 16 0.

(** envelope.go:124-163 LoopSecrets/LoopSenders/LoopRecipients: the signets visited,
    in order (an empty scheme visits all). *)
Definition loop (scheme : bytes) (l : list signet) : list signet :=
  filter (fun s => match scheme with [] => true | _ => bytes_eqb (sg_scheme s) scheme end) l.

(** A tool instance (tools/toollogic.go:131-144): position in the suite, tool,
    argument, assigned hash tool. *)
Record inst := mkInst { i_idx : nat; i_tool : tool; i_arg : bytes; i_hash : option hashtool }.
Definition i_name (i : inst) : bytes := t_name (i_tool i).

(** session.go:14-44, the part that is fixed once the session is set up. *)
Record session := mkSession {
  s_env : envelope;
  s_suite : suite;
  s_dks : Z;
  s_level : Z;
  s_maxlevel : Z;
  s_req : reqs;
  s_all : list inst;
  s_stateful : list inst;
  s_kdf : option inst;
  s_pass : option inst;
  s_kx : list inst;
  s_ke : list inst;
  s_aead : list inst;
  s_ciph : list inst;
  s_mac_hashers : list bytes;      (* keys of managedMACHashers *)
  s_macs : list inst;
  s_sig_hashers : list bytes;      (* keys of managedSigningHashers *)
  s_signers : list inst
}.

Definition init_session (e : envelope) (su : suite) : session :=
  mkSession e su 0 0 0 [] [] [] None None [] [] [] [] [] [] [] [].

(** session.go:517-551 checkSecurityLevel. *)
Definition check_level (c : config) (e : envelope) (l : Z) : outcome unit :=
  if (0 <? c_min_level c)%Z then guard (negb (l <? c_min_level c)%Z) EOther
  else if (0 <? e_level e)%Z then guard (negb (l <? e_level e)%Z) EOther
  else guard (negb (l <? c_default_level c)%Z) EOther.

Definition is_rsa (name : bytes) : bool :=
  bytes_eqb name (lit "RSA-OAEP") || bytes_eqb name (lit "RSA-PSS").

(** signet.go:169-187 Signet.LoadKey, by the tool named in the scheme (the cached
    tool of a signet is the one of its scheme: signet.go:201-213). *)
Definition set_loaded (s : signet) (pub : option bytes) (priv : privkey) : signet :=
  mkSignet (sg_version s) (sg_id s) (sg_scheme s) (sg_key s) (sg_public s) (sg_prot s) (sg_info s) pub priv.
Definition load_key (cr : crypto) (s : signet) : outcome signet :=
  match sg_pub s with
  | Some _ => Ok s
  | None => if sg_prot s then Err EProtected
            else do (p, k) <- cr_load cr (sg_scheme s) (sg_key s) (sg_public s);
                 Ok (set_loaded s (Some p) k)
  end.

(** tools/toollogic.go:192-204 and tools/gostdlib/rsa-keys.go:156-179 SecurityLevel
    (the key it may load on the way is not kept: loading again gives the same). *)
Definition tool_level (cr : crypto) (i : inst) (sg : option signet) : outcome Z :=
  if is_rsa (i_name i) then
    match sg with
    | None => Ok 0%Z
    | Some s => do s' <- load_key cr s;
                match sg_pub s' with
                | None => Err EInvalidKey
                | Some p => let l := rsa_level_for_size (cr_rsa_bits cr p) in
                            if (l <? 0)%Z then Err EOther else Ok l
                end
    end
  else
    match i_hash i with
    | Some h => if (t_level (i_tool i) =? 0)%Z then Ok (h_level h)
                else if (h_level h <? t_level (i_tool i))%Z then Ok (h_level h)
                else Ok (t_level (i_tool i))
    | None => Ok (t_level (i_tool i))
    end.

(** session.go:445-462: level of a password signet, by derivation tool. *)
Definition pw_iterations (name : bytes) : Z :=
  if bytes_eqb name (lit "SCRYPT-20") then 1048576
  else if bytes_eqb name (lit "PBKDF2-SHA2-256") then 20000 else 1.

(** session.go:432-474: the level that calcAndCheckSecurityLevel computes. *)
Definition calc_level (cr : crypto) (i : option inst) (sg : option signet) : outcome Z :=
  match sg with
  | Some s =>
      if bytes_eqb (sg_scheme s) scheme_key then Ok (8 * Z.of_nat (length (sg_key s)))%Z
      else if bytes_eqb (sg_scheme s) scheme_pw then
        match sg_key s with
        | [] => Ok 0%Z
        | _ => match i with
               | None => Panic
               | Some i => let l := cr_pw_level cr (sg_key s) (pw_iterations (i_name i)) in
                           if (l <? 0)%Z then Err EOther else Ok l
               end
        end
      else match i with None => Panic | Some i => tool_level cr i (Some s) end
  | None => match i with None => Panic | Some i => tool_level cr i None end
  end.

Definition set_levels (s : session) (l m : Z) : session :=
  mkSession (s_env s) (s_suite s) (s_dks s) l m (s_req s) (s_all s) (s_stateful s) (s_kdf s) (s_pass s)
    (s_kx s) (s_ke s) (s_aead s) (s_ciph s) (s_mac_hashers s) (s_macs s) (s_sig_hashers s) (s_signers s).

(** session.go:432-515 calcAndCheckSecurityLevel. *)
Definition calc_and_check (c : config) (cr : crypto) (s : session) (i : option inst) (sg : option signet)
  : outcome session :=
  do l <- calc_level cr i sg;
  if (l =? 0)%Z then Ok s
  else if (l <? 0)%Z then Err EOther
  else
    do _ <- check_level c (s_env s) l;
    Ok (set_levels s
          (if (s_level s =? 0)%Z || (l <? s_level s)%Z then l else s_level s)
          (if (s_maxlevel s <? l)%Z then l else s_maxlevel s)).

Definition set_dks (s : session) (k : Z) : session :=
  mkSession (s_env s) (s_suite s) k (s_level s) (s_maxlevel s) (s_req s) (s_all s) (s_stateful s) (s_kdf s) (s_pass s)
    (s_kx s) (s_ke s) (s_aead s) (s_ciph s) (s_mac_hashers s) (s_macs s) (s_sig_hashers s) (s_signers s).
Definition set_req (s : session) (r : reqs) : session :=
  mkSession (s_env s) (s_suite s) (s_dks s) (s_level s) (s_maxlevel s) r (s_all s) (s_stateful s) (s_kdf s) (s_pass s)
    (s_kx s) (s_ke s) (s_aead s) (s_ciph s) (s_mac_hashers s) (s_macs s) (s_sig_hashers s) (s_signers s).

(** session.go:131-182: the instance is added to the lists, by purpose. *)
Definition assign (s : session) (i : inst) : outcome session :=
  let al := s_all s ++ [i] in
  let sf := if has_option (i_tool i) OHasState then s_stateful s ++ [i] else s_stateful s in
  let mk req kdf pass kx ke aead ciph macs signers :=
    mkSession (s_env s) (s_suite s) (s_dks s) (s_level s) (s_maxlevel s) req al sf kdf pass
      kx ke aead ciph (s_mac_hashers s) macs (s_sig_hashers s) signers in
  let r := s_req s in
  match t_purpose (i_tool i) with
  | PKeyDerivation =>
      match s_kdf s with
      | Some _ => Err EOther
      | None => Ok (mk r (Some i) (s_pass s) (s_kx s) (s_ke s) (s_aead s) (s_ciph s) (s_macs s) (s_signers s))
      end
  | PPassDerivation =>
      match s_pass s with
      | Some _ => Err EOther
      | None => Ok (mk (req_add (req_add r SenderAuthentication) RecipientAuthentication) (s_kdf s) (Some i)
                      (s_kx s) (s_ke s) (s_aead s) (s_ciph s) (s_macs s) (s_signers s))
      end
  | PKeyExchange =>
      Ok (mk (req_add r RecipientAuthentication) (s_kdf s) (s_pass s) (s_kx s ++ [i]) (s_ke s)
            (s_aead s) (s_ciph s) (s_macs s) (s_signers s))
  | PKeyEncapsulation =>
      Ok (mk (req_add r RecipientAuthentication) (s_kdf s) (s_pass s) (s_kx s) (s_ke s ++ [i])
            (s_aead s) (s_ciph s) (s_macs s) (s_signers s))
  | PSigning =>
      Ok (mk (req_add (req_add r Integrity) SenderAuthentication) (s_kdf s) (s_pass s) (s_kx s) (s_ke s)
            (s_aead s) (s_ciph s) (s_macs s) (s_signers s ++ [i]))
  | PIntegratedCipher =>
      Ok (mk (req_add (req_add r Confidentiality) Integrity) (s_kdf s) (s_pass s) (s_kx s) (s_ke s)
            (s_aead s ++ [i]) (s_ciph s) (s_macs s) (s_signers s))
  | PCipher =>
      Ok (mk (req_add r Confidentiality) (s_kdf s) (s_pass s) (s_kx s) (s_ke s)
            (s_aead s) (s_ciph s ++ [i]) (s_macs s) (s_signers s))
  | PMAC =>
      Ok (mk (req_add r Integrity) (s_kdf s) (s_pass s) (s_kx s) (s_ke s)
            (s_aead s) (s_ciph s) (s_macs s ++ [i]) (s_signers s))
  end.

(** session.go:194-236: the hash tool of an instance.  If several hasher options
    are present the last one decides. *)
Fixpoint tool_hash (hreg : list hashtool) (p : purpose) (arg : bytes) (opts : list toption)
  (acc : option hashtool) : outcome (option hashtool) :=
  match opts with
  | [] => Ok acc
  | OManagedHasher :: r =>
      match p with
      | PMAC | PSigning => do h <- hash_get hreg arg; tool_hash hreg p arg r (Some h)
      | _ => Err EOther
      end
  | ODedicatedHasher :: r => do h <- hash_get hreg arg; tool_hash hreg p arg r (Some h)
  | _ :: r => tool_hash hreg p arg r acc
  end.

(** session.go:194-230: the managed hasher maps. *)
Definition add_hasher (arg : bytes) (l : list bytes) : list bytes :=
  if existsb (bytes_eqb arg) l then l else l ++ [arg].
Definition assign_hasher (s : session) (i : inst) : session :=
  if has_option (i_tool i) OManagedHasher then
    match t_purpose (i_tool i) with
    | PMAC => mkSession (s_env s) (s_suite s) (s_dks s) (s_level s) (s_maxlevel s) (s_req s) (s_all s) (s_stateful s)
                (s_kdf s) (s_pass s) (s_kx s) (s_ke s) (s_aead s) (s_ciph s)
                (add_hasher (i_arg i) (s_mac_hashers s)) (s_macs s) (s_sig_hashers s) (s_signers s)
    | PSigning => mkSession (s_env s) (s_suite s) (s_dks s) (s_level s) (s_maxlevel s) (s_req s) (s_all s) (s_stateful s)
                (s_kdf s) (s_pass s) (s_kx s) (s_ke s) (s_aead s) (s_ciph s)
                (s_mac_hashers s) (s_macs s) (add_hasher (i_arg i) (s_sig_hashers s)) (s_signers s)
    | _ => s
    end
  else s.

Definition count_id (id : bytes) (l : list bytes) : nat := length (filter (bytes_eqb id) l).

(** session.go:96-279: one round of the tool loop. *)
Definition init_tool (c : config) (reg : list tool) (hreg : list hashtool) (cr : crypto)
  (all_ids : list bytes) (s : session) (x : nat * bytes) : outcome session :=
  let (idx, id) := x in
  do _ <- guard (count_id id all_ids =? 1)%nat EOther;               (* 102-106 *)
  let (name, arg) := parse_tool_id id in                             (* 117-123 *)
  do t <- other (tools_get reg name);                                        (* 125-129 *)
  do h <- other (tool_hash hreg (t_purpose t) arg (t_options t) None);       (* 188-236 *)
  let i := mkInst idx t arg h in
  do s <- assign s i;                                                (* 131-182 *)
  let s := assign_hasher s i in
  do s <- calc_and_check c cr s (Some i) None;                       (* 265-268 *)
  Ok (if (s_dks s <? t_keysize t)%Z then set_dks s (t_keysize t) else s).   (* 275-277 *)

Fixpoint index_from {A} (n : nat) (l : list A) : list (nat * A) :=
  match l with [] => [] | a :: r => (n, a) :: index_from (S n) r end.

(** session.go:291-330: the signets a tool instance looks at (None: the purpose
    has none, the loop continues). *)
Definition signets_for (e : envelope) (i : inst) : option (list signet) :=
  match t_purpose (i_tool i) with
  | PPassDerivation => Some (loop scheme_pw (e_secrets e))
  | PKeyExchange | PKeyEncapsulation => Some (loop (i_name i) (e_recipients e))
  | PSigning => Some (loop (i_name i) (e_senders e))
  | _ => None
  end.

(** session.go:285-331: one round; the state is the session, the number of signets
    seen and whether a key source is available. *)
Definition check_signets (c : config) (cr : crypto) (st : session * nat * bool) (i : inst)
  : outcome (session * nat * bool) :=
  let '(s, seen, src) := st in
  match signets_for (s_env s) i with
  | None => Ok (s, seen, src)
  | Some sgs =>
      do s' <- foldM (fun s sg => calc_and_check c cr s (Some i) (Some sg)) s sgs;
      do _ <- guard (nonempty sgs) EOther;
      Ok (s', seen + length sgs, true)
  end.

(** session.go:333-344: one key secret. *)
Definition check_key_secret (c : config) (cr : crypto) (st : session * nat * bool) (sg : signet)
  : outcome (session * nat * bool) :=
  let '(s, seen, _) := st in
  let s := set_req s (req_add (req_add (s_req s) SenderAuthentication) RecipientAuthentication) in
  do s <- calc_and_check c cr s None (Some sg);
  Ok (s, seen + 1, true).

(** session.go:350-357. *)
Definition apply_minimums (c : config) (s : session) : session :=
  let s := if (0 <? c_min_level c)%Z && (s_level s <? c_min_level c)%Z
           then set_levels s (c_min_level c) (s_maxlevel s) else s in
  if (0 <? c_min_ks c)%Z && (s_dks s <? c_min_ks c)%Z then set_dks s (c_min_ks c) else s.

Definition is_none {A} (o : option A) : bool := match o with None => true | _ => false end.

(** session.go:359-426. *)
Definition final_checks (c : config) (s : session) (seen : nat) (src : bool) : outcome unit :=
  let needs o := existsb (fun i => has_option (i_tool i) o) (s_all s) in
  let e := s_env s in
  do _ <- guard (negb (needs ONeedsSecurityLevel && (s_level s =? 0)%Z)) EOther;
  do _ <- guard (negb (needs ONeedsDefaultKeySize && (s_dks s =? 0)%Z)) EOther;
  do _ <- guard (negb (req_empty (s_req s))) EOther;
  do _ <- req_check (s_req s) (su_provides (s_suite s));
  do _ <- guard (negb (req_has (s_req s) RecipientAuthentication && negb (req_has (s_req s) Confidentiality))) EOther;
  do _ <- guard (negb (req_has (s_req s) Confidentiality && negb (req_has (s_req s) Integrity))) EOther;
  do _ <- guard (negb (is_none (s_kdf s) && negb (length (s_signers s) =? length (su_tools (s_suite s)))%nat)) EOther;
  do _ <- guard (negb (negb (nonempty (s_aead s)) && negb (nonempty (s_ciph s)) && negb (nonempty (s_macs s))
                       && negb (is_none (s_kdf s)))) EOther;
  do _ <- guard (negb (negb src && (req_has (s_req s) Integrity || req_has (s_req s) Confidentiality))) EOther;
  do _ <- guard (negb (seen <? length (e_secrets e) + length (e_senders e) + length (e_recipients e))%nat) EOther;
  check_level c e (s_level s).

(** session.go:59-429 newSession. *)
Definition new_session (c : config) (reg : list tool) (hreg : list hashtool) (cr : crypto) (e : envelope)
  : outcome session :=
  match e_suite e with
  | None => Err EOther
  | Some su =>
      do _ <- (if (0 <? e_level e)%Z then check_level c e (e_level e) else Ok tt);
      do _ <- check_level c e (su_level su);
      do s <- foldM (init_tool c reg hreg cr (su_tools su)) (init_session e su) (index_from 0 (su_tools su));
      do st <- foldM (check_signets c cr) (s, 0, false) (s_all s);
      do (s, seen, src) <- foldM (check_key_secret c cr) st (loop scheme_key (e_secrets e));
      let s := apply_minimums c s in
      do _ <- final_checks c s seen src;
      Ok s
  end.

(** session.go:554-561 NonceSize. *)
Definition nonce_size (s : session) : Z := Z.max 4 (s_maxlevel s / 32).

(** session-wire.go:61-90 initWireSession. *)
Definition init_wire (s : session) : outcome unit :=
  do _ <- req_check (s_req s) reqs_no_sender;
  do _ <- iterM (fun i => match t_purpose (i_tool i) with
                          | PPassDerivation | PSigning => Err EOther
                          | _ => Ok tt
                          end) (s_all s);
  guard (negb (nonempty (loop scheme_key (e_secrets (s_env s))))) EOther.
