(** C55, C56: what one user signs, another verifies - signature files and signed JSON documents. *)
From Coq Require Import Init.Byte.
From Verif Require Import PreludeFacts Letter Requirements RequirementsFacts Tools Crypto Session SpecSession SessionFacts SuiteFacts Core Envelope CoreState CoreTrip CoreRound
  PropOpen Toy PropCodec PropTrip PropLetter SpecPost Post PropPost Encodings EncodingsFacts Lhash SpecHash PropHash Armor SpecArmor ArmorFacts PropArmor FileSig SpecFile PropFile Json SpecJson PropJson.

(** A suite that does not encrypt leaves the data in the letter as it is, and somebody signed. *)
Lemma plain_letter c cr w e su s full data d l r :
  get_suite suite_registry (e_suite_id e) = Some su -> (e_suite e = None \/ e_suite e = Some su) -> ~ In Confidentiality (su_provides su) ->
  correspondence c suite_registry tool_registry hash_registry cr w e = Ok s ->
  close_session c cr s full data (rt_start d None) = (Ok l, r) ->
  l_data l = data.
Proof.
  intros G EC NC CO CL. pose proof (get_suite_in _ _ G) as HI. apply correspondence_inv in CO as (u & a & b & x & LS & N & _).
  assert (u = su). { unfold load_suite in LS. destruct EC as [E|E]; rewrite E in LS; [rewrite G in LS|]; now injection LS. } subst u.
  pose proof (registered_insts _ _ _ _ _ N eq_refl HI) as EA. pose proof N as N'. apply new_session_ok in N' as (su' & _ & O).
  assert (K : s_kdf s = None).
  { pose proof (sh_kdf _ _ _ (so_shape _ _ _ _ _ _ _ O)) as K. rewrite EA in K.
    assert (T : forallb (fun su => existsb (N.eqb Confidentiality) (su_provides su) || negb (nonempty (of_purpose PKeyDerivation (suite_insts su)))) suite_registry = true) by (vm_compute; reflexivity).
    rewrite forallb_forall in T. specialize (T su HI). apply orb_true_iff in T as [T|T].
    - apply existsb_exists in T as (q & Q & E). apply N.eqb_eq in E. subst q. contradiction.
    - destruct (of_purpose PKeyDerivation (suite_insts su)); [|discriminate]. destruct (s_kdf s); [discriminate|reflexivity]. }
  destruct (close_signonly_ok c cr s _ _ _ _ _ (rest_start d) K CL) as (nonce & _ & _ & EL & _). rewrite EL. reflexivity.
Qed.

(** A suite with sender authentication and without confidentiality signs, so there is a sender. *)
Lemma plain_senders c cr w e su s :
  get_suite suite_registry (e_suite_id e) = Some su -> (e_suite e = None \/ e_suite e = Some su) -> ~ In Confidentiality (su_provides su) ->
  correspondence c suite_registry tool_registry hash_registry cr w e = Ok s -> e_senders e <> [].
Proof.
  intros G EC NC CO. pose proof (get_suite_in _ _ G) as HI. intro ES. revert CO. unfold correspondence, prepare. rewrite ES. cbn [prep_signets].
  destruct (load_suite suite_registry e) as [u| |] eqn:LS; [|discriminate..].
  assert (u = su). { unfold load_suite in LS. destruct EC as [E|E]; rewrite E in LS; [rewrite G in LS|]; now injection LS. } subst u.
  destruct (prep_signets _ _ _ _ _ (e_secrets e)) as [[a| |] q1]; [|discriminate..].
  destruct (prep_signets _ _ _ _ _ (e_recipients e)) as [[x| |] q3]; [|discriminate..].
  cbn [fst bind]. intro N. pose proof (registered_insts _ _ _ _ _ N eq_refl HI) as EA.
  destruct (senders_served _ _ _ _ _ _ N eq_refl (proj2 (proj2 (registered_few su HI)))) as [_ TS]. cbn [set_signets e_senders] in TS.
  apply new_session_ok in N as (su' & _ & O). pose proof (sh_signers _ _ _ (so_shape _ _ _ _ _ _ _ O)) as SS. rewrite EA in SS.
  assert (T : forallb (fun su => existsb (N.eqb Confidentiality) (su_provides su) || nonempty (of_purpose PSigning (suite_insts su))) suite_registry = true) by (vm_compute; reflexivity).
  rewrite forallb_forall in T. specialize (T su HI). apply orb_true_iff in T as [T|T].
  - apply existsb_exists in T as (q & Q & E). apply N.eqb_eq in E. subst q. contradiction.
  - rewrite <- SS in T. destruct (s_signers s) as [|i q]; [discriminate|]. destruct (TS i (or_introl eq_refl)) as (sg & [] & _).
Qed.

(** SignFile with one trust store, VerifyFile with another: the file verifies and the verifier gets the signed file data
    back, if the suite does not encrypt and what is left of the signature file has no begin line.  Every metadata entry
    the signer gave may be required. *)
Theorem C55_sign_then_verify : forall c cr w1 w2 H load load_fd dump dump_fd src content sr e su meta rest full d1 d2 text fd required,
  crypto_laws cr -> hash_family H ->
  (forall l x, dump l = Ok x -> load x = Some (raw l)) -> (forall f x, dump_fd f = Ok x -> load_fd x = Some f) ->
  writable c e su -> ~ In Confidentiality (su_provides su) ->
  (forall s, correspondence c suite_registry tool_registry hash_registry cr w1 e = Ok s -> reader cr w2 (s_env s)) ->
  fst (read_source src) = Some content ->
  (forall old, sr = SigText old -> exists texts bodies tail, sections_of old texts bodies tail /\ ~ contains begin_line (kept texts tail)) ->
  sign_file c cr w1 H dump dump_fd src sr e meta rest full d1 = Ok (text, fd) ->
  (forall k v, In (k, v) required -> meta_has meta k v) ->
  verify_file c cr w2 H load load_fd (FromFile (Some content)) (Some text) required d2 = Ok ([(fd, true)], false)
  /\ fd_meta fd = meta.
Proof.
  intros c cr w1 w2 H load load_fd dump dump_fd src content sr e su meta rest full d1 d2 text fd required LW HF DL DF W NC RD RC SO SF RQ.
  pose proof (wr_suite _ _ _ W) as G. pose proof (wr_cached _ _ _ W) as EC.
  assert (LS : load_suite suite_registry e = Ok su) by (unfold load_suite; destruct EC as [E|E]; rewrite E; [now rewrite G|reflexivity]).
  unfold sign_file in SF. rewrite LS in SF. cbn [bind] in SF. apply bind_ok in SF as (alg & A & SF). rewrite RC in SF. cbn [of_option bind] in SF.
  apply bind_ok in SF as (h & EH & SF). apply bind_ok in SF as ([l fd'] & SD & SF).
  unfold sign_file_data in SD. apply bind_ok in SD as (s & CO & SD). rewrite LS in SD. cbn [bind] in SD. apply bind_ok in SD as (u & RQC & SD).
  apply bind_ok in SD as (data & DD & SD). apply bind_ok in SD as (l' & CL & SD). injection SD as -> <-.
  destruct (close_session c cr s full data (rt_start d1 None)) as [o r] eqn:CLS. cbn [fst] in CL. subst o.
  apply req_check_ok in RQC.
  assert (PS : parse_sig_file load text = ([raw l], false) /\ FD (lh_bytes h) meta rest = fd).
  { destruct sr as [| |old]; [|discriminate|].
    - apply bind_ok in SF as (new & M & SF). injection SF as -> <-. split; [|reflexivity].
      pose proof (C37_round_trip dump load [(l, text, [])] [] DL) as P. cbn [map concat app] in P. rewrite !app_nil_r in P. apply P.
      + intros l0 s0 t [E|[]]. injection E as <- <- <-. split; [exact M|]. split; [now left|]. intros (a & b & E). symmetry in E. apply app_eq_nil in E as [_ E]. discriminate.
      + intros (a & b & E). symmetry in E. apply app_eq_nil in E as [_ E]. discriminate.
    - apply bind_ok in SF as (new & M & SF). injection SF as -> <-. split; [|reflexivity].
      destruct (SO old eq_refl) as (ts & bs & tl & S1 & S2). apply (C38_replace dump load l old text ts bs tl DL M S1). exact S2. }
  destruct PS as [PS <-].
  split; [|reflexivity].
  pose proof (plain_letter _ _ _ _ _ _ _ _ _ _ _ G EC NC CO CLS) as LD.
  pose proof (C34_made_well_formed H HF) as (MW & _). destruct (MW _ _ _ EH) as (HA & HD & HW).
  assert (V : signature_of c cr w2 H load_fd required d2 content (raw l) (FD (lh_bytes h) meta rest)).
  { split; [|split; [|split]].
    - cbn [raw rw_letter]. rewrite LD. now apply DF.
    - exists data. apply (C54_open c cr w1 w2 e su s full data d1 d2 l r _ LW W CO (RD s CO) CLS). cbn [wanted]. rewrite <- file_sig_reqs_eq. exact RQC.
    - exact RQ.
    - exists h. cbn [fd_hash]. split; [|congruence]. destruct h as [a' g']. cbn [lh_alg lh_digest] in *. subst a'. now apply C34_round_trip. }
  destruct (C39_verify_complete c cr w2 H load load_fd required d2 content text) as [results VF].
  - rewrite PS. discriminate.
  - now rewrite PS.
  - intros r0 Hr. rewrite PS in Hr. destruct Hr as [<-|[]]. eauto.
  - destruct (C39_verify_exact _ _ _ _ _ _ _ _ _ _ _ _ VF) as (_ & X & _). destruct (X eq_refl) as (fds & F & ->). rewrite PS in F. cbn [fst] in F.
    inversion F as [|? f ? ? F1 F2]; subst. inversion F2; subst. rewrite VF. destruct F1 as (F1 & _). destruct V as (V1 & _). rewrite V1 in F1. injection F1 as <-. reflexivity.
Qed.
Print Assumptions C55_sign_then_verify.

(** What SignFile does when it succeeds: the file data holds the metadata and the digest of the content, with the algorithm that
    one of the suite's tools names; the suite authenticates the sender; and the signature file keeps its text, with one section
    in place of the old ones.  An existing signature file that cannot be read is not replaced. *)
Definition underscores (l : bytes) : bytes := map (fun b => if byte_eqb b x2d then x5f else b) l.
(** Every hash tool labels digests with the algorithm of its name. *)
Theorem C55_labels : forall h, In h hash_registry ->
  exists a, labeled_alg (h_name h) = Some a /\ alg_name a = underscores (h_name h) /\ supported a.
Proof.
  intros h HI. assert (C : forallb (fun h => match labeled_alg (h_name h) with Some a => bytes_eqb (alg_name a) (underscores (h_name h)) && negb (is_none (alg_size a)) | None => false end) hash_registry = true) by (vm_compute; reflexivity).
  rewrite forallb_forall in C. specialize (C h HI). destruct (labeled_alg (h_name h)) as [a|]; [|discriminate]. apply andb_true_iff in C as [C1 C2]. apply bytes_eqb_eq in C1.
  exists a. split; [reflexivity|]. split; [exact C1|]. apply alg_size_supported. destruct (alg_size a); [discriminate|discriminate C2].
Qed.
Print Assumptions C55_labels.
Lemma registered_hash : forall su a, In su suite_registry -> suite_hash_alg (su_tools su) = Some a ->
  exists id tool name, In id (su_tools su) /\ parse_tool_id id = (tool, name) /\ alg_name a = underscores name.
Proof.
  intros su a HI. assert (C : forallb (fun su => match suite_hash_alg (su_tools su) with
      | Some a => existsb (fun id => bytes_eqb (alg_name a) (underscores (snd (parse_tool_id id)))) (su_tools su) | None => true end) suite_registry = true) by (vm_compute; reflexivity).
  rewrite forallb_forall in C. specialize (C su HI). intro E. rewrite E in C. apply existsb_exists in C as (id & I & C). apply bytes_eqb_eq in C.
  exists id, (fst (parse_tool_id id)), (snd (parse_tool_id id)). split; [exact I|]. split; [apply surjective_pairing|exact C].
Qed.
Theorem C55_sign_exact : forall c cr w H dump dump_fd src content sr e su meta rest full d text fd,
  hash_family H -> load_suite suite_registry e = Ok su -> In su suite_registry ->
  fst (read_source src) = Some content ->
  sign_file c cr w H dump dump_fd src sr e meta rest full d = Ok (text, fd) ->
  fd_meta fd = meta
  /\ (exists h id tool name, lh_load (fd_hash fd) = Ok h /\ lh_digest h = H (lh_alg h) content
        /\ In id (su_tools su) /\ parse_tool_id id = (tool, name) /\ alg_name (lh_alg h) = underscores name)
  /\ In Integrity (su_provides su) /\ In SenderAuthentication (su_provides su)
  /\ exists s l r data section,
       correspondence c suite_registry tool_registry hash_registry cr w e = Ok s /\ dump_fd fd = Ok data
       /\ close_session c cr s full data (rt_start d None) = (Ok l, r) /\ make_section dump l = Ok section
       /\ match sr with
          | SigMissing => text = section
          | SigText old => forall texts bodies tail, sections_of old texts bodies tail -> text = kept texts tail ++ [x0a] ++ section
          | SigError => False
          end.
Proof.
  intros c cr w H dump dump_fd src content sr e su meta rest full d text fd HF LS HI RC SF.
  unfold sign_file in SF. rewrite LS in SF. cbn [bind] in SF. apply bind_ok in SF as (alg & A & SF). destruct (suite_hash_alg (su_tools su)) as [a|] eqn:EA; [|discriminate]. injection A as ->.
  rewrite RC in SF. cbn [of_option bind] in SF.
  apply bind_ok in SF as (h & EH & SF). apply bind_ok in SF as ([l fd'] & SD & SF).
  unfold sign_file_data in SD. apply bind_ok in SD as (s & CO & SD). rewrite LS in SD. cbn [bind] in SD. apply bind_ok in SD as (u & RQC & SD).
  apply bind_ok in SD as (data & DD & SD). apply bind_ok in SD as (l' & CL & SD). injection SD as -> <-.
  destruct (close_session c cr s full data (rt_start d None)) as [o r] eqn:CLS. cbn [fst] in CL. subst o.
  apply req_check_ok in RQC. rewrite file_sig_reqs_eq in RQC.
  assert (X : FD (lh_bytes h) meta rest = fd /\ exists section, make_section dump l = Ok section
     /\ match sr with SigMissing => text = section | SigText old => forall texts bodies tail, sections_of old texts bodies tail -> text = kept texts tail ++ [x0a] ++ section | SigError => False end).
  { destruct sr as [| |old]; [|discriminate|].
    - apply bind_ok in SF as (new & M & SF). injection SF as <- <-. split; [reflexivity|]. exists new. auto.
    - apply bind_ok in SF as (new & M & SF). injection SF as <- <-. split; [reflexivity|]. pose proof M as M0. unfold add_to_sig_file in M. apply bind_ok in M as (sec & MS & _).
      exists sec. split; [exact MS|]. intros ts bs tl S. unfold add_to_sig_file in M0. rewrite MS in M0. cbn [bind] in M0. injection M0 as <-. unfold remove_sections. now rewrite (remove_spec _ _ _ _ _ (le_n _) S). }
  destruct X as (<- & section & MS & TX). cbn [fd_meta fd_hash]. split; [reflexivity|].
  pose proof (C34_made_well_formed H HF) as (MW & _). destruct (MW _ _ _ EH) as (HA & HD & HW). destruct (registered_hash su alg HI EA) as (id & tool & name & I & P & NM).
  split.
  { exists h, id, tool, name. rewrite HA. split; [|split; [congruence|auto]]. destruct h as [a' g']. cbn [lh_alg lh_digest] in *. subst a'. now apply C34_round_trip. }
  split; [apply RQC; left; reflexivity|]. split; [apply RQC; right; left; reflexivity|].
  exists s, l, r, data, section. repeat (split; [assumption|]). exact TX.
Qed.
Print Assumptions C55_sign_exact.

(** *** C56: the same for a JSON document *)
Theorem C56_sign_then_verify : forall esc unesc render c cr w1 w2 load dump ms e su full d1 d2 out,
  crypto_laws cr -> (forall s, unesc (esc s) = s) -> plain unesc (JObj ms) ->
  (forall l x, dump l = Ok x -> load x = Some (raw l)) ->
  writable c e su -> ~ In Confidentiality (su_provides su) ->
  (forall s, correspondence c suite_registry tool_registry hash_registry cr w1 e = Ok s -> reader cr w2 (s_env s)) ->
  add_json_signature esc unesc render c cr w1 dump (Some (JObj ms)) e full d1 = Ok out ->
  (verify_json_signature unesc render c cr w2 load (Some out) d2 = Ok tt <->
   (forall x, ~ listed unesc json_signature_key (JObj ms) x) \/ verify_json_signature unesc render c cr w2 load (Some (JObj ms)) d2 = Ok tt).
Proof.
  intros esc unesc render c cr w1 w2 load dump ms e su full d1 d2 out LW UE P DL W NC RD A.
  pose proof (wr_suite _ _ _ W) as G. pose proof (wr_cached _ _ _ W) as EC.
  assert (LS : load_suite suite_registry e = Ok su) by (unfold load_suite; destruct EC as [E|E]; rewrite E; [now rewrite G|reflexivity]).
  assert (RQ : incl [Integrity; SenderAuthentication] (su_provides su)).
  { unfold add_json_signature in A. apply bind_ok in A as (s & _ & A). rewrite LS in A. cbn [bind] in A. apply bind_ok in A as (u & R & _). apply req_check_ok in R. now rewrite file_sig_reqs_eq in R. }
  destruct (C49_add_signature _ _ _ _ _ _ _ _ _ _ _ _ UE P A) as (content & s & l & sig & C1 & C2 & P2 & CO & CL & DS & _ & SG).
  destruct (close_session c cr s full (render content) (rt_start d1 None)) as [o r] eqn:CLS. cbn [fst] in CL. subst o.
  pose proof (plain_letter _ _ _ _ _ _ _ _ _ _ _ G EC NC CO CLS) as LD.
  assert (GOOD : good_sig render c cr w2 load d2 (b64_encode true sig) content).
  { exists sig, (raw (set_data l [])). split; [apply b64_round_trip|]. split; [now apply DL|].
    replace (mkRaw _ _ _) with (raw l) by (unfold raw; cbn [rw_letter rw_keys rw_sigs]; rewrite <- LD; now destruct l).
    apply (C54_verify c cr w1 w2 e su s full (render content) d1 d2 l r (Some [Integrity; SenderAuthentication]) LW W CO (RD s CO) CLS RQ). eapply plain_senders; eassumption. }
  rewrite (C49_signatures_exact unesc render c cr w2 load out d2 P2), (C49_signatures_exact unesc render c cr w2 load (JObj ms) d2 P).
  assert (U : forall m ct1 ct2, plain unesc (JObj m) -> json_content unesc (JObj m) ct1 -> json_content unesc (JObj m) ct2 -> ct1 = ct2).
  { intros m x y Pm X Y. apply json_content_iff in X; [|exact Pm]. apply json_content_iff in Y; [|exact Pm]. congruence. }
  assert (OM : exists m', out = JObj m') by (destruct C2 as (m' & ? & E & _); eauto). destruct OM as [m' ->].
  split.
  - intros (ct & K & _ & ALL). assert (ct = content) by (eapply U; eassumption). subst ct.
    destruct (get_member unesc json_signature_key ms) eqn:GM.
    + destruct (json_strings unesc (Some j)) as [|x q] eqn:JS.
      * left. intros x X. apply listed_iff in X; [|now apply plain_parts in P as [? _]]. rewrite GM, JS in X. destruct X.
      * right. exists content. split; [exact C1|]. split; [exists x; apply listed_iff; [now apply plain_parts in P as [? _]|]; rewrite GM, JS; now left|].
        intros y Y. apply ALL. apply SG. now left.
    + left. intros x X. apply listed_iff in X; [|now apply plain_parts in P as [? _]]. rewrite GM in X. destruct X.
  - intro OLD. exists content. split; [exact C2|]. split; [eexists; apply SG; right; reflexivity|].
    intros x X. apply SG in X as [X| ->]; [|exact GOOD]. destruct OLD as [N|(ct & K & _ & ALL)]; [now apply N in X|].
    assert (ct = content) by exact (U _ _ _ P K C1). subst ct. now apply ALL.
Qed.
Print Assumptions C56_sign_then_verify.

(** ** Concrete cases *)
Fixpoint list_eqb {A} (eq : A -> A -> bool) (a b : list A) : bool :=
  match a, b with
  | [], [] => true
  | x :: a', y :: b' => eq x y && list_eqb eq a' b'
  | _, _ => false
  end.
Lemma list_eqb_eq {A} (eq : A -> A -> bool) : (forall x y, eq x y = true -> x = y) -> forall a b, list_eqb eq a b = true -> a = b.
Proof. intro H. induction a as [|x a IH]; destruct b as [|y b]; cbn; try discriminate; [reflexivity|]. intro E. apply andb_true_iff in E as [E1 E2]. f_equal; auto. Qed.
Definition seal_eqb (a b : seal) : bool :=
  bytes_eqb (seal_scheme a) (seal_scheme b) && bytes_eqb (seal_id a) (seal_id b) && bytes_eqb (seal_value a) (seal_value b).
Lemma seal_eqb_eq a b : seal_eqb a b = true -> a = b.
Proof. destruct a, b. unfold seal_eqb. cbn. rewrite !andb_true_iff, !bytes_eqb_eq. intros [[-> ->] ->]. reflexivity. Qed.
Definition letter_eqb (a b : letter) : bool :=
  (l_version a =? l_version b)%N && bytes_eqb (l_suite a) (l_suite b) && bytes_eqb (l_nonce a) (l_nonce b) && list_eqb seal_eqb (l_keys a) (l_keys b)
  && bytes_eqb (l_data a) (l_data b) && bytes_eqb (l_mac a) (l_mac b) && list_eqb seal_eqb (l_sigs a) (l_sigs b) && Bool.eqb (l_apply a) (l_apply b).
Lemma letter_eqb_eq a b : letter_eqb a b = true -> a = b.
Proof.
  destruct a, b. unfold letter_eqb. cbn. rewrite !andb_true_iff, !bytes_eqb_eq, N.eqb_eq, eqb_true_iff. intros [[[[[[[-> ->] ->] K] ->] ->] G] ->].
  apply (list_eqb_eq _ seal_eqb_eq) in K, G. now subst.
Qed.
Definition filedata_eqb (a b : filedata) : bool :=
  bytes_eqb (fd_hash a) (fd_hash b) && list_eqb (fun x y => bytes_eqb (fst x) (fst y) && bytes_eqb (snd x) (snd y)) (fd_meta a) (fd_meta b) && bytes_eqb (fd_rest a) (fd_rest b).
Lemma filedata_eqb_eq a b : filedata_eqb a b = true -> a = b.
Proof.
  destruct a, b. unfold filedata_eqb. cbn. rewrite !andb_true_iff, !bytes_eqb_eq. intros [[-> K] ->]. f_equal. revert K. apply list_eqb_eq.
  intros [x1 x2] [y1 y2]. cbn. rewrite andb_true_iff, !bytes_eqb_eq. now intros [-> ->].
Qed.
(** A codec that knows one value. *)
Definition one_dump {A} (eq : A -> A -> bool) (known a : A) : outcome bytes := if eq a known then Ok [x01] else Err EOther.
Definition one_load {A B} (f : A -> B) (known : A) (x : bytes) : option B := if bytes_eqb x [x01] then Some (f known) else None.
Lemma one_law {A B} (eq : A -> A -> bool) (f : A -> B) known a x : (forall x y, eq x y = true -> x = y) -> one_dump eq known a = Ok x -> one_load f known x = Some (f a).
Proof. unfold one_dump, one_load. intro H. destruct (eq a known) eqn:E; [|discriminate]. intro X. injection X as <-. apply H in E as ->. reflexivity. Qed.

Definition closed_by (su : suite) (data : bytes) : letter :=
  match correspondence default_config suite_registry tool_registry hash_registry toy (writer_world su) (post_env su) with
  | Ok s => match fst (close_session default_config toy s false data (rt_start 3 None)) with Ok l => l | _ => l_empty end
  | _ => l_empty
  end.
Definition demo_meta : list (bytes * bytes) := [(lit "id", lit "7"); (lit "version", lit "1.2")].
Definition demo_fd (su : suite) : filedata :=
  let alg := match suite_hash_alg (su_tools su) with Some a => a | None => 0%N end in
  FD (lh_bytes (LH alg (toy_hash alg (lit "hello")))) demo_meta (lit "now").
(** Signing "hello" with the suite [su], after a comment line. *)
Definition demo_sign (su : suite) : outcome (bytes * filedata) :=
  sign_file default_config toy (writer_world su) toy_hash (one_dump letter_eqb (closed_by su [x01])) (one_dump filedata_eqb (demo_fd su))
    (FromFile (Some (lit "hello"))) (SigText (lit "# signed")) (post_env su) demo_meta (lit "now") false 3.
Definition demo_verify (su : suite) (text : bytes) : outcome (list (filedata * bool) * bool) :=
  verify_file default_config toy (reader_world su) toy_hash (one_load raw (closed_by su [x01])) (one_load (fun f => f) (demo_fd su))
    (FromFile (Some (lit "hello"))) (Some text) demo_meta 9.
Definition signs (su : suite) : Prop :=
  writable default_config (post_env su) su /\ ~ In Confidentiality (su_provides su)
  /\ (forall s, correspondence default_config suite_registry tool_registry hash_registry toy (writer_world su) (post_env su) = Ok s -> reader toy (reader_world su) (s_env s))
  /\ exists text, demo_sign su = Ok (text, demo_fd su) /\ demo_verify su text = Ok ([(demo_fd su, true)], false).
Example C55_hypotheses_met : hash_family toy_hash
  /\ (exists texts bodies tail, sections_of (lit "# signed") texts bodies tail /\ ~ contains begin_line (kept texts tail))
  /\ Forall signs (filter (fun su => negb (existsb (N.eqb Confidentiality) (su_provides su))) suite_registry)
  /\ length (filter (fun su => negb (existsb (N.eqb Confidentiality) (su_provides su))) suite_registry) = 4.
Proof.
  split; [exact (proj1 (proj2 C49_hypotheses_met))|]. split; [|split; [|reflexivity]].
  - assert (N : ~ contains begin_line (lit "# signed")).
    { assert (E : Search.find_sub begin_line (lit "# signed") = None) by (vm_compute; reflexivity). apply Search.find_sub_none in E. intros (a & b & X). apply E. now exists a, b. }
    exists [], [], (lit "# signed"). split; [|exact N]. now apply ArmorFacts.no_begin_none.
  - apply Forall_forall. intros su H. apply filter_In in H as [HI HC]. pose proof C54_hypotheses_met as T. rewrite Forall_forall in T.
    destruct (T su HI) as (s & l & r & W & CO & RD & _). split; [exact W|]. split.
    { intro X. apply negb_true_iff in HC. assert (Y : existsb (N.eqb Confidentiality) (su_provides su) = true) by (apply existsb_exists; exists Confidentiality; split; [exact X|reflexivity]). rewrite HC in Y. discriminate Y. }
    split; [intros s' E; rewrite CO in E; injection E as <-; exact RD|].
    assert (V : forallb (fun su => existsb (N.eqb Confidentiality) (su_provides su) ||
        match demo_sign su with Ok (text, fd) => if filedata_eqb fd (demo_fd su) then match demo_verify su text with Ok ([(fd', true)], false) => filedata_eqb fd' (demo_fd su) | _ => false end else false | _ => false end) suite_registry = true) by (vm_compute; reflexivity).
    rewrite forallb_forall in V. specialize (V su HI). apply negb_true_iff in HC. rewrite HC in V. cbn [orb] in V.
    destruct (demo_sign su) as [[text fd]| |]; [|discriminate..]. destruct (filedata_eqb fd (demo_fd su)) eqn:EF; [|discriminate]. apply filedata_eqb_eq in EF as ->. exists text. split; [reflexivity|].
    destruct (demo_verify su text) as [[[|[fd' [|]] [|]] [|]]| |]; try discriminate. apply filedata_eqb_eq in V as ->. reflexivity.
Qed.

(** With a suite that encrypts (and has everything SignFile asks for) SignFile succeeds, but the file data in the letter is
    encrypted, and the reader, who could open the letter, cannot verify the file. *)
Theorem C55_encrypting_suite_refuted :
  let su := suite_named (lit "v1") in
  writable default_config (post_env su) su
  /\ (forall s, correspondence default_config suite_registry tool_registry hash_registry toy (writer_world su) (post_env su) = Ok s -> reader toy (reader_world su) (s_env s))
  /\ exists text, demo_sign su = Ok (text, demo_fd su) /\ demo_verify su text = Ok ([], true).
Proof.
  cbv zeta. pose proof C54_hypotheses_met as T. rewrite Forall_forall in T.
  assert (HI : In (suite_named (lit "v1")) suite_registry) by (apply (get_suite_in (lit "v1")); vm_compute; reflexivity).
  destruct (T _ HI) as (s & l & r & W & CO & RD & _). split; [exact W|]. split; [intros s' E; rewrite CO in E; injection E as <-; exact RD|].
  eexists. split; [vm_compute; reflexivity|vm_compute; reflexivity].
Qed.
Print Assumptions C55_encrypting_suite_refuted.

(** JSON: the document of C49, signed by one and verified by another. *)
Definition demo_render : json -> bytes := toy_render.
Definition demo_json_letter (su : suite) : letter := closed_by su (toy_render (sort_json sample_json)).
Definition demo_json_sign (su : suite) : outcome json :=
  add_json_signature idb idb toy_render default_config toy (writer_world su) (one_dump letter_eqb (set_data (demo_json_letter su) [])) (Some sample_json) (post_env su) false 3.
Definition demo_json_verify (su : suite) (d : json) : outcome unit :=
  verify_json_signature idb toy_render default_config toy (reader_world su) (one_load raw (set_data (demo_json_letter su) [])) (Some d) 9.
Example C56_hypotheses_met :
  (forall s, idb (idb s) = s) /\ plain idb sample_json
  /\ Forall (fun su => exists out, demo_json_sign su = Ok out /\ out <> sample_json /\ demo_json_verify su out = Ok tt)
       (filter (fun su => negb (existsb (N.eqb Confidentiality) (su_provides su))) suite_registry).
Proof.
  split; [reflexivity|]. split; [exact sample_plain|].
  apply Forall_forall. intros su H. apply filter_In in H as [HI HC]. apply negb_true_iff in HC.
  assert (V : forallb (fun su => existsb (N.eqb Confidentiality) (su_provides su) ||
      match demo_json_sign su with Ok out => is_ok (demo_json_verify su out) && negb (is_ok (demo_json_verify su sample_json)) | _ => false end) suite_registry = true) by (vm_compute; reflexivity).
  rewrite forallb_forall in V. specialize (V su HI). rewrite HC in V. cbn [orb] in V.
  destruct (demo_json_sign su) as [out| |]; [|discriminate..]. exists out. split; [reflexivity|]. apply andb_true_iff in V as [V1 V2].
  split; [intros ->; rewrite V1 in V2; discriminate|]. destruct (demo_json_verify su out) as [[]| |]; [reflexivity|discriminate..].
Qed.
(** With an encrypting suite the signature is about the encrypted data, which is not kept: nobody can verify. *)
Theorem C56_encrypting_suite_refuted :
  let su := suite_named (lit "v1") in
  writable default_config (post_env su) su
  /\ (forall s, correspondence default_config suite_registry tool_registry hash_registry toy (writer_world su) (post_env su) = Ok s -> reader toy (reader_world su) (s_env s))
  /\ exists out er, demo_json_sign su = Ok out /\ demo_json_verify su out = Err er.
Proof.
  cbv zeta. pose proof C54_hypotheses_met as T. rewrite Forall_forall in T.
  assert (HI : In (suite_named (lit "v1")) suite_registry) by (apply (get_suite_in (lit "v1")); vm_compute; reflexivity).
  destruct (T _ HI) as (s & l & r & W & CO & RD & _). split; [exact W|]. split; [intros s' E; rewrite CO in E; injection E as <-; exact RD|].
  eexists _, _. split; [vm_compute; reflexivity|vm_compute; reflexivity].
Qed.
Print Assumptions C56_encrypting_suite_refuted.
