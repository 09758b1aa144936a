(** Property theorems C07, C08, C22, C47: session creation.
    [reg], [hreg]: registered tools and hash tools; [c]: the process-wide defaults
    and minimums; [cr]: the primitives.  Vocabulary: SpecSession.v. *)
From Coq Require Import Init.Byte.
From Verif Require Import SessionProps SuiteFacts Toy.

(** ** C07 *)

(** A session exists only if no tool occurs twice, everything the suite declares
    is delivered, and the guarantees build on one another. *)
Theorem C07_guarantees_delivered : forall c reg hreg cr e s,
  new_session c reg hreg cr e = Ok s ->
  exists su, e_suite e = Some su
    /\ NoDup (su_tools su)
    /\ (forall id, In id (su_tools su) -> exists t, tools_get reg (fst (parse_tool_id id)) = Ok t)
    /\ (forall a, In a (su_provides su) -> delivers reg su e a)
    /\ (forall a, In a (s_req s) <-> delivers reg su e a)
    /\ (delivers reg su e RecipientAuthentication -> delivers reg su e Confidentiality)
    /\ (delivers reg su e Confidentiality -> delivers reg su e Integrity).
Proof.
  intros c reg hreg cr e s H. apply new_session_ok in H as (su & ESU & O). exists su. split; [assumption|].
  pose proof (so_res _ _ _ _ _ _ _ O) as Hres.
  assert (D : forall a, In a (s_req s) <-> delivers reg su e a).
  { intro a. rewrite (delivers_dlv _ _ _ _ _ _ Hres). apply (so_req _ _ _ _ _ _ _ O). }
  split; [apply O|]. split.
  { intros id Hid. apply (In_index_from 0) in Hid as (k & Hk).
    destruct (Forall2_In_l _ _ _ _ Hres Hk) as (i & _ & _ & R2 & _). cbn [snd] in R2. eauto. }
  split; [intros a Ha; apply D; now apply (so_provides _ _ _ _ _ _ _ O)|]. split; [exact D|].
  split; intro Hd; apply D; [apply (so_rc _ _ _ _ _ _ _ O)|apply (so_ci _ _ _ _ _ _ _ O)]; now apply D.
Qed.
Print Assumptions C07_guarantees_delivered.

(** At most one key derivation tool; without one the suite only signs, with one it
    encrypts or authenticates; each tool that needs signets has at least one. *)
Theorem C07_key_derivation : forall c reg hreg cr e s su,
  new_session c reg hreg cr e = Ok s -> e_suite e = Some su ->
  (forall t, In t reg -> t_name t <> []) ->
  (forall id id' t t', In id (su_tools su) -> In id' (su_tools su) ->
     tools_get reg (fst (parse_tool_id id)) = Ok t -> t_purpose t = PKeyDerivation ->
     tools_get reg (fst (parse_tool_id id')) = Ok t' -> t_purpose t' = PKeyDerivation -> id = id')
  /\ ((forall t, suite_tool reg su t -> t_purpose t <> PKeyDerivation) ->
      forall t, suite_tool reg su t -> t_purpose t = PSigning)
  /\ (forall t, suite_tool reg su t -> t_purpose t = PKeyDerivation ->
      exists t', suite_tool reg su t' /\ (t_purpose t' = PIntegratedCipher \/ t_purpose t' = PCipher \/ t_purpose t' = PMAC))
  /\ tools_served reg su e.
Proof.
  intros c reg hreg cr e s su H ESU Hnm. apply new_session_acceptable in H as (su' & ESU' & A).
  rewrite ESU in ESU'. injection ESU' as <-. pose proof (ac_res _ _ _ _ _ _ _ A) as Hres.
  pose proof (suite_tool_iff reg hreg su (s_all s)) as ST.
  split; [|split; [|split]].
  - intros id id' t t' Hid Hid' Ht Hp Ht' Hp'.
    apply (In_index_from 0) in Hid as (k & Hk). apply (In_index_from 0) in Hid' as (k' & Hk').
    destruct (bytes_eq_dec id id') as [E|E]; [assumption|]. exfalso.
    pose proof (ac_kdf1 _ _ _ _ _ _ _ A) as L.
    (* two different positions give two instances *)
    assert (G : forall l is, Forall2 (resolves reg hreg) l is -> In (k, id) l -> In (k', id') l ->
       2 <= length (of_purpose PKeyDerivation is)); [|specialize (G _ _ Hres Hk Hk'); lia].
    clear - Ht Hp Ht' Hp' E Hk. assert (One : forall l is x, Forall2 (resolves reg hreg) l is -> In x l ->
       (exists t, tools_get reg (fst (parse_tool_id (snd x))) = Ok t /\ t_purpose t = PKeyDerivation) ->
       1 <= length (of_purpose PKeyDerivation is)).
    { intros l is x HF Hx (t0 & Ht0 & Hp0). destruct (Forall2_In_l _ _ _ _ HF Hx) as (i & Hi & _ & R & _).
      assert (In i (of_purpose PKeyDerivation is)) by (apply of_purpose_In; split; [assumption|]; unfold i_purpose; congruence).
      destruct (of_purpose PKeyDerivation is); [easy|cbn; lia]. }
    induction 1 as [|x i l is Hx HF IH]; [easy|]. unfold of_purpose. cbn [filter]. fold (of_purpose PKeyDerivation is).
    intros [Ex|H1] [Ey|H2].
    + exfalso. apply E. congruence.
    + subst x. destruct Hx as (_ & R & _). cbn [snd] in R. assert (H : i_purpose i = PKeyDerivation) by (unfold i_purpose; congruence).
      rewrite H. cbn [purpose_eqb length]. specialize (One l is (k', id') HF H2). cbn [snd] in One. specialize (One ltac:(eauto)). lia.
    + subst x. destruct Hx as (_ & R & _). cbn [snd] in R. assert (H : i_purpose i = PKeyDerivation) by (unfold i_purpose; congruence).
      rewrite H. cbn [purpose_eqb length]. specialize (One l is (k, id) HF H1). cbn [snd] in One. specialize (One ltac:(eauto)). lia.
    + specialize (IH H1 H2). destruct (purpose_eqb (i_purpose i) PKeyDerivation); cbn [length]; lia.
  - intros Hno t Ht. assert (E : of_purpose PKeyDerivation (s_all s) = []).
    { destruct (of_purpose PKeyDerivation (s_all s)) as [|i r] eqn:E; [reflexivity|]. exfalso.
      assert (Hi : In i (of_purpose PKeyDerivation (s_all s))) by (rewrite E; now left). apply of_purpose_In in Hi as [Hi Hp].
      apply (Hno (i_tool i)); [apply (ST _ Hres); eauto|exact Hp]. }
    apply (ac_kdf_missing _ _ _ _ _ _ _ A) in E. apply (ST _ Hres) in Ht as (i & Hi & <-).
    assert (G : forall l : list inst, length (of_purpose PSigning l) = length l -> forall i, In i l -> i_purpose i = PSigning).
    { induction l as [|j l IH]; [easy|]. unfold of_purpose. cbn [filter]. fold (of_purpose PSigning l). intros HL k Hk.
      assert (length (of_purpose PSigning l) <= length l).
      { clear. unfold of_purpose. induction l as [|b l IH]; cbn [filter length]; [lia|].
        destruct (purpose_eqb (i_purpose b) PSigning); cbn [length]; lia. }
      destruct (purpose_eqb (i_purpose j) PSigning) eqn:EJ; cbn [length] in HL; [|lia].
      destruct Hk as [<-|Hk]; [now apply purpose_eqb_eq|]. apply IH; [lia|assumption]. }
    now apply (G _ E).
  - intros t Ht Hp. apply (ST _ Hres) in Ht as (i & Hi & <-).
    assert (E : of_purpose PKeyDerivation (s_all s) <> []).
    { assert (Hin : In i (of_purpose PKeyDerivation (s_all s))) by (apply of_purpose_In; auto). intro E; rewrite E in Hin; easy. }
    apply (ac_kdf_needed _ _ _ _ _ _ _ A) in E.
    assert (G : forall p, of_purpose p (s_all s) <> [] -> exists t', suite_tool reg su t' /\ t_purpose t' = p).
    { intros p Hn. destruct (of_purpose p (s_all s)) as [|j r] eqn:EJ; [easy|].
      assert (Hj : In j (of_purpose p (s_all s))) by (rewrite EJ; now left). apply of_purpose_In in Hj as [Hj Hjp].
      exists (i_tool j). split; [apply (ST _ Hres); eauto|exact Hjp]. }
    destruct E as [E|[E|E]]; destruct (G _ E) as (t' & T1 & T2); exists t'; auto.
  - apply (tools_served_ne _ _ _ _ _ Hres Hnm). apply (ac_ne _ _ _ _ _ _ _ A).
Qed.
Print Assumptions C07_key_derivation.

(** No secret, sender or recipient of the envelope is left without a tool -
    provided the suite does not name the same tool twice. *)
Theorem C07_no_signet_unused : forall c reg hreg cr e s su,
  new_session c reg hreg cr e = Ok s -> e_suite e = Some su ->
  (forall t, In t reg -> t_name t <> []) -> distinct_tools su ->
  signets_served reg su e.
Proof.
  intros c reg hreg cr e s su H ESU Hn Hd. apply new_session_acceptable in H as (su' & ESU' & A).
  rewrite ESU in ESU'. injection ESU' as <-. eapply acceptable_served; eauto.
Qed.
Print Assumptions C07_no_signet_unused.

(** The proviso is needed: the code counts each signet once per tool that uses it, so
    a suite with two Ed25519 tools accepts an envelope whose recipient no tool serves. *)
Definition double_sign_suite : suite :=
  mkSuite (lit "double") [lit "Ed25519(SHA2-256)"; lit "Ed25519(BLAKE3)"] reqs_sign 128 1.
Definition double_sign_env : envelope :=
  toy_env double_sign_suite [] [toy_signet "alice" "Ed25519" 5] [toy_recipient "bob" "ECDH-X25519" 7].
Theorem C07_unused_recipient_refuted : exists s,
  new_session default_config tool_registry hash_registry toy double_sign_env = Ok s
  /\ In (toy_recipient "bob" "ECDH-X25519" 7) (e_recipients double_sign_env)
  /\ ~ (exists t, suite_tool tool_registry double_sign_suite t
                  /\ (t_purpose t = PKeyExchange \/ t_purpose t = PKeyEncapsulation)).
Proof.
  destruct (new_session default_config tool_registry hash_registry toy double_sign_env) as [s| |] eqn:E;
    [|vm_compute in E; discriminate|vm_compute in E; discriminate].
  exists s. split; [reflexivity|]. split; [now left|].
  intros (t & (id & [<-|[<-|[]]] & Ht) & Hp); vm_compute in Ht; injection Ht as <-; cbn in Hp; destruct Hp; discriminate.
Qed.
Print Assumptions C07_unused_recipient_refuted.

(** ** C08 *)

(** Everything that has a security level is at or above the floor; the session's
    level is the minimum of these levels, its nonce size follows from their maximum. *)
Theorem C08_level_floor : forall c reg hreg cr e s,
  new_session c reg hreg cr e = Ok s ->
  exists su, e_suite e = Some su
    /\ (level_floor c e <= su_level su)%Z
    /\ ((0 < e_level e)%Z -> (level_floor c e <= e_level e)%Z)
    /\ (level_floor c e <= s_level s)%Z
    /\ (forall i sg, part_of s i sg -> exists l, rated cr i sg l /\
          (l = 0%Z \/ ((0 < l)%Z /\ (level_floor c e <= l)%Z /\ (s_level s <= l)%Z /\ (l / 32 <= nonce_size s)%Z))).
Proof.
  intros c reg hreg cr e s H. apply new_session_ok in H as (su & ESU & O). exists su. split; [assumption|].
  destruct (so_items _ _ _ _ _ _ _ O) as (ls & I1 & I2 & I3 & I4 & I5).
  split; [apply O|]. split; [apply O|]. split; [apply O|].
  intros i sg Hp. apply part_of_items in Hp. rewrite Forall_forall in I1. destruct (I1 _ Hp) as (l & L1 & L2).
  cbn [fst snd] in L1. exists l. split; [now apply calc_level_rated|]. destruct L2 as [L2|(L2 & L3 & L4)]; [now left|].
  right. split; [assumption|]. split; [assumption|]. split.
  - rewrite I4. destruct ls as [|x ls]; [easy|]. now apply zmin_list_spec.
  - unfold nonce_size. rewrite I5. unfold zmax_list.
    destruct (fold_max_spec ls 0%Z) as [_ G]. specialize (G l (or_intror L4)).
    assert (l / 32 <= fold_left Z.max ls 0%Z / 32)%Z by (apply Z.div_le_mono; lia). lia.
Qed.
Print Assumptions C08_level_floor.

(** The level is attained by some part (or is the process-wide minimum if no part is
    rated), and so is the nonce size. *)
Theorem C08_level_attained : forall c reg hreg cr e s,
  new_session c reg hreg cr e = Ok s -> (forall t, In t reg -> t_name t <> []) ->
  ((exists i sg, part_of s i sg /\ rated cr i sg (s_level s) /\ (0 < s_level s)%Z)
   \/ (s_level s = Z.max 0 (c_min_level c) /\ forall i sg, part_of s i sg -> rated cr i sg 0))
  /\ (nonce_size s = 4%Z \/ exists i sg l, part_of s i sg /\ rated cr i sg l /\ nonce_size s = (l / 32)%Z).
Proof.
  intros c reg hreg cr e s H Hn. apply new_session_ok in H as (su & ESU & O).
  destruct (so_items _ _ _ _ _ _ _ O) as (ls & I1 & I2 & I3 & I4 & I5).
  assert (Hnm : forall j, In j (s_all s) -> t_name (i_tool j) <> []).
  { intros j Hj. destruct (Forall2_In_r _ _ _ _ (so_res _ _ _ _ _ _ _ O) Hj) as (x & _ & Hx).
    apply resolves_name in Hx as [_ Hx]. now apply Hn. }
  assert (F : forall x, In x ls -> exists i sg, part_of s i sg /\ rated cr i sg x /\ (0 < x)%Z).
  { intros x Hx. rewrite Forall_forall in I2, I3. destruct (I2 x Hx) as ((i & sg) & J1 & J2). exists i, sg.
    split; [now apply items_part_of|]. split; [now apply calc_level_rated|]. now apply I3. }
  split.
  - destruct ls as [|x ls].
    + right. split; [rewrite I4; destruct (Z.ltb_spec 0 (c_min_level c)); lia|].
      intros i sg Hp. apply part_of_items in Hp. rewrite Forall_forall in I1. destruct (I1 _ Hp) as (l & L1 & [->|(_ & _ & [])]).
      now apply calc_level_rated.
    + left. rewrite I4. apply F. now apply zmin_list_spec.
  - unfold nonce_size. rewrite I5. unfold zmax_list. destruct (fold_max_spec ls 0%Z) as [[G|G] _].
    + left. rewrite <- G. reflexivity.
    + destruct (F _ G) as (i & sg & F1 & F2 & F3). set (m := fold_left Z.max ls 0%Z) in *.
      destruct (Z.max_spec 4 (m / 32)) as [[_ E]|[_ E]]; rewrite E; [right; exists i, sg, m; auto|now left].
Qed.
Print Assumptions C08_level_attained.

Example C08_floor_is_enforced :
  let e := mkEnvelope 1 [] (lit "v2") (Some (suite_named (lit "v2"))) [] [toy_signet "alice" "Ed25519" 5]
             [toy_recipient "bob" "ECDH-X25519" 7] 0 false in
  (exists s, new_session default_config tool_registry hash_registry toy e = Ok s
             /\ s_level s = 128%Z /\ nonce_size s = 4%Z)
  /\ new_session (mkConfig 128 129 16 0) tool_registry hash_registry toy e = Err EOther.
Proof.
  split; [eexists; split; [vm_compute; reflexivity|split; reflexivity]|vm_compute; reflexivity].
Qed.

(** ** C22 *)

Theorem C22_wire_protection : forall c reg hreg cr e s su,
  new_session c reg hreg cr e = Ok s -> init_wire s = Ok tt -> e_suite e = Some su ->
  delivers reg su e Confidentiality /\ delivers reg su e Integrity /\ delivers reg su e RecipientAuthentication
  /\ (forall t, suite_tool reg su t -> t_purpose t <> PPassDerivation /\ t_purpose t <> PSigning)
  /\ ~ has_key_secret e
  /\ (exists t, suite_tool reg su t /\ (t_purpose t = PKeyExchange \/ t_purpose t = PKeyEncapsulation)).
Proof.
  intros c reg hreg cr e s su H W ESU. pose proof H as H0.
  apply C07_guarantees_delivered in H0 as (su' & ESU' & _ & _ & _ & D & _). rewrite ESU in ESU'. injection ESU' as <-.
  apply new_session_ok in H as (su' & ESU' & O). rewrite ESU in ESU'. injection ESU' as <-.
  unfold init_wire in W. apply bind_ok in W as (u1 & W1 & W). apply bind_ok in W as (u2 & W2 & W). apply guard_ok in W.
  apply req_check_ok in W1. rewrite (sh_env _ _ _ (so_shape _ _ _ _ _ _ _ O)) in W.
  assert (HK : ~ has_key_secret e).
  { rewrite has_key_loop. destruct (loop scheme_key (e_secrets e)); [auto|discriminate]. }
  assert (HP : forall t, suite_tool reg su t -> t_purpose t <> PPassDerivation /\ t_purpose t <> PSigning).
  { intros t Ht. apply (suite_tool_iff _ _ _ _ _ (so_res _ _ _ _ _ _ _ O)) in Ht as (i & Hi & <-).
    destruct u2. rewrite iterM_ok, Forall_forall in W2. specialize (W2 i Hi). destruct (t_purpose (i_tool i)); split; congruence. }
  assert (HR : delivers reg su e RecipientAuthentication) by (apply D, W1; vm_compute; auto).
  repeat split; try (apply D, W1; vm_compute; now auto); try (now apply HP); auto.
  destruct HR as [(t & Ht & Hg)|(Hk & _)]; [|easy]. exists t. split; [assumption|]. destruct (HP t Ht).
  destruct (t_purpose t); cbn in Hg; try discriminate; auto; easy.
Qed.
Print Assumptions C22_wire_protection.

Example C22_wire_suite :
  (exists s, new_session default_config tool_registry hash_registry toy
     (toy_env (suite_named (lit "w2")) [] [] [toy_recipient "srv" "ECDH-X25519" 7]) = Ok s /\ init_wire s = Ok tt)
  /\ (exists s, new_session default_config tool_registry hash_registry toy
     (toy_env (suite_named (lit "key_v2")) [toy_secret "k"] [] []) = Ok s /\ init_wire s = Err EOther)
  /\ (exists s, new_session default_config tool_registry hash_registry toy
     (toy_env (suite_named (lit "v2")) [] [toy_signet "alice" "Ed25519" 5] [toy_recipient "srv" "ECDH-X25519" 7]) = Ok s
     /\ init_wire s = Err EOther).
Proof. repeat split; eexists; (split; [vm_compute; reflexivity|vm_compute; reflexivity]). Qed.

(** ** C47 *)

(** The registry of suites: distinct IDs; distinct tools, all registered. *)
Theorem C47_registry_well_formed :
  NoDup (map su_id suite_registry) /\
  forall su, In su suite_registry ->
    distinct_tools su /\ NoDup (su_tools su)
    /\ (forall id, In id (su_tools su) -> exists t, tools_get tool_registry (fst (parse_tool_id id)) = Ok t)
    /\ su_level su = 128%Z /\ get_suite suite_registry (su_id su) = Some su.
Proof.
  split; [apply nodupb_ok; vm_compute; reflexivity|]. intros su Hsu.
  pose proof registry_checked as RC. rewrite forallb_forall in RC. specialize (RC su Hsu). unfold suite_check in RC.
  repeat match type of RC with _ && _ = true => let H := fresh "W" in apply andb_true_iff in RC as [RC H] end.
  split; [now apply nodupb_ok|]. split; [now apply nodupb_ok|]. split.
  - intros id Hid. unfold suite_insts in *. destruct (resolve_all tool_registry hash_registry (index_from 0 (su_tools su))) as [is|] eqn:E; [|discriminate].
    apply resolve_all_ok in E. apply (In_index_from 0) in Hid as (k & Hk).
    destruct (Forall2_In_l _ _ _ _ E Hk) as (i & _ & _ & R2 & _). cbn [snd] in R2. eauto.
  - split; [lia|].
    assert (G : forallb (fun su => match get_suite suite_registry (su_id su) with Some su' =>
       bytes_eqb (concat (su_tools su)) (concat (su_tools su')) && bytes_eqb (su_id su) (su_id su') | None => false end) suite_registry = true)
      by (vm_compute; reflexivity).
    clear - Hsu. unfold suite_registry in Hsu. cbn [In] in Hsu.
    repeat (destruct Hsu as [<-|Hsu]; [vm_compute; reflexivity|]). destruct Hsu.
Qed.
Print Assumptions C47_registry_well_formed.

(** Each registered suite opens a correspondence, at its declared level, for every
    envelope whose signets fit its tools and are strong enough. *)
Theorem C47_suites_open : forall su c cr e,
  In su suite_registry -> e_suite e = Some su ->
  (level_floor c e <= 128)%Z -> ((0 < e_level e)%Z -> (level_floor c e <= e_level e)%Z) ->
  signets_served tool_registry su e -> tools_served tool_registry su e ->
  (forall a, In a (su_provides su) -> delivers tool_registry su e a) ->
  (has_key_secret e -> delivers tool_registry su e Confidentiality) ->
  (forall sg, In sg (e_secrets e) -> sg_scheme sg = scheme_key ->
     sg_key sg = [] \/ (level_floor c e <= 8 * Z.of_nat (length (sg_key sg)))%Z) ->
  (forall sg, In sg (e_secrets e) -> sg_scheme sg = scheme_pw ->
     sg_key sg = [] \/ (Z.max 1 (level_floor c e) <= cr_pw_level cr (sg_key sg) 1048576)%Z) ->
  exists s, new_session c tool_registry hash_registry cr e = Ok s
    /\ (forall a, In a (s_req s) <-> delivers tool_registry su e a)
    /\ (level_floor c e <= s_level s <= 128)%Z.
Proof. exact suite_opens. Qed.
Print Assumptions C47_suites_open.

(** What the tools of each registered suite deliver (with a pre-shared key for the
    key suites) is exactly what it declares. *)
Theorem C47_declared_is_delivered : forall su e,
  In su suite_registry ->
  (has_key_secret e <-> su_id su = lit "key_v1" \/ su_id su = lit "key_v2") ->
  forall a, (a < 4)%N -> (In a (su_provides su) <-> delivers tool_registry su e a).
Proof.
  assert (RC : forallb (fun su =>
     match resolve_all tool_registry hash_registry (index_from 0 (su_tools su)) with
     | None => false
     | Some is => forallb (fun a => Bool.eqb (req_has (su_provides su) a)
          (existsb (fun i => gives (i_purpose i) a) is
           || ((bytes_eqb (su_id su) (lit "key_v1") || bytes_eqb (su_id su) (lit "key_v2"))
               && ((a =? SenderAuthentication)%N || (a =? RecipientAuthentication)%N)))) [0;1;2;3]%N
     end) suite_registry = true) by (vm_compute; reflexivity).
  intros su e Hsu Hk a Ha. rewrite forallb_forall in RC. specialize (RC su Hsu).
  destruct (resolve_all tool_registry hash_registry (index_from 0 (su_tools su))) as [is|] eqn:E; [|discriminate].
  apply resolve_all_ok in E. rewrite forallb_forall in RC. specialize (RC a).
  assert (Hin : In a [0;1;2;3]%N) by (cbn; lia). specialize (RC Hin). apply Bool.eqb_prop in RC.
  rewrite (delivers_dlv _ _ _ _ _ _ E). rewrite <- req_has_In, RC, orb_true_iff, andb_true_iff, orb_true_iff, orb_true_iff.
  rewrite !bytes_eqb_eq, !N.eqb_eq, existsb_exists. unfold dlv. rewrite <- has_key_loop, Hk. tauto.
Qed.
Print Assumptions C47_declared_is_delivered.

Example C47_hypotheses_met :
  let e := toy_env (suite_named (lit "pw_v2")) [toy_password "pw"] [] [] in
  In (suite_named (lit "pw_v2")) suite_registry /\ level_floor default_config e = 128%Z
  /\ exists s, new_session default_config tool_registry hash_registry toy e = Ok s /\ s_req s <> [].
Proof.
  split; [vm_compute; tauto|]. split; [reflexivity|]. eexists; split; [vm_compute; reflexivity|discriminate].
Qed.

(** Hash tools are labelled with distinct algorithms - except that BLAKE2s-256 carries
    the identifier of BLAKE2b-256 (hashtools/blake2.go:22), so a signing tool that takes
    the algorithm from the label treats one as the other. *)
Theorem C47_hash_label_refuted : exists h h',
  In h hash_registry /\ In h' hash_registry /\ h_name h <> h_name h' /\ h_crypto h = h_crypto h' /\ h_crypto h <> [].
Proof.
  exists (mkHash (lit "BLAKE2s-256") 128 32 (lit "BLAKE2b_256")), (mkHash (lit "BLAKE2b-256") 128 32 (lit "BLAKE2b_256")).
  repeat split; try (vm_compute; tauto); try discriminate. 
Qed.
Print Assumptions C47_hash_label_refuted.

(** C07: a session with sender and recipient, its suite declares (and delivers) all four guarantees. *)
Example C07_hypotheses_met :
  let e := toy_env (suite_named (lit "v2")) [] [toy_signet "alice" "Ed25519" 5] [toy_recipient "bob" "ECDH-X25519" 7] in
  (exists s, new_session default_config tool_registry hash_registry toy e = Ok s /\ s_req s <> [] /\ s_signers s <> [] /\ s_kx s <> [])
  /\ (forall t, In t tool_registry -> t_name t <> []) /\ distinct_tools (suite_named (lit "v2")).
Proof.
  split; [eexists; split; [vm_compute; reflexivity|split; [discriminate|split; discriminate]]|]. split.
  - assert (E : forallb (fun t => nonempty (t_name t)) tool_registry = true) by (vm_compute; reflexivity). rewrite forallb_forall in E. intros t I N. specialize (E t I). rewrite N in E. discriminate E.
  - apply C47_registry_well_formed. vm_compute. tauto.
Qed.
