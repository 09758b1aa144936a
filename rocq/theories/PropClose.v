(** C69: closing works. *)
From Coq Require Import Init.Byte.
From Verif Require Import PreludeFacts Container Letter Requirements Tools Crypto Session SpecSession SessionFacts SessionComplete SessionProps SuiteFacts
  Core CoreSession CoreTrip CoreRound Envelope SpecCore Toy SpecOpen PropHistory PropTrip PropLetter WireLive PropWire SpecPost Post PropPost SpecWorking SpecClose.

(** What the tools of a registered suite are, by purpose. *)
Lemma registered_kinds su : In su suite_registry ->
  Forall (fun i => (t_purpose (i_tool i) = PSigning -> i_name i = lit "Ed25519") /\ (t_purpose (i_tool i) = PPassDerivation -> i_name i = lit "SCRYPT-20"))
    (suite_insts su)
  /\ (of_purpose PPassDerivation (suite_insts su) <> [] -> (32 <= max_ks (suite_insts su))%Z)
  /\ (of_purpose PKeyDerivation (suite_insts su) <> [] ->
      of_purpose PPassDerivation (suite_insts su) <> [] \/ of_purpose PKeyExchange (suite_insts su) <> []
      \/ (Forall (fun i => match t_purpose (i_tool i) with PPassDerivation | PKeyExchange | PKeyEncapsulation | PSigning => false | _ => true end = true) (suite_insts su)
          /\ exists i, In i (suite_insts su) /\ gives (t_purpose (i_tool i)) Integrity = true)).
Proof.
  unfold suite_registry. cbn [In]. intro H.
  repeat (destruct H as [<-|H]; [
    split; [vm_compute; repeat constructor; intro X; first [discriminate X|reflexivity]|];
    split; [vm_compute; intro X; first [discriminate|now destruct X]|];
    intro X; vm_compute in X; first [now destruct X|left; vm_compute; discriminate|right; left; vm_compute; discriminate
      |right; right; split; [vm_compute; repeat constructor|eexists; split; [vm_compute; right; left; reflexivity|vm_compute; reflexivity]]]|]).
  destruct H.
Qed.

Section Live.
Variables (c : config) (cr : crypto) (e : envelope) (s : session) (su : suite).
Hypothesis laws : crypto_laws cr.
Hypothesis work : working cr.
Hypothesis reg : In su suite_registry.
Hypothesis suite : e_suite e = Some su.
Hypothesis N : new_session c tool_registry hash_registry cr e = Ok s.
Hypothesis us : usable e.

Lemma s_ok : session_ok c tool_registry hash_registry cr e su s.
Proof using N suite. destruct (new_session_ok _ _ _ _ _ _ N) as (su' & E & O). rewrite suite in E. injection E as <-. exact O. Qed.
Lemma s_insts : s_all s = suite_insts su.
Proof using N suite reg. exact (registered_insts _ _ _ _ _ N suite reg). Qed.

Lemma sign_live i sg r : In i (s_signers s) -> In sg (e_senders e) -> exists v r', sign cr i sg r = (Ok v, r').
Proof using N suite reg work us.
  intros Hi Hs. rewrite (sh_signers _ _ _ (so_shape _ _ _ _ _ _ _ s_ok)), s_insts in Hi. apply of_purpose_In in Hi as [Hi Hp].
  destruct (registered_kinds su reg) as (K & _). rewrite Forall_forall in K. destruct (K i Hi) as [K1 _]. specialize (K1 Hp).
  destruct (us_sender _ us sg Hs) as (k & EK). unfold sign. rewrite EK.
  assert (is_pss i = false) as -> by (unfold is_pss; rewrite K1; vm_compute; reflexivity). cbn [andb].
  unfold mbind, digest, gets. rewrite K1.
  match goal with |- context [cr_sign cr ?a ?b ?d ?m ?n] => destruct (wk_sign _ work b d m n) as (v & ->) end. eauto.
Qed.
Lemma sign_all_live l r : exists v r', sign_all cr s l r = (Ok v, r').
Proof using N suite reg work us.
  assert (G : forall xs acc r, (forall x, In x xs -> In (fst x) (s_signers s) /\ In (snd x) (e_senders e)) ->
     exists v r', foldT (fun acc x => run v <- sign cr (fst x) (snd x); ret (acc ++ [mkSeal (i_name (fst x)) (sg_id (snd x)) v])) acc xs r = (Ok v, r')).
  { induction xs as [|x xs IH]; intros acc q H; cbn [foldT]; [unfold ret; eauto|].
    destruct (H x (or_introl eq_refl)) as [H1 H2]. destruct (sign_live (fst x) (snd x) q H1 H2) as (v & q1 & E).
    rewrite mbind_assoc, (mbind_run _ _ _ _ _ E). unfold mbind at 1. unfold ret at 1. apply IH. intros. apply H. now right. }
  destruct (G (sig_steps s) [] r) as (v & r' & E).
  { intros x H. unfold sig_steps in H. apply in_flat_map in H as (i & Hi & H). apply in_map_iff in H as (sg & <- & H). cbn [fst snd]. split; [exact Hi|].
    rewrite (session_env _ _ _ _ _ _ N) in H. unfold loop in H. now apply filter_In in H as [H _]. }
  exists v, r'. rewrite <- E. unfold sign_all, env, sig_steps. rewrite foldT_flat. apply foldT_ext. intros b i q. now rewrite foldT_map.
Qed.
Lemma close_sign_live x y z : exists x' z', close_sign cr s x y z = (Ok x', z').
Proof using N suite reg work us.
  unfold close_sign. destruct (nonempty (s_signers s)); [|unfold ret; eauto].
  unfold with_sig_hashers, modify, deferred. unfold mbind at 1.
  match goal with |- context [mbind (sign_all cr s x) _ ?q] => destruct (sign_all_live x q) as (v & r' & E); rewrite (mbind_run _ _ _ _ _ E) end.
  unfold ret. eauto.
Qed.

(** Every step of the key material succeeds and contributes something. *)
Lemma steps_s : forall x, In x (steps s) ->
  match x with
  | SKey sg => In sg (e_secrets e)
  | SPw sg => In sg (e_secrets e) /\ exists i, s_pass s = Some i /\ i_name i = lit "SCRYPT-20" /\ (0 < helper_dks c s)%Z
  | SKx i sg => In i (s_kx s) /\ In sg (e_recipients e)
  | SKe _ _ => False
  end.
Proof using N suite reg.
  intros x H. destruct (registered_wire _ _ _ _ _ N suite reg) as [_ K2].
  unfold steps, steps_of in H. rewrite K2, (session_env _ _ _ _ _ _ N) in H. cbn [flat_map] in H. rewrite app_nil_r, !in_app_iff in H. destruct H as [H|[H|H]].
  - apply in_map_iff in H as (sg & <- & H). unfold loop in H. now apply filter_In in H as [H _].
  - apply in_map_iff in H as (sg & <- & H). assert (HS : In sg (e_secrets e)) by (unfold loop in H; now apply filter_In in H as [H _]).
    assert (SC : sg_scheme sg = scheme_pw) by (unfold loop in H; apply filter_In in H as [_ H]; now apply (proj1 (bytes_eqb_eq _ _)) in H).
    split; [exact HS|].
    destruct (registered_few su reg) as (_ & _ & DT). pose proof N as N0. apply new_session_acceptable in N0 as (su' & E & A). rewrite suite in E. injection E as <-.
    pose proof (acceptable_served _ _ _ _ _ _ _ A registry_names DT) as (SV & _ & _).
    destruct (SV sg HS) as [X|(_ & t & ST & TP)]; [rewrite SC in X; vm_compute in X; discriminate|].
    pose proof s_ok as O. apply (suite_tool_iff _ _ _ _ _ (so_res _ _ _ _ _ _ _ O)) in ST as (i & Hi & <-).
    assert (OP : In i (of_purpose PPassDerivation (s_all s))) by (apply of_purpose_In; split; assumption).
    rewrite (sh_pass _ _ _ (so_shape _ _ _ _ _ _ _ O)) in OP. destruct (s_pass s) as [j|]; [|destruct OP]. destruct OP as [->|[]].
    exists i. split; [reflexivity|]. destruct (registered_kinds su reg) as (K & M & _). rewrite s_insts in Hi. rewrite Forall_forall in K. destruct (K i Hi) as [_ K1].
    split; [exact (K1 TP)|]. assert (32 <= max_ks (suite_insts su))%Z as MK.
    { apply M. intro X. assert (In i (of_purpose PPassDerivation (suite_insts su))) by (apply of_purpose_In; split; assumption). rewrite X in *. easy. }
    unfold helper_dks. rewrite (so_dks _ _ _ _ _ _ _ O), s_insts. destruct (0 <? c_min_ks c)%Z; match goal with |- context [(0 <? ?x)%Z] => destruct (Z.ltb_spec 0 x); lia end.
  - apply in_flat_map in H as (i & Hi & H). apply in_map_iff in H as (sg & <- & H). split; [exact Hi|]. unfold loop in H. now apply filter_In in H as [H _].
Qed.

Lemma close_steps_usable nonce r : exists r', each (close_step c cr s nonce) (steps s) r = (Ok tt, r').
Proof using N suite reg work us.
  pose proof steps_s as SS. revert r SS. generalize (steps s) as xs. induction xs as [|x xs IH]; intros r SS; cbn [each]; [unfold ret; eauto|].
  assert (S1 : exists r1, close_step c cr s nonce x r = (Ok tt, r1)).
  { specialize (SS x (or_introl eq_refl)). destruct x as [sg|sg|i sg|i sg]; cbn [close_step].
    - unfold close_key, mbind, add_key, add_mat, modify. eauto.
    - destruct SS as (H & i & EP & EN & DK). unfold close_pw. unfold mbind at 1. unfold check.
      assert (nonempty (sg_key sg) = true) as -> by (pose proof (us_secret _ us sg H); destruct (sg_key sg); [congruence|reflexivity]). cbn [ret].
      unfold mbind at 1. unfold derive_pw. rewrite EP, EN. destruct (wk_pwd _ work (sg_key sg) nonce (helper_dks c s) DK) as (k & -> & _).
      unfold lift, mbind, add_key, add_mat, modify. cbn. eauto.
    - destruct SS as [Hi Hs]. unfold close_kx. unfold mbind at 1. unfold gen. destruct (registered_gen _ _ _ _ i (r_draw r) N work Hi) as ([pub priv] & ->).
      pose proof (us_recipient _ us sg Hs) as NP. unfold mbind, shared. destruct (sg_pub sg) as [p|]; [|congruence].
      unfold ret, upd_wire, add_key, add_mat, modify. eauto.
    - destruct SS. }
  destruct S1 as (r1 & E1). rewrite (mbind_run _ _ _ _ _ E1). apply IH. intros. apply SS. now right.
Qed.
Lemma made_some nonce x co : In x (steps s) -> made c cr s nonce x co -> co_mat co <> [].
Proof using N suite reg work us.
  intros H M. pose proof (steps_s x H) as SS. destruct M as [sg|i sg k EP NE ED|i sg pub priv p PO EP|i sg k p v d j]; cbn [co_mat].
  - exact (us_secret _ us sg SS).
  - destruct SS as (_ & i' & EP' & EN & DK). rewrite EP in EP'. injection EP' as <-. rewrite EN in ED.
    destruct (wk_pwd _ work (sg_key sg) nonce (helper_dks c s) DK) as (k' & E & NK). rewrite E in ED. injection ED as <-. exact NK.
  - apply (wk_shared _ work).
  - destruct SS.
Qed.
Lemma steps_some k : s_kdf s = Some k -> steps s <> [].
Proof using N suite reg.
  intro EK. pose proof s_ok as O. pose proof (so_shape _ _ _ _ _ _ _ O) as SH. pose proof s_insts as EA.
  destruct (registered_kinds su reg) as (_ & _ & K).
  assert (KD : of_purpose PKeyDerivation (suite_insts su) <> []) by (rewrite <- EA, (sh_kdf _ _ _ SH), EK; discriminate).
  assert (FI : forall p, of_purpose p (suite_insts su) <> [] -> exists i, In i (s_all s) /\ t_purpose (i_tool i) = p).
  { intros p H. rewrite EA. destruct (of_purpose p (suite_insts su)) as [|i q] eqn:E; [congruence|]. exists i. apply of_purpose_In. rewrite E. now left. }
  unfold steps, steps_of. rewrite (session_env _ _ _ _ _ _ N).
  destruct (K KD) as [H|[H|(NT & j & Hj & GJ)]].
  - destruct (FI _ H) as (i & Hi & Hp). pose proof (so_ne _ _ _ _ _ _ _ O i Hi) as NE. unfold signets_for in NE. rewrite Hp in NE.
    destruct (loop scheme_pw (e_secrets e)) as [|a q]; [congruence|]. cbn [map]. destruct (map SKey _); discriminate.
  - destruct (FI _ H) as (i & Hi & Hp). pose proof (so_ne _ _ _ _ _ _ _ O i Hi) as NE. unfold signets_for in NE. rewrite Hp in NE.
    assert (IK : In i (s_kx s)) by (rewrite (sh_kx _ _ _ SH); apply of_purpose_In; auto).
    destruct (loop (i_name i) (e_recipients e)) as [|a q] eqn:EL; [congruence|].
    intro X. apply app_eq_nil in X as [_ X]. apply app_eq_nil in X as [_ X]. apply app_eq_nil in X as [X _].
    assert (IN : In (SKx i a) (flat_map (fun i => map (SKx i) (loop (i_name i) (e_recipients e))) (s_kx s))).
    { apply in_flat_map. exists i. split; [exact IK|]. rewrite EL. now left. }
    rewrite X in IN. destruct IN.
  - destruct (so_src _ _ _ _ _ _ _ O) as [(i & Hi & NE)|[LK|[NI _]]].
    + rewrite EA in Hi. rewrite Forall_forall in NT. specialize (NT i Hi). unfold signets_for in NE. destruct (t_purpose (i_tool i)); congruence.
    + destruct (loop scheme_key (e_secrets e)); [congruence|]. discriminate.
    + destruct NI. apply (so_req _ _ _ _ _ _ _ O). left. exists j. split; [now rewrite EA|exact GJ].
Qed.

Lemma signers_only : s_kdf s = None -> forall p, p <> PSigning -> of_purpose p (s_all s) = [].
Proof using N suite.
  intro EK. pose proof s_ok as O. pose proof (so_kdf_missing _ _ _ _ _ _ _ O EK) as LS. rewrite (sh_signers _ _ _ (so_shape _ _ _ _ _ _ _ O)) in LS.
  assert (AS : forall i, In i (s_all s) -> t_purpose (i_tool i) = PSigning).
  { revert LS. clear. unfold of_purpose, i_purpose. generalize (s_all s) as l. intro l. intros LS.
    assert (LF : forall f (l : list inst), length (filter f l) <= length l) by (clear; intros f; induction l as [|a l IH]; cbn; [lia|destruct (f a); cbn; lia]).
    induction l as [|a l IH]; intros i Hi; [destruct Hi|]. cbn [filter] in LS. destruct (purpose_eqb (t_purpose (i_tool a)) PSigning) eqn:E.
    - cbn in LS. destruct Hi as [<-|Hi]; [destruct (t_purpose (i_tool a)); first [discriminate E|reflexivity]|]. apply IH; [lia|assumption].
    - cbn in LS. specialize (LF (fun i => purpose_eqb (t_purpose (i_tool i)) PSigning) l). exfalso. lia. }
  intros p NP. destruct (of_purpose p (s_all s)) as [|i q] eqn:E; [reflexivity|]. assert (H : In i (of_purpose p (s_all s))) by (rewrite E; now left).
  apply of_purpose_In in H as [H1 H2]. specialize (AS i H1). unfold i_purpose in H2. congruence.
Qed.

Lemma close_live full data d : exists l r, close_session c cr s full data (rt_start d None) = (Ok l, r).
Proof using All.
  pose proof s_ok as O. pose proof (so_shape _ _ _ _ _ _ _ O) as SH. pose proof (session_sound _ _ _ _ _ N) as sound.
  assert (NZ : (0 < nonce_size s)%Z) by (unfold nonce_size; lia).
  destruct (wk_rand _ work d (Z.to_nat (nonce_size s))) as (nonce & ER).
  assert (NE : nonce <> []) by (pose proof (law_rand _ laws _ _ _ ER); destruct nonce; [cbn in *; lia|congruence]).
  destruct (s_kdf s) as [k|] eqn:EK.
  - rewrite (close_unfold c cr s full data (rt_start d None) k EK).
    unfold mbind at 1. unfold modify at 1. unfold mbind at 1. unfold gets at 1. unfold mbind at 1. unfold rand at 1. cbn [rt_start r_draw set_buf set_acc r_wire]. rewrite ER.
    unfold establish. rewrite mbind_assoc. unfold mbind at 1. unfold is_wire, gets. cbn [r_wire set_draw set_buf set_acc rt_start is_none negb].
    rewrite mbind_assoc. match goal with |- context [mbind (closing_material _ _ _ _) _ ?q] => set (q0 := q) end.
    destruct (close_steps_usable nonce q0) as (q1 & E1). destruct (registered_wire _ _ _ _ _ N suite reg) as [K1 K2].
    assert (E2 : closing_material c cr s nonce q0 = (Ok tt, q1)) by (rewrite closing_material_small; [exact E1|exact K1|rewrite K2; cbn; lia]).
    rewrite (mbind_run _ _ _ _ _ E2). rewrite mbind_assoc. unfold mbind at 1.
    assert (C0 : held no_use (fun _ => []) (fun _ => []) q0) by (constructor; reflexivity).
    pose proof (keep_closing_material c cr s no_use _ _ nonce _ C0) as KP. rewrite E2 in KP. cbn [snd] in KP.
    apply close_steps_ok in E1 as (cs & FM & G).
    assert (EM : r_mat q1 = map co_mat cs) by (rewrite (gr_mat _ _ _ _ _ _ _ G); reflexivity).
    assert (HD : nonempty (r_mat q1) && nonempty (hd [] (r_mat q1)) && nonempty nonce = true).
    { rewrite EM. pose proof (steps_some k EK) as SN. assert (SI : forall x, In x (steps s) -> In x (steps s)) by auto. revert FM SN SI. generalize (steps s) at 1 2 3 as xs. intros xs FM SN SI.
      destruct FM as [|x co xs cs M FM]; [congruence|]. cbn [map hd]. pose proof (made_some _ _ _ (SI x (or_introl eq_refl)) M) as NM.
      destruct (co_mat co); [congruence|]. destruct nonce; [congruence|reflexivity]. }
    assert (KI : kdf_init nonce (r_mat q1) q1 = (Ok tt, set_kdf q1 (Some (mkKdf nonce (concat (r_mat q1)) 0)))) by (rewrite kdf_init_run, HD; reflexivity).
    rewrite mbind_assoc, (mbind_run _ _ _ _ _ KI). unfold mbind at 1. unfold ret at 1. unfold mbind at 1.
    eapply (close_tail_live cr s sound work); [|apply close_sign_live|reflexivity|].
    + destruct KP; constructor; cbn; auto.
    + rewrite (sh_stateful _ _ _ SH), s_insts. destruct (registered_demand su (s_dks s) reg) as [A _]. unfold kdf_limit. lia.
  - unfold close_session. rewrite EK. unfold mbind at 1. unfold modify at 1. unfold mbind at 1. unfold gets at 1. unfold mbind at 1. unfold rand at 1. cbn [rt_start r_draw set_buf set_acc r_wire]. rewrite ER.
    assert (NK : needs_key s = false).
    { unfold needs_key. rewrite (sh_ciph _ _ _ SH), (sh_aead _ _ _ SH), (sh_macs _ _ _ SH), !(signers_only EK) by discriminate. reflexivity. }
    rewrite NK. match goal with |- context [close_sign cr s ?x ?y ?z] => destruct (close_sign_live x y z) as (x' & z' & E); exists x', z'; rewrite <- E end. reflexivity.
Qed.
End Live.

(** ** C69 *)

(** Whatever a non-wire session was asked before: when everything in its envelope is usable and the primitives work,
    Close gives a letter. *)
Theorem C69_close : forall c cr e s su d qs full data,
  crypto_laws cr -> working cr ->
  In su suite_registry -> e_suite e = Some su -> new_session c tool_registry hash_registry cr e = Ok s ->
  usable e ->
  exists l buf, fst (serve c cr s (QClose full data) (after c cr s qs (rt_start d None))) = ALetter (Ok l) buf.
Proof.
  intros c cr e s su d qs full data L W HI ES N U. rewrite (C14_history_independent _ _ _ _ _ d qs (QClose full data) N). cbn [serve].
  destruct (close_live c cr e s su L W HI ES N U full data (r_draw (after c cr s qs (rt_start d None)))) as (l & r & ->). cbn [fst]. eauto.
Qed.
Print Assumptions C69_close.

(** And only then, but for pre-shared keys: no letter is closed with an empty password, for a recipient without a public
    key or by a sender without a private key. *)
Theorem C69_needed : forall c cr e s su d qs full data l buf,
  In su suite_registry -> e_suite e = Some su -> new_session c tool_registry hash_registry cr e = Ok s ->
  fst (serve c cr s (QClose full data) (after c cr s qs (rt_start d None))) = ALetter (Ok l) buf ->
  (forall sg, In sg (e_secrets e) -> sg_scheme sg = scheme_pw -> sg_key sg <> [])
  /\ (forall sg, In sg (e_recipients e) -> sg_pub sg <> None)
  /\ (forall sg, In sg (e_senders e) -> exists k, sg_priv sg = PKey k).
Proof.
  intros c cr e s su d qs full data l buf HI ES N H. rewrite (C14_history_independent _ _ _ _ _ d qs (QClose full data) N) in H. cbn [serve] in H.
  set (k := r_draw _) in H. destruct (close_session c cr s full data (rt_start k None)) as [x r] eqn:CL. cbn [fst] in H. injection H as -> _.
  pose proof (s_ok c cr e s su ES N) as O. pose proof (so_shape _ _ _ _ _ _ _ O) as SH. pose proof (session_env _ _ _ _ _ _ N) as EE.
  pose proof (session_sound _ _ _ _ _ N) as sound.
  destruct (registered_few su HI) as (_ & _ & DT). pose proof N as N0. apply new_session_acceptable in N0 as (su' & E & A). rewrite ES in E. injection E as <-.
  pose proof (acceptable_served _ _ _ _ _ _ _ A registry_names DT) as (SV1 & SV2 & SV3). clear A.
  destruct (registered_wire _ _ _ _ _ N ES HI) as [K1 K2].
  assert (HR : held no_use (fun _ => []) (fun _ => []) (rt_start k None)) by (constructor; reflexivity).
  assert (P1 : forall sg, In sg (e_secrets e) -> sg_scheme sg = scheme_pw -> In (SPw sg) (steps s)).
  { intros sg Hs SC. unfold steps, steps_of. rewrite EE. apply in_or_app; right; apply in_or_app; left. apply in_map. apply loop_In; auto. }
  assert (P2 : forall sg, In sg (e_recipients e) -> exists i, In (SKx i sg) (steps s)).
  { intros sg Hs. destruct (SV3 sg Hs) as (t & ST & TP & TN). apply (suite_tool_iff _ _ _ _ _ (so_res _ _ _ _ _ _ _ O)) in ST as (i & Hi & <-).
    destruct TP as [TP|TP].
    - exists i. unfold steps, steps_of. rewrite EE. apply in_or_app; right; apply in_or_app; right; apply in_or_app; left. apply in_flat_map. exists i. split.
      + rewrite (sh_kx _ _ _ SH). now apply of_purpose_In.
      + apply in_map. apply loop_In. split; [exact Hs|]. right. now symmetry.
    - assert (X : In i (s_ke s)) by (rewrite (sh_ke _ _ _ SH); now apply of_purpose_In). rewrite K2 in X. destruct X. }
  assert (P3 : forall sg, In sg (e_senders e) -> exists i, In (i, sg) (sig_steps s)).
  { intros sg Hs. destruct (SV2 sg Hs) as (t & ST & TP & TN). apply (suite_tool_iff _ _ _ _ _ (so_res _ _ _ _ _ _ _ O)) in ST as (i & Hi & <-).
    exists i. unfold sig_steps. rewrite EE. apply in_flat_map. exists i. split.
    - rewrite (sh_signers _ _ _ SH). now apply of_purpose_In.
    - apply in_map. apply loop_In. split; [exact Hs|]. right. now symmetry. }
  assert (SG : (nonempty (s_signers s) = true -> exists h v, Forall2 (signed cr h) (sig_steps s) v) -> forall sg, In sg (e_senders e) -> exists p, sg_priv sg = PKey p).
  { intros F sg Hs. destruct (P3 sg Hs) as (i & Hi). destruct F as (h & v & F).
    { unfold sig_steps in Hi. destruct (s_signers s); [destruct Hi|reflexivity]. }
    destruct (Forall2_In_l _ _ _ _ F Hi) as (y & _ & (p & ? & EP & _)). exists p. exact EP. }
  assert (MS : (exists nonce cs, Forall2 (made c cr s nonce) (steps s) cs) ->
     (forall sg, In sg (e_secrets e) -> sg_scheme sg = scheme_pw -> sg_key sg <> []) /\ (forall sg, In sg (e_recipients e) -> sg_pub sg <> None)).
  { intros (nonce & cs & F). split.
    - intros sg Hs SC. destruct (Forall2_In_l _ _ _ _ F (P1 sg Hs SC)) as (y & _ & M). inversion M; assumption.
    - intros sg Hs. destruct (P2 sg Hs) as (i & Hx). destruct (Forall2_In_l _ _ _ _ F Hx) as (y & _ & M). inversion M; congruence. }
  destruct (s_kdf s) as [kd|] eqn:EK.
  - destruct (close_plain_ok _ _ _ sound _ _ _ _ _ _ HR EK CL) as (nonce & q0 & q1 & kvs & _ & _ & CM & _ & _ & _ & _ & SGN & _).
    rewrite closing_material_small in CM by (rewrite ?K2; cbn; lia). apply close_steps_ok in CM as (cs & FM & _).
    destruct MS as [M1 M2]; [eauto|]. split; [exact M1|]. split; [exact M2|]. apply SG. eauto.
  - destruct (close_signonly_ok _ _ _ _ _ _ _ _ HR EK CL) as (nonce & _ & _ & _ & _ & SGN & _).
    pose proof (steps_s c cr e s su HI ES N) as SS. pose proof (signers_only c cr e s su ES N EK) as NO. split; [|split; [|apply SG; eauto]].
    + intros sg Hs SC. destruct (SS _ (P1 sg Hs SC)) as (_ & i & EP & _). pose proof (sh_pass _ _ _ SH) as HP. rewrite EP, NO in HP by discriminate. discriminate HP.
    + intros sg Hs. destruct (P2 sg Hs) as (i & Hx). destruct (SS _ Hx) as [Hi _]. rewrite (sh_kx _ _ _ SH), NO in Hi by discriminate. destruct Hi.
Qed.
Print Assumptions C69_needed.

(** From the envelope of the writer to the data in the hands of the reader, in one step: nothing can fail on the way. *)
Theorem C69_delivered : forall c cr w1 w2 e su s full data d1 d2 required,
  crypto_laws cr -> working cr -> writable c e su ->
  correspondence c suite_registry tool_registry hash_registry cr w1 e = Ok s ->
  reader cr w2 (s_env s) -> (forall sg, In sg (e_secrets (s_env s)) -> sg_key sg <> []) ->
  incl (wanted required) (su_provides su) ->
  exists l r, close_session c cr s full data (rt_start d1 None) = (Ok l, r)
    /\ letter_open c suite_registry tool_registry hash_registry cr w2 required (raw l) d2 = Ok data
    /\ (e_senders e <> [] -> letter_verify c suite_registry tool_registry hash_registry cr w2 required (raw l) d2 = Ok tt).
Proof.
  intros c cr w1 w2 e su s full data d1 d2 required L WK W CO RD NE RQ.
  destruct (correspondence_inv _ _ _ _ _ _ _ _ CO) as (su' & a & b & dd & LS & N & EE).
  assert (HG : get_suite suite_registry (e_suite_id e) = Some su) by exact (wr_suite _ _ _ W).
  assert (su' = su) as ->.
  { unfold load_suite in LS. destruct (wr_cached _ _ _ W) as [E|E]; rewrite E in LS; [rewrite HG in LS|]; now injection LS. }
  assert (HI : In su suite_registry) by (apply find_some in HG; tauto).
  assert (U : usable (s_env s)).
  { constructor; [exact NE| |].
    - intros sg H. destruct (rd_recipient _ _ _ RD sg H) as (? & ? & ? & ? & _ & _ & E & _). rewrite E. discriminate.
    - intros sg H. destruct (rd_sender _ _ _ RD sg H) as (? & ? & k & ? & _ & _ & E & _). eauto. }
  rewrite EE in U. destruct (close_live c cr (set_signets e su a b dd) s su L WK HI eq_refl N U full data d1) as (l & r & CL). exists l, r. split; [exact CL|]. split.
  - eapply C54_open; eassumption.
  - intro SN. eapply C54_verify; eassumption.
Qed.
Print Assumptions C69_delivered.

(** All registered suites have such a case. *)
Example C69_hypotheses_met : crypto_laws toy /\ working toy
  /\ Forall (fun su => exists s, writable default_config (post_env su) su
       /\ correspondence default_config suite_registry tool_registry hash_registry toy (writer_world su) (post_env su) = Ok s
       /\ reader toy (reader_world su) (s_env s) /\ forall sg, In sg (e_secrets (s_env s)) -> sg_key sg <> []) suite_registry.
Proof.
  split; [exact toy_laws|]. split; [exact toy_working|].
  pose proof C54_hypotheses_met as H. rewrite Forall_forall in *. intros su Hs. destruct (H su Hs) as (s & l & r & W & CO & RD & _).
  exists s. split; [exact W|]. split; [exact CO|]. split; [exact RD|]. clear H W RD l r.
  assert (F : forallb (fun su => match correspondence default_config suite_registry tool_registry hash_registry toy (writer_world su) (post_env su) with
     Ok s => forallb (fun sg => nonempty (sg_key sg)) (e_secrets (s_env s)) | _ => false end) suite_registry = true) by (vm_compute; reflexivity).
  rewrite forallb_forall in F. specialize (F su Hs). rewrite CO in F. rewrite forallb_forall in F. intros sg Hg E. specialize (F sg Hg). rewrite E in F. discriminate.
Qed.

(** Refuted: that a session which could be opened can also close.  A sender whose public key is in the envelope is
    accepted into the session; the error comes from Close. *)
Definition no_key_env : envelope :=
  mkEnvelope 1 [] (lit "sign_v1") None [] [to_public (hd (toy_secret "") (e_senders (demo_env (suite_named (lit "sign_v1")))))] [] 0 false.
Theorem C69_open_session_refuted : exists s,
  correspondence default_config suite_registry tool_registry hash_registry toy (reader_world (suite_named (lit "sign_v1"))) no_key_env = Ok s
  /\ forall c full data d, exists er r, close_session c toy s full data (rt_start d None) = (Err er, r).
Proof.
  eexists. split; [vm_compute; reflexivity|]. intros c full data d. unfold close_session. cbn. eauto.
Qed.
Print Assumptions C69_open_session_refuted.
