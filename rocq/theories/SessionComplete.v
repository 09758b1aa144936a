(** Session creation succeeds under exactly the listed conditions. *)
From Verif Require Export SessionFacts.

Lemma foldM_total {A S} (f : S -> A -> outcome S) (P : list A -> S -> Prop) s0 l :
  P [] s0 ->
  (forall pre a suf s, l = pre ++ a :: suf -> P pre s -> exists s', f s a = Ok s' /\ P (pre ++ [a]) s') ->
  exists s, foldM f s0 l = Ok s /\ P l s.
Proof.
  intros H0 Hs.
  assert (G : forall suf pre s, l = pre ++ suf -> P pre s -> exists s', foldM f s suf = Ok s' /\ P l s').
  { induction suf as [|a suf IH]; intros pre s Hl Hp; cbn [foldM].
    - rewrite app_nil_r in Hl. subst pre. eauto.
    - destruct (Hs pre a suf s Hl Hp) as (s' & H1 & H2). rewrite H1. cbn [bind].
      apply (IH (pre ++ [a])); auto. rewrite <- app_assoc. exact Hl. }
  exact (G l [] s0 eq_refl H0).
Qed.

Lemma resolves_fun reg hreg x i j : resolves reg hreg x i -> resolves reg hreg x j -> i = j.
Proof.
  intros (A1 & A2 & A3 & A4) (B1 & B2 & B3 & B4).
  destruct i as [ix t a h], j as [ix' t' a' h']; unfold i_purpose in *; cbn in *.
  assert (t = t') by congruence. subst. congruence.
Qed.

Lemma resolves_prefix reg hreg pre suf js is :
  Forall2 (resolves reg hreg) (pre ++ suf) is -> Forall2 (resolves reg hreg) pre js ->
  exists is', is = js ++ is' /\ Forall2 (resolves reg hreg) suf is'.
Proof.
  intros H1 H2. apply Forall2_app_inv_l in H1 as (a & b & Ha & Hb & ->).
  assert (a = js).
  { clear Hb. revert js H2. induction Ha as [|x i pre a Hx Ha IH]; intros js H2; inversion H2; subst; auto.
    f_equal; [eapply resolves_fun; eauto|auto]. }
  subst. eauto.
Qed.

(** ** Levels *)

Definition level_fine (c : config) (e : envelope) (cr : crypto) (it : item) : Prop :=
  exists l, calc_level cr (fst it) (snd it) = Ok l /\ (l = 0%Z \/ ((0 < l)%Z /\ (level_floor c e <= l)%Z)).

Lemma calc_and_check_total c cr s i sg :
  level_fine c (s_env s) cr (i, sg) -> exists s', calc_and_check c cr s i sg = Ok s'.
Proof.
  intros (l & Hl & H). cbn [fst snd] in Hl. unfold calc_and_check. rewrite Hl. cbn [bind].
  destruct (Z.eqb_spec l 0) as [->|Hn]; [eauto|].
  destruct H as [H|(H1 & H2)]; [lia|]. destruct (Z.ltb_spec l 0); [lia|].
  apply (check_level_ok c (s_env s) l tt) in H2. rewrite H2. cbn [bind]. eauto.
Qed.

Definition items_of (e : envelope) (is : list inst) : list item :=
  (tool_items is ++ signet_items e is) ++ key_items (loop scheme_key (e_secrets e)).

Lemma items_of_tool e is i : In i is -> In (Some i, None) (items_of e is).
Proof.
  intro H. unfold items_of, tool_items. apply in_or_app; left. apply in_or_app; left.
  apply in_map_iff. eauto.
Qed.
Lemma items_of_signet e is i sgs sg :
  In i is -> signets_for e i = Some sgs -> In sg sgs -> In (Some i, Some sg) (items_of e is).
Proof.
  intros H1 H2 H3. unfold items_of, signet_items. apply in_or_app; left. apply in_or_app; right.
  apply in_concat. exists (map (fun sg => (Some i, Some sg)) sgs). split.
  - apply in_map_iff. exists i. rewrite H2. auto.
  - apply in_map_iff. eauto.
Qed.
Lemma items_of_key e is sg : In sg (loop scheme_key (e_secrets e)) -> In (None, Some sg) (items_of e is).
Proof. intro H. apply in_or_app; right. apply in_map_iff. eauto. Qed.

(** A guarantee delivered by the tool instances or by a pre-shared key. *)
Definition dlv (e : envelope) (is : list inst) (a : N) : Prop :=
  (exists i, In i is /\ gives (i_purpose i) a = true)
  \/ (loop scheme_key (e_secrets e) <> [] /\ (a = SenderAuthentication \/ a = RecipientAuthentication)).

Record acceptable (c : config) (reg : list tool) (hreg : list hashtool) (cr : crypto) (e : envelope)
  (su : suite) (is : list inst) : Prop := {
  ac_res : Forall2 (resolves reg hreg) (index_from 0 (su_tools su)) is;
  ac_nodup : NoDup (su_tools su);
  ac_env_level : (0 < e_level e)%Z -> (level_floor c e <= e_level e)%Z;
  ac_suite_level : (level_floor c e <= su_level su)%Z;
  ac_kdf1 : length (of_purpose PKeyDerivation is) <= 1;
  ac_pass1 : length (of_purpose PPassDerivation is) <= 1;
  ac_items : Forall (level_fine c e cr) (items_of e is);
  ac_ne : forall i, In i is -> signets_for e i <> Some [];
  ac_rated : (0 < c_min_level c)%Z \/ (exists it l, In it (items_of e is) /\ calc_level cr (fst it) (snd it) = Ok l /\ (0 < l)%Z)
             \/ ((level_floor c e <= 0)%Z /\ forall i, In i is -> has_option (i_tool i) ONeedsSecurityLevel = false);
  ac_dks : (exists i, In i is /\ has_option (i_tool i) ONeedsDefaultKeySize = true) ->
           (if (0 <? c_min_ks c)%Z then Z.max (c_min_ks c) (max_ks is) else max_ks is) <> 0%Z;
  ac_some : exists a, dlv e is a;
  ac_provides : forall a, In a (su_provides su) -> dlv e is a;
  ac_rc : dlv e is RecipientAuthentication -> dlv e is Confidentiality;
  ac_ci : dlv e is Confidentiality -> dlv e is Integrity;
  ac_kdf_missing : of_purpose PKeyDerivation is = [] -> length (of_purpose PSigning is) = length is;
  ac_kdf_needed : of_purpose PKeyDerivation is <> [] ->
     of_purpose PIntegratedCipher is <> [] \/ of_purpose PCipher is <> [] \/ of_purpose PMAC is <> [];
  ac_src : (exists i, In i is /\ signets_for e i <> None) \/ loop scheme_key (e_secrets e) <> []
           \/ (~ dlv e is Integrity /\ ~ dlv e is Confidentiality);
  ac_used : length (e_secrets e) + length (e_senders e) + length (e_recipients e)
            <= length (concat (map (signets_of e) is)) + length (loop scheme_key (e_secrets e))
}.

Lemma count_id_NoDup_1 id ids : NoDup ids -> In id ids -> count_id id ids = 1.
Proof.
  unfold count_id. induction 1 as [|x l Hx Hn IH]; [easy|]. cbn [filter]. intros [->|Hin].
  - rewrite bytes_eqb_refl. cbn [length]. f_equal.
    assert (forall l', ~ In id l' -> filter (bytes_eqb id) l' = []) as G.
    { induction l' as [|y l' IH']; [easy|]. cbn [filter In]. intro Hy.
      destruct (bytes_eqb id y) eqn:E; [apply bytes_eqb_eq in E; subst; tauto|]. apply IH'. tauto. }
    now rewrite G.
  - destruct (bytes_eqb id x) eqn:E; [apply bytes_eqb_eq in E; congruence|]. auto.
Qed.

Lemma new_session_complete c reg hreg cr e su is :
  e_suite e = Some su -> acceptable c reg hreg cr e su is ->
  exists s, new_session c reg hreg cr e = Ok s /\ s_all s = is.
Proof.
  intros ESU [Hres Hnd Henv Hsu Hk1 Hp1 Hit Hne Hrat Hdks Hsome Hprov Hrc Hci Hkm Hkn Hsrc Hused].
  unfold new_session. rewrite ESU.
  assert (HE : (if (0 <? e_level e)%Z then check_level c e (e_level e) else Ok tt) = Ok tt).
  { destruct (Z.ltb_spec 0 (e_level e)); [|reflexivity]. now apply check_level_ok, Henv. }
  rewrite HE. cbn [bind]. apply (check_level_ok c e _ tt) in Hsu. rewrite Hsu. cbn [bind].
  rewrite Forall_forall in Hit.
  (* tools *)
  destruct (foldM_total (init_tool c reg hreg cr (su_tools su))
    (fun pre s => tl_inv c reg hreg cr (su_tools su) e su pre s)
    (init_session e su) (index_from 0 (su_tools su))) as (s0 & HT & _).
  { apply (tool_loop_ok c reg hreg cr (su_tools su) e su []). reflexivity. }
  { intros pre x suf s Hl Hinv.
    assert (G : exists s', init_tool c reg hreg cr (su_tools su) s x = Ok s').
    { destruct x as [idx id]. unfold init_tool.
      assert (Hin : In id (su_tools su)).
      { rewrite <- (index_from_snd 0 (su_tools su)), Hl, map_app. apply in_or_app; right; now left. }
      rewrite (count_id_NoDup_1 _ _ Hnd Hin). cbn [Nat.eqb guard bind].
      rewrite Hl in Hres. destruct (resolves_prefix _ _ _ _ _ _ Hres (tl_res _ _ _ _ _ _ _ _ _ Hinv)) as (is' & Eis & Hsuf).
      inversion Hsuf as [|x0 i l0 is0 Hri Hr0]; subst x0 l0 is'. destruct Hri as (R1 & R2 & R3 & R4). cbn [fst snd] in *.
      destruct (parse_tool_id id) as [name arg] eqn:EPT. cbn [fst snd] in *.
      rewrite R2. cbn [other bind]. subst arg. unfold i_purpose in R4. rewrite R4. cbn [other bind].
      assert (Ei : mkInst idx (i_tool i) (i_arg i) (i_hash i) = i) by (destruct i; cbn in *; congruence).
      rewrite Ei. assert (Hii : In i is) by (rewrite Eis; apply in_or_app; right; now left).
      assert (G1 : exists s1, assign s i = Ok s1).
      { unfold assign. destruct (t_purpose (i_tool i)) eqn:EP; eauto.
        - pose proof (sh_kdf _ _ _ (tl_shape _ _ _ _ _ _ _ _ _ Hinv)) as Hk. destruct (s_kdf s); [|eauto].
          exfalso. rewrite Eis, of_purpose_app, Hk in Hk1. cbn [of_purpose filter] in Hk1. unfold i_purpose in Hk1.
          rewrite EP in Hk1. cbn in Hk1. lia.
        - pose proof (sh_pass _ _ _ (tl_shape _ _ _ _ _ _ _ _ _ Hinv)) as Hk. destruct (s_pass s); [|eauto].
          exfalso. rewrite Eis, of_purpose_app, Hk in Hp1. cbn [of_purpose filter] in Hp1. unfold i_purpose in Hp1.
          rewrite EP in Hp1. cbn in Hp1. lia. }
      destruct G1 as (s1 & G1). rewrite G1. cbn [bind].
      destruct (assign_shape _ _ _ _ _ (tl_shape _ _ _ _ _ _ _ _ _ Hinv) G1) as (Hsh1 & _).
      destruct (calc_and_check_total c cr (assign_hasher s1 i) (Some i) None) as (s2 & G2).
      { rewrite (sh_env _ _ _ Hsh1). apply Hit. now apply items_of_tool. }
      rewrite G2. cbn [bind]. eauto. }
    destruct G as (s' & G). exists s'. split; [exact G|]. eapply init_tool_ok; eauto. }
  rewrite HT. cbn [bind].
  apply tool_loop_ok in HT as [Tsh Tres (tls & Tit) Treq Tdks Tcnt].
  assert (HAs : s_all s0 = is).
  { rewrite <- (app_nil_r (index_from 0 (su_tools su))) in Hres.
    destruct (resolves_prefix _ _ _ _ _ _ Hres Tres) as (is' & E & H). inversion H; subst. now rewrite app_nil_r. }
  assert (Henv0 : s_env s0 = e) by apply Tsh.
  rewrite <- Henv0 in Tit.
  (* signets *)
  destruct (foldM_total (check_signets c cr) (sl_inv c cr s0) (s0, 0, false) (s_all s0)) as (st1 & HL & HLi).
  { split; cbn; auto using sbl_refl. exists tls. now rewrite app_nil_r. }
  { intros pre i suf st Hl Hinv.
    assert (G : exists st', check_signets c cr st i = Ok st').
    { destruct st as [[s seen] src]. unfold check_signets. pose proof (sl_same _ _ _ _ _ Hinv) as Hs; cbn [fst] in Hs.
      rewrite (sbl_env _ _ Hs), Henv0. assert (Hii : In i is) by (rewrite <- HAs, Hl; apply in_or_app; right; now left).
      destruct (signets_for e i) as [sgs|] eqn:E; [|eauto].
      destruct (foldM_total (fun s sg => calc_and_check c cr s (Some i) (Some sg))
        (fun _ s => same_but_levels s0 s) s sgs Hs) as (s' & G1 & _).
      { intros pre' sg suf' s1 Hl' Hs1. destruct (calc_and_check_total c cr s1 (Some i) (Some sg)) as (s2 & G2).
        - rewrite (sbl_env _ _ Hs1), Henv0. apply Hit. eapply items_of_signet; eauto. rewrite Hl'. apply in_or_app; right; now left.
        - exists s2. split; [exact G2|]. unfold calc_and_check in G2. apply bind_ok in G2 as (l & _ & G2).
          destruct (l =? 0)%Z; [now injection G2 as <-|]. destruct (l <? 0)%Z; [discriminate|].
          apply bind_ok in G2 as (u & _ & G2). injection G2 as <-. now apply sbl_set. }
      rewrite G1. cbn [bind]. specialize (Hne i Hii). rewrite E in Hne. destruct sgs; [easy|]. cbn. eauto. }
    destruct G as (st' & G). exists st'. split; [exact G|]. eapply check_signets_ok; eauto. }
  rewrite HL. cbn [bind].
  (* key secrets *)
  destruct (foldM_total (check_key_secret c cr) (kl_inv c cr s0 st1) st1 (loop scheme_key (e_secrets e))) as (st2 & HK & HKi).
  { apply (key_loop_ok c cr s0 st1 st1 []); [exact HLi|reflexivity]. }
  { intros pre sg suf st Hl Hinv.
    assert (G : exists st', check_key_secret c cr st sg = Ok st').
    { destruct st as [[s seen] src]. unfold check_key_secret.
      destruct (kl_same _ _ _ _ _ _ Hinv) as (l & m & r & Hs & _). cbn [fst] in Hs.
      match goal with |- context [calc_and_check c cr ?s' None _] =>
        destruct (calc_and_check_total c cr s' None (Some sg)) as (s2 & G2) end.
      { rewrite Hs. cbn [s_env set_req set_levels]. rewrite Henv0. apply Hit. apply items_of_key.
        rewrite Hl. apply in_or_app; right; now left. }
      rewrite G2. cbn [bind]. eauto. }
    destruct G as (st' & G). exists st'. split; [exact G|]. eapply check_key_secret_ok; eauto. }
  rewrite HK. cbn [bind]. destruct st2 as [[s1 seen] src].
  destruct HLi as [_ _ Lseen Lne Lsrc]. destruct HKi as [(l & m & r & Ks & Kreq) (ls & Kit) Kseen Ksrc].
  cbn [fst snd] in *. rewrite Henv0, ?HAs in *. clear HL HK.
  assert (HA1 : s_all (apply_minimums c s1) = is).
  { unfold apply_minimums. rewrite Ks.
    repeat match goal with |- context [if ?b then _ else _] => destruct b end; exact HAs. }
  exists (apply_minimums c s1). split; [|exact HA1].
  enough (HF : final_checks c (apply_minimums c s1) seen src = Ok tt) by (rewrite HF; reflexivity).
  set (s := apply_minimums c s1) in *.
  assert (Hs : exists l' k', s = set_dks (set_req (set_levels s0 l' m) r) k'
            /\ l' = (if (0 <? c_min_level c)%Z && (l <? c_min_level c)%Z then c_min_level c else l)
            /\ k' = (if (0 <? c_min_ks c)%Z && (s_dks s0 <? c_min_ks c)%Z then c_min_ks c else s_dks s0)).
  { unfold s, apply_minimums. rewrite Ks. cbn [s_level set_req set_levels s_dks s_maxlevel].
    destruct ((0 <? c_min_level c)%Z && (l <? c_min_level c)%Z);
      cbn [s_level set_req set_levels s_dks s_maxlevel];
      destruct ((0 <? c_min_ks c)%Z && (s_dks s0 <? c_min_ks c)%Z); eexists; eexists; (split; [|split; reflexivity]);
      destruct s0; reflexivity. }
  destruct Hs as (l' & k' & Hs & Hl' & Hk').
  assert (HEnv : s_env s = e) by (rewrite Hs; exact Henv0).
  assert (Hshape : shape e su s) by (rewrite Hs; now apply shape_set_dks, shape_set_req, shape_set_levels).
  assert (Hreq : forall a, In a (s_req s) <-> dlv e is a).
  { intro a. rewrite Hs. cbn [s_req set_dks set_req]. rewrite Kreq, Treq. reflexivity. }
  assert (Hdk : s_dks s = if (0 <? c_min_ks c)%Z then Z.max (c_min_ks c) (max_ks is) else max_ks is).
  { rewrite Hs. cbn [s_dks set_dks]. rewrite Hk', Tdks.
    destruct (Z.ltb_spec 0 (c_min_ks c)); cbn [andb]; [|reflexivity].
    destruct (Z.ltb_spec (max_ks is) (c_min_ks c)); lia. }
  assert (Hlv : (level_floor c e <= s_level s)%Z /\
     ((exists i, In i is /\ has_option (i_tool i) ONeedsSecurityLevel = true) -> s_level s <> 0%Z)).
  { assert (Hsl : s_level s = l') by (rewrite Hs; reflexivity). rewrite Hsl, Hl'.
    destruct Kit as [[Kp Km Kx] Ka Kf]. rewrite Ks in Km. cbn [s_level set_req set_levels] in Km.
    rewrite Forall_forall in Kp.
    destruct ls as [|x ls].
    - cbn [zmin_list] in Km. subst l. destruct (Z.ltb_spec 0 (c_min_level c)) as [Hm|Hm]; cbn [andb].
      + unfold level_floor. destruct (Z.ltb_spec 0 (c_min_level c)); [|lia]. split; [lia|intros _; lia].
      + destruct Hrat as [H|[(it & lv & H1 & H2 & H3)|(H1 & H2)]]; [lia| |split; [lia|]].
        * exfalso. rewrite Forall_forall in Ka. destruct (Ka it H1) as (lv' & H4 & [H5|(_ & _ & [])]).
          rewrite H2 in H4. injection H4 as <-. lia.
        * intros (i & Hi & Ho). rewrite H2 in Ho by assumption. discriminate.
    - destruct (zmin_list_spec (x :: ls)) as [Hin _]; [easy|]. rewrite <- Km in Hin. apply Kp in Hin as [Hin1 Hin2].
      destruct (Z.ltb_spec 0 (c_min_level c)); cbn [andb]; [|split; [assumption|lia]].
      destruct (Z.ltb_spec l (c_min_level c)); [|split; [assumption|lia]].
      unfold level_floor. destruct (Z.ltb_spec 0 (c_min_level c)); [|lia]. split; [lia|intros _; lia]. }
  destruct Hlv as [Hlv Hlvn].
  unfold final_checks. rewrite HEnv, HA1. rewrite (sh_suite _ _ _ Hshape).
  assert (Hhas : forall a, req_has (s_req s) a = true <-> dlv e is a) by (intro a; rewrite req_has_In; apply Hreq).
  assert (Hneeds : forall o, existsb (fun i => has_option (i_tool i) o) is = true ->
     exists i, In i is /\ has_option (i_tool i) o = true) by (intros o Ho; now apply existsb_exists in Ho).
  assert (C1 : guard (negb (existsb (fun i => has_option (i_tool i) ONeedsSecurityLevel) is && (s_level s =? 0)%Z)) EOther = Ok tt).
  { destruct (existsb (fun i => has_option (i_tool i) ONeedsSecurityLevel) is) eqn:E; [|reflexivity]. apply Hneeds in E. apply Hlvn in E. cbn [andb].
    destruct (Z.eqb_spec (s_level s) 0); [easy|reflexivity]. }
  rewrite C1. cbn [bind]. clear C1.
  assert (C2 : guard (negb (existsb (fun i => has_option (i_tool i) ONeedsDefaultKeySize) is && (s_dks s =? 0)%Z)) EOther = Ok tt).
  { destruct (existsb (fun i => has_option (i_tool i) ONeedsDefaultKeySize) is) eqn:E; [|reflexivity]. apply Hneeds in E. apply Hdks in E. rewrite <- Hdk in E. cbn [andb].
    destruct (Z.eqb_spec (s_dks s) 0); [easy|reflexivity]. }
  rewrite C2. cbn [bind]. clear C2.
  assert (C3 : guard (negb (req_empty (s_req s))) EOther = Ok tt).
  { destruct Hsome as (a & Ha). apply Hreq in Ha. destruct (s_req s); [easy|reflexivity]. }
  rewrite C3. cbn [bind]. clear C3.
  assert (C4 : req_check (s_req s) (su_provides su) = Ok tt).
  { apply req_check_incl. intros a Ha. apply Hreq. auto. }
  rewrite C4. cbn [bind]. clear C4.
  assert (C5 : negb (req_has (s_req s) RecipientAuthentication && negb (req_has (s_req s) Confidentiality)) = true).
  { destruct (req_has (s_req s) RecipientAuthentication) eqn:E; [|reflexivity].
    apply Hhas, Hrc, Hhas in E. rewrite E. reflexivity. }
  rewrite C5. cbn [guard bind]. clear C5.
  assert (C6 : negb (req_has (s_req s) Confidentiality && negb (req_has (s_req s) Integrity)) = true).
  { destruct (req_has (s_req s) Confidentiality) eqn:E; [|reflexivity].
    apply Hhas, Hci, Hhas in E. rewrite E. reflexivity. }
  rewrite C6. cbn [guard bind]. clear C6.
  pose proof (sh_kdf _ _ _ Hshape) as Sk. pose proof (sh_signers _ _ _ Hshape) as Ssg.
  pose proof (sh_aead _ _ _ Hshape) as Sae. pose proof (sh_ciph _ _ _ Hshape) as Sci. pose proof (sh_macs _ _ _ Hshape) as Sma.
  rewrite HA1 in *.
  assert (Hlen : length is = length (su_tools su)).
  { apply Forall2_len in Tres. rewrite index_from_length in Tres. congruence. }
  assert (C7 : negb (is_none (s_kdf s) && negb (length (s_signers s) =? length (su_tools su))%nat) = true).
  { destruct (s_kdf s) eqn:EK; [reflexivity|]. cbn [is_none andb]. rewrite negb_involutive, Ssg, <- Hlen.
    apply Nat.eqb_eq. apply Hkm. rewrite Sk. reflexivity. }
  rewrite C7. cbn [guard bind]. clear C7.
  assert (C8 : negb (negb (nonempty (s_aead s)) && negb (nonempty (s_ciph s)) && negb (nonempty (s_macs s))
                       && negb (is_none (s_kdf s))) = true).
  { destruct (s_kdf s) eqn:EK; [|cbn; now rewrite andb_false_r].
    assert (H : of_purpose PKeyDerivation is <> []) by (rewrite Sk; easy). apply Hkn in H.
    rewrite <- Sae, <- Sci, <- Sma in H.
    destruct (s_aead s), (s_ciph s), (s_macs s); cbn; try reflexivity. exfalso. intuition congruence. }
  rewrite C8. cbn [guard bind]. clear C8.
  assert (C9 : negb (negb src && (req_has (s_req s) Integrity || req_has (s_req s) Confidentiality)) = true).
  { destruct Hsrc as [(i & H1 & H2)|[H|(H1 & H2)]].
    - assert (src = true) as ->; [|reflexivity]. rewrite Ksrc, Lsrc. apply orb_true_iff; left.
      apply existsb_exists. exists i. split; [assumption|]. destruct (signets_for e i); easy.
    - assert (src = true) as ->; [|reflexivity]. rewrite Ksrc. apply orb_true_iff; right.
      destruct (loop scheme_key (e_secrets e)); easy.
    - destruct (req_has (s_req s) Integrity) eqn:E1; [now apply Hhas in E1|].
      destruct (req_has (s_req s) Confidentiality) eqn:E2; [now apply Hhas in E2|]. cbn. now rewrite andb_false_r. }
  rewrite C9. cbn [guard bind]. clear C9.
  assert (C10 : negb (seen <? length (e_secrets e) + length (e_senders e) + length (e_recipients e))%nat = true).
  { apply negb_true_iff, Nat.ltb_ge. lia. }
  rewrite C10. cbn [guard bind]. clear C10. now apply check_level_ok.
Qed.

Lemma new_session_acceptable c reg hreg cr e s :
  new_session c reg hreg cr e = Ok s ->
  exists su, e_suite e = Some su /\ acceptable c reg hreg cr e su (s_all s).
Proof.
  intro H. pose proof H as H0. apply new_session_ok in H as (su & ESU & O). exists su; split; [assumption|].
  pose proof (so_shape _ _ _ _ _ _ _ O) as Sh.
  pose proof (so_req _ _ _ _ _ _ _ O) as Hr.
  destruct (so_items _ _ _ _ _ _ _ O) as (ls & I1 & I2 & I3 & I4 & I5).
  assert (EI : all_items s = items_of e (s_all s)) by (unfold all_items, items_of; rewrite (sh_env _ _ _ Sh); reflexivity).
  assert (Hnl : (exists i, In i (s_all s) /\ has_option (i_tool i) ONeedsSecurityLevel = true) -> s_level s <> 0%Z).
  { (* from the final checks *)
    clear - H0 ESU. unfold new_session in H0. rewrite ESU in H0.
    apply bind_ok in H0 as (u1 & HE & H0). apply bind_ok in H0 as (u2 & HS & H0).
    apply bind_ok in H0 as (s0 & HT & H0). apply bind_ok in H0 as (st0 & HL & H0).
    apply bind_ok in H0 as (((s1 & seen) & src) & HK & H0). apply bind_ok in H0 as (u & HF & H0). injection H0 as <-. unfold final_checks in HF.
    apply bind_ok in HF as (u' & G & _). apply guard_ok in G.
    intros (i & Hi & Ho) Hz. rewrite Hz in G. rewrite Z.eqb_refl, andb_true_r in G.
    apply negb_true_iff in G. assert (existsb (fun i => has_option (i_tool i) ONeedsSecurityLevel) (s_all (apply_minimums c s1)) = true); [|congruence].
    apply existsb_exists. eauto. }
  split.
  - apply O.
  - apply O.
  - apply O.
  - apply O.
  - rewrite (sh_kdf _ _ _ Sh). destruct (s_kdf s); cbn; lia.
  - rewrite (sh_pass _ _ _ Sh). destruct (s_pass s); cbn; lia.
  - rewrite EI in I1. eapply Forall_impl; [|exact I1]. intros it (l & L1 & L2). exists l. split; [assumption|]. tauto.
  - apply O.
  - destruct (Z.ltb_spec 0 (c_min_level c)); [now left|]. right.
    destruct ls as [|x ls].
    + right. pose proof (so_level _ _ _ _ _ _ _ O) as Hl. rewrite I4 in Hl. split; [assumption|].
      intros i Hi. destruct (has_option (i_tool i) ONeedsSecurityLevel) eqn:E; [|reflexivity].
      exfalso. apply Hnl; [eauto|assumption].
    + left. inversion I2 as [|? ? (it & H1 & H2) ?]; subst. inversion I3; subst. exists it, x. rewrite <- EI. intuition.
  - intros (i & Hi & Ho). rewrite <- (so_dks _ _ _ _ _ _ _ O). apply (so_need_dks _ _ _ _ _ _ _ O).
    apply existsb_exists. eauto.
  - pose proof (so_nonempty _ _ _ _ _ _ _ O) as Hn. destruct (s_req s) as [|a r] eqn:E; [easy|].
    exists a. apply Hr. now left.
  - intros a Ha. apply Hr. now apply (so_provides _ _ _ _ _ _ _ O).
  - intro Ha. apply Hr. apply (so_rc _ _ _ _ _ _ _ O). now apply Hr.
  - intro Ha. apply Hr. apply (so_ci _ _ _ _ _ _ _ O). now apply Hr.
  - intro Hk. rewrite <- (sh_signers _ _ _ Sh). apply (so_kdf_missing _ _ _ _ _ _ _ O).
    rewrite (sh_kdf _ _ _ Sh) in Hk. now destruct (s_kdf s).
  - intro Hk. rewrite <- (sh_aead _ _ _ Sh), <- (sh_ciph _ _ _ Sh), <- (sh_macs _ _ _ Sh).
    apply (so_kdf_needed _ _ _ _ _ _ _ O). rewrite (sh_kdf _ _ _ Sh) in Hk. now destruct (s_kdf s).
  - destruct (so_src _ _ _ _ _ _ _ O) as [H|[H|(H1 & H2)]]; auto. right; right.
    split; intro Hd; apply Hr in Hd; auto.
  - apply O.
Qed.
