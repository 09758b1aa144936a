(** Property theorems C09: what one side closes, the other side opens. *)
From Coq Require Import Init.Byte.
From Verif Require Import CoreRound SpecCore SuiteFacts PropHistory Toy.

Lemma F2_length {A B} (R : A -> B -> Prop) l m : Forall2 R l m -> length l = length m.
Proof. induction 1; cbn; congruence. Qed.

Lemma steps_length c hreg cr e s su : new_session c tool_registry hreg cr e = Ok s -> e_suite e = Some su -> distinct_tools su ->
  s_env s = e -> length (steps s) = length (e_secrets e) + length (e_recipients e).
Proof.
  intros H ES D EE. unfold steps, steps_of. rewrite EE, !app_length, !map_length, !flat_map_names.
  rewrite <- (secret_count _ _ _ _ _ _ H ES D), <- (recipient_count _ _ _ _ _ _ H ES D). lia.
Qed.
Lemma sig_steps_length c hreg cr e s su : new_session c tool_registry hreg cr e = Ok s -> e_suite e = Some su -> distinct_tools su ->
  s_env s = e -> length (sig_steps s) = length (e_senders e).
Proof.
  intros H ES D EE. unfold sig_steps. rewrite EE, flat_map_names. now apply (sender_count _ _ _ _ _ _ H ES D).
Qed.
Lemma session_env c reg hreg cr e s : new_session c reg hreg cr e = Ok s -> s_env s = e.
Proof. intro H. apply new_session_ok in H as (su & _ & O). exact (sh_env _ _ _ (so_shape _ _ _ _ _ _ _ O)). Qed.

Lemma sig_fed_twins s1 s2 l sg : twins s1 s2 -> forall x, sig_fed s1 l x = sig_fed s2 (set_sigs l sg) x.
Proof.
  intros T x. unfold sig_fed, sig_input. rewrite (fed_ext _ _ _ _ _ (tw_sigh _ _ T)).
  unfold uses_ad. rewrite (tw_aead _ _ T), (tw_macs _ _ T). reflexivity.
Qed.

(** C09: a letter closed by one session is opened to the same data by any session made from
    a counterpart of the closer's envelope.  The last hypothesis - there is a seal for every
    secret and recipient - can be dropped for the registered suites (below); without it the
    code can report success for an incomplete letter (C17). *)
Theorem C09_round_trip : forall c hreg cr e1 e2 s1 s2 su full data d1 d2 l r1,
  crypto_laws cr ->
  new_session c tool_registry hreg cr e1 = Ok s1 ->
  new_session c tool_registry hreg cr e2 = Ok s2 ->
  e_suite e1 = Some su -> distinct_tools su ->
  counterpart cr e1 e2 -> e_version e1 = 1%N ->
  close_session c cr s1 full data (rt_start d1 None) = (Ok l, r1) ->
  (s_kdf s1 <> None -> length (l_keys l) = length (e_secrets e1) + length (e_recipients e1)) ->
  fst (open_session c cr s2 l (rt_start d2 None)) = Ok data.
Proof.
  intros c hreg cr e1 e2 s1 s2 su full data d1 d2 l r1 L N1 N2 ES DT (CS & CSec & CR & CSn) EV HC HN.
  pose proof (session_env _ _ _ _ _ _ N1) as EE1. pose proof (session_env _ _ _ _ _ _ N2) as EE2.
  pose proof (session_twins _ _ _ _ _ _ _ _ N1 N2 CS) as T.
  pose proof (session_sound _ _ _ _ _ N1) as S1. pose proof (session_sound _ _ _ _ _ N2) as S2.
  pose proof (steps_length _ _ _ _ _ _ N1 ES DT EE1) as LS.
  pose proof (sig_steps_length _ _ _ _ _ _ N1 ES DT EE1) as LG.
  assert (SG : forall l0 sigs, l_sigs l0 = [] ->
     (nonempty (s_signers s1) = true -> Forall2 (signed cr (sig_fed s1 l0)) (sig_steps s1) sigs) ->
     (nonempty (s_signers s2) = true -> length (e_senders (s_env s2)) = length (l_sigs (set_sigs l0 sigs)))
     /\ (nonempty (s_signers s2) = true -> Forall2 (verified cr (sig_fed s2 (set_sigs l0 sigs))) (sig_steps s2) (l_sigs (set_sigs l0 sigs)))).
  { intros l0 sigs _ F. rewrite <- (tw_signers _ _ T). split; intro NE; specialize (F NE); cbn [set_sigs l_sigs].
    - rewrite EE2. pose proof (F2_length _ _ _ F) as FL. rewrite <- FL, LG. symmetry. eapply F2_length; exact CSn.
    - eapply sigs_match; [exact L|exact (tw_signers _ _ T)| | | |exact F].
      + intros i Hi. apply (ss_names _ S2). tauto.
      + rewrite EE1, EE2. exact CSn.
      + apply sig_fed_twins. exact T. }
  destruct (s_kdf s1) as [k|] eqn:EK.
  - specialize (HN ltac:(discriminate)).
    destruct (close_plain_ok c cr s1 S1 _ _ _ _ _ _ (rest_start d1) EK HC)
      as (nonce & q0 & q1 & kvs & ER & Eq0 & CM & EN & SK & EL & NS & SS & _).
    set (l0 := mkLetter _ _ _ _ _ _ _ _) in *.
    assert (EKS : l_keys l = r_keys q1) by (rewrite EL; reflexivity).
    assert (ENC : l_nonce l = nonce) by (rewrite EL; reflexivity).
    pose proof (proj2 (closing_material_count c cr s1 _ _ _ _ CM)) as EACH.
    assert (K0 : r_keys q0 = []) by (rewrite Eq0; reflexivity).
    assert (M0 : r_mat q0 = []) by (rewrite Eq0; reflexivity).
    rewrite K0 in EACH. cbn [length Nat.add] in EACH. rewrite LS, <- EKS in EACH. specialize (EACH HN).
    apply close_steps_ok in EACH as (cs & FM & G).
    assert (EM : r_mat q1 = map co_mat cs) by (rewrite (gr_mat _ _ _ _ _ _ _ G), M0; reflexivity).
    assert (EQ : r_keys q1 = map co_seal cs) by (rewrite (gr_keys _ _ _ _ _ _ _ G), K0; reflexivity).
    destruct (SG (sealed cr s1 kvs data l0) (l_sigs l) eq_refl SS) as [SG1 SG2].
    rewrite <- EL in SG1, SG2.
    assert (LV : l_version l = 1%N) by (rewrite EL; cbn; now rewrite EE1).
    destruct (open_plain_run c cr s2 l (rt_start d2 None) eq_refl LV (fun _ => eq_refl) SG1 SG2) as (h & ->).
    set (q := set_sigh _ h).
    assert (EP : open_payload c cr s2 l q = (run w <- is_wire;
        run _ <- (if w then recv_handshake c cr s2 l else run _ <- opening_material c cr s2 l; run m <- gets r_mat; kdf_init (l_nonce l) m);
        open_tail cr s2 l) q).
    { unfold open_payload. rewrite <- (tw_kdf _ _ T), EK. reflexivity. }
    rewrite EP. unfold is_wire, gets. unfold mbind at 1. cbn [q set_sigh set_buf set_acc r_wire is_none negb rt_start].
    assert (FS : Forall2 (same_step cr) (steps s1) (steps s2)).
    { unfold steps. rewrite EE1, EE2, (tw_kx _ _ T), (tw_ke _ _ T). apply steps_match; auto.
      intros i Hi. apply (ss_names _ S2). tauto. }
    rewrite <- ENC in FM.
    destruct (open_steps_ok c cr s1 s2 L (tw_pass _ _ T) (tw_dks _ _ T) l (steps s1) (steps s2) cs [] [] q FS FM) as (q2 & E2 & _ & G2).
    { rewrite EKS, EQ. cbn. now rewrite app_nil_r. }
    { reflexivity. }
    apply opening_material_ok in E2.
    2: { intros _. rewrite HN, EE2. pose proof (F2_length _ _ _ CSec). pose proof (F2_length _ _ _ CR). lia. }
    rewrite (mbind_assoc). rewrite (mbind_run _ _ _ _ _ E2). unfold mbind at 1. unfold mbind at 1.
    rewrite kdf_init_run, ENC.
    assert (EM2 : r_mat q2 = r_mat q1) by (rewrite (gr_mat _ _ _ _ _ _ _ G2), EM; reflexivity).
    rewrite EM2, EN.
    pose proof (open_tail_run cr s2 (ss_keyed s2 S2) (ss_ivs s2 S2) (ss_ids s2 S2) (ss_macs_ids s2 S2) l nonce (concat (r_mat q1)) 0
      (set_kdf q2 (Some (mkKdf nonce (concat (r_mat q1)) 0)))) as RT.
    rewrite <- (slots_eq s1 s2 T), SK in RT. rewrite RT; [|intro n; cbn [set_kdf r_tools]; rewrite (gr_tools _ _ _ _ _ _ _ G2); reflexivity|reflexivity].
    rewrite EL. now apply opened_sealed.
  - destruct (close_signonly_ok c cr s1 _ _ _ _ _ (rest_start d1) EK HC) as (nonce & _ & NK & EL & NS & SS & _).
    set (l0 := mkLetter _ _ _ _ _ _ _ _) in *.
    destruct (SG l0 (l_sigs l) eq_refl SS) as [SG1 SG2]. rewrite <- EL in SG1, SG2.
    assert (LV : l_version l = 1%N) by (rewrite EL; cbn; now rewrite EE1).
    destruct (open_plain_run c cr s2 l (rt_start d2 None) eq_refl LV (fun _ => eq_refl) SG1 SG2) as (h & ->).
    unfold open_payload. rewrite <- (tw_kdf _ _ T), EK.
    assert (NK2 : needs_key s2 = false).
    { unfold needs_key in *. now rewrite <- (tw_ciph _ _ T), <- (tw_aead _ _ T), <- (tw_macs _ _ T). }
    rewrite NK2. rewrite EL. reflexivity.
Qed.
Print Assumptions C09_round_trip.

(** ** The registered suites, after any history on either side *)
Lemma resolves_all_fun reg hreg l a b : Forall2 (resolves reg hreg) l a -> Forall2 (resolves reg hreg) l b -> a = b.
Proof.
  intro R. revert b. induction R as [|x i l a Hx R IH]; intros b R2; inversion R2; subst; [reflexivity|].
  f_equal; [eapply resolves_fun; eassumption|auto].
Qed.
Lemma registered_insts c cr e s su : new_session c tool_registry hash_registry cr e = Ok s -> e_suite e = Some su ->
  In su suite_registry -> s_all s = suite_insts su.
Proof.
  intros H ES HI. apply new_session_ok in H as (su' & E & O). rewrite ES in E. injection E as <-.
  pose proof registry_checked as RC. rewrite forallb_forall in RC. specialize (RC su HI). unfold suite_check in RC.
  pose proof (so_res _ _ _ _ _ _ _ O) as R. unfold suite_insts in *.
  destruct (resolve_all tool_registry hash_registry (index_from 0 (su_tools su))) as [is|] eqn:ER.
  - apply resolve_all_ok in ER. eapply resolves_all_fun; eassumption.
  - cbn [is_none negb] in RC. rewrite !andb_false_r in RC. discriminate.
Qed.
Lemma registered_few : forall su, In su suite_registry ->
  length (of_purpose PKeyExchange (suite_insts su)) <= 1 /\ length (of_purpose PKeyEncapsulation (suite_insts su)) <= 1 /\ distinct_tools su.
Proof.
  assert (C : forallb (fun su => (length (of_purpose PKeyExchange (suite_insts su)) <=? 1)%nat
     && (length (of_purpose PKeyEncapsulation (suite_insts su)) <=? 1)%nat
     && nodupb (map (fun id => fst (parse_tool_id id)) (su_tools su))) suite_registry = true) by (vm_compute; reflexivity).
  rewrite forallb_forall in C. intros su H. specialize (C su H). apply andb_true_iff in C as [C C3]. apply andb_true_iff in C as [C1 C2].
  apply Nat.leb_le in C1, C2. apply nodupb_ok in C3. repeat split; auto.
Qed.

Lemma registered_complete c cr e s su full data d l r : new_session c tool_registry hash_registry cr e = Ok s -> e_suite e = Some su ->
  In su suite_registry -> close_session c cr s full data (rt_start d None) = (Ok l, r) -> s_kdf s <> None ->
  length (l_keys l) = length (e_secrets e) + length (e_recipients e).
Proof.
  intros N ES HI HC EK. destruct (registered_few su HI) as (F1 & F2 & DT).
  pose proof (registered_insts _ _ _ _ _ N ES HI) as EA. pose proof (session_sound _ _ _ _ _ N) as S1.
  pose proof (session_env _ _ _ _ _ _ N) as EE.
  destruct (s_kdf s) as [k|] eqn:EK'; [|congruence].
  destruct (close_plain_ok c cr s S1 _ _ _ _ _ _ (rest_start d) EK' HC) as (nonce & q0 & q1 & kvs & _ & Eq0 & CM & _ & _ & EL & _).
  assert (EKS : l_keys l = r_keys q1) by (rewrite EL; reflexivity).
  pose proof N as N'. apply new_session_ok in N' as (su' & _ & O). pose proof (so_shape _ _ _ _ _ _ _ O) as Sh.
  rewrite closing_material_small in CM.
  - apply close_steps_ok in CM as (cs & FM & G). rewrite EKS, (gr_keys _ _ _ _ _ _ _ G), Eq0. cbn [r_keys set_draw set_buf set_acc app].
    rewrite map_length, <- (F2_length _ _ _ FM). eapply steps_length; eassumption.
  - rewrite (sh_kx _ _ _ Sh), EA. exact F1.
  - rewrite (sh_ke _ _ _ Sh), EA. exact F2.
Qed.

(** For every suite of the registry, every envelope and its counterpart, whatever requests
    both sessions served before: data that was closed is opened unchanged. *)
Theorem C09_registered_round_trip : forall c cr e1 e2 s1 s2 su qs1 qs2 full data d1 d2 l buf,
  crypto_laws cr ->
  new_session c tool_registry hash_registry cr e1 = Ok s1 ->
  new_session c tool_registry hash_registry cr e2 = Ok s2 ->
  e_suite e1 = Some su -> In su suite_registry ->
  counterpart cr e1 e2 -> e_version e1 = 1%N ->
  fst (serve c cr s1 (QClose full data) (after c cr s1 qs1 (rt_start d1 None))) = ALetter (Ok l) buf ->
  exists buf', fst (serve c cr s2 (QOpen l) (after c cr s2 qs2 (rt_start d2 None))) = AData (Ok data) buf'.
Proof.
  intros c cr e1 e2 s1 s2 su qs1 qs2 full data d1 d2 l buf L N1 N2 ES HI CP EV HC.
  rewrite (C14_history_independent _ _ _ _ _ _ _ _ N1) in HC. set (d1' := r_draw _) in HC. cbn [serve] in HC.
  destruct (close_session c cr s1 full data (rt_start d1' None)) as [x r1] eqn:EC. cbn [fst] in HC. injection HC as -> _.
  rewrite (proj1 (C14_open_history_independent _ _ _ _ _ d2 0 qs2 l N2)). cbn [serve].
  pose proof (C09_round_trip c hash_registry cr e1 e2 s1 s2 su full data d1' 0 l r1 L N1 N2 ES (proj2 (proj2 (registered_few su HI))) CP EV EC
    (fun NK => registered_complete _ _ _ _ _ _ _ _ _ _ N1 ES HI EC NK)) as R.
  destruct (open_session c cr s2 l (rt_start 0 None)) as [x r2]. cbn [fst] in R. rewrite R. eexists. reflexivity.
Qed.
Print Assumptions C09_registered_round_trip.

(** Every registered suite has such a case: an envelope, its counterpart, both sessions, and
    a successful Close. *)
Definition demo_env (su : suite) : envelope :=
  let has p := existsb (fun i => purpose_eqb (i_purpose i) p) (suite_insts su) in
  let names p := map i_name (of_purpose p (suite_insts su)) in
  toy_env su
    (if has PPassDerivation then [toy_password "pw"]
     else if has PKeyExchange || has PKeyEncapsulation || negb (has PKeyDerivation) then [] else [toy_secret "k"])
    (map (fun n => mkSignet 1 (lit "sender") n (toy_key 5) false false None (Some (toy_key 5)) (PKey (toy_key 5))) (names PSigning))
    (map (fun n => mkSignet 1 (lit "rcpt") n (toy_key 6) false false None (Some (toy_key 6)) (PKey (toy_key 6))) (names PKeyExchange ++ names PKeyEncapsulation)).
Definition demo_closes (su : suite) : bool :=
  match new_session default_config tool_registry hash_registry toy (demo_env su) with
  | Ok s => match fst (serve default_config toy s (QClose true (lit "hello")) (rt_start 3 None)) with
            | ALetter (Ok l) _ =>
                match fst (serve default_config toy s (QOpen l) (rt_start 3 None)) with
                | AData (Ok d) _ => bytes_eqb d (lit "hello")
                | _ => false
                end
            | _ => false
            end
  | _ => false
  end.
Example C09_hypotheses_met : forallb demo_closes suite_registry = true.
Proof. vm_compute. reflexivity. Qed.
Lemma toy_pair t i : pair_ok toy t (toy_key i) (toy_key i).
Proof. exists (N.to_nat i). cbn. unfold toy_key. now rewrite N2Nat.id. Qed.
Example C09_counterpart_met : forall su, counterpart toy (demo_env su) (demo_env su).
Proof.
  intro su. unfold counterpart, demo_env, toy_env; cbn. split; [reflexivity|]. split; [|split].
  - repeat match goal with |- context [if ?b then _ else _] => destruct b end; repeat constructor.
  - induction (map _ _ ++ map _ _) as [|x l IH]; cbn; constructor; [|exact IH].
    split; [reflexivity|]. exists (toy_key 6), (toy_key 6). repeat split. cbn. apply toy_pair.
  - induction (map i_name _) as [|x l IH]; cbn; constructor; [|exact IH].
    split; [reflexivity|]. exists (toy_key 5), (toy_key 5). repeat split. cbn. apply toy_pair.
Qed.
