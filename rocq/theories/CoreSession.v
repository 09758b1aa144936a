(** Facts about sessions that newSession creates from the registered tools. *)
From Verif Require Export CoreState SessionProps.

Lemma registry_stateful : forall t, In t tool_registry ->
  t_purpose t = PCipher \/ t_purpose t = PIntegratedCipher \/ t_purpose t = PMAC -> has_option t OHasState = true.
Proof.
  assert (H : forallb (fun t => match t_purpose t with
     | PCipher | PIntegratedCipher | PMAC => has_option t OHasState | _ => true end) tool_registry = true) by (vm_compute; reflexivity).
  rewrite forallb_forall in H. intros t Ht Hp. specialize (H t Ht). destruct Hp as [->|[->| ->]] in H; exact H.
Qed.

Lemma session_keyed c hreg cr e s : new_session c tool_registry hreg cr e = Ok s ->
  (forall i, In i (s_aead s) \/ In i (s_ciph s) \/ In i (s_macs s) -> In i (s_stateful s))
  /\ (forall i, In i (s_aead s) \/ In i (s_ciph s) -> has_iv i = true).
Proof.
  intro H. apply new_session_ok in H as (su & ESU & O). pose proof (so_res _ _ _ _ _ _ _ O) as R.
  pose proof (so_shape _ _ _ _ _ _ _ O) as Sh.
  rewrite (sh_stateful _ _ _ Sh), (sh_aead _ _ _ Sh), (sh_ciph _ _ _ Sh), (sh_macs _ _ _ Sh).
  split; intros i Hi; rewrite ?of_purpose_In in Hi; unfold i_purpose in Hi.
  - assert (Hall : In i (s_all s)) by tauto. apply filter_In. split; [exact Hall|]. apply registry_stateful; [|tauto].
    destruct (Forall2_In_r _ _ _ _ R Hall) as (x & _ & _ & G & _). unfold tools_get in G.
    destruct (find _ tool_registry) eqn:E; [|discriminate]. cbn in G. injection G as <-. now apply find_some in E.
  - unfold has_iv. destruct Hi as [[_ ->]|[_ ->]]; reflexivity.
Qed.


Lemma registry_names : forall t, In t tool_registry -> t_name t <> [].
Proof.
  assert (H : forallb (fun t => nonempty (t_name t)) tool_registry = true) by (vm_compute; reflexivity).
  rewrite forallb_forall in H. intros t Ht E. specialize (H t Ht). now rewrite E in H.
Qed.

Lemma session_names c hreg cr e s i : new_session c tool_registry hreg cr e = Ok s -> In i (s_all s) -> i_name i <> [].
Proof.
  intros H Hi. apply new_session_ok in H as (su & ESU & O).
  destruct (Forall2_In_r _ _ _ _ (so_res _ _ _ _ _ _ _ O) Hi) as (x & _ & R). apply resolves_name in R as [_ R].
  now apply registry_names.
Qed.

Lemma resolves_idx reg hreg l is : Forall2 (resolves reg hreg) l is -> map i_idx is = map fst l.
Proof. induction 1 as [|x i l is (E & _) F IH]; cbn [map]; [reflexivity|]. now rewrite E, IH. Qed.
Lemma index_from_fst {A} n (l : list A) : map fst (index_from n l) = seq n (length l).
Proof. revert n; induction l as [|a l IH]; intro n; cbn; [reflexivity|]. now rewrite IH. Qed.
Lemma NoDup_filter_idx p (l : list inst) : NoDup (map i_idx l) -> NoDup (map i_idx (filter p l)).
Proof. apply NoDup_map_filter. Qed.

Lemma session_idx c reg hreg cr e s : new_session c reg hreg cr e = Ok s -> NoDup (map i_idx (s_all s)).
Proof.
  intro H. apply new_session_ok in H as (su & ESU & O). rewrite (resolves_idx _ _ _ _ (so_res _ _ _ _ _ _ _ O)), index_from_fst.
  apply seq_NoDup.
Qed.

(** Everything about a session that operations rely on. *)
Record sound_session (s : session) : Prop := {
  ss_keyed : forall i, In i (s_aead s) \/ In i (s_ciph s) \/ In i (s_macs s) -> In i (s_stateful s);
  ss_ivs : forall i, In i (s_aead s) \/ In i (s_ciph s) -> has_iv i = true;
  ss_ids : NoDup (map i_idx (s_stateful s));
  ss_macs_ids : NoDup (map i_idx (s_macs s));
  ss_names : forall i, In i (s_kx s) \/ In i (s_ke s) \/ In i (s_signers s) -> i_name i <> []
}.
Lemma session_sound c hreg cr e s : new_session c tool_registry hreg cr e = Ok s -> sound_session s.
Proof.
  intro H. destruct (session_keyed _ _ _ _ _ H) as [K I]. pose proof (session_idx _ _ _ _ _ _ H) as N.
  pose proof (fun i => session_names _ _ _ _ _ i H) as NM.
  apply new_session_ok in H as (su & ESU & O). pose proof (so_shape _ _ _ _ _ _ _ O) as Sh. constructor; auto.
  - rewrite (sh_stateful _ _ _ Sh). now apply NoDup_map_filter.
  - rewrite (sh_macs _ _ _ Sh). now apply NoDup_map_filter.
  - rewrite (sh_kx _ _ _ Sh), (sh_ke _ _ _ Sh), (sh_signers _ _ _ Sh). intros i. rewrite !of_purpose_In. intros Hi. apply NM. tauto.
Qed.

(** Two sessions of the same suite have the same tools. *)
Record twins (s1 s2 : session) : Prop := {
  tw_all : s_all s1 = s_all s2;
  tw_stateful : s_stateful s1 = s_stateful s2;
  tw_kdf : s_kdf s1 = s_kdf s2;
  tw_pass : s_pass s1 = s_pass s2;
  tw_kx : s_kx s1 = s_kx s2;
  tw_ke : s_ke s1 = s_ke s2;
  tw_aead : s_aead s1 = s_aead s2;
  tw_ciph : s_ciph s1 = s_ciph s2;
  tw_macs : s_macs s1 = s_macs s2;
  tw_signers : s_signers s1 = s_signers s2;
  tw_dks : s_dks s1 = s_dks s2;
  tw_sigh : forall a, In a (s_sig_hashers s1) <-> In a (s_sig_hashers s2)
}.

Lemma resolves_fun reg hreg x i j : resolves reg hreg x i -> resolves reg hreg x j -> i = j.
Proof.
  intros (A & B & C & D) (A' & B' & C' & D'). destruct i as [n t a h], j as [n' t' a' h']; cbn in *. subst.
  rewrite B in B'. injection B' as <-. unfold i_purpose in *. cbn in *. rewrite D in D'. injection D' as <-. reflexivity.
Qed.
Lemma opt_list_inj {A} (a b : option A) : opt_list a = opt_list b -> a = b.
Proof. destruct a, b; cbn; congruence. Qed.
Lemma session_twins c reg hreg cr e1 e2 s1 s2 : new_session c reg hreg cr e1 = Ok s1 -> new_session c reg hreg cr e2 = Ok s2 ->
  e_suite e1 = e_suite e2 -> twins s1 s2.
Proof.
  intros H1 H2 ES. apply new_session_ok in H1 as (su & E1 & O1). apply new_session_ok in H2 as (su' & E2 & O2).
  rewrite ES, E2 in E1. injection E1 as ->.
  assert (A : s_all s1 = s_all s2).
  { pose proof (so_res _ _ _ _ _ _ _ O1) as R1. pose proof (so_res _ _ _ _ _ _ _ O2) as R2. revert R1 R2.
    generalize (s_all s1) as a, (s_all s2) as b, (index_from 0 (su_tools su)) as l. intros a b l R1. revert b.
    induction R1 as [|x i l a Hx R1 IH]; intros b R2; inversion R2; subst; [reflexivity|]. f_equal; [eapply resolves_fun; eassumption|auto]. }
  pose proof (so_shape _ _ _ _ _ _ _ O1) as [A1 B1 C1 D1 F1 G1 H1 I1 J1 K1 L1 M1 N1].
  pose proof (so_shape _ _ _ _ _ _ _ O2) as [A2 B2 C2 D2 F2 G2 H2 I2 J2 K2 L2 M2 N2].
  constructor; try congruence.
  - apply opt_list_inj. congruence.
  - apply opt_list_inj. congruence.
  - rewrite (so_dks _ _ _ _ _ _ _ O1), (so_dks _ _ _ _ _ _ _ O2), A. reflexivity.
  - intro a. rewrite N1, N2, L1, L2, A. tauto.
Qed.

(** ** How many seals and signatures *)
Lemma flat_map_names {A} (g : inst -> signet -> A) is L :
  length (flat_map (fun i => map (g i) (loop (i_name i) L)) is) = length (concat (map (fun n => loop n L) (map i_name is))).
Proof. induction is as [|i is IH]; cbn; [reflexivity|]. rewrite !app_length, map_length, IH. reflexivity. Qed.

Lemma session_distinct c hreg cr e s su : new_session c tool_registry hreg cr e = Ok s -> e_suite e = Some su -> distinct_tools su ->
  NoDup (map i_name (s_all s)).
Proof.
  intros H ES D. apply new_session_ok in H as (su' & E & O). rewrite ES in E. injection E as <-.
  rewrite (inst_names _ _ _ _ (so_res _ _ _ _ _ _ _ O)). exact D.
Qed.

Lemma sender_count c hreg cr e s su : new_session c tool_registry hreg cr e = Ok s -> e_suite e = Some su -> distinct_tools su ->
  length (concat (map (fun n => loop n (e_senders e)) (map i_name (s_signers s)))) = length (e_senders e).
Proof.
  intros H ES D. pose proof (session_distinct _ _ _ _ _ _ H ES D) as ND. pose proof (fun i => session_names _ _ _ _ _ i H) as NM.
  pose proof H as H0. apply new_session_acceptable in H0 as (su' & E & A). rewrite ES in E. injection E as <-.
  pose proof (acceptable_served _ _ _ _ _ _ _ A registry_names D) as (_ & SV & _).
  pose proof (ac_res _ _ _ _ _ _ _ A) as Hres.
  apply new_session_ok in H as (su' & E & O). rewrite ES in E. injection E as <-.
  rewrite (sh_signers _ _ _ (so_shape _ _ _ _ _ _ _ O)).
  apply Nat.le_antisymm.
  - apply loops_le; [now apply NoDup_map_filter|]. intros n Hn. apply in_map_iff in Hn as (i & <- & Hi). apply filter_In in Hi as [Hi _]. auto.
  - apply loops_ge. intros sg Hsg. destruct (SV sg Hsg) as (t & Ht & Hp & EN). apply (suite_tool_iff _ _ _ _ _ Hres) in Ht as (i & Hi & <-).
    apply in_map_iff. exists i. split; [exact EN|]. apply of_purpose_In. auto.
Qed.

Lemma count_two (f : inst -> nat) l :
  list_sum (map f (of_purpose PKeyExchange l)) + list_sum (map f (of_purpose PKeyEncapsulation l)) = list_sum (map f (filter is_rcpt l)).
Proof.
  unfold of_purpose, is_rcpt, list_sum. induction l as [|i l IH]; cbn [filter]; [reflexivity|].
  destruct (i_purpose i); cbn [purpose_eqb orb map fold_right]; lia.
Qed.
Lemma concat_sum {A} (l : list (list A)) : length (concat l) = list_sum (map (@length A) l).
Proof. induction l as [|a l IH]; cbn; [reflexivity|]. now rewrite app_length, IH. Qed.

Lemma recipient_count c hreg cr e s su : new_session c tool_registry hreg cr e = Ok s -> e_suite e = Some su -> distinct_tools su ->
  length (concat (map (fun n => loop n (e_recipients e)) (map i_name (s_kx s))))
  + length (concat (map (fun n => loop n (e_recipients e)) (map i_name (s_ke s)))) = length (e_recipients e).
Proof.
  intros H ES D. pose proof (session_distinct _ _ _ _ _ _ H ES D) as ND. pose proof (fun i => session_names _ _ _ _ _ i H) as NM.
  pose proof H as H0. apply new_session_acceptable in H0 as (su' & E & A). rewrite ES in E. injection E as <-.
  pose proof (acceptable_served _ _ _ _ _ _ _ A registry_names D) as (_ & _ & SV).
  pose proof (ac_res _ _ _ _ _ _ _ A) as Hres.
  apply new_session_ok in H as (su' & E & O). rewrite ES in E. injection E as <-.
  rewrite (sh_kx _ _ _ (so_shape _ _ _ _ _ _ _ O)), (sh_ke _ _ _ (so_shape _ _ _ _ _ _ _ O)).
  rewrite !concat_sum, !map_map, count_two.
  match goal with |- ?x = _ => replace x with (length (concat (map (fun n => loop n (e_recipients e)) (map i_name (filter is_rcpt (s_all s)))))) by (now rewrite concat_sum, !map_map) end.
  apply Nat.le_antisymm.
  - apply loops_le; [now apply NoDup_map_filter|]. intros n Hn. apply in_map_iff in Hn as (i & <- & Hi). apply filter_In in Hi as [Hi _]. auto.
  - apply loops_ge. intros sg Hsg. destruct (SV sg Hsg) as (t & Ht & Hp & EN). apply (suite_tool_iff _ _ _ _ _ Hres) in Ht as (i & Hi & <-).
    apply in_map_iff. exists i. split; [exact EN|]. apply filter_In. split; [exact Hi|]. unfold is_rcpt, i_purpose. destruct Hp as [-> | ->]; reflexivity.
Qed.

Lemma secret_count c hreg cr e s su : new_session c tool_registry hreg cr e = Ok s -> e_suite e = Some su -> distinct_tools su ->
  length (loop scheme_key (e_secrets e)) + length (loop scheme_pw (e_secrets e)) = length (e_secrets e).
Proof.
  intros H ES D. 
  pose proof H as H0. apply new_session_acceptable in H0 as (su' & E & A). rewrite ES in E. injection E as <-.
  pose proof (acceptable_served _ _ _ _ _ _ _ A registry_names D) as (SV & _ & _).
  pose proof (loops_ge (e_secrets e) [scheme_key; scheme_pw]) as G. cbn [map concat] in G. rewrite app_nil_r, app_length in G.
  destruct (loop_two_le (e_secrets e)) as [T1 T2]. apply Nat.le_antisymm; [lia|].
  apply G. intros sg Hsg. destruct (SV sg Hsg) as [->|[-> _]]; cbn; auto.
Qed.
