(** The registered suites: lemmas for C47. *)
From Verif Require Export SessionProps.

Fixpoint resolve_all (reg : list tool) (hreg : list hashtool) (l : list (nat * bytes)) : option (list inst) :=
  match l with
  | [] => Some []
  | x :: r =>
      match tools_get reg (fst (parse_tool_id (snd x))) with
      | Ok t => match tool_hash hreg (t_purpose t) (snd (parse_tool_id (snd x))) (t_options t) None with
                | Ok h => match resolve_all reg hreg r with
                          | Some is => Some (mkInst (fst x) t (snd (parse_tool_id (snd x))) h :: is)
                          | None => None
                          end
                | _ => None
                end
      | _ => None
      end
  end.

Lemma resolve_all_ok reg hreg l is : resolve_all reg hreg l = Some is -> Forall2 (resolves reg hreg) l is.
Proof.
  revert is. induction l as [|x l IH]; intros is H; cbn in H; [injection H as <-; constructor|].
  destruct (tools_get reg (fst (parse_tool_id (snd x)))) as [t| |] eqn:E1; try discriminate.
  destruct (tool_hash hreg (t_purpose t) (snd (parse_tool_id (snd x))) (t_options t) None) as [h| |] eqn:E2; try discriminate.
  destruct (resolve_all reg hreg l) as [is'|]; [|discriminate]. injection H as <-.
  constructor; [|auto]. unfold resolves, i_purpose. cbn. auto.
Qed.

Definition suite_insts (su : suite) : list inst :=
  match resolve_all tool_registry hash_registry (index_from 0 (su_tools su)) with Some is => is | None => [] end.

Fixpoint nodupb (l : list bytes) : bool :=
  match l with [] => true | x :: r => negb (existsb (bytes_eqb x) r) && nodupb r end.
Lemma nodupb_ok l : nodupb l = true -> NoDup l.
Proof.
  induction l as [|x l IH]; cbn; [constructor|]. intro H. apply andb_true_iff in H as [H1 H2].
  constructor; [|auto]. intro Hin. apply negb_true_iff in H1.
  assert (existsb (bytes_eqb x) l = true); [|congruence]. apply existsb_exists. exists x. split; [assumption|apply bytes_eqb_refl].
Qed.

Definition purposes (su : suite) (p : purpose) : bool := existsb (fun i => purpose_eqb (i_purpose i) p) (suite_insts su).

Definition suite_check (su : suite) : bool :=
  let is := suite_insts su in
  (length is =? length (su_tools su))%nat
  && negb (is_none (resolve_all tool_registry hash_registry (index_from 0 (su_tools su))))
  && nodupb (su_tools su) && nodupb (map (fun id => fst (parse_tool_id id)) (su_tools su))
  && (su_level su =? 128)%Z
  && (length (of_purpose PKeyDerivation is) <=? 1)%nat && (length (of_purpose PPassDerivation is) <=? 1)%nat
  && forallb (fun i => negb (is_rsa (i_name i)) && negb (bytes_eqb (i_name i) scheme_key)
                       && negb (bytes_eqb (i_name i) scheme_pw)
                       && ((tool_rating (i_tool i) (i_hash i) =? 0)%Z || (128 <=? tool_rating (i_tool i) (i_hash i))%Z)
                       && negb (purpose_eqb (i_purpose i) PPassDerivation && negb (bytes_eqb (i_name i) (lit "SCRYPT-20")))) is
  && existsb (fun i => (tool_rating (i_tool i) (i_hash i) =? 128)%Z) is
  && (0 <=? max_ks is)%Z
  && negb (existsb (fun i => has_option (i_tool i) ONeedsDefaultKeySize) is && (max_ks is <=? 0)%Z)
  && negb (req_empty (su_provides su))
  (* recipient authentication by tools only together with confidentiality, and that with integrity *)
  && negb (existsb (fun i => gives (i_purpose i) RecipientAuthentication) is && negb (existsb (fun i => gives (i_purpose i) Confidentiality) is))
  && negb (existsb (fun i => gives (i_purpose i) Confidentiality) is && negb (existsb (fun i => gives (i_purpose i) Integrity) is))
  && (match of_purpose PKeyDerivation is with [] => (length (of_purpose PSigning is) =? length is)%nat | _ =>
      nonempty (of_purpose PIntegratedCipher is) || nonempty (of_purpose PCipher is) || nonempty (of_purpose PMAC is) end)
  (* a key comes from a tool, or sender authentication must come from a pre-shared key *)
  && (existsb (fun i => match i_purpose i with PPassDerivation | PKeyExchange | PKeyEncapsulation | PSigning => true | _ => false end) is
      || (req_has (su_provides su) SenderAuthentication && negb (existsb (fun i => gives (i_purpose i) SenderAuthentication) is))).

Lemma registry_checked : forallb suite_check suite_registry = true.
Proof. vm_compute. reflexivity. Qed.

Lemma registry_names : forall t, In t tool_registry -> t_name t <> [].
Proof.
  assert (H : forallb (fun t => nonempty (t_name t)) tool_registry = true) by reflexivity.
  rewrite forallb_forall in H. intros t Ht E. specialize (H t Ht). rewrite E in H. discriminate.
Qed.

Lemma suite_opens : forall su c cr e,
  In su suite_registry -> e_suite e = Some su ->
  (level_floor c e <= 128)%Z -> ((0 < e_level e)%Z -> (level_floor c e <= e_level e)%Z) ->
  signets_served tool_registry su e -> tools_served tool_registry su e ->
  (forall a, In a (su_provides su) -> delivers tool_registry su e a) ->
  (has_key_secret e -> delivers tool_registry su e Confidentiality) ->
  (forall sg, In sg (e_secrets e) -> sg_scheme sg = scheme_key ->
     sg_key sg = [] \/ (level_floor c e <= 8 * Z.of_nat (length (sg_key sg)))%Z) ->
  (forall sg, In sg (e_secrets e) -> sg_scheme sg = scheme_pw ->
     sg_key sg = [] \/ (Z.max 1 (level_floor c e) <= cr_pw_level cr (sg_key sg) 1048576)%Z) ->
  exists s, new_session c tool_registry hash_registry cr e = Ok s
    /\ (forall a, In a (s_req s) <-> delivers tool_registry su e a)
    /\ (level_floor c e <= s_level s <= 128)%Z.
Proof.
  intros su c cr e Hsu ESU Hfl Henv Hserv Htools Hprov HkC Hkeys Hpws.
  pose proof registry_checked as RC. rewrite forallb_forall in RC. specialize (RC su Hsu).
  unfold suite_check in RC. set (is := suite_insts su) in *.
  repeat match type of RC with _ && _ = true => let H := fresh "W" in apply andb_true_iff in RC as [RC H] end.
  rename RC into W15.
  assert (Hres : Forall2 (resolves tool_registry hash_registry) (index_from 0 (su_tools su)) is).
  { unfold is, suite_insts in *. destruct (resolve_all tool_registry hash_registry (index_from 0 (su_tools su))) eqn:E.
    - now apply resolve_all_ok. - exfalso. discriminate. }
  assert (Hdl : forall a, delivers tool_registry su e a <-> dlv e is a) by (intro a; now apply delivers_dlv with (hreg := hash_registry)).
  assert (Hg : forall a, existsb (fun i => gives (i_purpose i) a) is = true <-> exists i, In i is /\ gives (i_purpose i) a = true)
    by (intro a; apply existsb_exists).
  rewrite forallb_forall in W7.
  assert (Htl : forall i, In i is -> is_rsa (i_name i) = false /\ i_name i <> scheme_key /\ i_name i <> scheme_pw
      /\ (tool_rating (i_tool i) (i_hash i) = 0 \/ (128 <= tool_rating (i_tool i) (i_hash i)))%Z
      /\ (i_purpose i = PPassDerivation -> i_name i = lit "SCRYPT-20")).
  { intros i Hi. specialize (W7 i Hi). repeat rewrite andb_true_iff in W7. destruct W7 as ((((A1 & A2) & A3) & A4) & A5).
    apply negb_true_iff in A1, A2, A3. apply bytes_eqb_neq in A2, A3. repeat split; auto.
    - apply orb_true_iff in A4 as [A4|A4]; lia.
    - intro Hp. unfold i_purpose in *. rewrite Hp in A5. cbn [purpose_eqb andb] in A5. rewrite negb_involutive in A5. now apply bytes_eqb_eq. }
  assert (Hac : acceptable c tool_registry hash_registry cr e su is).
  { split.
    - exact Hres.
    - now apply nodupb_ok.
    - exact Henv.
    - lia.
    - now apply Nat.leb_le.
    - now apply Nat.leb_le.
    - apply Forall_forall. intros [oi osg] Hin.
      assert (Hpart : In (oi, osg) (items_of e is)) by exact Hin. unfold items_of in Hin.
      apply in_app_or in Hin as [Hin|Hin]; [apply in_app_or in Hin as [Hin|Hin]|].
      + apply in_map_iff in Hin as (i & E & Hi). injection E as <- <-. destruct (Htl i Hi) as (T1 & T2 & T3 & T4 & T5).
        exists (tool_rating (i_tool i) (i_hash i)). split; [apply rated_calc_level; apply rated_tool; now apply is_rsa_not|]. cbn. lia.
      + apply in_concat in Hin as (l & Hl & Hin). apply in_map_iff in Hl as (i & <- & Hi).
        destruct (Htl i Hi) as (T1 & T2 & T3 & T4 & T5). assert (Hnn : i_name i <> []).
        { destruct (Forall2_In_r _ _ _ _ Hres Hi) as (x & _ & Hx). apply resolves_name in Hx as [_ Hx]. now apply registry_names. }
        assert (Hrt : forall sg, sg_scheme sg = i_name i -> level_fine c e cr (Some i, Some sg)).
        { intros sg Es. exists (tool_rating (i_tool i) (i_hash i)). split; [apply rated_calc_level; apply rated_tool_signet; [now apply is_rsa_not|congruence|congruence]|]. lia. }
        unfold signets_for in Hin. destruct (t_purpose (i_tool i)) eqn:EP; try (now destruct Hin);
          apply in_map_iff in Hin as (sg & E & Hsg); injection E as <- <-; apply loop_In in Hsg as [Hsg [E|E]];
          try discriminate; try (now rewrite E in Hnn); auto.
        specialize (T5 EP). destruct (bytes_eq_dec (sg_key sg) []) as [Ek|Ek].
        * exists 0%Z. split; [apply rated_calc_level; now apply rated_no_password|]. now left.
        * destruct (Hpws sg Hsg E) as [K|K]; [easy|]. exists (cr_pw_level cr (sg_key sg) 1048576).
          assert (EI : pw_iterations (t_name (i_tool i)) = 1048576%Z) by (unfold i_name in T5; rewrite T5; reflexivity).
          split; [apply rated_calc_level; cbn [fst snd]; apply rated_password; auto; [now apply rounds_iff|lia]|]. lia.
      + apply in_map_iff in Hin as (sg & E & Hsg). injection E as <- <-. apply loop_In in Hsg as [Hsg [E|E]]; [discriminate|].
        exists (8 * Z.of_nat (length (sg_key sg)))%Z. split; [apply rated_calc_level; now apply rated_key|].
        destruct (Hkeys sg Hsg E) as [K|K]; [left; rewrite K; reflexivity|]. lia.
    - apply (tools_served_ne tool_registry hash_registry su e is Hres registry_names). exact Htools.
    - right; left. apply existsb_exists in W6 as (i & Hi & E). exists (Some i, None), 128%Z.
      split; [now apply items_of_tool|]. split; [|lia]. apply rated_calc_level. apply Z.eqb_eq in E. rewrite <- E.
      apply rated_tool. apply is_rsa_not. now apply Htl.
    - intros (i & Hi & Ho). assert (Ee : existsb (fun i => has_option (i_tool i) ONeedsDefaultKeySize) is = true) by (apply existsb_exists; eauto).
      rewrite Ee in W4. cbn [andb] in W4. destruct (Z.ltb_spec 0 (c_min_ks c)); lia.
    - destruct (su_provides su) as [|a r] eqn:E; [discriminate|]. exists a. apply Hdl, Hprov. now left.
    - intros a Ha. apply Hdl. auto.
    - intros [H|(H & _)].
      + apply Hg in H. rewrite H in W2. cbn [andb] in W2. rewrite negb_involutive in W2. left. now apply Hg.
      + apply Hdl, HkC. now apply has_key_loop.
    - intros [H|(_ & [H|H])]; [|discriminate|discriminate].
      apply Hg in H. rewrite H in W1. cbn [andb] in W1. rewrite negb_involutive in W1. left. now apply Hg.
    - intro E. rewrite E in W0. now apply Nat.eqb_eq.
    - intro E. destruct (of_purpose PKeyDerivation is); [easy|].
      destruct (of_purpose PIntegratedCipher is); [|now left]. destruct (of_purpose PCipher is); [|now right; left].
      destruct (of_purpose PMAC is); [discriminate|now right; right].
    - apply orb_true_iff in W as [W|W].
      + left. apply existsb_exists in W as (i & Hi & E). exists i. split; [assumption|]. unfold signets_for, i_purpose in *.
        destruct (t_purpose (i_tool i)); easy.
      + apply andb_true_iff in W as [Wa Wb]. apply req_has_In in Wa. apply Hprov, Hdl in Wa. destruct Wa as [Wa|(Wa & _)]; [|now right; left].
        apply Hg in Wa. rewrite Wa in Wb. discriminate.
    - now apply served_used with (reg := tool_registry) (hreg := hash_registry) (su := su). }
  destruct (new_session_complete _ _ _ _ _ _ _ ESU Hac) as (s & Hs & HA). exists s. split; [exact Hs|].
  apply new_session_ok in Hs as (su' & ESU' & O). rewrite ESU in ESU'. injection ESU' as <-. split.
  - intro a. rewrite Hdl. rewrite (so_req _ _ _ _ _ _ _ O a), HA. reflexivity.
  - split; [apply O|]. destruct (so_items _ _ _ _ _ _ _ O) as (ls & I1 & I2 & I3 & I4 & I5).
    apply existsb_exists in W6 as (i & Hi & E). apply Z.eqb_eq in E.
    assert (R : calc_level cr (Some i) None = Ok 128%Z) by (apply rated_calc_level; rewrite <- E; apply rated_tool; apply is_rsa_not; now apply Htl).
    rewrite Forall_forall in I1. destruct (I1 (Some i, None)) as (l & L1 & L2).
    { change (all_items s) with (items_of (s_env s) (s_all s)). apply items_of_tool. now rewrite HA. }
    cbn [fst snd] in L1. rewrite R in L1. injection L1 as <-. destruct L2 as [L2|(_ & _ & L2)]; [discriminate|].
    rewrite I4. destruct ls as [|x ls]; [easy|]. now apply zmin_list_spec.
Qed.
