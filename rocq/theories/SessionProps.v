(** Lemmas for the property theorems of PropSession.v. *)
From Verif Require Export SessionComplete.

Lemma is_rsa_iff name : is_rsa name = true <-> rsa_tool name.
Proof. unfold is_rsa, rsa_tool. rewrite orb_true_iff, !bytes_eqb_eq. reflexivity. Qed.
Lemma is_rsa_not name : is_rsa name = false <-> ~ rsa_tool name.
Proof. rewrite <- is_rsa_iff. destruct (is_rsa name); split; congruence. Qed.
Lemma rounds_iff name n : hash_rounds name n <-> pw_iterations name = n.
Proof.
  split.
  - destruct 1 as [| |name A B]; try reflexivity. apply bytes_eqb_neq in A, B. unfold pw_iterations. now rewrite A, B.
  - unfold pw_iterations. destruct (bytes_eqb name (lit "SCRYPT-20")) eqn:A; [|destruct (bytes_eqb name (lit "PBKDF2-SHA2-256")) eqn:B]; intros <-.
    + apply bytes_eqb_eq in A. subst. constructor.
    + apply bytes_eqb_eq in B. subst. constructor.
    + apply bytes_eqb_neq in A, B. now constructor.
Qed.

Lemma calc_level_rated cr i sg l : calc_level cr i sg = Ok l -> rated cr i sg l.
Proof.
  unfold calc_level.
  assert (T : forall i sg l, (sg = None \/ exists s, sg = Some s /\ sg_scheme s <> scheme_key /\ sg_scheme s <> scheme_pw) ->
     tool_level cr i sg = Ok l -> rated cr (Some i) sg l).
  { intros i0 sg0 l0 Hs H. unfold tool_level in H. destruct (is_rsa (i_name i0)) eqn:ER.
    - destruct sg0 as [s|].
      + destruct Hs as [Hs|(s' & Es & Hk & Hp)]; [discriminate|]. injection Es as <-.
        apply bind_ok in H as (s' & HL & H). destruct (sg_pub s') as [p|] eqn:EP; [|discriminate].
        destruct (Z.ltb_spec (rsa_level_for_size (cr_rsa_bits cr p)) 0); [discriminate|]. injection H as <-.
        apply is_rsa_iff in ER. eapply rated_rsa_signet; eauto.
      + injection H as <-. apply is_rsa_iff in ER. now apply rated_rsa.
    - assert (E : l0 = tool_rating (i_tool i0) (i_hash i0)).
      { unfold tool_rating. destruct (i_hash i0) as [h|]; [|congruence].
        destruct (t_level (i_tool i0) =? 0)%Z; [congruence|].
        destruct (Z.ltb_spec (h_level h) (t_level (i_tool i0))); injection H as <-; lia. }
      apply is_rsa_not in ER. subst l0. destruct sg0 as [s|]; [|now apply rated_tool].
      destruct Hs as [Hs|(s' & Es & Hk & Hp)]; [discriminate|]. injection Es as <-. now apply rated_tool_signet. }
  destruct sg as [s|].
  - destruct (bytes_eqb (sg_scheme s) scheme_key) eqn:E1.
    + intro H. injection H as <-. apply rated_key. now apply bytes_eqb_eq.
    + apply bytes_eqb_neq in E1. destruct (bytes_eqb (sg_scheme s) scheme_pw) eqn:E2.
      * apply bytes_eqb_eq in E2. destruct (sg_key s) as [|b k] eqn:EK.
        -- intro H. injection H as <-. now apply rated_no_password.
        -- destruct i as [i|]; [|discriminate]. rewrite <- EK.
           destruct (Z.ltb_spec (cr_pw_level cr (sg_key s) (pw_iterations (i_name i))) 0); [discriminate|].
           intro H0. injection H0 as <-. apply rated_password; auto; [rewrite EK; easy|now apply rounds_iff].
      * apply bytes_eqb_neq in E2. destruct i as [i|]; [|discriminate]. apply T. right; eauto.
  - destruct i as [i|]; [|discriminate]. apply T. now left.
Qed.

Lemma rated_calc_level cr i sg l : rated cr i sg l -> calc_level cr i sg = Ok l.
Proof.
  assert (TR : forall i, match i_hash i with
                 | Some h => if (t_level (i_tool i) =? 0)%Z then Ok (h_level h)
                     else if (h_level h <? t_level (i_tool i))%Z then Ok (h_level h) else Ok (t_level (i_tool i))
                 | None => Ok (t_level (i_tool i)) end = Ok (tool_rating (i_tool i) (i_hash i))).
  { intro i0. unfold tool_rating. destruct (i_hash i0) as [h|]; [|reflexivity].
    destruct (t_level (i_tool i0) =? 0)%Z; [reflexivity|].
    destruct (Z.ltb_spec (h_level h) (t_level (i_tool i0))); f_equal; lia. }
  destruct 1; unfold calc_level, tool_level, i_name.
  - apply is_rsa_not in H. rewrite H. apply TR.
  - apply is_rsa_not in H. apply bytes_eqb_neq in H0, H1. rewrite H0, H1, H. apply TR.
  - apply is_rsa_iff in H. rewrite H. reflexivity.
  - apply is_rsa_iff in H. apply bytes_eqb_neq in H0, H1. rewrite H0, H1, H, H2. cbn [bind]. rewrite H3.
    destruct (Z.ltb_spec (rsa_level_for_size (cr_rsa_bits cr p)) 0); [lia|reflexivity].
  - rewrite H, bytes_eqb_refl. reflexivity.
  - rewrite H, H0. reflexivity.
  - rewrite H. cbn [bytes_eqb]. replace (bytes_eqb scheme_pw scheme_key) with false by reflexivity.
    rewrite bytes_eqb_refl. apply rounds_iff in H1. subst n. destruct (sg_key sg) eqn:E; [easy|]. rewrite <- E.
    destruct (Z.ltb_spec (cr_pw_level cr (sg_key sg) (pw_iterations (t_name (i_tool i)))) 0); [rewrite E in *; lia|]. now rewrite E.
Qed.

Lemma rated_fun cr i sg l l' : rated cr i sg l -> rated cr i sg l' -> l = l'.
Proof. intros H1 H2. apply rated_calc_level in H1, H2. congruence. Qed.

(** ** Tools of a suite and instances of a session *)

Lemma Forall2_In_l {A B} (R : A -> B -> Prop) l m x : Forall2 R l m -> In x l -> exists y, In y m /\ R x y.
Proof. induction 1; [easy|]. intros [->|Hx]; [eexists; split; [now left|eassumption]|]. destruct IHForall2 as (y' & ? & ?); auto. exists y'; split; auto; now right. Qed.
Lemma Forall2_In_r {A B} (R : A -> B -> Prop) l m y : Forall2 R l m -> In y m -> exists x, In x l /\ R x y.
Proof. induction 1; [easy|]. intros [->|Hx]; [eexists; split; [now left|eassumption]|]. destruct IHForall2 as (y' & ? & ?); auto. exists y'; split; auto; now right. Qed.

Lemma index_from_In {A} n (l : list A) x : In x (index_from n l) -> In (snd x) l.
Proof. intro H. rewrite <- (index_from_snd n l). now apply in_map. Qed.
Lemma In_index_from {A} n (l : list A) a : In a l -> exists k, In (k, a) (index_from n l).
Proof.
  intro H. rewrite <- (index_from_snd n l) in H. apply in_map_iff in H as ((k & b) & E & Hin). cbn in E; subst. eauto.
Qed.

Lemma suite_tool_iff reg hreg su is t :
  Forall2 (resolves reg hreg) (index_from 0 (su_tools su)) is ->
  (suite_tool reg su t <-> exists i, In i is /\ i_tool i = t).
Proof.
  intro H. split.
  - intros (id & Hid & Ht). apply (In_index_from 0) in Hid as (k & Hk).
    destruct (Forall2_In_l _ _ _ _ H Hk) as (i & Hi & R1 & R2 & R3 & R4). cbn [snd] in *. exists i. split; [assumption|]. congruence.
  - intros (i & Hi & <-). destruct (Forall2_In_r _ _ _ _ H Hi) as (x & Hx & R1 & R2 & R3 & R4).
    exists (snd x). split; [eapply index_from_In; eauto|assumption].
Qed.

Lemma loop_In sch l sg : In sg (loop sch l) <-> In sg l /\ (sch = [] \/ sg_scheme sg = sch).
Proof.
  unfold loop. rewrite filter_In. destruct sch as [|b s]; [tauto|]. rewrite bytes_eqb_eq. intuition congruence.
Qed.

Lemma has_key_loop e : has_key_secret e <-> loop scheme_key (e_secrets e) <> [].
Proof.
  split.
  - intros (sg & H1 & H2). assert (H : In sg (loop scheme_key (e_secrets e))) by (apply loop_In; auto).
    destruct (loop scheme_key (e_secrets e)); easy.
  - destruct (loop scheme_key (e_secrets e)) as [|sg r] eqn:E; [easy|]. intros _. exists sg.
    assert (H : In sg (loop scheme_key (e_secrets e))) by (rewrite E; now left).
    apply loop_In in H as [H1 [H2|H2]]; [discriminate|]. auto.
Qed.

Lemma delivers_dlv reg hreg su e is a :
  Forall2 (resolves reg hreg) (index_from 0 (su_tools su)) is ->
  (delivers reg su e a <-> dlv e is a).
Proof.
  intro H. unfold delivers, dlv. rewrite has_key_loop. split; (intros [L|L]; [left|right; exact L]).
  - destruct L as (t & Ht & Hg). apply (suite_tool_iff _ _ _ _ _ H) in Ht as (i & Hi & <-). eauto.
  - destruct L as (i & Hi & Hg). exists (i_tool i). split; [|exact Hg].
    apply (suite_tool_iff _ _ _ _ _ H). eauto.
Qed.

(** ** Parts *)

Lemma part_of_items s i sg : part_of s i sg -> In (i, sg) (all_items s).
Proof.
  change (all_items s) with (items_of (s_env s) (s_all s)).
  destruct 1.
  - now apply items_of_tool.
  - eapply items_of_signet; [eassumption|unfold signets_for; now rewrite H0|]. apply loop_In; auto.
  - eapply items_of_signet; [eassumption|unfold signets_for; destruct H0 as [-> | ->]; reflexivity|]. apply loop_In; auto.
  - eapply items_of_signet; [eassumption|unfold signets_for; now rewrite H0|]. apply loop_In; auto.
  - apply items_of_key, loop_In; auto.
Qed.

Lemma items_part_of s i sg :
  (forall j, In j (s_all s) -> t_name (i_tool j) <> []) -> In (i, sg) (all_items s) -> part_of s i sg.
Proof.
  intros Hn H. unfold all_items in H. apply in_app_or in H as [H|H]; [apply in_app_or in H as [H|H]|].
  - apply in_map_iff in H as (j & E & Hj). injection E as <- <-. now apply part_tool.
  - apply in_concat in H as (l & Hl & H). apply in_map_iff in Hl as (j & <- & Hj). specialize (Hn j Hj).
    unfold signets_for in H. destruct (t_purpose (i_tool j)) eqn:EP; try (now destruct H);
      apply in_map_iff in H as (sg' & E & Hs); injection E as <- <-; apply loop_In in Hs as [Hs1 [Hs2|Hs2]];
      try discriminate; try (unfold i_name in Hs2; now rewrite Hs2 in Hn).
    + now apply part_password.
    + apply part_recipient; auto.
    + apply part_recipient; auto.
    + apply part_sender; auto.
  - apply in_map_iff in H as (sg' & E & Hs). injection E as <- <-. apply loop_In in Hs as [Hs1 [Hs2|Hs2]]; [discriminate|].
    now apply part_key.
Qed.

(** ** Counting signets *)

Definition nmatch (x : signet) (n : bytes) : bool := match n with [] => true | _ => bytes_eqb (sg_scheme x) n end.
Lemma loops_cons x L ns :
  length (concat (map (fun n => loop n (x :: L)) ns)) =
  length (filter (nmatch x) ns)
  + length (concat (map (fun n => loop n L) ns)).
Proof.
  induction ns as [|n ns IH]; [reflexivity|]. cbn [map concat filter]. rewrite !app_length, IH.
  assert (H : length (loop n (x :: L)) = (if nmatch x n then 1 else 0) + length (loop n L)).
  { unfold loop, nmatch. cbn [filter]. destruct (match n with [] => true | _ => bytes_eqb (sg_scheme x) n end); reflexivity. }
  rewrite H. destruct (nmatch x n); cbn [length]; lia.
Qed.

Lemma nmatch_le x ns : NoDup ns -> (forall n, In n ns -> n <> []) ->
  length (filter (nmatch x) ns) <= 1 /\ (length (filter (nmatch x) ns) = 1 -> In (sg_scheme x) ns).
Proof.
  intros Hd Hn. assert (E : forall n, In n (filter (nmatch x) ns) -> n = sg_scheme x).
  { intros n H. apply filter_In in H as [H1 H2]. specialize (Hn n H1). unfold nmatch in H2.
    destruct n; [easy|]. now apply bytes_eqb_eq in H2. }
  assert (D : NoDup (filter (nmatch x) ns)) by now apply NoDup_filter.
  destruct (filter (nmatch x) ns) as [|a [|b r]] eqn:EF; cbn [length]; split; try lia.
  - intros _. rewrite <- (E a) by now left. assert (H : In a (filter (nmatch x) ns)) by (rewrite EF; now left).
    now apply filter_In in H.
  - exfalso. inversion D as [|? ? H1 H2]; subst. apply H1. left. rewrite (E a), (E b); cbn; auto.
Qed.
Lemma nmatch_ge x ns : In (sg_scheme x) ns -> 1 <= length (filter (nmatch x) ns).
Proof.
  intro H. assert (G : In (sg_scheme x) (filter (nmatch x) ns)).
  { apply filter_In. split; [assumption|]. unfold nmatch. destruct (sg_scheme x) eqn:E; [reflexivity|]. apply bytes_eqb_refl. }
  destruct (filter (nmatch x) ns); [easy|cbn; lia].
Qed.

Lemma loops_le L ns : NoDup ns -> (forall n, In n ns -> n <> []) ->
  length (concat (map (fun n => loop n L) ns)) <= length L
  /\ (length (concat (map (fun n => loop n L) ns)) = length L -> forall x, In x L -> In (sg_scheme x) ns).
Proof.
  intros Hd Hn. induction L as [|x L (IH1 & IH2)].
  - split; [|easy]. clear. induction ns; [cbn; lia|assumption].
  - rewrite loops_cons. destruct (nmatch_le x ns Hd Hn) as [G1 G2]. cbn [length]. split; [lia|].
    intros E y [<-|Hy]; [apply G2; lia|apply IH2; [lia|assumption]].
Qed.
Lemma loops_ge L ns : (forall x, In x L -> In (sg_scheme x) ns) ->
  length L <= length (concat (map (fun n => loop n L) ns)).
Proof.
  induction L as [|x L IH]; intro H; [cbn; lia|]. rewrite loops_cons.
  pose proof (nmatch_ge x ns (H x (or_introl eq_refl))). specialize (IH (fun y Hy => H y (or_intror Hy))). cbn [length]. lia.
Qed.

Definition is_rcpt (i : inst) : bool := purpose_eqb (i_purpose i) PKeyExchange || purpose_eqb (i_purpose i) PKeyEncapsulation.

Lemma signets_of_count e is :
  length (concat (map (signets_of e) is)) =
  length (of_purpose PPassDerivation is) * length (loop scheme_pw (e_secrets e))
  + length (concat (map (fun n => loop n (e_recipients e)) (map i_name (filter is_rcpt is))))
  + length (concat (map (fun n => loop n (e_senders e)) (map i_name (of_purpose PSigning is)))).
Proof.
  induction is as [|i is IH]; [reflexivity|]. cbn [map concat]. rewrite app_length, IH. clear IH.
  unfold of_purpose, is_rcpt. cbn [filter]. unfold signets_of, signets_for, i_purpose.
  destruct (t_purpose (i_tool i)) eqn:EP; cbn [purpose_eqb orb map concat length]; rewrite ?app_length; lia.
Qed.

Lemma loop_two_le (l : list signet) :
  length (loop scheme_pw l) + length (loop scheme_key l) <= length l /\
  (length (loop scheme_pw l) + length (loop scheme_key l) = length l ->
   forall x, In x l -> sg_scheme x = scheme_key \/ sg_scheme x = scheme_pw).
Proof.
  destruct (loops_le l [scheme_pw; scheme_key]) as [H1 H2].
  - repeat constructor; [intros [E|[]]; discriminate|easy].
  - intros n [<-|[<-|[]]]; discriminate.
  - cbn [map concat] in *. rewrite app_nil_r, app_length in *. split; [assumption|].
    intros E x Hx. destruct (H2 E x Hx) as [H|[H|[]]]; auto.
Qed.

Lemma resolves_name reg hreg x i : resolves reg hreg x i -> i_name i = fst (parse_tool_id (snd x)) /\ In (i_tool i) reg.
Proof.
  intros (_ & H & _). unfold tools_get in H. apply of_option_ok in H. apply find_some in H as [H1 H2].
  apply bytes_eqb_eq in H2. auto.
Qed.

Lemma inst_names reg hreg su is :
  Forall2 (resolves reg hreg) (index_from 0 (su_tools su)) is ->
  map i_name is = map (fun id => fst (parse_tool_id id)) (su_tools su).
Proof.
  intro H. rewrite <- (index_from_snd 0 (su_tools su)) at 1. rewrite map_map.
  induction H as [|x i l m Hx H IH]; [reflexivity|]. cbn [map]. f_equal; [|assumption].
  now apply resolves_name in Hx as [Hx _].
Qed.

Lemma NoDup_map_filter {A B} (f : A -> B) p l : NoDup (map f l) -> NoDup (map f (filter p l)).
Proof.
  induction l as [|a l IH]; cbn; [auto|]. intro H. inversion H as [|? ? H1 H2]; subst.
  destruct (p a); [|auto]. cbn. constructor; [|auto]. intro Hin. apply H1.
  apply in_map_iff in Hin as (b & E & Hb). apply filter_In in Hb as [Hb _]. rewrite <- E. now apply in_map.
Qed.

Lemma acceptable_served c reg hreg cr e su is :
  acceptable c reg hreg cr e su is -> (forall t, In t reg -> t_name t <> []) -> distinct_tools su ->
  signets_served reg su e.
Proof.
  intros A Hreg Hd. pose proof (ac_res _ _ _ _ _ _ _ A) as Hres.
  assert (Hnm : NoDup (map i_name is)) by (rewrite (inst_names _ _ _ _ Hres); exact Hd).
  assert (Hne : forall i, In i is -> i_name i <> []).
  { intros i Hi. destruct (Forall2_In_r _ _ _ _ Hres Hi) as (x & _ & Hx). apply resolves_name in Hx as [_ Hx]. now apply Hreg. }
  assert (Hne' : forall p n, In n (map i_name (filter p is)) -> n <> []).
  { intros p n H. apply in_map_iff in H as (i & <- & H). apply filter_In in H as [H _]. auto. }
  destruct (loops_le (e_recipients e) (map i_name (filter is_rcpt is)) (NoDup_map_filter _ _ _ Hnm) (Hne' _)) as [R1 R2].
  destruct (loops_le (e_senders e) (map i_name (of_purpose PSigning is)) (NoDup_map_filter _ _ _ Hnm) (Hne' _)) as [S1 S2].
  destruct (loop_two_le (e_secrets e)) as [T1 T2].
  pose proof (ac_used _ _ _ _ _ _ _ A) as U. rewrite signets_of_count in U. pose proof (ac_pass1 _ _ _ _ _ _ _ A) as P1.
  assert (P2 : length (of_purpose PPassDerivation is) * length (loop scheme_pw (e_secrets e)) <= length (loop scheme_pw (e_secrets e))) by nia.
  assert (St : forall i, In i is -> suite_tool reg su (i_tool i)) by (intros i Hi; apply (suite_tool_iff _ _ _ _ _ Hres); eauto).
  split; [|split].
  - intros sg Hsg. destruct (T2 ltac:(lia) sg Hsg) as [E|E]; [now left|]. right. split; [assumption|].
    assert (L : In sg (loop scheme_pw (e_secrets e))) by (apply loop_In; auto).
    assert (length (loop scheme_pw (e_secrets e)) <> 0) by (destruct (loop scheme_pw (e_secrets e)); easy).
    destruct (of_purpose PPassDerivation is) as [|i r] eqn:EP; [cbn [length] in *; lia|].
    assert (Hi : In i (of_purpose PPassDerivation is)) by (rewrite EP; now left).
    apply of_purpose_In in Hi as [Hi Hp]. exists (i_tool i). auto.
  - intros sg Hsg. specialize (S2 ltac:(lia) sg Hsg). apply in_map_iff in S2 as (i & E & Hi).
    apply of_purpose_In in Hi as [Hi Hp]. exists (i_tool i). auto.
  - intros sg Hsg. specialize (R2 ltac:(lia) sg Hsg). apply in_map_iff in R2 as (i & E & Hi).
    apply filter_In in Hi as [Hi Hp]. exists (i_tool i). split; [auto|]. split; [|exact E].
    unfold is_rcpt in Hp. apply orb_true_iff in Hp as [Hp|Hp]; apply purpose_eqb_eq in Hp; auto.
Qed.

Lemma served_used reg hreg su e is :
  Forall2 (resolves reg hreg) (index_from 0 (su_tools su)) is -> signets_served reg su e ->
  length (e_secrets e) + length (e_senders e) + length (e_recipients e)
            <= length (concat (map (signets_of e) is)) + length (loop scheme_key (e_secrets e)).
Proof.
  intros Hres (H1 & H2 & H3). rewrite signets_of_count.
  assert (R : length (e_recipients e) <= length (concat (map (fun n => loop n (e_recipients e)) (map i_name (filter is_rcpt is))))).
  { apply loops_ge. intros sg Hsg. destruct (H3 sg Hsg) as (t & Ht & Hp & E). apply (suite_tool_iff _ _ _ _ _ Hres) in Ht as (i & Hi & <-).
    apply in_map_iff. exists i. split; [exact E|]. apply filter_In. split; [assumption|]. unfold is_rcpt, i_purpose.
    destruct Hp as [-> | ->]; reflexivity. }
  assert (S : length (e_senders e) <= length (concat (map (fun n => loop n (e_senders e)) (map i_name (of_purpose PSigning is))))).
  { apply loops_ge. intros sg Hsg. destruct (H2 sg Hsg) as (t & Ht & Hp & E). apply (suite_tool_iff _ _ _ _ _ Hres) in Ht as (i & Hi & <-).
    apply in_map_iff. exists i. split; [exact E|]. apply of_purpose_In. auto. }
  assert (T : length (e_secrets e) <= length (of_purpose PPassDerivation is) * length (loop scheme_pw (e_secrets e)) + length (loop scheme_key (e_secrets e))).
  { assert (G : length (e_secrets e) <= length (loop scheme_pw (e_secrets e)) + length (loop scheme_key (e_secrets e))).
    { pose proof (loops_ge (e_secrets e) [scheme_pw; scheme_key]) as G. cbn [map concat] in G. rewrite app_nil_r, app_length in G. apply G.
      intros sg Hsg. destruct (H1 sg Hsg) as [E|(E & _)]; rewrite E; cbn; auto. }
    destruct (loop scheme_pw (e_secrets e)) as [|sg r] eqn:EL; [cbn [length] in *; lia|].
    assert (Hin : In sg (loop scheme_pw (e_secrets e))) by (rewrite EL; now left). apply loop_In in Hin as [Hin [E|E]]; [discriminate|].
    destruct (H1 sg Hin) as [E'|(_ & t & Ht & Hp)]; [rewrite E in E'; discriminate|].
    apply (suite_tool_iff _ _ _ _ _ Hres) in Ht as (i & Hi & <-).
    assert (G1 : In i (of_purpose PPassDerivation is)) by (apply of_purpose_In; auto).
    destruct (of_purpose PPassDerivation is); [easy|]. cbn [length] in *. nia. }
  lia.
Qed.

Lemma tools_served_ne reg hreg su e is :
  Forall2 (resolves reg hreg) (index_from 0 (su_tools su)) is ->
  (forall t, In t reg -> t_name t <> []) ->
  (tools_served reg su e <-> forall i, In i is -> signets_for e i <> Some []).
Proof.
  intros Hres Hreg.
  assert (L : forall sch l, sch <> [] -> loop sch l <> [] <-> exists sg, In sg l /\ sg_scheme sg = sch).
  { intros sch l Hs. split.
    - destruct (loop sch l) as [|sg r] eqn:E; [easy|]. intros _. exists sg.
      assert (H : In sg (loop sch l)) by (rewrite E; now left). apply loop_In in H as [H [H'|H']]; [easy|auto].
    - intros (sg & H1 & H2) E. assert (H : In sg (loop sch l)) by (apply loop_In; auto). rewrite E in H. easy. }
  split.
  - intros H i Hi. assert (Ht : suite_tool reg su (i_tool i)) by (apply (suite_tool_iff _ _ _ _ _ Hres); eauto).
    assert (Hn : i_name i <> []).
    { destruct (Forall2_In_r _ _ _ _ Hres Hi) as (x & _ & Hx). apply resolves_name in Hx as [_ Hx]. now apply Hreg. }
    specialize (H _ Ht). unfold signets_for. destruct (t_purpose (i_tool i)); try easy;
      intro E; injection E as E; revert E; apply L; auto; easy.
  - intros H t Ht. apply (suite_tool_iff _ _ _ _ _ Hres) in Ht as (i & Hi & <-).
    assert (Hn : i_name i <> []).
    { destruct (Forall2_In_r _ _ _ _ Hres Hi) as (x & _ & Hx). apply resolves_name in Hx as [_ Hx]. now apply Hreg. }
    specialize (H i Hi). unfold signets_for in H. destruct (t_purpose (i_tool i)); try easy; (apply L; [easy || exact Hn|]);
      intro E; apply H; unfold i_name; now rewrite E.
Qed.
