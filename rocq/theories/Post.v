(** Correspondence through trust stores: lemmas for C54. *)
From Coq Require Import Permutation.
From Verif Require Import CoreOpen LetterFacts RequirementsFacts SpecOpen SuiteFacts SpecSession SessionFacts SessionComplete SessionProps SpecCore PropHistory PropTrip PropOpen CoreRound CorePanic PropSide PropLetter Envelope SpecPost.

(** ** Session creation depends on schemes and secrets only *)
Definition same_scheme (a b : signet) : Prop := sg_scheme a = sg_scheme b.

Lemma loop_F2 (R : signet -> signet -> Prop) n l m : (forall a b, R a b -> sg_scheme a = sg_scheme b) ->
  Forall2 R l m -> Forall2 R (loop n l) (loop n m).
Proof. intros. now apply Forall2_loop. Qed.

Record alike (e1 e2 : envelope) : Prop := {
  ak_sec : Forall2 same_secret (e_secrets e1) (e_secrets e2);
  ak_rcp : Forall2 same_scheme (e_recipients e1) (e_recipients e2);
  ak_snd : Forall2 same_scheme (e_senders e1) (e_senders e2) }.

Lemma calc_alike cr i a b : (forall j, i = Some j -> is_rsa (i_name j) = false) ->
  sg_scheme a = sg_scheme b -> (sg_scheme a = scheme_key \/ sg_scheme a = scheme_pw -> sg_key a = sg_key b) ->
  calc_level cr i (Some a) = calc_level cr i (Some b).
Proof.
  intros R E K. unfold calc_level. rewrite <- E.
  destruct (bytes_eqb (sg_scheme a) scheme_key) eqn:E1; [apply bytes_eqb_eq in E1; now rewrite K by auto|].
  destruct (bytes_eqb (sg_scheme a) scheme_pw) eqn:E2; [apply bytes_eqb_eq in E2; now rewrite K by auto|].
  destruct i as [j|]; [|reflexivity]. unfold tool_level. now rewrite (R j eq_refl).
Qed.

Lemma F2_impl {A B} (R Q : A -> B -> Prop) l m : (forall a b, R a b -> Q a b) -> Forall2 R l m -> Forall2 Q l m.
Proof. intro H. induction 1; constructor; auto. Qed.
Lemma F2_in_r {A B} (R : A -> B -> Prop) l m : Forall2 R l m -> forall b, In b m -> exists a, In a l /\ R a b.
Proof. induction 1; intros z []; [subst; eexists; split; [now left|assumption]|]. destruct (IHForall2 _ H1) as (a & Ha & Hb). exists a. split; [now right|exact Hb]. Qed.
Lemma F2_in_l {A B} (R : A -> B -> Prop) l m : Forall2 R l m -> forall a, In a l -> exists b, In b m /\ R a b.
Proof. induction 1; intros z []; [subst; eexists; split; [now left|assumption]|]. destruct (IHForall2 _ H1) as (a & Ha & Hb). exists a. split; [now right|exact Hb]. Qed.

(** The signets of a tool on both sides. *)
Definition like (a b : signet) : Prop := sg_scheme a = sg_scheme b /\ (sg_scheme a = scheme_key \/ sg_scheme a = scheme_pw -> sg_key a = sg_key b).

Definition not_secret (l : list signet) : Prop := Forall (fun sg => sg_scheme sg <> scheme_key /\ sg_scheme sg <> scheme_pw) l.

Lemma signets_for_alike e1 e2 i : alike e1 e2 -> not_secret (e_recipients e1) -> not_secret (e_senders e1) ->
  match signets_for e1 i, signets_for e2 i with
  | None, None => True | Some a, Some b => Forall2 like a b | _, _ => False end.
Proof.
  intros [A B C] NR NS. unfold signets_for.
  assert (LK : forall l m, Forall2 same_scheme l m -> not_secret l -> Forall2 like l m).
  { intros l m F N. induction F; [constructor|]. inversion N; subst. constructor; [|auto]. split; [assumption|]. intros [E|E]; tauto. }
  assert (LS : Forall2 like (e_secrets e1) (e_secrets e2)).
  { eapply F2_impl; [|exact A]. intros a b [E K]. split; auto. }
  destruct (t_purpose (i_tool i)); try exact I.
  all: apply loop_F2; [intros a b [E _]; exact E|auto].
Qed.

Lemma items_alike cr e1 e2 is : alike e1 e2 -> not_secret (e_recipients e1) -> not_secret (e_senders e1) ->
  (forall j, In j is -> is_rsa (i_name j) = false) ->
  forall it, In it (items_of e2 is) -> exists it', In it' (items_of e1 is) /\ calc_level cr (fst it) (snd it) = calc_level cr (fst it') (snd it').
Proof.
  intros A NR NS R it H. unfold items_of in H. apply in_app_or in H as [H|H]; [apply in_app_or in H as [H|H]|].
  - exists it. split; [|reflexivity]. unfold items_of. apply in_or_app; left. apply in_or_app; now left.
  - unfold signet_items in H. apply in_concat in H as (x & Hx & H). apply in_map_iff in Hx as (i & Hx & Hi).
    pose proof (signets_for_alike e1 e2 i A NR NS) as SA.
    destruct (signets_for e2 i) as [b|]; [|subst; easy]. destruct (signets_for e1 i) as [a|] eqn:E1; [|easy].
    subst x. apply in_map_iff in H as (sg & <- & Hs). destruct (F2_in_r _ _ _ SA _ Hs) as (sg' & Hs' & [L1 L2]).
    exists (Some i, Some sg'). split; [eapply items_of_signet; eassumption|]. cbn [fst snd]. symmetry. apply calc_alike; auto.
    intros j [= <-]. auto.
  - apply in_map_iff in H as (sg & <- & Hs).
    destruct (F2_in_r _ _ _ (loop_F2 same_secret scheme_key _ _ (fun a b H => proj1 H) (ak_sec _ _ A)) _ Hs) as (sg' & Hs' & [L1 L2]).
    exists (None, Some sg'). split; [now apply items_of_key|]. cbn [fst snd]. symmetry. apply calc_alike; auto. discriminate.
Qed.

Lemma alike_sym e1 e2 : alike e1 e2 -> alike e2 e1.
Proof.
  intros [A B C]. assert (F : forall (R : signet -> signet -> Prop) (l m : list signet), (forall a b, R a b -> R b a) -> Forall2 R l m -> Forall2 R m l).
  { intros R l m S. induction 1; constructor; auto. }
  constructor; apply F; auto; intros a b; unfold same_secret, same_scheme; [intros [H1 H2]|intro H1|intro H1]; auto.
Qed.
Lemma alike_not_secret l m : Forall2 same_scheme l m -> not_secret l -> not_secret m.
Proof. induction 1 as [|a b l m H F IH]; intro N; [constructor|]. inversion N; subst. constructor; [unfold same_scheme in H; now rewrite <- H|apply IH; assumption]. Qed.

Lemma acceptable_alike c reg hreg cr e1 e2 su is :
  acceptable c reg hreg cr e1 su is -> alike e1 e2 -> not_secret (e_recipients e1) -> not_secret (e_senders e1) ->
  (forall j, In j is -> is_rsa (i_name j) = false) ->
  (level_floor c e2 <= level_floor c e1)%Z -> (e_level e2 <= 0)%Z ->
  acceptable c reg hreg cr e2 su is.
Proof.
  intros [Hres Hnd Henv Hsu Hk1 Hp1 Hit Hne Hrat Hdks Hsome Hprov Hrc Hci Hkm Hkn Hsrc Hused] A NR NS R LF EL.
  pose proof (signets_for_alike e1 e2) as SF.
  assert (LK : loop scheme_key (e_secrets e1) <> [] <-> loop scheme_key (e_secrets e2) <> []).
  { pose proof (loop_F2 same_secret scheme_key _ _ (fun a b H => proj1 H) (ak_sec _ _ A)) as F. inversion F; split; congruence. }
  assert (D : forall a, dlv e1 is a <-> dlv e2 is a) by (intro a; unfold dlv; rewrite LK; reflexivity).
  assert (LEN : forall i, length (signets_of e1 i) = length (signets_of e2 i)).
  { intro i. unfold signets_of. specialize (SF i A NR NS). destruct (signets_for e1 i), (signets_for e2 i); try easy. eapply F2_length; exact SF. }
  constructor; auto; try lia.
  - rewrite Forall_forall in *. intros it H. destruct (items_alike cr _ _ _ A NR NS R _ H) as (it' & Hi & E).
    destruct (Hit _ Hi) as (l & L1 & L2). exists l. rewrite E. split; [exact L1|]. destruct L2 as [L2|[L2 L3]]; [now left|right; lia].
  - intros i Hi E. specialize (SF i A NR NS). rewrite E in SF. destruct (signets_for e1 i) as [a|] eqn:E1; [|easy].
    inversion SF; subst. now apply (Hne i Hi).
  - destruct Hrat as [H|[(it & l & H1 & H2 & H3)|[H1 H2]]]; [now left| |right; right; split; [lia|exact H2]].
    right; left. destruct (items_alike cr e2 e1 is (alike_sym _ _ A) (alike_not_secret _ _ (ak_rcp _ _ A) NR) (alike_not_secret _ _ (ak_snd _ _ A) NS) R it H1) as (it' & Hi & E).
    exists it', l. rewrite <- E. auto.
  - destruct Hsome as [a Ha]. exists a. now apply D.
  - intros a Ha. now apply D, Hprov.
  - rewrite <- !D. exact Hrc.
  - rewrite <- !D. exact Hci.
  - destruct Hsrc as [(i & Hi & H)|[H|H]]; [left; exists i; split; [exact Hi|]|right; left; now apply LK|right; right; now rewrite <- !D].
    specialize (SF i A NR NS). destruct (signets_for e1 i), (signets_for e2 i); easy.
  - rewrite <- (F2_length _ _ _ (ak_sec _ _ A)), <- (F2_length _ _ _ (ak_snd _ _ A)), <- (F2_length _ _ _ (ak_rcp _ _ A)).
    rewrite <- (F2_length _ _ _ (loop_F2 same_secret scheme_key _ _ (fun a b H => proj1 H) (ak_sec _ _ A))).
    assert (LC : forall l, length (concat (map (signets_of e1) l)) = length (concat (map (signets_of e2) l))).
    { induction l as [|i l IH]; [reflexivity|]. cbn [map concat]. now rewrite !app_length, LEN, IH. }
    rewrite <- LC. exact Hused.
Qed.

(** ** The seals and signatures of a letter, in order *)
Lemma registered_tools : forall su, In su suite_registry ->
  length (of_purpose PKeyExchange (suite_insts su)) <= 1 /\ of_purpose PKeyEncapsulation (suite_insts su) = []
  /\ length (of_purpose PSigning (suite_insts su)) <= 1 /\ Forall (fun i => is_rsa (i_name i) = false) (suite_insts su).
Proof.
  assert (C : forallb (fun su => (length (of_purpose PKeyExchange (suite_insts su)) <=? 1)%nat
     && (length (of_purpose PKeyEncapsulation (suite_insts su)) <=? 0)%nat && (length (of_purpose PSigning (suite_insts su)) <=? 1)%nat
     && forallb (fun i => negb (is_rsa (i_name i))) (suite_insts su)) suite_registry = true) by (vm_compute; reflexivity).
  rewrite forallb_forall in C. intros su H. specialize (C su H).
  apply andb_true_iff in C as [C C4]. apply andb_true_iff in C as [C C3]. apply andb_true_iff in C as [C1 C2].
  apply Nat.leb_le in C1, C2, C3. split; [exact C1|]. split; [destruct (of_purpose PKeyEncapsulation _); [reflexivity|cbn in C2; lia]|].
  split; [exact C3|]. apply Forall_forall. rewrite forallb_forall in C4. intros i Hi. specialize (C4 i Hi). now apply negb_true_iff.
Qed.

Definition seal_for (sg : signet) (k : seal) : Prop :=
  seal_id k = sg_id sg /\ seal_scheme k = if bytes_eqb (sg_scheme sg) scheme_key || bytes_eqb (sg_scheme sg) scheme_pw then sg_scheme sg else [].
Definition signature_for (sg : signet) (k : seal) : Prop := seal_id k = sg_id sg /\ seal_scheme k = sg_scheme sg.

Lemma loop_all n l : n <> [] -> Forall (fun sg => sg_scheme sg = n) l -> loop n l = l.
Proof.
  intros N F. unfold loop. induction F as [|x l H F IH]; [reflexivity|]. cbn [filter]. destruct n; [congruence|].
  rewrite H, bytes_eqb_refl. now f_equal.
Qed.
Lemma loop_none n l : n <> [] -> Forall (fun sg => sg_scheme sg <> n) l -> loop n l = [].
Proof.
  intros N F. unfold loop. induction F as [|x l H F IH]; [reflexivity|]. cbn [filter]. destruct n; [congruence|].
  destruct (bytes_eqb (sg_scheme x) _) eqn:E; [apply bytes_eqb_eq in E; contradiction|exact IH].
Qed.

Lemma F2_map_seal (R : kstep -> contrib -> Prop) (f : signet -> kstep) l cs : Forall2 R (map f l) cs ->
  (forall sg co, In sg l -> R (f sg) co -> seal_for sg (co_seal co)) -> Forall2 seal_for l (map co_seal cs).
Proof.
  revert cs. induction l as [|sg l IH]; intros cs F H; cbn [map] in F; inversion F; subst; [constructor|].
  cbn [map]. constructor; [apply H; [now left|assumption]|]. apply IH; [assumption|]. intros; apply H; [now right|assumption].
Qed.

Section Shape.
Variables (c : config) (cr : crypto) (e : envelope) (s : session) (su : suite).
Hypothesis N : new_session c tool_registry hash_registry cr e = Ok s.
Hypothesis ES : e_suite e = Some su.
Hypothesis HI : In su suite_registry.

Lemma shape_kx : length (s_kx s) <= 1 /\ s_ke s = [] /\ length (s_signers s) <= 1.
Proof using N ES HI.
  pose proof (registered_insts _ _ _ _ _ N ES HI) as EA. pose proof N as N'. apply new_session_ok in N' as (su' & _ & O).
  pose proof (so_shape _ _ _ _ _ _ _ O) as Sh. destruct (registered_tools su HI) as (A & B & D & _).
  rewrite (sh_kx _ _ _ Sh), (sh_ke _ _ _ Sh), (sh_signers _ _ _ Sh), EA. auto.
Qed.

Lemma shape_served : signets_served tool_registry su e.
Proof using N ES HI.
  pose proof N as N'. apply new_session_acceptable in N' as (su' & E & A). rewrite ES in E. injection E as <-.
  eapply acceptable_served; [exact A|exact registry_names|]. apply (registered_few su HI).
Qed.

Lemma shape_not_secret : not_secret (e_recipients e) /\ not_secret (e_senders e).
Proof using N ES HI.
  destruct shape_served as (_ & S2 & S3).
  assert (G : forall t sg, suite_tool tool_registry su t -> t_name t = sg_scheme sg -> sg_scheme sg <> scheme_key /\ sg_scheme sg <> scheme_pw).
  { intros t sg (id & _ & T) <-. unfold tools_get in T. destruct (find _ _) eqn:F; [|discriminate]. injection T as ->.
    apply find_some in F as [F _]. now apply registry_no_secret_names. }
  split; apply Forall_forall; intros sg H.
  - destruct (S3 sg H) as (t & T1 & _ & T3). eapply G; eassumption.
  - destruct (S2 sg H) as (t & T1 & _ & T3). eapply G; eassumption.
Qed.

Lemma shape_steps : steps s = map SKey (loop scheme_key (e_secrets e)) ++ map SPw (loop scheme_pw (e_secrets e))
  ++ match s_kx s with [i] => map (SKx i) (e_recipients e) | _ => [] end
  /\ (s_kx s = [] -> e_recipients e = []).
Proof using N ES HI.
  destruct shape_kx as (K1 & K2 & _). pose proof (session_env _ _ _ _ _ _ N) as EE.
  pose proof N as N'. apply new_session_acceptable in N' as (su' & E & A). rewrite ES in E. injection E as <-.
  pose proof (ac_res _ _ _ _ _ _ _ A) as Hres. destruct shape_served as (_ & _ & S3).
  pose proof N as N'. apply new_session_ok in N' as (su' & _ & O). pose proof (so_shape _ _ _ _ _ _ _ O) as Sh.
  assert (P : forall sg, In sg (e_recipients e) -> exists i, In i (s_kx s) /\ i_name i = sg_scheme sg).
  { intros sg Hsg. destruct (S3 sg Hsg) as (t & Ht & Hp & EN). apply (suite_tool_iff _ _ _ _ _ Hres) in Ht as (i & Hi & <-).
    exists i. split; [|exact EN]. destruct Hp as [Hp|Hp].
    - rewrite (sh_kx _ _ _ Sh). apply filter_In. split; [exact Hi|]. unfold i_purpose. now rewrite Hp.
    - exfalso. assert (H : In i (s_ke s)); [|rewrite K2 in H; easy].
      rewrite (sh_ke _ _ _ Sh). apply filter_In. split; [exact Hi|]. unfold i_purpose. now rewrite Hp. }
  unfold steps, steps_of. rewrite EE, K2. cbn [flat_map]. rewrite app_nil_r.
  destruct (s_kx s) as [|i [|j r]] eqn:EK; [|cbn [flat_map]; rewrite app_nil_r|cbn in K1; lia].
  - split; [reflexivity|]. intros _. destruct (e_recipients e) as [|sg r]; [reflexivity|]. destruct (P sg (or_introl eq_refl)) as (i & [] & _).
  - split; [|discriminate]. rewrite (loop_all (i_name i)); [reflexivity| |].
    + intro Z. assert (Hi : In i (s_all s)).
      { assert (H : In i (s_kx s)) by (rewrite EK; now left). rewrite (sh_kx _ _ _ Sh) in H. now apply filter_In in H as [H _]. }
      exact (session_names _ _ _ _ _ i N Hi Z).
    + apply Forall_forall. intros sg H. destruct (P sg H) as (j & [<-|[]] & Q). auto.
Qed.

Lemma shape_sig_steps : sig_steps s = match s_signers s with [i] => map (pair i) (e_senders e) | _ => [] end
  /\ (s_signers s = [] -> e_senders e = []) /\ (forall i, s_signers s = [i] -> Forall (fun sg => sg_scheme sg = i_name i) (e_senders e)).
Proof using N ES HI.
  destruct shape_kx as (_ & _ & K1). pose proof (session_env _ _ _ _ _ _ N) as EE.
  destruct (senders_served _ _ _ _ _ _ N ES (proj2 (proj2 (registered_few su HI)))) as [P _].
  pose proof N as N'. apply new_session_ok in N' as (su' & _ & O). pose proof (so_shape _ _ _ _ _ _ _ O) as Sh.
  unfold sig_steps. rewrite EE. destruct (s_signers s) as [|i [|j r]] eqn:EK; [|cbn [flat_map]; rewrite app_nil_r|cbn in K1; lia].
  - split; [reflexivity|]. split; [|discriminate]. intros _. destruct (e_senders e) as [|sg r]; [reflexivity|]. destruct (P sg (or_introl eq_refl)) as (i & [] & _).
  - assert (F : Forall (fun sg => sg_scheme sg = i_name i) (e_senders e)).
    { apply Forall_forall. intros sg H. destruct (P sg H) as (j & [<-|[]] & Q). auto. }
    split; [|split; [discriminate|now intros j [= <-]]]. rewrite (loop_all (i_name i)); [reflexivity| |exact F].
    intro Z. assert (Hi : In i (s_all s)).
    { assert (H : In i (s_signers s)) by (rewrite EK; now left). rewrite (sh_signers _ _ _ Sh) in H. now apply filter_In in H as [H _]. }
    exact (session_names _ _ _ _ _ i N Hi Z).
Qed.

Definition letter_shape (l : letter) : Prop :=
  l_version l = e_version e /\ l_suite l = e_suite_id e
  /\ Forall2 seal_for (loop scheme_key (e_secrets e) ++ loop scheme_pw (e_secrets e) ++ e_recipients e) (l_keys l)
  /\ Forall2 signature_for (e_senders e) (l_sigs l).

Lemma loop_in n sg l : n <> [] -> In sg (loop n l) -> In sg l /\ sg_scheme sg = n.
Proof using Type. intros Z H. unfold loop in H. apply filter_In in H as [H1 H2]. split; [exact H1|]. destruct n; [congruence|]. now apply bytes_eqb_eq. Qed.

Lemma shape_letter full data d l r : close_session c cr s full data (rt_start d None) = (Ok l, r) -> letter_shape l.
Proof using N ES HI.
  intro HC. pose proof (session_sound _ _ _ _ _ N) as S1. pose proof (session_env _ _ _ _ _ _ N) as EE.
  destruct shape_kx as (K1 & K2 & K3). destruct shape_sig_steps as (G1 & G2 & G3). destruct shape_steps as (T1 & T2).
  destruct shape_not_secret as [NR _].
  assert (SG : forall h sigs, (nonempty (s_signers s) = false -> sigs = []) ->
    (nonempty (s_signers s) = true -> Forall2 (signed cr h) (sig_steps s) sigs) -> Forall2 signature_for (e_senders e) sigs).
  { intros h sigs A B. destruct (s_signers s) as [|i [|j q]]; [rewrite (A eq_refl), (G2 eq_refl); constructor| |cbn in K3; lia].
    specialize (B eq_refl). rewrite G1 in B. specialize (G3 i eq_refl). clear - B G3. revert sigs B.
    induction (e_senders e) as [|sg q IH]; intros sigs B; cbn [map] in B; inversion B; subst; [constructor|]. inversion G3; subst.
    constructor; [|now apply IH]. destruct H1 as (k & dd & _ & _ & _ & Q1 & Q2). cbn [fst snd] in *. split; congruence. }
  destruct (s_kdf s) as [k|] eqn:EK.
  - destruct (close_plain_ok c cr s S1 _ _ _ _ _ _ (rest_start d) EK HC) as (nonce & q0 & q1 & kvs & _ & Eq0 & CM & _ & _ & EL & NS & SS & _).
    set (l0 := mkLetter _ _ _ _ _ _ _ _) in *.
    rewrite closing_material_small in CM by (rewrite ?K2; cbn; lia). apply close_steps_ok in CM as (cs & FM & G).
    assert (EQ : r_keys q1 = map co_seal cs) by (rewrite (gr_keys _ _ _ _ _ _ _ G), Eq0; reflexivity).
    split; [rewrite EL; cbn; now rewrite EE|]. split; [rewrite EL; cbn; now rewrite EE|].
    split; [|eapply SG; eassumption]. replace (l_keys l) with (map co_seal cs) by (rewrite EL; cbn; now rewrite EQ).
    rewrite T1 in FM. apply Forall2_app_inv_l in FM as (c1 & c2 & F1 & F2 & ->). apply Forall2_app_inv_l in F2 as (c2' & c3 & F2 & F3 & ->).
    clear G EQ. rewrite !map_app. apply Forall2_app; [|apply Forall2_app].
    + apply (F2_map_seal _ _ _ _ F1). intros sg co H M. apply loop_in in H as [_ H]; [|discriminate]. inversion M; subst. split; [reflexivity|]. now rewrite H.
    + apply (F2_map_seal _ _ _ _ F2). intros sg co H M. apply loop_in in H as [_ H]; [|discriminate]. inversion M; subst. split; [reflexivity|]. now rewrite H.
    + destruct (s_kx s) as [|i [|j q]]; [rewrite (T2 eq_refl); inversion F3; constructor| |cbn in K1; lia].
      apply (F2_map_seal _ _ _ _ F3). intros sg co H M. unfold not_secret in NR. rewrite Forall_forall in NR. destruct (NR sg H) as [R1 R2].
      inversion M; subst. split; [reflexivity|].
      destruct (bytes_eqb (sg_scheme sg) scheme_key) eqn:E1; [apply bytes_eqb_eq in E1; tauto|].
      destruct (bytes_eqb (sg_scheme sg) scheme_pw) eqn:E2; [apply bytes_eqb_eq in E2; tauto|]. reflexivity.
  - destruct (close_signonly_ok c cr s _ _ _ _ _ (rest_start d) EK HC) as (nonce & _ & NK & EL & NS & SS & _).
    destruct (no_kdf_no_keys _ _ _ _ _ _ N ES (proj2 (proj2 (registered_few su HI))) EK) as (Z1 & _).
    pose proof (steps_perm _ _ _ _ _ _ N ES (proj2 (proj2 (registered_few su HI)))) as P. rewrite Z1 in P. cbn [map] in P.
    apply Permutation_nil in P. apply app_eq_nil in P as [P1 P2].
    split; [rewrite EL; cbn; now rewrite EE|]. split; [rewrite EL; cbn; now rewrite EE|].
    split; [|eapply SG; eassumption]. rewrite P1, P2, EL. constructor.
Qed.
End Shape.

(** ** Looking the signets up *)
Definition prep_one (cr : crypto) (w : world) (level : Z) (recipients : bool) (sg : signet) : outcome signet * list question * bool :=
  if nonempty (sg_key sg) then (prep_loaded tool_registry cr sg, [], recipients)
  else if bytes_eqb (sg_scheme sg) scheme_pw
  then let '(x, a) := fill_password w sg (negb recipients) level in (other x, a, recipients)
  else let rec := if bytes_eqb (sg_scheme sg) scheme_key then false else recipients in
       (bind (fetch w sg rec) (prep_loaded tool_registry cr), [], rec).
Lemma prep_cons cr w level rec sg l : prep_signets tool_registry cr w level rec (sg :: l) =
  let '(x, asked, rec') := prep_one cr w level rec sg in
  match x with
  | Ok n => let '(y, asked') := prep_signets tool_registry cr w level rec' l in (do ns <- y; Ok (n :: ns), asked ++ asked')
  | Err e => (Err e, asked)
  | Panic => (Panic, asked)
  end.
Proof. reflexivity. Qed.

Lemma prep_all cr w level (P : bool -> Prop) (R : signet -> signet -> Prop) sgs refs :
  Forall2 (fun sg ref => forall rec, P rec -> exists n a rec', prep_one cr w level rec ref = (Ok n, a, rec') /\ P rec' /\ R sg n) sgs refs ->
  forall rec, P rec -> exists ns q, prep_signets tool_registry cr w level rec refs = (Ok ns, q) /\ Forall2 R sgs ns.
Proof.
  induction 1 as [|sg ref sgs refs H F IH]; intros rec HP; [exists [], []; split; [reflexivity|constructor]|].
  destruct (H rec HP) as (n & a & rec' & E & HP' & HR). destruct (IH rec' HP') as (ns & q & E' & F').
  exists (n :: ns), (a ++ q). rewrite prep_cons, E. cbn iota zeta. rewrite E'. split; [reflexivity|now constructor].
Qed.

Lemma named_id st sg : sg_id (named st sg) = sg_id sg.
Proof.
  unfold named. destruct (match sg_info sg with Some i => _ | None => _ end); [reflexivity|]. destruct st as [g|]; [|reflexivity].
  destruct (nonempty (sg_id sg)); [|reflexivity]. destruct (g _ _) as [n| |]; [|reflexivity..]. destruct (sg_info n); [|reflexivity].
  destruct (sg_info sg); reflexivity.
Qed.

Lemma fetch_ok w sg rec n : sg_id sg <> [] -> holds w (sg_id sg) rec n -> sg_scheme sg = [] \/ sg_scheme n = sg_scheme sg -> fetch w sg rec = Ok n.
Proof.
  intros I (g & G1 & G2 & _) S. unfold fetch. destruct (sg_id sg) as [|b q] eqn:E; [congruence|]. cbn [nonempty negb]. rewrite G1, G2. cbn [other bind].
  destruct S as [-> | ->]; [reflexivity|]. now rewrite bytes_eqb_refl, andb_false_r.
Qed.
Lemma prep_loaded_ok cr n p k t : sg_prot n = false -> loads cr n p k -> sg_scheme n <> scheme_key -> sg_scheme n <> scheme_pw ->
  tools_get tool_registry (sg_scheme n) = Ok t -> t_name t = sg_scheme n -> uses_signets t = true ->
  exists n', prep_loaded tool_registry cr n = Ok n' /\ sg_scheme n' = sg_scheme n /\ sg_pub n' = Some p /\ sg_priv n' = k.
Proof.
  intros NP L K1 K2 T1 T2 T3. unfold prep_loaded. rewrite NP.
  destruct (bytes_eqb (sg_scheme n) scheme_key) eqn:E1; [apply bytes_eqb_eq in E1; tauto|].
  destruct (bytes_eqb (sg_scheme n) scheme_pw) eqn:E2; [apply bytes_eqb_eq in E2; tauto|]. cbn [orb]. unfold load_key.
  destruct L as [[L1 L2]|[L1 L2]]; rewrite L1; [exists n; auto|]. rewrite NP, T1. cbn [bind]. rewrite T3, T2, L2. cbn [bind].
  eexists. split; [reflexivity|]. auto.
Qed.

Section Read.
Variables (c : config) (cr : crypto) (w : world) (e : envelope) (s : session) (su : suite).
Hypothesis N : new_session c tool_registry hash_registry cr e = Ok s.
Hypothesis ES : e_suite e = Some su.
Hypothesis HI : In su suite_registry.
Hypothesis RD : reader cr w e.

Lemma tool_of sg : (In sg (e_recipients e) \/ In sg (e_senders e)) -> exists t, tools_get tool_registry (sg_scheme sg) = Ok t /\ t_name t = sg_scheme sg /\ uses_signets t = true.
Proof using N ES HI.
  destruct (shape_served c cr e s su N ES HI) as (_ & S2 & S3).
  assert (G : forall t, suite_tool tool_registry su t -> t_name t = sg_scheme sg -> tools_get tool_registry (sg_scheme sg) = Ok t).
  { intros t (id & _ & T) E. unfold tools_get in *. destruct (find (fun t => bytes_eqb (t_name t) (fst (parse_tool_id id))) tool_registry) eqn:F; [|discriminate].
    injection T as ->. pose proof (find_some _ _ F) as [_ F2]. cbn beta in F2. apply bytes_eqb_eq in F2. rewrite <- E, F2, F. reflexivity. }
  intros [H|H].
  - destruct (S3 sg H) as (t & T1 & T2 & T3). exists t. split; [now apply G|]. split; [exact T3|]. unfold uses_signets. destruct T2 as [-> | ->]; reflexivity.
  - destruct (S2 sg H) as (t & T1 & T2 & T3). exists t. split; [now apply G|]. split; [exact T3|]. unfold uses_signets. now rewrite T2.
Qed.

Lemma F2_refs (Q : signet -> seal -> Prop) (R : signet -> signet -> Prop) v sgs ks : Forall2 Q sgs ks ->
  (forall sg k, In sg sgs -> Q sg k -> R sg (refer v k)) -> Forall2 R sgs (map (refer v) ks).
Proof using Type.
  induction 1 as [|sg k sgs ks H F IH]; intro G; [constructor|]. cbn [map]. constructor; [apply G; [now left|assumption]|].
  apply IH. intros; apply G; [now right|assumption].
Qed.

Lemma read_keys level v ks : Forall (fun sg => sg_scheme sg = scheme_key) (e_secrets e) -> Forall2 seal_for (e_secrets e) ks ->
  exists ns q, prep_signets tool_registry cr w level true (map (refer v) ks) = (Ok ns, q) /\ Forall2 same_secret (e_secrets e) ns.
Proof using RD.
  intros AK F. apply (prep_all cr w level (fun _ => True)); [|exact I]. eapply F2_refs; [exact F|]. intros sg k Hin [Q1 Q2] rec _.
  rewrite Forall_forall in AK. pose proof (AK sg Hin) as EK. rewrite EK in Q2. cbn in Q2.
  destruct (rd_key _ _ _ RD sg Hin EK) as (n & Hn & N1 & N2). pose proof (rd_ids _ _ _ RD sg ltac:(apply in_or_app; now left)) as IDN.
  exists n, [], false. unfold prep_one. cbn [refer sg_key nonempty sg_scheme]. rewrite Q2. cbn [bytes_eqb].
  replace (bytes_eqb (lit "key") scheme_pw) with false by reflexivity.
  change (bytes_eqb scheme_key scheme_pw) with false. change (bytes_eqb scheme_key scheme_key) with true. cbn iota.
  rewrite (fetch_ok w _ false n); cbn [refer sg_id sg_scheme]; [|congruence|now rewrite Q1|right; rewrite N1; now symmetry].
  cbn [bind]. destruct Hn as (g & _ & _ & NP). unfold prep_loaded. rewrite NP, N1. change (bytes_eqb scheme_key scheme_key) with true. cbn [orb].
  split; [reflexivity|]. split; [exact I|]. split; congruence.
Qed.
Lemma read_pws level v ks : Forall (fun sg => sg_scheme sg = scheme_pw) (e_secrets e) -> Forall2 seal_for (e_secrets e) ks ->
  exists ns q, prep_signets tool_registry cr w level true (map (refer v) ks) = (Ok ns, q) /\ Forall2 same_secret (e_secrets e) ns.
Proof using RD.
  intros AK F. apply (prep_all cr w level (fun b => b = true)); [|reflexivity]. eapply F2_refs; [exact F|]. intros sg k Hin [Q1 Q2] rec ->.
  rewrite Forall_forall in AK. pose proof (AK sg Hin) as EK. rewrite EK in Q2. cbn in Q2.
  destruct (rd_pw _ _ _ RD sg Hin EK) as (f & F1 & F2).
  unfold prep_one. cbn [refer sg_key nonempty sg_scheme]. rewrite Q2. change (bytes_eqb scheme_pw scheme_pw) with true. cbn iota.
  unfold fill_password. cbn [negb]. rewrite F1.
  destruct (F2 (named (w_signet w) (refer v k))) as (n & E & N1 & N2); [rewrite named_id; exact Q1|].
  unfold refer in *. rewrite Q2 in *. cbn [sg_id] in *. rewrite E. cbn [other].
  eexists _, _, _. split; [reflexivity|]. split; [reflexivity|]. split; congruence.
Qed.
Lemma read_recipients level v ks : Forall2 seal_for (e_recipients e) ks ->
  exists ns q, prep_signets tool_registry cr w level false (map (refer v) ks) = (Ok ns, q) /\ Forall2 (key_pair cr) (e_recipients e) ns.
Proof using RD N ES HI.
  intro F. apply (prep_all cr w level (fun b => b = false)); [|reflexivity]. eapply F2_refs; [exact F|]. intros sg k Hin [Q1 Q2] rec ->.
  destruct (shape_not_secret c cr e s su N ES HI) as [NR _]. unfold not_secret in NR. rewrite Forall_forall in NR. destruct (NR sg Hin) as [R1 R2].
  destruct (bytes_eqb (sg_scheme sg) scheme_key) eqn:E1; [apply bytes_eqb_eq in E1; tauto|].
  destruct (bytes_eqb (sg_scheme sg) scheme_pw) eqn:E2; [apply bytes_eqb_eq in E2; tauto|]. cbn [orb] in Q2.
  destruct (rd_recipient _ _ _ RD sg Hin) as (n & p & p' & kk & Hn & N1 & N2 & N3 & N4).
  pose proof (rd_ids _ _ _ RD sg ltac:(apply in_or_app; right; apply in_or_app; now right)) as IDN.
  destruct (tool_of sg (or_introl Hin)) as (t & T1 & T2 & T3).
  unfold prep_one. cbn [refer sg_key nonempty sg_scheme]. rewrite Q2. change (bytes_eqb [] scheme_pw) with false. change (bytes_eqb [] scheme_key) with false. cbn iota zeta.
  rewrite (fetch_ok w _ false n); cbn [refer sg_id sg_scheme]; [|congruence|now rewrite Q1|now left].
  cbn [bind]. destruct (prep_loaded_ok cr n p' (PKey kk) t) as (n' & -> & M1 & M2 & M3); [destruct Hn as (g & _ & _ & NP); exact NP|assumption|congruence..|exact T3|].
  exists n', [], false. split; [reflexivity|]. split; [reflexivity|]. split; [congruence|]. exists p, kk. auto.
Qed.
Lemma read_senders level v ks : Forall2 signature_for (e_senders e) ks ->
  exists ns q, prep_signets tool_registry cr w level true (map (refer v) ks) = (Ok ns, q) /\ Forall2 (fun a b => key_pair cr b a) (e_senders e) ns.
Proof using RD N ES HI.
  intro F. apply (prep_all cr w level (fun b => b = true)); [|reflexivity]. eapply F2_refs; [exact F|]. intros sg k Hin [Q1 Q2] rec ->.
  destruct (shape_not_secret c cr e s su N ES HI) as [_ NR]. unfold not_secret in NR. rewrite Forall_forall in NR. destruct (NR sg Hin) as [R1 R2].
  destruct (bytes_eqb (sg_scheme sg) scheme_key) eqn:E1; [apply bytes_eqb_eq in E1; tauto|].
  destruct (bytes_eqb (sg_scheme sg) scheme_pw) eqn:E2; [apply bytes_eqb_eq in E2; tauto|].
  destruct (rd_sender _ _ _ RD sg Hin) as (n & p & kk & k' & Hn & N1 & N2 & N3 & N4).
  pose proof (rd_ids _ _ _ RD sg ltac:(apply in_or_app; right; apply in_or_app; now left)) as IDN.
  destruct (tool_of sg (or_intror Hin)) as (t & T1 & T2 & T3).
  unfold prep_one. cbn [refer sg_key nonempty sg_scheme]. rewrite Q2, E1, E2.
  rewrite (fetch_ok w _ true n); cbn [refer sg_id sg_scheme]; [|congruence|now rewrite Q1|right; congruence].
  cbn [bind]. destruct (prep_loaded_ok cr n p k' t) as (n' & -> & M1 & M2 & M3); [destruct Hn as (g & _ & _ & NP); exact NP|assumption|congruence..|exact T3|].
  exists n', [], true. split; [reflexivity|]. split; [reflexivity|]. split; [congruence|]. exists p, kk. rewrite M1, N1. auto.
Qed.
End Read.

(** What Open accepts, Verify accepts (if there is a signing tool). *)
Lemma open_then_verify c cr s l r x : nonempty (s_signers s) = true ->
  fst (open_session c cr s l r) = Ok x -> fst (verify_session cr s l r) = Ok tt.
Proof.
  intros NE. unfold open_session, verify_session, with_signatures, with_sig_hashers, modify, is_wire, gets, deferred, mbind. rewrite NE.
  set (q0 := set_buf _ _). destruct (negb _) eqn:NB; [|unfold check; destruct (l_version l =? 1)%N; [|discriminate]]; unfold ret.
  all: set (q1 := set_sigh q0 _); unfold check, ret, fail; destruct (_ =? _)%nat; [|discriminate].
  all: destruct (verify_all cr s l q1) as [[n|er|] q2]; try discriminate; reflexivity.
Qed.

Lemma seals_of_some l : seals_of (map Some l) = l.
Proof. unfold seals_of. induction l as [|a l IH]; [reflexivity|]. cbn [map flat_map app]. now rewrite IH. Qed.
Lemma no_none {A} (l : list A) : existsb is_none (map Some l) = false.
Proof. induction l; cbn in *; auto. Qed.
Lemma complete_raw l : complete (raw l) = l.
Proof. unfold complete, raw. cbn [rw_letter rw_keys rw_sigs]. rewrite !seals_of_some. now destruct l. Qed.

(** A session comes from the envelope with its signets looked up and loaded. *)
Lemma correspondence_inv c sreg reg hreg cr w e s : correspondence c sreg reg hreg cr w e = Ok s ->
  exists su a b d, load_suite sreg e = Ok su /\ new_session c reg hreg cr (set_signets e su a b d) = Ok s /\ s_env s = set_signets e su a b d.
Proof.
  unfold correspondence, prepare. destruct (load_suite sreg e) as [su| |]; [|discriminate..].
  destruct (prep_signets reg cr w (su_level su) (e_opening e) (e_secrets e)) as [[a| |] q1]; [|discriminate..].
  destruct (prep_signets reg cr w (su_level su) (e_opening e) (e_senders e)) as [[b| |] q2]; [|discriminate..].
  destruct (prep_signets reg cr w (su_level su) (negb (e_opening e)) (e_recipients e)) as [[d| |] q3]; [|discriminate..].
  cbn [fst bind]. intro H. exists su, a, b, d. split; [reflexivity|]. split; [exact H|]. eapply session_env; exact H.
Qed.

Lemma filter_all {A} (p : A -> bool) l : Forall (fun x => p x = true) l -> filter p l = l.
Proof. induction 1; cbn; [reflexivity|]. rewrite H. now f_equal. Qed.
Lemma filter_none {A} (p : A -> bool) l : Forall (fun x => p x = false) l -> filter p l = [].
Proof. induction 1; cbn; [reflexivity|]. now rewrite H. Qed.

Theorem post c cr w1 w2 e su s full data d1 d2 l r required :
  crypto_laws cr -> writable c e su ->
  correspondence c suite_registry tool_registry hash_registry cr w1 e = Ok s ->
  reader cr w2 (s_env s) ->
  close_session c cr s full data (rt_start d1 None) = (Ok l, r) ->
  incl (wanted required) (su_provides su) ->
  exists s2, (do e2 <- letter_envelope suite_registry required (raw l); correspondence c suite_registry tool_registry hash_registry cr w2 e2) = Ok s2
    /\ (e_senders (s_env s) <> [] -> nonempty (s_signers s2) = true)
    /\ fst (open_session c cr s2 l (rt_start d2 None)) = Ok data.
Proof.
  intros L W C RD HC RQ. destruct (correspondence_inv _ _ _ _ _ _ _ _ C) as (su' & a & b & dd & LS & N & EE).
  assert (HG : get_suite suite_registry (e_suite_id e) = Some su) by exact (wr_suite _ _ _ W).
  assert (su' = su) as ->.
  { unfold load_suite in LS. destruct (wr_cached _ _ _ W) as [E|E]; rewrite E in LS; [rewrite HG in LS|]; now injection LS. }
  assert (HI : In su suite_registry) by (apply find_some in HG; tauto).
  set (e1 := set_signets e su a b dd) in *. rewrite EE in *.
  assert (ES : e_suite e1 = Some su) by reflexivity.
  destruct (shape_letter c cr e1 s su N ES HI _ _ _ _ _ HC) as (V & SU & KS & SS).
  assert (EV : e_version e1 = 1%N) by exact (wr_version _ _ _ W). rewrite EV in V.
  change (e_suite_id e1) with (e_suite_id e) in SU.
  destruct (shape_not_secret c cr e1 s su N ES HI) as [NR NS].
  (* the keys of the letter *)
  assert (KK : exists ks rs, l_keys l = ks ++ rs /\ Forall2 seal_for (e_secrets e1) ks /\ Forall2 seal_for (e_recipients e1) rs).
  { destruct (rd_one _ _ _ RD) as [A|A].
    - rewrite (loop_all scheme_key) in KS by (easy || exact A).
      rewrite (loop_none scheme_pw) in KS; [|discriminate|eapply Forall_impl; [|exact A]; intros x -> E; discriminate].
      cbn [app] in KS. apply Forall2_app_inv_l in KS as (ks & rs & K1 & K2 & K3). eauto.
    - rewrite (loop_all scheme_pw) in KS by (easy || exact A).
      rewrite (loop_none scheme_key) in KS; [|discriminate|eapply Forall_impl; [|exact A]; intros x -> E; discriminate].
      cbn [app] in KS. apply Forall2_app_inv_l in KS as (ks & rs & K1 & K2 & K3). eauto. }
  destruct KK as (ks & rs & EK & K1 & K2).
  assert (SEC : Forall (fun sg => sg_scheme sg = scheme_key \/ sg_scheme sg = scheme_pw) (e_secrets e1)).
  { destruct (rd_one _ _ _ RD) as [A|A]; (eapply Forall_impl; [|exact A]); auto. }
  assert (I1 : Forall (fun k => nonempty (seal_id k) = true) (ks ++ rs)).
  { apply Forall_forall. intros k Hk. assert (exists sg, In sg (e_secrets e1 ++ e_senders e1 ++ e_recipients e1) /\ seal_for sg k) as (sg & Hs & Q & _).
    { apply in_app_or in Hk as [Hk|Hk]; [destruct (F2_in_r _ _ _ K1 _ Hk) as (sg & Hs & Q)|destruct (F2_in_r _ _ _ K2 _ Hk) as (sg & Hs & Q)]; exists sg; (split; [|exact Q]).
      - apply in_or_app; now left.
      - apply in_or_app; right; apply in_or_app; now right. }
    pose proof (rd_ids _ _ _ RD sg Hs) as ID. rewrite Q. destruct (sg_id sg); [congruence|reflexivity]. }
  assert (I2 : Forall (fun k => is_secret k = true) ks).
  { apply Forall_forall. intros k Hk. destruct (F2_in_r _ _ _ K1 _ Hk) as (sg & Hs & _ & Q). rewrite Forall_forall in SEC.
    unfold is_secret. rewrite Q. destruct (SEC sg Hs) as [-> | ->]; reflexivity. }
  assert (I3 : Forall (fun k => is_secret k = false) rs).
  { apply Forall_forall. intros k Hk. destruct (F2_in_r _ _ _ K2 _ Hk) as (sg & Hs & _ & Q). unfold not_secret in NR. rewrite Forall_forall in NR. destruct (NR sg Hs) as [R1 R2].
    unfold is_secret. rewrite Q.
    destruct (bytes_eqb (sg_scheme sg) scheme_key) eqn:E1; [apply bytes_eqb_eq in E1; tauto|].
    destruct (bytes_eqb (sg_scheme sg) scheme_pw) eqn:E2; [apply bytes_eqb_eq in E2; tauto|]. reflexivity. }
  assert (LE : letter_envelope suite_registry required (raw l) = Ok (mkEnvelope 1 [] (e_suite_id e) (Some su) (map (refer 1) ks) (map (refer 1) (l_sigs l)) (map (refer 1) rs) 0 true)).
  { unfold letter_envelope. cbn [raw rw_letter rw_keys rw_sigs]. rewrite V. cbn [N.eqb negb guard bind]. rewrite SU.
    assert (ID : nonempty (e_suite_id e) = true).
    { pose proof (find_some _ _ HG) as [_ E]. cbn beta in E. apply bytes_eqb_eq in E. rewrite <- E.
      assert (CK : forallb (fun x => nonempty (su_id x)) suite_registry = true) by (vm_compute; reflexivity). rewrite forallb_forall in CK. now apply CK. }
    rewrite ID. cbn [guard bind]. rewrite HG. cbn [of_option bind]. rewrite (proj2 (req_check_incl (su_provides su) (match required return reqs with Some q => q | None => newRequirements end)) RQ). cbn [bind].
    rewrite !no_none. cbn [orb]. rewrite !seals_of_some, EK. rewrite (filter_all _ _ I1).
    rewrite !filter_app, (filter_all _ _ I2), (filter_none _ _ I3), app_nil_r.
    rewrite (filter_none (fun s => negb (is_secret s)) ks), (filter_all (fun s => negb (is_secret s)) rs); [reflexivity| |].
    - eapply Forall_impl; [|exact I3]. intros x ->. reflexivity.
    - eapply Forall_impl; [|exact I2]. intros x ->. reflexivity. }
  rewrite LE. cbn [bind]. set (e2 := mkEnvelope _ _ _ _ _ _ _ _ _).
  assert (PS : exists ns q, prep_signets tool_registry cr w2 (su_level su) true (map (refer 1) ks) = (Ok ns, q) /\ Forall2 same_secret (e_secrets e1) ns).
  { destruct (rd_one _ _ _ RD) as [A|A]; [eapply read_keys|eapply read_pws]; eassumption. }
  destruct PS as (n1 & q1 & P1 & M1).
  destruct (read_senders c cr w2 e1 s su N ES HI RD (su_level su) 1 _ SS) as (n2 & q2 & P2 & M2).
  destruct (read_recipients c cr w2 e1 s su N ES HI RD (su_level su) 1 _ K2) as (n3 & q3 & P3 & M3).
  assert (PR : fst (prepare suite_registry tool_registry cr w2 e2) = Ok (set_signets e2 su n1 n2 n3)).
  { unfold prepare, load_suite. cbn [e2 e_suite e_opening e_secrets e_senders e_recipients negb]. now rewrite P1, P2, P3. }
  unfold correspondence. rewrite PR. cbn [bind].
  pose proof N as N'. apply new_session_acceptable in N' as (su' & E & AC). rewrite ES in E. injection E as <-.
  assert (AL : alike e1 (set_signets e2 su n1 n2 n3)).
  { constructor; [exact M1| |].
    - eapply F2_impl; [|exact M3]. intros x y [H _]. exact H.
    - eapply F2_impl; [|exact M2]. intros x y [H _]. unfold same_scheme. now rewrite H. }
  assert (LF : (level_floor c (set_signets e2 su n1 n2 n3) <= level_floor c e1)%Z).
  { unfold level_floor. cbn [set_signets e2 e1 e_level]. destruct (0 <? c_min_level c)%Z; [lia|]. cbn [Z.ltb Z.compare].
    destruct (0 <? e_level e)%Z eqn:Q; [|lia]. apply Z.ltb_lt in Q. now apply (wr_level _ _ _ W). }
  assert (RSA : forall j, In j (s_all s) -> is_rsa (i_name j) = false).
  { rewrite (registered_insts _ _ _ _ _ N ES HI). apply Forall_forall. apply (registered_tools su HI). }
  pose proof (acceptable_alike _ _ _ _ _ _ _ _ AC AL NR NS RSA LF ltac:(cbn; lia)) as AC2.
  destruct (new_session_complete c tool_registry hash_registry cr (set_signets e2 su n1 n2 n3) su (s_all s) eq_refl AC2) as (s2 & N2 & _).
  exists s2. split; [exact N2|]. split.
  - intro SNE. destruct (senders_served _ _ _ _ _ _ N2 eq_refl (proj2 (proj2 (registered_few su HI)))) as [SV _].
    cbn [set_signets e_senders] in SV. destruct n2 as [|sg n2]; [inversion M2; congruence|]. destruct (SV sg (or_introl eq_refl)) as (i & Hi & _).
    destruct (s_signers s2); [easy|reflexivity].
  - eapply C09_round_trip; [exact L|exact N|exact N2|exact ES|apply (registered_few su HI)| |exact EV|exact HC|].
    + split; [reflexivity|]. split; [exact M1|]. split; [exact M3|exact M2].
    + intro NK. eapply registered_complete; eassumption.
Qed.
