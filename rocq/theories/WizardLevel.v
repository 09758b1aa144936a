(** Lemmas for C62: a valid envelope is valid again when its references are looked up again. *)
From Verif Require Import Prelude PreludeFacts Requirements Tools Crypto Session Core Envelope Signets TrustStore Wizard WizardFacts.
From Verif Require Import SpecSession SessionFacts SessionComplete SessionProps SuiteFacts PropTrip Post.

Lemma session_items c reg hreg cr e s : new_session c reg hreg cr e = Ok s ->
  (forall it, In it (items_of e (s_all s)) -> exists l, calc_level cr (fst it) (snd it) = Ok l /\ (l = 0%Z \/ ((0 < l)%Z /\ (s_level s <= l)%Z)))
  /\ ((exists it, In it (items_of e (s_all s)) /\ calc_level cr (fst it) (snd it) = Ok (s_level s) /\ (0 < s_level s)%Z)
      \/ (s_level s = (if 0 <? c_min_level c then c_min_level c else 0)%Z /\ forall it, In it (items_of e (s_all s)) -> calc_level cr (fst it) (snd it) = Ok 0%Z)).
Proof.
  intro H. apply new_session_ok in H as (su & ESU & O). destruct (so_items _ _ _ _ _ _ _ O) as (ls & I1 & I2 & I3 & I4 & I5).
  assert (EQ : all_items s = items_of e (s_all s)) by (unfold all_items, items_of; now rewrite (sh_env _ _ _ (so_shape _ _ _ _ _ _ _ O))).
  rewrite EQ in *. rewrite Forall_forall in I1, I2, I3. destruct ls as [|x ls].
  - split.
    + intros it Hi. destruct (I1 it Hi) as (l & L1 & [L2|(_ & _ & [])]). exists l. auto.
    + right. split; [exact I4|]. intros it Hi. destruct (I1 it Hi) as (l & L1 & [L2|(_ & _ & [])]). now rewrite L1, L2.
  - destruct (zmin_list_spec (x :: ls) ltac:(easy)) as [Z1 Z2]. rewrite <- I4 in Z1, Z2. split.
    + intros it Hi. destruct (I1 it Hi) as (l & L1 & [L2|(L2 & _ & L3)]); exists l; (split; [exact L1|]); [now left|right; split; [exact L2|now apply Z2]].
    + left. destruct (I2 _ Z1) as (it & J1 & J2). exists it. split; [exact J1|]. split; [exact J2|]. now apply I3.
Qed.

(** In every registered suite some tool has a rating, and not a higher one than the suite. *)
Lemma suite_rated : forall su, In su suite_registry ->
  exists i, In i (suite_insts su) /\ is_rsa (i_name i) = false /\ forall cr, exists l, calc_level cr (Some i) None = Ok l /\ (0 < l <= su_level su)%Z.
Proof.
  assert (C : forallb (fun su => existsb (fun i => negb (is_rsa (i_name i)) && (0 <? tool_rating (i_tool i) (i_hash i))%Z && (tool_rating (i_tool i) (i_hash i) <=? su_level su)%Z) (suite_insts su)) suite_registry = true)
    by (vm_compute; reflexivity).
  rewrite forallb_forall in C. intros su H. specialize (C su H). apply existsb_exists in C as (i & Hi & C).
  apply andb_prop in C as [C C3]. apply andb_prop in C as [C1 C2]. apply negb_true_iff in C1. exists i. split; [exact Hi|]. split; [exact C1|].
  intro cr. exists (tool_rating (i_tool i) (i_hash i)). split; [|split; lia]. unfold calc_level, tool_level. rewrite C1. unfold tool_rating.
  destruct (i_hash i) as [h|]; [|reflexivity]. destruct (t_level (i_tool i) =? 0)%Z; [reflexivity|].
  destruct (h_level h <? t_level (i_tool i))%Z eqn:E; f_equal; lia.
Qed.

Lemma level_again c cr e1 e2 s su : new_session c tool_registry hash_registry cr e1 = Ok s -> e_suite e1 = Some su -> e_suite e2 = Some su -> In su suite_registry ->
  e_level e1 = 0%Z -> e_level e2 = s_level s -> s_level s <> 0%Z -> alike e1 e2 ->
  (exists s2, new_session c tool_registry hash_registry cr e2 = Ok s2 /\ s_level s2 = s_level s) /\ (0 < s_level s)%Z.
Proof.
  intros N ES1 ES2 HI L1 L2 LN AL.
  destruct (shape_not_secret c cr e1 s su N ES1 HI) as [NR NS].
  assert (RSA : forall j, In j (s_all s) -> is_rsa (i_name j) = false).
  { rewrite (registered_insts _ _ _ _ _ N ES1 HI). apply Forall_forall. apply (registered_tools su HI). }
  pose proof (session_items _ _ _ _ _ _ N) as [IT1 AT1].
  assert (POS : (0 < s_level s)%Z).
  { destruct AT1 as [(it & _ & _ & P)|[E _]]; [exact P|]. destruct (0 <? c_min_level c)%Z eqn:Q; [lia|congruence]. }
  pose proof N as N'. apply new_session_ok in N' as (su' & ES' & SO). rewrite ES1 in ES'. injection ES' as <-.
  pose proof (so_level _ _ _ _ _ _ _ SO) as FL.
  pose proof N as N'. apply new_session_acceptable in N' as (su' & ES' & AC). rewrite ES1 in ES'. injection ES' as <-.
  pose proof (alike_not_secret _ _ (ak_rcp _ _ AL) NR) as NR2. pose proof (alike_not_secret _ _ (ak_snd _ _ AL) NS) as NS2.
  assert (F21 := items_alike cr e1 e2 (s_all s) AL NR NS RSA).
  assert (F12 := items_alike cr e2 e1 (s_all s) (alike_sym _ _ AL) NR2 NS2 RSA).
  set (ez := with_level e2 0).
  assert (ALz : alike e1 ez) by (destruct AL as [A B C]; constructor; assumption).
  assert (LF : (level_floor c ez <= level_floor c e1)%Z) by (unfold level_floor; cbn [ez with_level e_level]; rewrite L1; lia).
  pose proof (acceptable_alike _ _ _ _ _ _ _ _ AC ALz NR NS RSA LF ltac:(cbn; lia)) as ACz.
  assert (FL2 : (level_floor c e2 <= s_level s)%Z).
  { unfold level_floor in *. rewrite L1 in FL. rewrite L2. destruct (0 <? c_min_level c)%Z; [exact FL|]. destruct (0 <? s_level s)%Z eqn:Q; lia. }
  assert (AC2 : acceptable c tool_registry hash_registry cr e2 su (s_all s)).
  { destruct ACz as [Hres Hnd Henv Hsu Hk1 Hp1 Hit Hne Hrat Hdks Hsome Hprov Hrc Hci Hkm Hkn Hsrc Hused].
    constructor; try assumption.
    - intros _. now rewrite L2.
    - destruct (suite_rated su HI) as (i & Hi & _ & R). destruct (R cr) as (l & R1 & R2).
      rewrite <- (registered_insts _ _ _ _ _ N ES1 HI) in Hi.
      destruct (IT1 _ (items_of_tool e1 _ i Hi)) as (l' & R3 & R4). cbn [fst snd] in R3. rewrite R1 in R3. injection R3 as <-. lia.
    - apply Forall_forall. intros it Hi. destruct (F21 it Hi) as (it' & Hi' & EQ). destruct (IT1 it' Hi') as (l & E1 & E2). exists l. rewrite EQ. split; [exact E1|].
      destruct E2 as [E2|[E2 E3]]; [now left|right; lia].
    - destruct AT1 as [(it & Hi & E & P)|[E _]].
      + right; left. destruct (F12 it Hi) as (it' & Hi' & EQ). exists it', (s_level s). split; [exact Hi'|]. split; [now rewrite <- EQ|exact P].
      + left. destruct (0 <? c_min_level c)%Z eqn:Q; [lia|congruence]. }
  split; [|exact POS].
  destruct (new_session_complete c tool_registry hash_registry cr e2 su (s_all s) ES2 AC2) as (s2 & N2 & A2). exists s2. split; [exact N2|].
  pose proof (session_items _ _ _ _ _ _ N2) as [IT2 AT2]. rewrite A2 in IT2, AT2.
  pose proof N2 as N2'. apply new_session_ok in N2' as (su2 & _ & SO2). pose proof (so_level _ _ _ _ _ _ _ SO2) as FL3.
  destruct AT1 as [(it & Hi & E & P)|[E A]].
  - destruct (F12 it Hi) as (it' & Hi' & EQ). rewrite E in EQ. destruct (IT2 it' Hi') as (l & E1 & E2). rewrite <- EQ in E1. injection E1 as <-.
    assert (U : (s_level s2 <= s_level s)%Z) by lia.
    destruct AT2 as [(jt & Hj & Ej & Pj)|[Ej Aj]].
    + destruct (F21 jt Hj) as (jt' & Hj' & EQj). rewrite Ej in EQj. destruct (IT1 jt' Hj') as (l & E3 & E4). rewrite <- EQj in E3. injection E3 as <-. lia.
    + rewrite (Aj it' Hi') in EQ. injection EQ as EQ. lia.
  - destruct AT2 as [(jt & Hj & Ej & Pj)|[Ej Aj]]; [|now rewrite Ej, E].
    destruct (F21 jt Hj) as (jt' & Hj' & EQj). rewrite Ej, (A jt' Hj') in EQj. injection EQj as EQj. lia.
Qed.
