(** Making a session and verifying signatures do not look at private keys. *)
From Verif Require Import Prelude PreludeFacts Requirements Tools Crypto Letter Session Core Envelope Shared.
From Coq Require Import Lia.

Definition same_public (sg sg' : signet) : Prop := sg' = with_priv sg (sg_priv sg').
Lemma same_public_refl sg : same_public sg sg. Proof. now destruct sg. Qed.

Definition orel {A B} (R : A -> B -> Prop) (x : outcome A) (y : outcome B) : Prop :=
  match x, y with Ok a, Ok b => R a b | Err e, Err e' => e = e' | Panic, Panic => True | _, _ => False end.
Lemma orel_bind {A B A' B'} (R : A -> A' -> Prop) (Q : B -> B' -> Prop) x y f g :
  orel R x y -> (forall a b, R a b -> orel Q (f a) (g b)) -> orel Q (bind x f) (bind y g).
Proof. destruct x, y; cbn; auto; contradiction. Qed.
Lemma orel_eq {A B B'} (Q : B -> B' -> Prop) (x : outcome A) f g : (forall a, orel Q (f a) (g a)) -> orel Q (bind x f) (bind x g).
Proof. destruct x; cbn; auto. Qed.
Lemma foldM_rel {A A' S S'} (R : S -> S' -> Prop) (E : A -> A' -> Prop) f g l l' :
  Forall2 E l l' -> (forall s s' a a', R s s' -> E a a' -> orel R (f s a) (g s' a')) ->
  forall s s', R s s' -> orel R (foldM f s l) (foldM g s' l').
Proof.
  intros H F. induction H as [|a a' l l' H1 _ IH]; intros s s' HR; cbn [foldM]; [exact HR|].
  apply (orel_bind R R); [now apply F|]. intros. now apply IH.
Qed.
Lemma Forall2_refl {A} (R : A -> A -> Prop) : (forall a, R a a) -> forall l, Forall2 R l l.
Proof. intros H l. induction l; constructor; auto. Qed.

Section Twins.
Variables (e e' : envelope).
Hypothesis E_suite : e_suite e' = e_suite e.
Hypothesis E_level : e_level e' = e_level e.
Hypothesis E_secrets : Forall2 same_public (e_secrets e) (e_secrets e').
Hypothesis E_senders : Forall2 same_public (e_senders e) (e_senders e').
Hypothesis E_recipients : Forall2 same_public (e_recipients e) (e_recipients e').

Definition with_env (s : session) : session :=
  mkSession e' (s_suite s) (s_dks s) (s_level s) (s_maxlevel s) (s_req s) (s_all s) (s_stateful s) (s_kdf s) (s_pass s)
    (s_kx s) (s_ke s) (s_aead s) (s_ciph s) (s_mac_hashers s) (s_macs s) (s_sig_hashers s) (s_signers s).
Definition twin (s s' : session) : Prop := s_env s = e /\ s' = with_env s.

Lemma loop_twin id l l' : Forall2 same_public l l' -> Forall2 same_public (loop id l) (loop id l').
Proof using.
  intro H. unfold loop. induction H as [|a b l l' H1 _ IH]; [constructor|].
  assert (Es : sg_scheme b = sg_scheme a) by (rewrite H1; reflexivity).
  cbn [filter]. rewrite Es. destruct (match id with [] => true | _ => _ end); [|exact IH]. constructor; [exact H1|exact IH].
Qed.

Lemma check_level_twin c l : check_level c e' l = check_level c e l.
Proof using E_level. unfold check_level. now rewrite E_level. Qed.

Lemma calc_level_twin cr i sg sg' : same_public sg sg' -> calc_level cr i (Some sg') = calc_level cr i (Some sg).
Proof using.
  intro H. rewrite H. unfold calc_level, tool_level, Session.load_key. cbn [with_priv sg_scheme sg_key sg_pub sg_prot sg_public].
  destruct (bytes_eqb (sg_scheme sg) scheme_key); [reflexivity|]. destruct (bytes_eqb (sg_scheme sg) scheme_pw); [reflexivity|].
  destruct i as [i|]; [|reflexivity]. destruct (is_rsa (i_name i)); [|reflexivity].
  destruct (sg_pub sg) as [p|] eqn:Ep; cbn [bind sg_pub with_priv]; rewrite ?Ep; [reflexivity|].
  destruct (sg_prot sg); [reflexivity|]. destruct (cr_load cr (sg_scheme sg) (sg_key sg) (sg_public sg)) as [[p k]|x|]; reflexivity.
Qed.

Lemma calc_twin c cr s s' i o o' : twin s s' -> calc_level cr i o' = calc_level cr i o ->
  orel twin (calc_and_check c cr s i o) (calc_and_check c cr s' i o').
Proof using E_level.
  intros [Ee ->] Ec. unfold calc_and_check. rewrite Ec. apply orel_eq. intro l.
  destruct (l =? 0)%Z; [now split|]. destruct (l <? 0)%Z; [reflexivity|]. cbn [with_env s_env]. rewrite check_level_twin, Ee.
  apply orel_eq. intros _. split; [exact Ee|reflexivity].
Qed.

Lemma init_tool_twin c reg hreg cr ids s s' x : twin s s' ->
  orel twin (init_tool c reg hreg cr ids s x) (init_tool c reg hreg cr ids s' x).
Proof using E_level.
  intros [Ee ->]. destruct x as [idx id]. unfold init_tool. apply orel_eq. intros _. destruct (parse_tool_id id) as [name arg].
  apply orel_eq. intro t. apply orel_eq. intro h.
  assert (HA : orel twin (assign s (mkInst idx t arg h)) (assign (with_env s) (mkInst idx t arg h))).
  { unfold assign. cbn [i_tool with_env s_kdf s_pass s_env]. destruct (t_purpose t); try destruct (s_kdf s); try destruct (s_pass s); cbn [orel]; try reflexivity; now split. }
  apply (orel_bind twin twin _ _ _ _ HA). clear s Ee HA. intros s s' [Ee ->].
  assert (HH : twin (assign_hasher s (mkInst idx t arg h)) (assign_hasher (with_env s) (mkInst idx t arg h))).
  { unfold assign_hasher. cbn [i_tool]. destruct (has_option t OManagedHasher); [|now split]. destruct (t_purpose t); now split. }
  apply (orel_bind twin twin); [now apply calc_twin|]. clear s Ee HH. intros s s' [Ee ->]. cbn [with_env s_dks].
  destruct (s_dks s <? t_keysize t)%Z; now split.
Qed.

Definition twin3 (x x' : session * nat * bool) : Prop := twin (fst (fst x)) (fst (fst x')) /\ snd (fst x') = snd (fst x) /\ snd x' = snd x.

Lemma signets_twin i : match signets_for e i, signets_for e' i with
                       | Some l, Some l' => Forall2 same_public l l' | None, None => True | _, _ => False end.
Proof using E_secrets E_senders E_recipients. unfold signets_for. destruct (t_purpose (i_tool i)); auto using loop_twin. Qed.

Lemma F2_len {A B} (R : A -> B -> Prop) l l' : Forall2 R l l' -> length l' = length l.
Proof using. induction 1; cbn; congruence. Qed.

Lemma check_signets_twin c cr x x' i : twin3 x x' -> orel twin3 (check_signets c cr x i) (check_signets c cr x' i).
Proof using E_level E_secrets E_senders E_recipients.
  destruct x as [[s n] b], x' as [[s' n'] b']. unfold twin3 at 1. cbn [fst snd]. intros ([Ee ->] & En & Eb). subst n' b'.
  unfold check_signets. cbn [with_env s_env]. rewrite Ee. pose proof (signets_twin i) as H.
  destruct (signets_for e i) as [l|], (signets_for e' i) as [l'|]; try contradiction; [|now repeat split].
  apply (orel_bind twin twin3).
  - apply (foldM_rel twin same_public _ _ l l' H); [|now split]. intros s1 s2 a b' HT HS. apply calc_twin; [exact HT|now apply calc_level_twin].
  - intros s1 s2 HT. pose proof (F2_len _ _ _ H) as HL.
    assert (EN : nonempty l' = nonempty l) by (destruct H; reflexivity). rewrite EN. apply orel_eq. intros _.
    rewrite HL. split; [exact HT|now split].
Qed.

Lemma check_key_twin c cr x x' sg sg' : twin3 x x' -> same_public sg sg' -> orel twin3 (check_key_secret c cr x sg) (check_key_secret c cr x' sg').
Proof using E_level.
  destruct x as [[s n] b], x' as [[s' n'] b']. unfold twin3 at 1. cbn [fst snd]. intros ([Ee ->] & En & Eb) HS. subst n' b'.
  unfold check_key_secret. apply (orel_bind twin twin3).
  - apply calc_twin; [now split|now apply calc_level_twin].
  - intros s1 s2 HT. split; [exact HT|now split].
Qed.

Theorem new_session_twin c reg hreg cr : orel twin (new_session c reg hreg cr e) (new_session c reg hreg cr e').
Proof using E_suite E_level E_secrets E_senders E_recipients.
  unfold new_session. rewrite E_suite. destruct (e_suite e) as [su|]; [|reflexivity].
  rewrite E_level, !check_level_twin. apply orel_eq. intros _. apply orel_eq. intros _.
  apply (orel_bind twin twin).
  { apply (foldM_rel twin eq); [apply Forall2_refl; reflexivity| |now split]. intros s s' a a' HT <-. now apply init_tool_twin. }
  intros s s' [Ee ->]. apply (orel_bind twin3 twin).
  { cbn [with_env s_all]. apply (foldM_rel twin3 eq); [apply Forall2_refl; reflexivity| |now repeat split]. intros x x' a a' HT <-. now apply check_signets_twin. }
  intros x x' HX. apply (orel_bind twin3 twin).
  { apply (foldM_rel twin3 same_public); [now apply loop_twin| |exact HX]. intros. now apply check_key_twin. }
  clear x x' HX s Ee. intros [[s n] b] [[s' n'] b']. unfold twin3. cbn [fst snd]. intros ([Ee ->] & En & Eb). subst n' b'.
  assert (HA : twin (apply_minimums c s) (apply_minimums c (with_env s))).
  { unfold apply_minimums. cbn [with_env s_level].
    destruct ((0 <? c_min_level c)%Z && (s_level s <? c_min_level c)%Z); cbn [with_env set_levels s_dks];
      destruct ((0 <? c_min_ks c)%Z && (s_dks s <? c_min_ks c)%Z); split; reflexivity || exact Ee. }
  destruct HA as [Ea EA]. rewrite EA. set (t := apply_minimums c s) in *.
  assert (HF : final_checks c (with_env t) n b = final_checks c t n b).
  { unfold final_checks. cbn [with_env s_env s_all s_level s_dks s_req s_suite s_kdf s_signers s_aead s_ciph s_macs].
    rewrite check_level_twin, Ea. rewrite (F2_len _ _ _ E_secrets), (F2_len _ _ _ E_senders), (F2_len _ _ _ E_recipients). reflexivity. }
  rewrite HF. apply orel_eq. intros _. now split.
Qed.
End Twins.

(** Verification of twins. *)
Lemma foldT_ext {A A' B} (E : A -> A' -> Prop) (f : B -> A -> M B) (g : B -> A' -> M B) l l' :
  Forall2 E l l' -> (forall b a a' r, E a a' -> f b a r = g b a' r) -> forall b r, foldT f b l r = foldT g b l' r.
Proof.
  intros H F. induction H as [|a a' l l' H1 _ IH]; intros b r; cbn [foldT]; [reflexivity|].
  unfold mbind. rewrite (F b a a' r H1). destruct (g b a' r) as [[x|x|] r']; [apply IH|reflexivity..].
Qed.
Theorem verify_twin e e' cr s l r : s_env s = e -> Forall2 same_public (e_senders e) (e_senders e') ->
  verify_session cr (with_env e' s) l r = verify_session cr s l r.
Proof.
  intros Ee H.
  assert (HV : forall r, verify_all cr (with_env e' s) l r = verify_all cr s l r).
  { intro r0. unfold verify_all, env. cbn [with_env s_signers s_env]. rewrite Ee.
    apply (foldT_ext eq); [apply Forall2_refl; reflexivity|]. intros n i i' r3 <-.
    symmetry. apply (foldT_ext same_public); [now apply loop_twin|]. intros k a a' r4 HS. rewrite HS. reflexivity. }
  assert (HW : forall r, with_signatures cr (with_env e' s) l (ret tt) r = with_signatures cr s l (ret tt) r).
  { intro r0. unfold with_signatures, with_sig_hashers, mbind, env, deferred. cbn [modify with_env s_sig_hashers s_env]. rewrite Ee, (F2_len _ _ _ H).
    replace (open_ad (with_env e' s) l) with (open_ad s l) by reflexivity.
    destruct (check _ _ _) as [[u|x|] r2]; [|reflexivity..]. now rewrite HV. }
  unfold verify_session, mbind. cbn [modify is_wire gets]. match goal with |- match ?x with _ => _ end = _ => destruct x as [[u|x1|] r2] end; [|reflexivity..].
  cbn [with_env s_signers]. destruct (nonempty (s_signers s)); [apply HW|reflexivity].
Qed.
