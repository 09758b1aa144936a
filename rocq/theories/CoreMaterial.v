(** Key material: what closing puts into a letter and into the key derivation, and that
    opening finds the same material again. *)
From Verif Require Export CoreState SessionProps SpecCore.

(** ** Loops that lose errors *)
Lemma each_last_of_each {A} (f : A -> M unit) l r r' : each f l r = (Ok tt, r') -> each_last f l r = (Ok tt, r').
Proof.
  revert r; induction l as [|a [|b l] IH]; intros r H; [exact H| |].
  - cbn [each] in H. apply mbind_ok in H as ([] & r1 & H1 & H2). injection H2 as <-. exact H1.
  - cbn [each] in H. apply mbind_ok in H as ([] & r1 & H1 & H2). rewrite each_last_cons, H1. now apply IH.
Qed.

Section Count.
Context {A : Type} (f : A -> M unit) (cnt : rt -> nat) (g : A -> nat).
Hypothesis step : forall a r, match f a r with
  | (Ok _, r') => cnt r' = cnt r + g a
  | (Err _, r') => cnt r' < cnt r + g a
  | (Panic, _) => True
  end.
Definition total (l : list A) : nat := fold_right (fun a n => g a + n) 0 l.
Lemma each_last_count l r u r' : each_last f l r = (Ok u, r') ->
  cnt r' <= cnt r + total l /\ (cnt r' = cnt r + total l -> each f l r = (Ok tt, r')).
Proof.
  destruct u. revert r. induction l as [|a [|b l] IH]; intros r H.
  - cbn in H. injection H as <-. cbn. split; [lia|reflexivity].
  - cbn in H. pose proof (step a r) as S. rewrite H in S. cbn [each total fold_right]. split; [lia|]. intros _.
    unfold mbind. rewrite H. reflexivity.
  - rewrite each_last_cons in H. pose proof (step a r) as S.
    change (total (a :: b :: l)) with (g a + total (b :: l)).
    destruct (f a r) as [[[]|e|] r1] eqn:E; [| |discriminate].
    + destruct (IH r1 H) as [I1 I2]. split; [lia|]. intro C. cbn [each]. unfold mbind at 1. rewrite E. apply I2. lia.
    + destruct (IH r1 H) as [I1 _]. split; lia.
Qed.
Lemma each_count l r : match each f l r with
  | (Ok _, r') => cnt r' = cnt r + total l
  | (Err _, r') => cnt r' < cnt r + total l
  | (Panic, _) => True
  end.
Proof.
  revert r; induction l as [|a l IH]; intro r; cbn [each]; [cbn; lia|].
  change (total (a :: l)) with (g a + total l). pose proof (step a r) as S. unfold mbind.
  destruct (f a r) as [[[]|e|] r1]; [|lia|exact I]. specialize (IH r1).
  destruct (each f l r1) as [[[]|e|] r2]; [lia|lia|exact I].
Qed.
End Count.

Lemma each_last_small {A} (f : A -> M unit) l r : length l <= 1 -> each_last f l r = each f l r.
Proof.
  destruct l as [|a [|b l]]; cbn [length]; intro L; [reflexivity| |lia]. cbn [each each_last]. unfold mbind.
  destruct (f a r) as [[[]|e|] r1]; reflexivity.
Qed.

Lemma each_map {A B} (f : B -> M unit) (g : A -> B) l r : each f (map g l) r = each (fun a => f (g a)) l r.
Proof. revert r; induction l as [|a l IH]; intro r; cbn [map each]; [reflexivity|]. apply mbind_ext. intros. apply IH. Qed.
Lemma each_flat {A B} (f : B -> M unit) (g : A -> list B) l r :
  each f (flat_map g l) r = each (fun a => each f (g a)) l r.
Proof.
  revert r; induction l as [|a l IH]; intro r; cbn [flat_map each]; [reflexivity|].
  rewrite each_app. apply mbind_ext. intros. apply IH.
Qed.
Lemma each_ext {A} (f g : A -> M unit) l r : (forall a r, f a r = g a r) -> each f l r = each g l r.
Proof.
  intro H. revert r; induction l as [|a l IH]; intro r; cbn [each]; [reflexivity|]. unfold mbind. rewrite H.
  destruct (g a r) as [[x|e|] r1]; auto.
Qed.

Lemma mbind_cong {A B} (m m' : M A) (f g : A -> M B) r :
  m r = m' r -> (forall a r', f a r' = g a r') -> mbind m f r = mbind m' g r.
Proof. intros E H. unfold mbind. rewrite E. destruct (m' r) as [[a|e|] r1]; auto. Qed.

(** ** Steps *)
Inductive kstep := SKey (sg : signet) | SPw (sg : signet) | SKx (i : inst) (sg : signet) | SKe (i : inst) (sg : signet).
Definition steps_of (e : envelope) (kx ke : list inst) : list kstep :=
  map SKey (loop scheme_key (e_secrets e)) ++ map SPw (loop scheme_pw (e_secrets e))
  ++ flat_map (fun i => map (SKx i) (loop (i_name i) (e_recipients e))) kx
  ++ flat_map (fun i => map (SKe i) (loop (i_name i) (e_recipients e))) ke.
Definition steps (s : session) : list kstep := steps_of (s_env s) (s_kx s) (s_ke s).

Record contrib := mkC { co_seal : seal; co_mat : bytes; co_kx : list kxpair; co_ke : list kepair }.
Definition add_pairs (kxs : list kxpair) (kes : list kepair) (w : wstate) : wstate :=
  set_ke (set_kx w (w_kx w ++ kxs)) (w_ke w ++ kes).
Lemma add_pairs_nil w : add_pairs [] [] w = w.
Proof. destruct w; unfold add_pairs, set_ke, set_kx; cbn. now rewrite !app_nil_r. Qed.
Lemma add_pairs_app a b c d w : add_pairs b d (add_pairs a c w) = add_pairs (a ++ b) (c ++ d) w.
Proof. destruct w; unfold add_pairs, set_ke, set_kx; cbn. now rewrite !app_assoc. Qed.

(** [r'] is [r] with more seals, material and pairs, further in the letter. *)
Record grow (r r' : rt) (ks : list seal) (ms : list bytes) (n : nat) (kxs : list kxpair) (kes : list kepair) : Prop := {
  gr_keys : r_keys r' = r_keys r ++ ks;
  gr_mat : r_mat r' = r_mat r ++ ms;
  gr_idx : r_idx r' = r_idx r + n;
  gr_wire : r_wire r' = option_map (add_pairs kxs kes) (r_wire r);
  gr_kdf : r_kdf r' = r_kdf r;
  gr_tools : r_tools r' = r_tools r;
  gr_mach : r_mach r' = r_mach r;
  gr_sigh : r_sigh r' = r_sigh r;
  gr_buf : r_buf r' = r_buf r
}.
Lemma grow_refl r : grow r r [] [] 0 [] [].
Proof. constructor; rewrite ?app_nil_r; auto. destruct (r_wire r); cbn; [now rewrite add_pairs_nil|reflexivity]. Qed.
Lemma grow_trans r1 r2 r3 a b n x y a' b' n' x' y' :
  grow r1 r2 a b n x y -> grow r2 r3 a' b' n' x' y' -> grow r1 r3 (a ++ a') (b ++ b') (n + n') (x ++ x') (y ++ y').
Proof.
  intros [] []. constructor; try congruence.
  - rewrite gr_keys1, gr_keys0. now rewrite app_assoc.
  - rewrite gr_mat1, gr_mat0. now rewrite app_assoc.
  - lia.
  - rewrite gr_wire1, gr_wire0. destruct (r_wire r1); cbn; [|reflexivity]. now rewrite add_pairs_app.
Qed.

Section Close.
Variables (c : config) (cr : crypto) (s : session).

Definition close_step (nonce : bytes) (x : kstep) : M unit :=
  match x with
  | SKey sg => close_key sg
  | SPw sg => close_pw c cr s nonce sg
  | SKx i sg => close_kx cr i sg
  | SKe i sg => close_ke c cr s i sg
  end.

Inductive made (nonce : bytes) : kstep -> contrib -> Prop :=
| made_key sg : made nonce (SKey sg) (mkC (mkSeal scheme_key (sg_id sg) []) (sg_key sg) [] [])
| made_pw i sg k : s_pass s = Some i -> sg_key sg <> [] -> cr_pwd cr (i_name i) (sg_key sg) nonce (helper_dks c s) = Some k ->
    made nonce (SPw sg) (mkC (mkSeal scheme_pw (sg_id sg) []) k [] [])
| made_kx i sg pub priv p : pair_ok cr (i_name i) pub priv -> sg_pub sg = Some p ->
    made nonce (SKx i sg) (mkC (mkSeal [] (sg_id sg) (cr_store_pub cr (i_name i) pub)) (cr_shared cr (i_name i) priv p)
                       [mkKx i (Some (Some (pub, priv))) None] [])
| made_ke i sg k p v d j : sg_pub sg = Some p -> cr_rand cr j (Z.to_nat (helper_dks c s)) = Some k ->
    cr_encap cr (i_name i) (i_arg i) p k d = Some v ->
    made nonce (SKe i sg) (mkC (mkSeal [] (sg_id sg) v) k [] [mkKe i KNone None]).

Lemma close_step_ok nonce x r u r' : close_step nonce x r = (Ok u, r') ->
  exists co, made nonce x co /\ grow r r' [co_seal co] [co_mat co] 0 (co_kx co) (co_ke co).
Proof.
  destruct x as [sg|sg|i sg|i sg]; cbn [close_step].
  - unfold close_key, add_key, add_mat, modify, mbind. intro H. injection H as _ <-.
    eexists; split; [constructor|]. constructor; cbn; auto. destruct (r_wire r); cbn; [now rewrite add_pairs_nil|reflexivity].
  - unfold close_pw. intro H. apply mbind_ok in H as ([] & r1 & H1 & H). unfold check in H1.
    destruct (nonempty (sg_key sg)) eqn:NE; [|discriminate]. injection H1 as <-.
    apply mbind_ok in H as (k & r1 & H1 & H). unfold derive_pw in H1. destruct (s_pass s) as [i|] eqn:EP; [|discriminate].
    destruct (cr_pwd _ _ _ _ _) as [k'|] eqn:ED; [|discriminate]. injection H1 as -> <-.
    unfold add_key, add_mat, modify, mbind in H. injection H as _ <-.
    eexists; split; [eapply made_pw; eauto; now destruct (sg_key sg)|].
    constructor; cbn; auto. destruct (r_wire r); cbn; [now rewrite add_pairs_nil|reflexivity].
  - unfold close_kx. intro H. apply mbind_ok in H as ([pub priv] & r1 & H1 & H). unfold gen in H1.
    destruct (cr_gen cr (i_name i) (r_draw r)) as [[pub' priv']|] eqn:EG; [|discriminate]. injection H1 as -> -> <-.
    unfold shared in H. destruct (sg_pub sg) as [p|] eqn:EP; [|discriminate].
    unfold add_key, add_mat, upd_wire, modify, mbind, ret in H. injection H as _ <-.
    eexists; split; [eapply made_kx; [exists (r_draw r); exact EG|exact EP]|].
    destruct (r_wire r) as [w|] eqn:EW; constructor; cbn; rewrite ?EW; cbn; auto.
    destruct w; unfold add_pairs, set_ke, set_kx; cbn. now rewrite app_nil_r.
  - unfold close_ke. intro H. apply mbind_ok in H as ([] & r1 & H1 & H).
    apply mbind_ok in H as (k & r2 & H2 & H). unfold rand in H2.
    destruct (cr_rand cr _ _) as [k'|] eqn:ER; [|discriminate]. injection H2 as -> <-.
    apply mbind_ok in H as (v & r3 & H3 & H). unfold encap in H3. destruct (sg_pub sg) as [p|] eqn:EP; [|discriminate].
    destruct (cr_encap _ _ _ _ _ _) as [v'|] eqn:EV; [|discriminate]. injection H3 as -> <-.
    unfold add_key, add_mat, modify, mbind in H. injection H as _ <-.
    eexists; split; [eapply made_ke; eauto|].
    unfold upd_wire, modify in H1. injection H1 as <-.
    destruct (r_wire r) as [w|] eqn:EW; constructor; cbn; rewrite ?EW; cbn; auto.
    destruct w; unfold add_pairs, set_ke, set_kx; cbn. now rewrite app_nil_r.
Qed.

Lemma close_steps_ok nonce l r u r' : each (close_step nonce) l r = (Ok u, r') ->
  exists cs, Forall2 (made nonce) l cs
    /\ grow r r' (map co_seal cs) (map co_mat cs) 0 (flat_map co_kx cs) (flat_map co_ke cs).
Proof.
  revert r; induction l as [|x l IH]; intros r H; cbn [each] in H.
  - injection H as _ <-. exists []. split; [constructor|]. apply grow_refl.
  - apply mbind_ok in H as ([] & r1 & H1 & H). apply close_step_ok in H1 as (co & M & G).
    destruct (IH _ H) as (cs & F & G'). exists (co :: cs). split; [now constructor|].
    apply (grow_trans _ _ _ _ _ _ _ _ _ _ _ _ _ G G').
Qed.

Lemma close_step_count nonce x r : match close_step nonce x r with
  | (Ok _, r') => length (r_keys r') = length (r_keys r) + 1
  | (Err _, r') => length (r_keys r') < length (r_keys r) + 1
  | (Panic, _) => True
  end.
Proof.
  destruct (close_step nonce x r) as [[u|e|] r'] eqn:E; [| |exact I].
  - apply close_step_ok in E as (co & _ & G). rewrite (gr_keys _ _ _ _ _ _ _ G), app_length. reflexivity.
  - destruct x as [sg|sg|i sg|i sg]; cbn [close_step] in E.
    + discriminate.
    + unfold close_pw in E. unfold check, mbind in E. destruct (nonempty _); [|injection E as _ <-; cbn; lia].
      cbn [ret] in E. unfold derive_pw in E. destruct (s_pass s); [|discriminate]. unfold lift in E.
      destruct (cr_pwd _ _ _ _ _); [discriminate|]. injection E as _ <-. lia.
    + unfold close_kx, gen, mbind in E. destruct (cr_gen _ _ _) as [[pub priv]|]; [|injection E as _ <-; cbn; lia].
      unfold shared in E. destruct (sg_pub sg); discriminate.
    + assert (Kw : forall f, length (r_keys (snd (upd_wire f r))) = length (r_keys r)) by (intro; unfold upd_wire, modify; cbn; now destruct (r_wire r)).
      unfold close_ke in E. unfold mbind at 1 in E.
      match type of E with context [upd_wire ?f r] => specialize (Kw f); destruct (upd_wire f r) as [[[]|?|] r1] eqn:E1 end;
        cbn [snd] in Kw; [| |discriminate]; [|injection E as _ <-; lia].
      unfold rand, mbind in E. destruct (cr_rand _ _ _); [|injection E as _ <-; cbn [set_draw r_keys]; lia].
      unfold encap in E. destruct (sg_pub sg); [|injection E as _ <-; cbn [set_draw r_keys]; lia].
      destruct (cr_encap _ _ _ _ _ _); [discriminate|]. injection E as _ <-. cbn [set_draw r_keys]. lia.
Qed.
Lemma total_one {A} (l : list A) : total (fun _ => 1) l = length l.
Proof. induction l as [|a l IH]; [reflexivity|]. cbn [length]. rewrite <- IH. reflexivity. Qed.

(** Closing, when no error is lost, is a walk over the steps. *)
Lemma closing_material_each nonce r :
  (run _ <- each close_key (loop scheme_key (e_secrets (s_env s)));
   run _ <- each (close_pw c cr s nonce) (loop scheme_pw (e_secrets (s_env s)));
   run _ <- each (fun i => each (close_kx cr i) (loop (i_name i) (e_recipients (s_env s)))) (s_kx s);
   each (fun i => each (close_ke c cr s i) (loop (i_name i) (e_recipients (s_env s)))) (s_ke s)) r
  = each (close_step nonce) (steps s) r.
Proof.
  unfold steps, steps_of. rewrite each_app. apply mbind_cong; [now rewrite each_map|intros _ r1].
  rewrite each_app. apply mbind_cong; [now rewrite each_map|intros _ r2].
  rewrite each_app. apply mbind_cong; [|intros _ r3].
  - rewrite each_flat. apply each_ext. intros. now rewrite each_map.
  - rewrite each_flat. apply each_ext. intros. now rewrite each_map.
Qed.

Lemma closing_material_count nonce r u r' : closing_material c cr s nonce r = (Ok u, r') ->
  length (r_keys r') <= length (r_keys r) + length (steps s)
  /\ (length (r_keys r') = length (r_keys r) + length (steps s) -> each (close_step nonce) (steps s) r = (Ok tt, r')).
Proof.
  intro H. rewrite <- closing_material_each. unfold closing_material, env in H.
  apply mbind_ok in H as ([] & r1 & H1 & H). apply mbind_ok in H as ([] & r2 & H2 & H).
  apply mbind_ok in H as ([] & r3 & H3 & H). destruct u.
  pose (cnt := fun r => length (r_keys r)).
  pose proof (each_count close_key cnt (fun _ => 1) (fun a r => close_step_count nonce (SKey a) r) (loop scheme_key (e_secrets (s_env s))) r) as C1.
  rewrite H1 in C1.
  pose proof (each_count (close_pw c cr s nonce) cnt (fun _ => 1) (fun a r => close_step_count nonce (SPw a) r) (loop scheme_pw (e_secrets (s_env s))) r1) as C2.
  rewrite H2 in C2. rewrite total_one in C1, C2.
  pose (n := fun i : inst => length (loop (i_name i) (e_recipients (s_env s)))).
  assert (S3 : forall i r, match each (close_kx cr i) (loop (i_name i) (e_recipients (s_env s))) r with
     (Ok _, r') => cnt r' = cnt r + n i | (Err _, r') => cnt r' < cnt r + n i | (Panic, _) => True end).
  { intros i q. unfold n. rewrite <- total_one. exact (each_count (close_kx cr i) cnt (fun _ => 1) (fun a r => close_step_count nonce (SKx i a) r) _ q). }
  assert (S4 : forall i r, match each (close_ke c cr s i) (loop (i_name i) (e_recipients (s_env s))) r with
     (Ok _, r') => cnt r' = cnt r + n i | (Err _, r') => cnt r' < cnt r + n i | (Panic, _) => True end).
  { intros i q. unfold n. rewrite <- total_one. exact (each_count (close_ke c cr s i) cnt (fun _ => 1) (fun a r => close_step_count nonce (SKe i a) r) _ q). }
  destruct (each_last_count _ cnt n S3 _ _ _ _ H3) as [L3 E3].
  destruct (each_last_count _ cnt n S4 _ _ _ _ H) as [L4 E4].
  assert (LS : length (steps s) = length (loop scheme_key (e_secrets (s_env s))) + length (loop scheme_pw (e_secrets (s_env s)))
     + total n (s_kx s) + total n (s_ke s)).
  { unfold steps, steps_of. rewrite !app_length, !map_length.
    assert (Q : forall f, (forall i, length (f i) = n i) -> forall l, length (flat_map (B:=kstep) f l) = total n l).
    { intros f Hf. induction l as [|a l IH]; cbn [flat_map]; [reflexivity|]. rewrite app_length, Hf, IH. reflexivity. }
    rewrite !Q by (intro; unfold n; now rewrite map_length). lia. }
  unfold cnt in *. split; [lia|]. intro Ctot.
  rewrite (mbind_run _ _ _ _ _ H1), (mbind_run _ _ _ _ _ H2), (mbind_run _ _ _ _ _ (E3 ltac:(lia))). apply E4. lia.
Qed.

Lemma closing_material_small nonce r : length (s_kx s) <= 1 -> length (s_ke s) <= 1 ->
  closing_material c cr s nonce r = each (close_step nonce) (steps s) r.
Proof.
  intros L1 L2. rewrite <- closing_material_each. unfold closing_material, env.
  apply mbind_ext. intros _ r1. apply mbind_ext. intros _ r2. unfold mbind. rewrite each_last_small by exact L1.
  destruct (each _ (s_kx s) r2) as [[[]|e|] r3]; [|reflexivity..]. now apply each_last_small.
Qed.
End Close.

(** ** Opening *)
Section Open.
Variables (c : config) (cr : crypto) (s1 s2 : session).
Hypothesis laws : crypto_laws cr.
Hypothesis same_pass : s_pass s1 = s_pass s2.
Hypothesis same_dks : s_dks s1 = s_dks s2.

Definition open_step (l : letter) (x : kstep) : M unit :=
  match x with
  | SKey sg => open_key sg
  | SPw sg => open_pw c cr s2 (l_nonce l) sg
  | SKx i sg => open_kx cr l i sg
  | SKe i sg => open_ke cr l i sg
  end.

(** The signet the opener uses where the closer used the other one. *)
Inductive same_step : kstep -> kstep -> Prop :=
| ss_key a b : sg_key a = sg_key b -> same_step (SKey a) (SKey b)
| ss_pw a b : sg_key a = sg_key b -> same_step (SPw a) (SPw b)
| ss_kx i a b p k : sg_pub a = Some p -> sg_priv b = PKey k -> pair_ok cr (i_name i) p k -> same_step (SKx i a) (SKx i b)
| ss_ke i a b p k : sg_pub a = Some p -> sg_priv b = PKey k -> pair_ok cr (i_name i) p k -> same_step (SKe i a) (SKe i b).

Definition open_kxs (x : kstep) (co : contrib) : list kxpair :=
  match x with SKx i _ => [mkKx i None (Some (seal_value (co_seal co)))] | _ => [] end.
Definition open_kes (x : kstep) : list kepair := match x with SKe i _ => [mkKe i KNone None] | _ => [] end.

Lemma open_step_ok l x y co r :
  same_step x y -> made c cr s1 (l_nonce l) x co -> nth_error (l_keys l) (r_idx r) = Some (co_seal co) ->
  exists r', open_step l y r = (Ok tt, r') /\ r_draw r' = r_draw r
    /\ grow r r' [] [co_mat co] 1 (open_kxs y co) (open_kes y).
Proof.
  intros SS MD NT. destruct SS as [a b E|a b E|i a b p k E1 E2 PO|i a b p k E1 E2 PO]; inversion MD; subst; cbn [co_seal co_mat] in *.
  - eexists; split; [reflexivity|]. split; [reflexivity|]. constructor; cbn; rewrite ?app_nil_r, ?E; auto; [lia|].
    destruct (r_wire r); cbn; [now rewrite add_pairs_nil|reflexivity].
  - cbn [open_step]. unfold open_pw, check. rewrite <- E. destruct (sg_key a) as [|b0 k0] eqn:EK; [congruence|]. cbn [nonempty].
    unfold derive_pw. rewrite <- same_pass.
    match goal with H : s_pass s1 = Some _ |- _ => rewrite H end.
    assert (DK : helper_dks c s2 = helper_dks c s1) by (unfold helper_dks; now rewrite same_dks). rewrite DK.
    match goal with H : cr_pwd _ _ _ _ _ = Some _ |- _ => rewrite H end.
    eexists; split; [reflexivity|]. split; [reflexivity|]. constructor; cbn; rewrite ?app_nil_r; auto; [lia|].
    destruct (r_wire r); cbn; [now rewrite add_pairs_nil|reflexivity].
  - match goal with HP : pair_ok cr (i_name i) ?pb ?pv |- _ => rename HP into PO'; destruct (law_store _ laws _ _ _ PO') as (pv' & LD) end.
    rewrite E1 in *. match goal with H : Some _ = Some _ |- _ => injection H as <- end.
    cbn [open_step]. unfold open_kx, key_at, next_idx, modify, mbind, lift. rewrite NT. cbn [seal_value]. rewrite LD.
    unfold shared. rewrite E2. unfold upd_wire, modify, add_mat, ret. cbn [r_wire set_acc].
    rewrite (law_dh _ laws _ _ _ _ _ PO PO').
    destruct (r_wire r) as [w|] eqn:EW; eexists; (split; [reflexivity|]); (split; [reflexivity|]);
      constructor; cbn; rewrite ?EW, ?app_nil_r; auto; try lia; cbn.
    destruct w; unfold add_pairs, set_ke, set_kx; cbn. now rewrite app_nil_r.
  - rewrite E1 in *. match goal with H : Some _ = Some _ |- _ => injection H as <- end.
    cbn [open_step]. unfold open_ke. unfold mbind at 1. unfold upd_wire, modify.
    match goal with H : cr_encap _ _ _ _ _ _ = Some _ |- _ => pose proof (law_encap _ laws _ _ _ _ _ _ _ PO H) as UW end.
    unfold key_at, mbind, unwrap, lift. rewrite E2.
    destruct (r_wire r) as [w|] eqn:EW; cbn [r_idx set_wire]; rewrite NT; cbn [seal_value]; rewrite UW;
      eexists; (split; [reflexivity|]); (split; [reflexivity|]); constructor; cbn; rewrite ?EW, ?app_nil_r; auto; try lia; cbn.
    destruct w; unfold add_pairs, set_ke, set_kx; cbn. now rewrite app_nil_r.
Qed.

Definition opened_kxs (ys : list kstep) (cs : list contrib) : list kxpair :=
  flat_map (fun p => open_kxs (fst p) (snd p)) (combine ys cs).
Lemma open_steps_ok l xs ys cs pre post r :
  Forall2 same_step xs ys -> Forall2 (made c cr s1 (l_nonce l)) xs cs ->
  l_keys l = pre ++ map co_seal cs ++ post -> r_idx r = length pre ->
  exists r', each (open_step l) ys r = (Ok tt, r') /\ r_draw r' = r_draw r
    /\ grow r r' [] (map co_mat cs) (length cs) (opened_kxs ys cs) (flat_map open_kes ys).
Proof.
  intros FS. revert cs pre r. induction FS as [|x y xs ys SS FS IH]; intros cs pre r FM EL EI; inversion FM; subst.
  - exists r. split; [reflexivity|]. split; [reflexivity|]. apply grow_refl.
  - rename y0 into co, l' into cs. rename H1 into MD, H3 into FM'.
    assert (NT : nth_error (l_keys l) (r_idx r) = Some (co_seal co)).
    { rewrite EL, EI. rewrite nth_error_app2 by lia. now rewrite Nat.sub_diag. }
    destruct (open_step_ok l x y co r SS MD NT) as (r1 & E1 & D1 & G1).
    destruct (IH cs (pre ++ [co_seal co]) r1 FM') as (r2 & E2 & D2 & G2).
    { rewrite EL. cbn. now rewrite <- app_assoc. }
    { rewrite (gr_idx _ _ _ _ _ _ _ G1), EI, app_length. reflexivity. }
    exists r2. cbn [each]. unfold mbind. rewrite E1. split; [exact E2|]. split; [congruence|].
    exact (grow_trans _ _ _ _ _ _ _ _ _ _ _ _ _ G1 G2).
Qed.

Lemma opening_material_each l r :
  (run _ <- each open_key (loop scheme_key (e_secrets (s_env s2)));
   run _ <- each (open_pw c cr s2 (l_nonce l)) (loop scheme_pw (e_secrets (s_env s2)));
   run _ <- each (fun i => each (open_kx cr l i) (loop (i_name i) (e_recipients (s_env s2)))) (s_kx s2);
   each (fun i => each (open_ke cr l i) (loop (i_name i) (e_recipients (s_env s2)))) (s_ke s2)) r
  = each (open_step l) (steps s2) r.
Proof.
  unfold steps, steps_of. rewrite each_app. apply mbind_cong; [now rewrite each_map|intros _ r1].
  rewrite each_app. apply mbind_cong; [now rewrite each_map|intros _ r2].
  rewrite each_app. apply mbind_cong; [|intros _ r3].
  - rewrite each_flat. apply each_ext. intros. now rewrite each_map.
  - rewrite each_flat. apply each_ext. intros. now rewrite each_map.
Qed.

Lemma opening_material_ok l r r' :
  (r_wire r = None -> length (l_keys l) <= length (e_secrets (s_env s2)) + length (e_senders (s_env s2)) + length (e_recipients (s_env s2))) ->
  each (open_step l) (steps s2) r = (Ok tt, r') -> opening_material c cr s2 l r = (Ok tt, r').
Proof.
  intros L E. rewrite <- opening_material_each in E. unfold opening_material, env.
  apply mbind_ok in E as ([] & r1 & E1 & E). apply mbind_ok in E as ([] & r2 & E2 & E).
  apply mbind_ok in E as ([] & r3 & E3 & E). 
  unfold is_wire, gets. unfold mbind at 1.
  assert (C : (if negb (is_none (r_wire r)) then ret tt
     else check (negb (length (e_secrets (s_env s2)) + length (e_senders (s_env s2)) + length (e_recipients (s_env s2)) <? length (l_keys l))%nat) EOther) r = (Ok tt, r)).
  { destruct (r_wire r); cbn [is_none negb]; [reflexivity|]. specialize (L eq_refl). apply Nat.ltb_ge in L. rewrite L. reflexivity. }
  rewrite (mbind_run _ _ _ _ _ C), (mbind_run _ _ _ _ _ E1), (mbind_run _ _ _ _ _ E2).
  rewrite (mbind_run _ _ _ _ _ (each_last_of_each _ _ _ _ E3)). now apply each_last_of_each.
Qed.
End Open.

(** ** Two envelopes that belong together *)

Lemma Forall2_loop (R : signet -> signet -> Prop) t l m : (forall a b, R a b -> sg_scheme a = sg_scheme b) ->
  Forall2 R l m -> Forall2 R (loop t l) (loop t m).
Proof.
  intros HR. unfold loop. induction 1 as [|a b l m Hab HF IH]; cbn [filter]; [constructor|].
  rewrite (HR a b Hab). destruct (match t with [] => true | _ => _ end); auto.
Qed.

Lemma Forall2_flat_map {A B C} (R : B -> C -> Prop) (f : A -> list B) (g : A -> list C) l :
  (forall a, In a l -> Forall2 R (f a) (g a)) -> Forall2 R (flat_map f l) (flat_map g l).
Proof.
  induction l as [|a l IH]; intro H; cbn [flat_map]; [constructor|]. apply Forall2_app; [apply H; now left|].
  apply IH. intros; apply H; now right.
Qed.

Lemma steps_match cr e1 e2 kx ke : (forall i, In i kx \/ In i ke -> i_name i <> []) ->
  Forall2 same_secret (e_secrets e1) (e_secrets e2) -> Forall2 (key_pair cr) (e_recipients e1) (e_recipients e2) ->
  Forall2 (same_step cr) (steps_of e1 kx ke) (steps_of e2 kx ke).
Proof.
  intros NN FS FR. unfold steps_of.
  assert (S : forall t, Forall2 same_secret (loop t (e_secrets e1)) (loop t (e_secrets e2))).
  { intro t. apply Forall2_loop; [|exact FS]. now intros a b []. }
  assert (R : forall t, t <> [] -> Forall2 (fun a b => exists p k, sg_pub a = Some p /\ sg_priv b = PKey k /\ pair_ok cr t p k)
             (loop t (e_recipients e1)) (loop t (e_recipients e2))).
  { intros t Ht. unfold loop. clear - FR Ht. induction FR as [|a b l m Hab HF IH]; cbn [filter]; [constructor|].
    destruct Hab as (ES & p & k & P1 & P2 & P3). rewrite <- ES. destruct t as [|t0 t]; [congruence|].
    destruct (bytes_eqb (sg_scheme a) (t0 :: t)) eqn:E; [|exact IH]. apply bytes_eqb_eq in E. rewrite E in P3.
    constructor; [eauto|exact IH]. }
  apply Forall2_app; [|apply Forall2_app; [|apply Forall2_app]].
  - specialize (S scheme_key). induction S as [|a b l m [] HF IH]; cbn [map]; constructor; [now constructor|exact IH].
  - specialize (S scheme_pw). induction S as [|a b l m [] HF IH]; cbn [map]; constructor; [now constructor|exact IH].
  - apply Forall2_flat_map. intros i Hi. specialize (R (i_name i) (NN i (or_introl Hi))).
    induction R as [|a b l m (p & k & P1 & P2 & P3) HF IH]; cbn [map]; constructor; [now apply ss_kx with p k|exact IH].
  - apply Forall2_flat_map. intros i Hi. specialize (R (i_name i) (NN i (or_intror Hi))).
    induction R as [|a b l m (p & k & P1 & P2 & P3) HF IH]; cbn [map]; constructor; [now apply ss_ke with p k|exact IH].
Qed.
