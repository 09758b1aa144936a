(** Two runs of the same operation from session states that agree on what the
    operation looks at; what an operation leaves behind. *)
From Verif Require Export SessionFacts Core.

(** ** Equations of the monad *)
Lemma mbind_ok {A B} (m : M A) (f : A -> M B) r b r' :
  mbind m f r = (Ok b, r') -> exists a r1, m r = (Ok a, r1) /\ f a r1 = (Ok b, r').
Proof. unfold mbind. destruct (m r) as [[a|e|] r1]; intro H; [|discriminate..]. eauto. Qed.
Lemma mbind_run {A B} (m : M A) (f : A -> M B) r a r1 : m r = (Ok a, r1) -> mbind m f r = f a r1.
Proof. unfold mbind. now intros ->. Qed.
Lemma mbind_assoc {A B C} (m : M A) (f : A -> M B) (g : B -> M C) r :
  mbind (mbind m f) g r = mbind m (fun a => mbind (f a) g) r.
Proof. unfold mbind. destruct (m r) as [[a|e|] r1]; reflexivity. Qed.
Lemma mbind_ext {A B} (m : M A) (f g : A -> M B) r : (forall a r', f a r' = g a r') -> mbind m f r = mbind m g r.
Proof. intro H. unfold mbind. destruct (m r) as [[a|e|] r1]; auto. Qed.
Lemma foldT_app {A B} (f : B -> A -> M B) b l1 l2 r :
  foldT f b (l1 ++ l2) r = mbind (foldT f b l1) (fun b' => foldT f b' l2) r.
Proof.
  revert b r; induction l1 as [|a l1 IH]; intros b r; cbn [app foldT]; [reflexivity|].
  rewrite mbind_assoc. apply mbind_ext. intros. apply IH.
Qed.
Lemma each_app {A} (f : A -> M unit) l1 l2 r :
  each f (l1 ++ l2) r = mbind (each f l1) (fun _ => each f l2) r.
Proof.
  revert r; induction l1 as [|a l1 IH]; intro r; cbn [app each]; [reflexivity|].
  rewrite mbind_assoc. apply mbind_ext. intros. apply IH.
Qed.
Lemma each_last_cons {A} (f : A -> M unit) a b l r :
  each_last f (a :: b :: l) r = match f a r with (Panic, r') => (Panic, r') | (_, r') => each_last f (b :: l) r' end.
Proof. reflexivity. Qed.

(** ** Agreement of two states *)
Definition tagree (l : list inst) (r1 r2 : rt) : Prop := forall i, In i l ->
  ts_key (r_tools r1 (i_idx i)) = ts_key (r_tools r2 (i_idx i))
  /\ ts_set (r_tools r1 (i_idx i)) = ts_set (r_tools r2 (i_idx i))
  /\ (has_iv i = true -> ts_iv (r_tools r1 (i_idx i)) = ts_iv (r_tools r2 (i_idx i))).

(** Level 0: everything but key derivation and the keys of the tools; level 1: also the
    key derivation; level 2: also the keys of the tools in the list. *)
Record sim (st : list inst) (n : nat) (r1 r2 : rt) : Prop := {
  si_draw : r_draw r1 = r_draw r2;
  si_wire : r_wire r1 = r_wire r2;
  si_keys : r_keys r1 = r_keys r2;
  si_mat : r_mat r1 = r_mat r2;
  si_idx : r_idx r1 = r_idx r2;
  si_buf : r_buf r1 = r_buf r2;
  si_mach : forall x, r_mach r1 x = r_mach r2 x;
  si_sigh : forall x, r_sigh r1 x = r_sigh r2 x;
  si_used : forall x, ts_used (r_tools r1 x) = ts_used (r_tools r2 x);
  si_kdf : 1 <= n -> r_kdf r1 = r_kdf r2;
  si_tools : 2 <= n -> tagree st r1 r2
}.

Lemma sim_le st n m r1 r2 : m <= n -> sim st n r1 r2 -> sim st m r1 r2.
Proof. intros L []. constructor; auto; intro; [apply si_kdf0|apply si_tools0]; lia. Qed.

(** [rel st n m x]: run from states that agree at level [n], [x] gives the same result
    and leaves states that agree, at level [m] when it succeeds. *)
Definition rel st n m {A} (x : M A) : Prop := forall r1 r2, sim st n r1 r2 ->
  fst (x r1) = fst (x r2) /\ sim st 0 (snd (x r1)) (snd (x r2))
  /\ forall a, fst (x r1) = Ok a -> sim st m (snd (x r1)) (snd (x r2)).

Lemma rel_bind st n m k {A B} (x : M A) (f : A -> M B) :
  rel st n m x -> (forall a, rel st m k (f a)) -> rel st n k (mbind x f).
Proof.
  intros Hx Hf r1 r2 S. destruct (Hx r1 r2 S) as (E & S0 & Sm). unfold mbind.
  destruct (x r1) as [o1 r1'] eqn:E1, (x r2) as [o2 r2'] eqn:E2. cbn [fst snd] in *. subst o2.
  destruct o1 as [a|e|]; cbn [fst snd].
  - exact (Hf a r1' r2' (Sm a eq_refl)).
  - split; [reflexivity|split; [exact S0|discriminate]].
  - split; [reflexivity|split; [exact S0|discriminate]].
Qed.
Lemma rel_le st n n' m m' {A} (x : M A) : n' <= n -> m <= m' -> rel st n' m' x -> rel st n m x.
Proof.
  intros Ln Lm H r1 r2 S. apply (sim_le _ _ n') in S; [|exact Ln]. destruct (H r1 r2 S) as (E & S0 & Sm).
  split; [exact E|split; [exact S0|]]. intros a Ea. eapply sim_le; [exact Lm|]. eauto.
Qed.
Lemma rel_ret st n {A} (a : A) : rel st n n (ret a).
Proof. intros r1 r2 S. cbn. split; [reflexivity|split; [eapply sim_le; [|exact S]; lia|auto]]. Qed.
Lemma rel_fail st n m {A} e : rel st n m (@fail A e).
Proof. intros r1 r2 S. cbn. split; [reflexivity|split; [eapply sim_le; [|exact S]; lia|discriminate]]. Qed.
Lemma rel_panic st n m {A} : rel st n m (@panic A).
Proof. intros r1 r2 S. cbn. split; [reflexivity|split; [eapply sim_le; [|exact S]; lia|discriminate]]. Qed.
Lemma rel_lift st n {A} (x : outcome A) : rel st n n (lift x).
Proof. intros r1 r2 S. cbn. split; [reflexivity|split; [eapply sim_le; [|exact S]; lia|auto]]. Qed.
Lemma rel_check st n b e : rel st n n (check b e).
Proof. destruct b; [apply rel_ret|apply rel_fail]. Qed.
Lemma rel_gets st n {A} (f : rt -> A) :
  (forall r1 r2, sim st n r1 r2 -> f r1 = f r2) -> rel st n n (gets f).
Proof. intros H r1 r2 S. cbn. split; [now rewrite (H _ _ S)|split; [eapply sim_le; [|exact S]; lia|auto]]. Qed.
Lemma rel_modify st n m f : (forall r1 r2, sim st n r1 r2 -> sim st m (f r1) (f r2)) -> rel st n m (modify f).
Proof.
  intros H r1 r2 S. cbn. split; [reflexivity|]. specialize (H r1 r2 S).
  split; [eapply sim_le; [|exact H]; lia|auto].
Qed.
Lemma rel_each st n {A} (f : A -> M unit) l : (forall a, rel st n n (f a)) -> rel st n n (each f l).
Proof. intro H. induction l as [|a l IH]; cbn [each]; [apply rel_ret|]. now apply rel_bind with n. Qed.
Lemma rel_foldT st n {A B} (f : B -> A -> M B) b l :
  (forall b a, In a l -> rel st n n (f b a)) -> rel st n n (foldT f b l).
Proof.
  revert b. induction l as [|a l IH]; intros b H; cbn [foldT]; [apply rel_ret|].
  apply rel_bind with n; [apply H; now left|]. intro b'. apply IH. intros; apply H; now right.
Qed.
Lemma rel_each_last st {A} (f : A -> M unit) l : (forall a, rel st 0 0 (f a)) -> rel st 0 0 (each_last f l).
Proof.
  intro H. induction l as [|a [|b l] IH]; [apply rel_ret|apply H|].
  intros r1 r2 S. rewrite !each_last_cons. destruct (H a r1 r2 S) as (E & S0 & _).
  destruct (f a r1) as [o1 r1'], (f a r2) as [o2 r2']. cbn [fst snd] in *. subst o2.
  destruct o1; try exact (IH _ _ S0). cbn. split; [reflexivity|split; [exact S0|discriminate]].
Qed.
Lemma rel_deferred st n m {A} f (x : M A) :
  (forall r1 r2, sim st 0 r1 r2 -> sim st 0 (f r1) (f r2)) -> rel st n m x -> rel st n 0 (deferred f x).
Proof.
  intros Hf H r1 r2 S. unfold deferred. destruct (H r1 r2 S) as (E & S0 & _).
  destruct (x r1) as [o1 r1'], (x r2) as [o2 r2']. cbn [fst snd] in *. subst o2.
  split; [reflexivity|]. split; intros; apply Hf; exact S0.
Qed.

(** A change that leaves key derivation, keys and flags alone. *)
Ltac sim_step := intros ?r1 ?r2 []; constructor; cbn;
  repeat match goal with H : _ = _ |- _ => rewrite H end;
  auto; try congruence.

Lemma rel_upd_wire st n f : rel st n n (upd_wire f).
Proof.
  apply rel_modify. intros r1 r2 S. rewrite (si_wire _ _ _ _ S). destruct (r_wire r2); [|exact S].
  revert r1 r2 S. sim_step.
Qed.
Lemma rel_draw st n {A} (g : nat -> outcome A) : rel st n n (fun r => (g (r_draw r), set_draw r (S (r_draw r)))).
Proof.
  intros r1 r2 S. cbn [fst snd]. rewrite (si_draw _ _ _ _ S). split; [reflexivity|].
  assert (Z : sim st n (set_draw r1 (Datatypes.S (r_draw r2))) (set_draw r2 (Datatypes.S (r_draw r2)))).
  { destruct S; constructor; cbn; auto. }
  split; [eapply sim_le; [|exact Z]; lia|auto].
Qed.

Ltac acc_rel := intros; apply rel_modify; sim_step.
Lemma rel_add_key st n k : rel st n n (add_key k).
Proof. unfold add_key. acc_rel. Qed.
Lemma rel_add_mat st n k : rel st n n (add_mat k).
Proof. unfold add_mat. acc_rel. Qed.
Lemma rel_next_idx st n : rel st n n next_idx.
Proof. unfold next_idx. acc_rel. Qed.
Lemma rel_start_index st n : rel st n n start_index.
Proof. unfold start_index. acc_rel. Qed.
Lemma rel_set_idx st n k : rel st n n (modify (fun r => set_acc r (r_keys r) (r_mat r) k)).
Proof. acc_rel. Qed.

Lemma rel_is_wire st n : rel st n n is_wire.
Proof. apply rel_gets. intros r1 r2 S. now rewrite (si_wire _ _ _ _ S). Qed.
Lemma rel_wire_st st n : rel st n n wire_st.
Proof.
  intros r1 r2 S. unfold wire_st. rewrite (si_wire _ _ _ _ S). cbn. split; [reflexivity|].
  split; [eapply sim_le; [|exact S]; lia|auto].
Qed.

Lemma rel_rand st n cr z : rel st n n (rand cr z).
Proof. unfold rand. exact (rel_draw st n (fun d => match cr_rand cr d (Z.to_nat z) with Some b => Ok b | None => Err EOther end)). Qed.
Lemma rel_gen st n cr t : rel st n n (gen cr t).
Proof. unfold gen. exact (rel_draw st n (fun d => match cr_gen cr t d with Some b => Ok b | None => Err EOther end)). Qed.

#[export] Hint Resolve rel_ret rel_fail rel_panic rel_lift rel_check rel_upd_wire rel_add_key rel_add_mat rel_next_idx
  rel_start_index rel_set_idx rel_is_wire rel_wire_st rel_rand rel_gen : rel.

Ltac rel_auto := intros; repeat first
  [ solve [auto with rel]
  | apply rel_bind with 0; intros
  | match goal with
    | |- rel _ _ _ (match ?x with _ => _ end) => destruct x
    | |- rel _ _ _ (let '(_, _) := ?x in _) => destruct x
    end ].

Section R.
Variable c : config.
Variable cr : crypto.
Variable s : session.
Notation st := (s_stateful s).

Lemma rel_shared i p q : rel st 0 0 (shared cr i p q).
Proof. unfold shared. rel_auto. Qed.
Lemma rel_encap i p k : rel st 0 0 (encap cr i p k).
Proof.
  unfold encap. destruct p; [|auto with rel].
  exact (rel_draw st 0 (fun d => match cr_encap cr (i_name i) (i_arg i) b k d with Some v => Ok v | None => Err EOther end)).
Qed.
Lemma rel_unwrap i p w : rel st 0 0 (unwrap cr i p w).
Proof. unfold unwrap. rel_auto. Qed.
Lemma rel_derive_pw p w : rel st 0 0 (derive_pw c cr s p w).
Proof. unfold derive_pw. rel_auto. Qed.
Lemma rel_key_at l : rel st 0 0 (key_at l).
Proof.
  intros r1 r2 S. unfold key_at. rewrite (si_idx _ _ _ _ S). cbn. split; [reflexivity|]. split; auto.
Qed.
Hint Resolve rel_shared rel_encap rel_unwrap rel_derive_pw rel_key_at : rel.

Lemma rel_closing_material nonce : rel st 0 0 (closing_material c cr s nonce).
Proof.
  unfold closing_material. apply rel_bind with 0; [|intros _; apply rel_bind with 0; [|intros _; apply rel_bind with 0; [|intros _]]].
  - apply rel_each. intro a. unfold close_key. rel_auto.
  - apply rel_each. intro a. unfold close_pw. rel_auto.
  - apply rel_each_last. intro i. apply rel_each. intro a. unfold close_kx. rel_auto.
  - apply rel_each_last. intro i. apply rel_each. intro a. unfold close_ke. rel_auto.
Qed.
Lemma rel_opening_material l : rel st 0 0 (opening_material c cr s l).
Proof.
  unfold opening_material. apply rel_bind with 0; [auto with rel|intro w].
  apply rel_bind with 0; [destruct w; auto with rel|intros _].
  apply rel_bind with 0; [|intros _; apply rel_bind with 0; [|intros _; apply rel_bind with 0; [|intros _]]].
  - apply rel_each. intro a. unfold open_key. rel_auto.
  - apply rel_each. intro a. unfold open_pw. rel_auto.
  - apply rel_each_last. intro i. apply rel_each. intro a. unfold open_kx. rel_auto.
  - apply rel_each_last. intro i. apply rel_each. intro a. unfold open_ke. rel_auto.
Qed.

Lemma rel_gen_local_kx : rel st 0 0 (gen_local_kx cr).
Proof. unfold gen_local_kx. apply rel_bind with 0; [auto with rel|intro w]. apply rel_each. intro p. rel_auto. Qed.
Lemma rel_gen_local_ke : rel st 0 0 (gen_local_ke cr).
Proof. unfold gen_local_ke. apply rel_bind with 0; [auto with rel|intro w]. apply rel_each. intro p. rel_auto. Qed.
Lemma rel_make_shared : rel st 0 0 (make_shared cr).
Proof. unfold make_shared. apply rel_bind with 0; [auto with rel|intro w]. apply rel_each. intro p. rel_auto. Qed.
Lemma rel_encap_new : rel st 0 0 (encap_new cr s).
Proof. unfold encap_new. apply rel_bind with 0; [auto with rel|intro w]. apply rel_each. intro p. rel_auto. Qed.
Lemma rel_unwrap_new : rel st 0 0 (unwrap_new cr).
Proof. unfold unwrap_new. apply rel_bind with 0; [auto with rel|intro w]. apply rel_each. intro p. rel_auto. Qed.
Lemma rel_gets_mat n : rel st n n (gets r_mat).
Proof. apply rel_gets. intros r1 r2 []. exact si_mat0. Qed.
Lemma rel_gets_keys n : rel st n n (gets r_keys).
Proof. apply rel_gets. intros r1 r2 []. exact si_keys0. Qed.
Lemma rel_gets_idx n : rel st n n (gets r_idx).
Proof. apply rel_gets. intros r1 r2 []. exact si_idx0. Qed.
Lemma rel_assign_kx l : rel st 0 0 (assign_kx l).
Proof. unfold assign_kx. apply rel_bind with 0; [auto with rel|intro w]. apply rel_each. intro p. rel_auto. Qed.
Lemma rel_assign_ke_signet l : rel st 0 0 (assign_ke_signet l).
Proof.
  unfold assign_ke_signet. apply rel_bind with 0; [auto with rel|intro w]. apply rel_each. intro p.
  apply rel_bind with 0; [apply rel_gets_idx|intro k]. rel_auto.
Qed.
Lemma rel_assign_ke_seal l : rel st 0 0 (assign_ke_seal l).
Proof. unfold assign_ke_seal. apply rel_bind with 0; [auto with rel|intro w]. apply rel_each. intro p. rel_auto. Qed.
Hint Resolve rel_closing_material rel_opening_material rel_gen_local_kx rel_gen_local_ke rel_make_shared rel_encap_new
  rel_unwrap_new rel_gets_mat rel_gets_keys rel_gets_idx rel_assign_kx rel_assign_ke_signet rel_assign_ke_seal : rel.

(** ** Key derivation *)
Lemma rel_kdf_init nonce mat : rel st 0 1 (kdf_init nonce mat).
Proof.
  unfold kdf_init. destruct (_ || _); [apply rel_fail|]. apply rel_modify.
  intros r1 r2 []. constructor; cbn; auto; intro; lia.
Qed.
Lemma rel_kdf_read n z : 1 <= n -> rel st n n (kdf_read cr s z).
Proof.
  intros Ln r1 r2 S. unfold kdf_read. rewrite (si_kdf _ _ _ _ S Ln).
  destruct (r_kdf r2) as [k|] eqn:EK; [destruct (cr_kdf _ _ _ _ _ _ _)|]; cbn [fst snd]; (split; [reflexivity|]).
  - split; [apply (sim_le _ n); [lia|]|intros _ _]; destruct S; constructor; cbn; auto.
  - split; [apply (sim_le _ n); [lia|exact S]|discriminate].
  - split; [apply (sim_le _ n); [lia|exact S]|discriminate].
Qed.

Lemma rel_carryover b nonce : rel st 0 1 (carryover cr s b nonce).
Proof.
  unfold carryover. apply rel_bind with 0; [auto with rel|intro w].
  apply rel_bind with 0; [rel_auto|intros _].
  apply rel_bind with 0; [auto with rel|intro m].
  apply rel_bind with 1; [apply rel_kdf_init|intros _].
  apply rel_bind with 1; [auto with rel|intro w'].
  apply rel_bind with 1; [apply rel_kdf_read; lia|intro k].
  apply rel_bind with 1; [auto with rel|intros _].
  apply rel_bind with 1; [destruct (_ =? _)%N; auto with rel|intros _]. auto with rel.
Qed.

Lemma rel_send_idle : rel st 0 0 (send_idle cr).
Proof. unfold send_idle. rel_auto. Qed.
Lemma rel_recv_idle l : rel st 0 0 (recv_idle s l).
Proof. unfold recv_idle. rel_auto. Qed.
Hint Resolve rel_send_idle rel_recv_idle : rel.

Lemma rel_each_mat l : rel st 0 0 (each add_mat l).
Proof. apply rel_each. auto with rel. Qed.
Hint Resolve rel_each_mat : rel.

Lemma rel_send_handshake nonce : rel st 0 1 (send_handshake c cr s nonce).
Proof.
  unfold send_handshake. apply rel_bind with 0; [auto with rel|intro w].
  apply rel_bind with 0.
  - destruct (w_state w); rel_auto.
  - intro ab. apply rel_bind with 1; [apply rel_carryover|intros _].
    apply rel_bind with 1; [destruct ab; auto with rel|auto with rel].
Qed.
Lemma rel_recv_handshake l : rel st 0 1 (recv_handshake c cr s l).
Proof.
  unfold recv_handshake. apply rel_bind with 0; [auto with rel|intro w].
  apply rel_bind with 0.
  - destruct (w_state w); rel_auto.
  - intro ab. apply rel_bind with 1; [apply rel_carryover|intros _]. destruct ab; auto with rel.
Qed.
Lemma rel_establish nonce : rel st 0 1 (establish c cr s nonce).
Proof.
  unfold establish. apply rel_bind with 0; [auto with rel|intro w]. destruct w; [apply rel_send_handshake|].
  apply rel_bind with 0; [auto with rel|intros _]. apply rel_bind with 0; [auto with rel|intro m].
  apply rel_bind with 1; [apply rel_kdf_init|auto with rel].
Qed.

(** ** Tool setup *)

(** Agreement on the tools of a prefix, at level 1. *)
Definition simp (pre : list inst) (r1 r2 : rt) : Prop := sim st 1 r1 r2 /\ tagree pre r1 r2.

Lemma upd_tool_used i f r n : (forall t, ts_used (f t) = ts_used t) ->
  ts_used (r_tools (snd (upd_tool i f r)) n) = ts_used (r_tools r n).
Proof. intro H. cbn. destruct (_ =? _)%nat; auto. Qed.

Lemma setup_tool_simp pre i r1 r2 : simp pre r1 r2 ->
  fst (setup_tool cr s i r1) = fst (setup_tool cr s i r2)
  /\ sim st 1 (snd (setup_tool cr s i r1)) (snd (setup_tool cr s i r2))
  /\ (forall u, fst (setup_tool cr s i r1) = Ok u ->
        tagree (pre ++ [i]) (snd (setup_tool cr s i r1)) (snd (setup_tool cr s i r2))).
Proof.
  intros [S T].
  unfold setup_tool, kdf_read, mbind. rewrite (si_kdf _ _ _ _ S (Nat.le_refl 1)). destruct (r_kdf r2) as [k|] eqn:EK; cbn [fst snd];
    [|split; [reflexivity|split; [exact S|discriminate]]].
  destruct (cr_kdf cr _ _ _ _ _ _) as [k1|]; cbn [fst snd]; [|split; [reflexivity|split; [exact S|discriminate]]].
  unfold upd_tool, modify. cbn [r_tools set_tools set_kdf r_kdf].
  destruct (has_iv i) eqn:HI; cbn [r_kdf set_tools set_kdf].
  - cbn [kd_nonce kd_secret kd_off].
    destruct (cr_kdf cr (kdf_name s) (kdf_hash s) (kd_nonce k) (kd_secret k) _ _) as [k2|]; cbn [fst snd].
    + split; [reflexivity|]. 
      match goal with |- sim _ _ ?a ?b /\ _ => assert (Z : simp (pre ++ [i]) a b) end.
      { split.
        - destruct S. constructor; cbn; auto; try lia.
          intro n. destruct (n =? i_idx i)%nat; cbn; auto.
        - intros j Hj. cbn. apply in_app_or in Hj as [Hj|[<-|[]]].
          + destruct (T j Hj) as (A & B & C0). destruct (i_idx j =? i_idx i)%nat; cbn; auto.
          + rewrite Nat.eqb_refl. cbn. auto. }
      destruct Z as [Z1 Z2]. split; [exact Z1|intros _ _; exact Z2].
    + split; [reflexivity|]. split; [|discriminate].
      destruct S. constructor; cbn; auto; try lia. intro n. destruct (n =? i_idx i)%nat; cbn; auto.
  - cbn [ret fst snd]. split; [reflexivity|].
    match goal with |- sim _ _ ?a ?b /\ _ => assert (Z : simp (pre ++ [i]) a b) end.
    { split.
      - destruct S. constructor; cbn; auto; try lia.
        intro n. destruct (n =? i_idx i)%nat; cbn; auto.
      - intros j Hj. cbn. apply in_app_or in Hj as [Hj|[<-|[]]].
        + destruct (T j Hj) as (A & B & C0). destruct (i_idx j =? i_idx i)%nat; cbn; auto.
        + rewrite Nat.eqb_refl. cbn. rewrite HI. split; [reflexivity|split; [reflexivity|discriminate]]. }
    destruct Z as [Z1 Z2]. split; [exact Z1|intros _ _; exact Z2].
Qed.

Lemma each_setup_simp l pre r1 r2 : simp pre r1 r2 ->
  fst (each (setup_tool cr s) l r1) = fst (each (setup_tool cr s) l r2)
  /\ sim st 1 (snd (each (setup_tool cr s) l r1)) (snd (each (setup_tool cr s) l r2))
  /\ (forall u, fst (each (setup_tool cr s) l r1) = Ok u ->
        tagree (pre ++ l) (snd (each (setup_tool cr s) l r1)) (snd (each (setup_tool cr s) l r2))).
Proof.
  revert pre r1 r2; induction l as [|i l IH]; intros pre r1 r2 SP; cbn [each].
  - cbn. rewrite app_nil_r. destruct SP. auto.
  - destruct (setup_tool_simp pre i r1 r2 SP) as (E & S1 & T1). unfold mbind.
    destruct (setup_tool cr s i r1) as [o1 q1], (setup_tool cr s i r2) as [o2 q2]. cbn [fst snd] in *. subst o2.
    destruct o1 as [u|e|]; cbn [fst snd]; [|split; [reflexivity|split; [exact S1|discriminate]]..].
    specialize (IH (pre ++ [i]) q1 q2 (conj S1 (T1 u eq_refl))). rewrite <- app_assoc in IH. exact IH.
Qed.

Lemma rel_setup : rel st 1 2 (setup cr s).
Proof.
  intros r1 r2 S. destruct (each_setup_simp (s_stateful s) [] r1 r2) as (E & S1 & T1).
  { split; [exact S|intros i []]. }
  unfold setup. split; [exact E|]. split; [eapply sim_le; [|exact S1]; lia|].
  intros u Eu. specialize (T1 u Eu). destruct S1. constructor; auto.
Qed.

Lemma sim_reset r1 r2 : sim st 0 r1 r2 -> sim st 0 (reset s r1) (reset s r2).
Proof.
  unfold reset.
  assert (G : forall l r1 r2, sim st 0 r1 r2 -> sim st 0 (fold_left reset_tool l r1) (fold_left reset_tool l r2));
    [|apply G].
  clear r1 r2. induction l as [|i l IH]; intros r1 r2 S; cbn [fold_left]; [exact S|]. apply IH.
  destruct S; constructor; cbn; auto; try lia. intro n. destruct (n =? i_idx i)%nat; cbn; auto.
Qed.

(** ** Tools at level 2 *)
Hypothesis keyed : forall i, In i (s_aead s) \/ In i (s_ciph s) \/ In i (s_macs s) -> In i (s_stateful s).
Hypothesis ivs : forall i, In i (s_aead s) \/ In i (s_ciph s) -> has_iv i = true.

Lemma cipher_st i : In i (s_aead s) \/ In i (s_ciph s) -> forall r1 r2, sim st 2 r1 r2 ->
  ts_key (r_tools r1 (i_idx i)) = ts_key (r_tools r2 (i_idx i))
  /\ ts_iv (r_tools r1 (i_idx i)) = ts_iv (r_tools r2 (i_idx i)).
Proof.
  intros H r1 r2 S. destruct (si_tools _ _ _ _ S (Nat.le_refl 2) i) as (A & _ & B); [apply keyed; tauto|].
  split; [exact A|]. apply B. now apply ivs.
Qed.

Lemma sim2_0 r1 r2 : sim st 2 r1 r2 -> sim st 0 r1 r2.
Proof. apply sim_le. lia. Qed.

Lemma rel_cipher i d : In i (s_ciph s) -> rel st 2 2 (cipher cr i d).
Proof.
  intros Hi r1 r2 S. destruct (cipher_st i (or_intror Hi) r1 r2 S) as [A B]. unfold cipher, tool_st, gets, mbind, ret. cbn [fst snd].
  rewrite A, B. split; [reflexivity|]. split; [now apply sim2_0|auto].
Qed.
Lemma rel_aead_seal ad i d : In i (s_aead s) -> rel st 2 2 (aead_seal cr ad i d).
Proof.
  intros Hi r1 r2 S. destruct (cipher_st i (or_introl Hi) r1 r2 S) as [A B]. unfold aead_seal, tool_st, gets, mbind, ret. cbn [fst snd].
  rewrite A, B. split; [reflexivity|]. split; [now apply sim2_0|auto].
Qed.
Lemma sim_set_buf n r1 r2 b : sim st n r1 r2 -> sim st n (set_buf r1 b) (set_buf r2 b).
Proof. intros []; constructor; cbn; auto. Qed.
Lemma rel_aead_open ad i d : In i (s_aead s) -> rel st 2 2 (aead_open cr ad i d).
Proof.
  intros Hi r1 r2 S. destruct (cipher_st i (or_introl Hi) r1 r2 S) as [A B]. unfold aead_open. cbn zeta.
  rewrite A, B, (si_buf _ _ _ _ S). destruct (cr_open _ _ _ _ _ _); cbn [fst snd].
  - split; [reflexivity|]. split; [now apply sim2_0, sim_set_buf|intros; now apply sim_set_buf].
  - split; [reflexivity|]. split; [|discriminate]. destruct (_ <? _)%nat; [now apply sim2_0|now apply sim2_0, sim_set_buf].
Qed.

Lemma mac_cases d ad i r :
  mac cr d ad i r =
  let t := r_tools r (i_idx i) in
  if is_poly i then
    if ts_set t then
      if negb (ts_used t) then
        (Ok (cr_mac cr (i_name i) (i_arg i) (ts_key t) (d ++ ad)),
         snd (upd_tool i (fun t => mkTState (ts_key t) (ts_iv t) (ts_set t) true) r))
      else (Err EOther, r)
    else (Err EOther, r)
  else (Ok (cr_mac cr (i_name i) (i_arg i) (ts_key t) (d ++ ad)), r).
Proof.
  unfold mac, tool_st, gets, mbind, check. cbn zeta. destruct (is_poly i); [|reflexivity].
  destruct (ts_set _); [|reflexivity]. cbn. destruct (ts_used _); reflexivity.
Qed.

Lemma rel_mac d ad i : In i (s_macs s) -> rel st 2 2 (mac cr d ad i).
Proof.
  intros Hi r1 r2 S. rewrite !mac_cases. cbn zeta.
  destruct (si_tools _ _ _ _ S (Nat.le_refl 2) i) as (A & B & C0); [apply keyed; tauto|].
  rewrite A, B, (si_used _ _ _ _ S).
  destruct (is_poly i); [destruct (ts_set (r_tools r2 (i_idx i))); [destruct (ts_used (r_tools r2 (i_idx i)))|]|]; cbn [fst snd negb];
    try solve [split; [reflexivity|split; [now apply sim2_0|first [discriminate|intros; exact S]]]].
  split; [reflexivity|]. assert (Z : sim st 2 (snd (upd_tool i (fun t => mkTState (ts_key t) (ts_iv t) (ts_set t) true) r1))
     (snd (upd_tool i (fun t => mkTState (ts_key t) (ts_iv t) (ts_set t) true) r2))).
  { destruct S; constructor; cbn; auto.
    - intro n. destruct (n =? i_idx i)%nat; cbn; auto.
    - intros L j Hj. destruct (si_tools0 L j Hj) as (X & Y & Z0). cbn. destruct (_ =? _)%nat; cbn; auto. }
  split; [now apply sim2_0|intros; exact Z].
Qed.
Lemma rel_macs d ad : rel st 2 2 (macs cr s d ad).
Proof.
  unfold macs. apply rel_foldT. intros b a Ha. apply rel_bind with 2; [now apply rel_mac|auto with rel].
Qed.

Lemma rel_with_mac_hashers n m {A} d (x : M A) : rel st n m x -> rel st n 0 (with_mac_hashers s d x).
Proof.
  intro H. unfold with_mac_hashers. apply rel_bind with n.
  - apply rel_modify. intros r1 r2 []; constructor; cbn; auto. intro y. unfold fed. now rewrite si_mach0.
  - intros _. apply rel_deferred with m; [|exact H].
    intros r1 r2 []; constructor; cbn; auto; try lia. intro y. unfold emptied. now rewrite si_mach0.
Qed.
Lemma rel_with_sig_hashers n m {A} d (x : M A) : rel st n m x -> rel st n 0 (with_sig_hashers s d x).
Proof.
  intro H. unfold with_sig_hashers. apply rel_bind with n.
  - apply rel_modify. intros r1 r2 []; constructor; cbn; auto. intro y. unfold fed. now rewrite si_sigh0.
  - intros _. apply rel_deferred with m; [|exact H].
    intros r1 r2 []; constructor; cbn; auto; try lia. intro y. unfold emptied. now rewrite si_sigh0.
Qed.

Lemma rel_digest n i : rel st n n (digest cr i).
Proof. apply rel_gets. intros r1 r2 S. now rewrite (si_sigh _ _ _ _ S). Qed.
Lemma rel_sign i sg : rel st 0 0 (sign cr i sg).
Proof.
  unfold sign. destruct (sg_priv sg) as [| |k]; [auto with rel|destruct (is_pss i); [destruct (no_crypto_hash i)|]; auto with rel|].
  destruct (_ && _); [auto with rel|]. apply rel_bind with 0; [apply rel_digest|intro h].
  exact (rel_draw st 0 (fun d => match cr_sign cr (i_name i) (i_arg i) k h d with Some v => Ok v | None => Err EOther end)).
Qed.
Lemma rel_verify i sg v : rel st 0 0 (verify cr i sg v).
Proof.
  unfold verify. destruct (sg_pub sg); [|auto with rel]. destruct (_ && _); [auto with rel|].
  apply rel_bind with 0; [apply rel_digest|intro h]. auto with rel.
Qed.
Lemma rel_close_sign l ad : rel st 0 0 (close_sign cr s l ad).
Proof.
  unfold close_sign. destruct (nonempty _); [|auto with rel]. apply rel_with_sig_hashers with 0.
  apply rel_bind with 0; [|auto with rel]. unfold sign_all. apply rel_foldT. intros b i _. apply rel_foldT. intros b' sg _.
  apply rel_bind with 0; [apply rel_sign|auto with rel].
Qed.

Lemma rel_close full data : rel st 0 0 (close_session c cr s full data).
Proof.
  unfold close_session. apply rel_bind with 0.
  { apply rel_modify. intros r1 r2 []; constructor; cbn; auto; lia. }
  intros _. apply rel_bind with 0.
  { apply rel_gets. intros r1 r2 S. now rewrite (si_wire _ _ _ _ S). }
  intro first. apply rel_bind with 0; [auto with rel|intro nonce].
  destruct (s_kdf s) as [k|]; [|destruct (needs_key s); [auto with rel|apply rel_close_sign]].
  apply rel_bind with 1; [apply rel_establish|intro ap].
  apply rel_bind with 1; [auto with rel|intro ks]. cbn zeta.
  apply rel_bind with 2; [apply rel_setup|intros _].
  apply rel_deferred with 0; [apply sim_reset|].
  apply rel_bind with 2.
  { unfold encrypt. apply rel_foldT. intros b i Hi. apply rel_bind with 2; [now apply rel_cipher|intro d'].
    apply rel_bind with 2; [destruct full; [apply rel_modify; intros; now apply sim_set_buf|auto with rel]|auto with rel]. }
  intro d. apply rel_bind with 2.
  { apply rel_foldT. intros b i Hi. now apply rel_aead_seal. }
  intro d'. destruct (nonempty (s_macs s)).
  - apply rel_with_mac_hashers with 0. apply rel_bind with 2; [apply rel_macs|intro m].
    apply rel_le with 0 0; [lia|lia|]. apply rel_close_sign.
  - apply rel_le with 0 0; [lia|lia|]. apply rel_close_sign.
Qed.

Lemma rel_verify_all l : rel st 0 0 (verify_all cr s l).
Proof.
  unfold verify_all. apply rel_foldT. intros b i _. apply rel_foldT. intros n sg _.
  apply rel_bind with 0; [unfold sig_at; destruct (nth_error _ _); auto with rel|intro v].
  apply rel_bind with 0; [apply rel_verify|auto with rel].
Qed.
Lemma rel_with_signatures l {A} (x : M A) : rel st 0 0 x -> rel st 0 0 (with_signatures cr s l x).
Proof.
  intro H. unfold with_signatures. apply rel_with_sig_hashers with 0.
  apply rel_bind with 0; [auto with rel|intros _]. apply rel_bind with 0; [apply rel_verify_all|intros _]. exact H.
Qed.

Lemma rel_open_payload l : rel st 0 0 (open_payload c cr s l).
Proof.
  unfold open_payload. destruct (s_kdf s) as [k|]; [|destruct (needs_key s); auto with rel].
  apply rel_bind with 0; [auto with rel|intro w].
  apply rel_bind with 1.
  { destruct w; [apply rel_recv_handshake|]. apply rel_bind with 0; [auto with rel|intros _].
    apply rel_bind with 0; [auto with rel|intro m]. apply rel_kdf_init. }
  intros _. apply rel_bind with 2; [apply rel_setup|intros _].
  apply rel_deferred with 0; [apply sim_reset|]. cbn zeta.
  assert (B : rel st 2 0 (run d <- foldT (fun d i => aead_open cr (open_ad s l) i d) (l_data l) (rev (s_aead s)); decrypt cr s d)).
  { apply rel_le with 2 2; [lia|lia|]. apply rel_bind with 2.
    - apply rel_foldT. intros b i Hi. apply rel_aead_open. now apply in_rev.
    - intro d. unfold decrypt. apply rel_foldT. intros b i Hi. apply rel_bind with 2; [apply rel_cipher; now apply in_rev|].
      intro d'. apply rel_bind with 2; [|auto with rel]. apply rel_modify. intros r1 r2 S.
      rewrite (si_buf _ _ _ _ S). now apply sim_set_buf. }
  destruct (nonempty (s_macs s)); [|exact B].
  apply rel_with_mac_hashers with 0. apply rel_bind with 2; [apply rel_macs|intro m].
  apply rel_bind with 2; [auto with rel|intros _]. exact B.
Qed.

Lemma rel_open l : rel st 0 0 (open_session c cr s l).
Proof.
  unfold open_session. apply rel_bind with 0.
  { apply rel_modify. intros r1 r2 []; constructor; cbn; auto; lia. }
  intros _. apply rel_bind with 0; [auto with rel|intro w]. apply rel_bind with 0; [destruct w; auto with rel|intros _].
  destruct (nonempty _); [apply rel_with_signatures|]; apply rel_open_payload.
Qed.
Lemma rel_verify_session l : rel st 0 0 (verify_session cr s l).
Proof.
  unfold verify_session. apply rel_bind with 0.
  { apply rel_modify. intros r1 r2 []; constructor; cbn; auto; lia. }
  intros _. apply rel_bind with 0; [auto with rel|intro w]. apply rel_bind with 0; [destruct w; auto with rel|intros _].
  destruct (nonempty _); [apply rel_with_signatures|]; auto with rel.
Qed.
End R.
