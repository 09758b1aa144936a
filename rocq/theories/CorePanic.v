(** No operation of an opening session panics, if the letter has enough seals, the
    recipients' private keys are loaded and a tool is there for every password. *)
From Verif Require Import CoreMaterial CoreTrip PropTrip.

Definition np {A} (m : M A) : Prop := forall r, fst (m r) <> Panic.

Lemma np_ret {A} (a : A) : np (ret a). Proof. discriminate. Qed.
Lemma np_fail {A} e : np (@fail A e). Proof. discriminate. Qed.
Lemma np_check b e : np (check b e). Proof. destruct b; discriminate. Qed.
Lemma np_modify f : np (modify f). Proof. discriminate. Qed.
Lemma np_gets {A} (f : rt -> A) : np (gets f). Proof. discriminate. Qed.
Lemma np_upd i f : np (upd_tool i f). Proof. discriminate. Qed.
Lemma np_bind {A B} (m : M A) (f : A -> M B) : np m -> (forall a, np (f a)) -> np (mbind m f).
Proof. intros H1 H2 r. unfold mbind. specialize (H1 r). destruct (m r) as [[a|e|] r']; cbn in *; [apply H2|discriminate|congruence]. Qed.
Lemma np_foldT {A B} (f : B -> A -> M B) l : (forall b a, np (f b a)) -> forall b, np (foldT f b l).
Proof. intro H. induction l as [|a l IH]; intro b; cbn [foldT]; [apply np_ret|]. apply np_bind; auto. Qed.
Lemma np_deferred {A} f (m : M A) : np m -> np (deferred f m).
Proof. intros H r. unfold deferred. specialize (H r). destruct (m r). exact H. Qed.
#[export] Hint Resolve np_ret np_fail np_check np_modify np_gets np_upd np_bind np_foldT np_deferred : np.

Section S.
Variables (c : config) (cr : crypto) (s : session).

Lemma np_cipher i d : np (cipher cr i d). Proof. unfold cipher, tool_st. auto with np. Qed.
Lemma np_mac d ad i : np (mac cr d ad i). Proof. unfold mac, tool_st. apply np_bind; [auto with np|]. intro t. destruct (is_poly i); auto 8 with np. Qed.
Lemma np_aead ad i d : np (aead_open cr ad i d). Proof. intro r. unfold aead_open. destruct (cr_open _ _ _ _ _ _); discriminate. Qed.
Lemma np_with_mac {A} d (m : M A) : np m -> np (with_mac_hashers s d m).
Proof. intro H. unfold with_mac_hashers. auto with np. Qed.
Lemma np_with_sig {A} d (m : M A) : np m -> np (with_sig_hashers s d m).
Proof. intro H. unfold with_sig_hashers. auto with np. Qed.
Lemma np_verify i sg v : np (verify cr i sg v).
Proof. unfold verify. destruct (sg_pub sg); [|auto with np]. destruct (_ && _); auto with np. unfold digest. auto with np. Qed.

Definition payload_body (l : letter) : M bytes :=
  let body := run d <- foldT (fun d i => aead_open cr (open_ad s l) i d) (l_data l) (rev (s_aead s)); decrypt cr s d in
  if nonempty (s_macs s)
  then with_mac_hashers s (l_data l ++ open_ad s l)
         (run m <- macs cr s (l_data l) (open_ad s l); run _ <- check (bytes_eqb (l_mac l) m) EIntegrity; body)
  else body.
Lemma np_payload_body l : np (payload_body l).
Proof.
  unfold payload_body. assert (B : np (run d <- foldT (fun d i => aead_open cr (open_ad s l) i d) (l_data l) (rev (s_aead s)); decrypt cr s d)).
  { apply np_bind; [apply np_foldT; intros; apply np_aead|]. intro d. unfold decrypt. apply np_foldT. intros b a.
    apply np_bind; [apply np_cipher|]. auto with np. }
  destruct (nonempty (s_macs s)); [|exact B]. apply np_with_mac. apply np_bind; [|auto with np].
  unfold macs. apply np_foldT. intros b a. apply np_bind; [apply np_mac|auto with np].
Qed.

(** Setup needs a derived secret. *)
Definition keyed_np {A} (m : M A) : Prop := forall r, r_kdf r <> None -> fst (m r) <> Panic /\ r_kdf (snd (m r)) <> None.
Lemma kn_bind {A B} (m : M A) (f : A -> M B) : keyed_np m -> (forall a, keyed_np (f a)) -> keyed_np (mbind m f).
Proof.
  intros H1 H2 r K. unfold mbind. destruct (H1 r K) as [P K1]. destruct (m r) as [[a|e|] r']; cbn in *; [now apply H2|split; [discriminate|exact K1]|congruence].
Qed.
Lemma kn_read n : keyed_np (kdf_read cr s n).
Proof. intros r K. unfold kdf_read. destruct (r_kdf r) eqn:E; [|congruence]. destruct (cr_kdf _ _ _ _ _ _ _); cbn; split; try discriminate. congruence. Qed.
Lemma kn_upd i f : keyed_np (upd_tool i f). Proof. intros r K. cbn. split; [discriminate|exact K]. Qed.
Lemma kn_ret {A} (a : A) : keyed_np (ret a). Proof. intros r K. cbn. split; [discriminate|exact K]. Qed.
Lemma kn_setup : keyed_np (setup cr s).
Proof.
  unfold setup. induction (s_stateful s) as [|i l IH]; cbn [each]; [apply kn_ret|]. apply kn_bind; [|auto].
  unfold setup_tool. apply kn_bind; [apply kn_read|intro k]. apply kn_bind; [apply kn_upd|intros _].
  apply kn_bind; [|intros _; apply kn_upd]. destruct (has_iv i); [|apply kn_ret]. apply kn_bind; [apply kn_read|intro; apply kn_upd].
Qed.

(** Key material: [within k n m]: started with at least [n] seals left of [k], [m] does not
    panic and uses at most [n] of them. *)
Definition within (k n : nat) {A} (m : M A) : Prop := forall r, r_wire r = None -> r_idx r + n <= k ->
  fst (m r) <> Panic /\ r_wire (snd (m r)) = None /\ r_idx (snd (m r)) <= r_idx r + n.
Lemma wi_bind k n1 n2 n {A B} (m : M A) (f : A -> M B) : n1 + n2 <= n -> within k n1 m -> (forall a, within k n2 (f a)) -> within k n (mbind m f).
Proof.
  intros L H1 H2 r W I. unfold mbind. destruct (H1 r W) as (P & W1 & I1); [lia|]. destruct (m r) as [[a|e|] r']; cbn in *.
  - destruct (H2 a r' W1) as (P2 & W2 & I2); [lia|]. repeat split; auto. lia.
  - repeat split; auto; [discriminate|lia].
  - congruence.
Qed.
Lemma wi_each k n {A} (f : A -> M unit) l : (forall a, In a l -> within k n (f a)) -> within k (length l * n) (each f l).
Proof.
  intro H. induction l as [|a l IH]; cbn [each length].
  - intros r W I. cbn. repeat split; auto; [discriminate|lia].
  - eapply wi_bind with (n1 := n) (n2 := length l * n); [lia|apply H; now left|]. intros _. apply IH. intros; apply H; now right.
Qed.
Lemma wi_each_last k {A} (f : A -> M unit) (g : A -> nat) l : (forall a, In a l -> within k (g a) (f a)) -> within k (list_sum (map g l)) (each_last f l).
Proof.
  intro H. induction l as [|a [|b l] IH].
  - intros r W I. cbn. repeat split; auto; [discriminate|lia].
  - cbn [map list_sum fold_right each_last]. rewrite Nat.add_0_r. apply H. now left.
  - intros r W I. rewrite each_last_cons. cbn [map list_sum fold_right] in I. destruct (H a (or_introl eq_refl) r W) as (P & W1 & I1); [lia|].
    assert (IH' : within k (list_sum (map g (b :: l))) (each_last f (b :: l))) by (apply IH; intros; apply H; now right).
    destruct (f a r) as [[u|e|] r']; cbn [fst snd] in *.
    1, 2: destruct (IH' r' W1) as (P2 & W2 & I2); [cbn in *; lia|]; repeat split; auto; cbn in *; lia.
    congruence.
Qed.
Lemma wi_free k {A} (m : M A) : np m -> (forall r, r_wire r = None -> r_wire (snd (m r)) = None /\ r_idx (snd (m r)) = r_idx r) -> within k 0 m.
Proof. intros P H r W I. destruct (H r W). repeat split; auto. lia. Qed.
Lemma wi_le k n n' {A} (m : M A) : n <= n' -> within k n m -> within k n' m.
Proof. intros L H r W I. destruct (H r W) as (P & Q & R); [lia|]. repeat split; auto. lia. Qed.

Lemma wi_mat k m : within k 0 (add_mat m). Proof. apply wi_free; [apply np_modify|]. intros r W. cbn. auto. Qed.
Lemma wi_check k b e : within k 0 (check b e). Proof. apply wi_free; [apply np_check|]. intros r W. destruct b; cbn; auto. Qed.
Lemma wi_next k : within k 1 next_idx. Proof. intros r W I. cbn. repeat split; auto; [discriminate|lia]. Qed.
Lemma wi_lift k {A} (x : outcome A) : x <> Panic -> within k 0 (lift x).
Proof. intro H. apply wi_free; [intro r; exact H|]. intros r W. cbn. auto. Qed.
Lemma wi_wire k f : within k 0 (upd_wire f).
Proof. apply wi_free; [apply np_modify|]. intros r W. unfold upd_wire, modify. rewrite W. cbn. auto. Qed.

Hypothesis load_safe : forall t k b, cr_load cr t k b <> Panic.
Hypothesis pw_tool : loop scheme_pw (e_secrets (s_env s)) <> [] -> s_pass s <> None.
Hypothesis privs : forall sg i, In i (s_kx s ++ s_ke s) -> In sg (loop (i_name i) (e_recipients (s_env s))) -> exists k, sg_priv sg = PKey k.

Lemma wi_open_key k sg : within k 1 (open_key sg).
Proof. unfold open_key. eapply wi_bind with (n1 := 0) (n2 := 1); [lia|apply wi_mat|]. intros _. apply wi_next. Qed.
Lemma wi_open_pw k n sg : In sg (loop scheme_pw (e_secrets (s_env s))) -> within k 1 (open_pw c cr s n sg).
Proof.
  intro H. unfold open_pw. eapply wi_bind with (n1 := 0) (n2 := 1); [lia|apply wi_check|]. intros _.
  eapply wi_bind with (n1 := 0) (n2 := 1); [lia| |intro m; eapply wi_bind with (n1 := 0) (n2 := 1); [lia|apply wi_mat|]; intros _; apply wi_next].
  unfold derive_pw. destruct (s_pass s) eqn:E; [|exfalso; apply pw_tool; [intro Z; rewrite Z in H; easy|reflexivity]].
  apply wi_lift. destruct (cr_pwd _ _ _ _ _); discriminate.
Qed.

(** key_at followed by next_idx. *)
Lemma wi_key_next l {B} (f : seal -> M B) : (forall v, within (length (l_keys l)) 0 (f v)) ->
  within (length (l_keys l)) 1 (run k <- key_at l; run _ <- next_idx; f k).
Proof.
  intros H r W I. destruct (nth_error (l_keys l) (r_idx r)) as [v|] eqn:E.
  2:{ apply nth_error_None in E. lia. }
  assert (KA : key_at l r = (Ok v, r)) by (unfold key_at; now rewrite E). rewrite (mbind_run _ _ _ _ _ KA).
  assert (X : within (length (l_keys l)) 1 (run _ <- next_idx; f v)).
  { eapply wi_bind with (n1 := 1) (n2 := 0); [lia|apply wi_next|]. intros _. apply H. }
  apply X; auto.
Qed.
Lemma wi_open_kx l i sg : (exists k, sg_priv sg = PKey k) -> within (length (l_keys l)) 1 (open_kx cr l i sg).
Proof.
  intros (k & EK). unfold open_kx. apply wi_key_next. intro v.
  eapply wi_bind with (n1 := 0) (n2 := 0); [lia|apply wi_lift, load_safe|]. intros [p q].
  eapply wi_bind with (n1 := 0) (n2 := 0); [lia|apply wi_wire|]. intros _.
  eapply wi_bind with (n1 := 0) (n2 := 0); [lia| |intro; apply wi_mat].
  rewrite EK. unfold shared. apply wi_free; [apply np_ret|]. intros r W. cbn. auto.
Qed.
Lemma wi_open_ke l i sg : (exists k, sg_priv sg = PKey k) -> within (length (l_keys l)) 1 (open_ke cr l i sg).
Proof.
  intros (k & EK). unfold open_ke. eapply wi_bind with (n1 := 0) (n2 := 1); [lia|apply wi_wire|]. intros _.
  intros r W I. destruct (nth_error (l_keys l) (r_idx r)) as [v|] eqn:E.
  2:{ apply nth_error_None in E. lia. }
  assert (KA : key_at l r = (Ok v, r)) by (unfold key_at; now rewrite E). rewrite (mbind_run _ _ _ _ _ KA).
  assert (X : within (length (l_keys l)) 1 (run x <- unwrap cr i (sg_priv sg) (seal_value v); run _ <- next_idx; add_mat x)).
  { rewrite EK. unfold unwrap. eapply wi_bind with (n1 := 0) (n2 := 1); [lia|apply wi_lift; destruct (cr_unwrap _ _ _ _ _); discriminate|].
    intro x. eapply wi_bind with (n1 := 1) (n2 := 0); [lia|apply wi_next|]. intros _. apply wi_mat. }
  apply X; auto.
Qed.

Lemma flat_len {A} (f : A -> list signet) (l : list A) : list_sum (map (fun a => length (f a)) l) = length (flat_map f l).
Proof. induction l as [|a l IH]; cbn; [reflexivity|]. rewrite app_length. cbn in IH. now rewrite <- IH. Qed.

Definition seals_used : nat :=
  length (loop scheme_key (e_secrets (s_env s))) + length (loop scheme_pw (e_secrets (s_env s)))
  + length (flat_map (fun i => loop (i_name i) (e_recipients (s_env s))) (s_kx s))
  + length (flat_map (fun i => loop (i_name i) (e_recipients (s_env s))) (s_ke s)).

Lemma wi_opening_material l : within (length (l_keys l)) seals_used (opening_material c cr s l).
Proof.
  unfold opening_material, env. eapply wi_bind with (n1 := 0) (n2 := seals_used); [lia|apply wi_free; [apply np_gets|cbn; auto]|]. intro w.
  eapply wi_bind with (n1 := 0) (n2 := seals_used); [lia|destruct w; [apply wi_free; [apply np_ret|cbn; auto]|apply wi_check]|]. intros _.
  unfold seals_used. set (n1 := length (loop scheme_key _)). set (n2 := length (loop scheme_pw _)).
  set (n3 := length (flat_map _ (s_kx s))). set (n4 := length (flat_map _ (s_ke s))).
  eapply wi_bind with (n1 := n1 * 1) (n2 := n2 + n3 + n4); [lia|apply wi_each; intros; apply wi_open_key|intros _].
  eapply wi_bind with (n1 := n2 * 1) (n2 := n3 + n4); [lia|apply wi_each; intros; now apply wi_open_pw|intros _].
  eapply wi_bind with (n1 := n3) (n2 := n4); [lia| |intros _].
  - unfold n3. rewrite <- flat_len. apply wi_each_last. intros i Hi.
    eapply wi_le with (n := length (loop (i_name i) (e_recipients (s_env s))) * 1); [lia|]. apply wi_each. intros sg Hsg. apply wi_open_kx.
    eapply privs; [apply in_or_app; left; exact Hi|exact Hsg].
  - unfold n4. rewrite <- flat_len. apply wi_each_last. intros i Hi.
    eapply wi_le with (n := length (loop (i_name i) (e_recipients (s_env s))) * 1); [lia|]. apply wi_each. intros sg Hsg. apply wi_open_ke.
    eapply privs; [apply in_or_app; right; exact Hi|exact Hsg].
Qed.

Lemma open_payload_np l r : r_wire r = None -> r_idx r = 0 -> seals_used <= length (l_keys l) -> fst (open_payload c cr s l r) <> Panic.
Proof.
  intros W I L. unfold open_payload. destruct (s_kdf s); [|destruct (needs_key s); discriminate].
  unfold is_wire, gets, mbind at 1. rewrite W. cbn [is_none negb].
  destruct (wi_opening_material l r W) as (P & W1 & _); [lia|].
  unfold mbind. destruct (opening_material c cr s l r) as [[u|e|] r1]; cbn [fst snd] in *; [|discriminate|congruence].
  unfold kdf_init. destruct (_ || _); [discriminate|]. unfold modify.
  match goal with |- context [setup cr s ?x] => destruct (kn_setup x) as [P2 _]; [discriminate|]; destruct (setup cr s x) as [[u'|e|] r2]; cbn [fst snd] in * end;
    [|discriminate|congruence].
  apply (np_deferred _ _ (np_payload_body l)).
Qed.

Definition vstep (l : letter) (i : inst) (n : nat) (sg : signet) : M nat :=
  run v <- sig_at l n; run _ <- verify cr i sg (seal_value v); ret (S n).
Lemma vstep_np l i n sg r : n < length (l_sigs l) ->
  fst (vstep l i n sg r) <> Panic /\ forall m r', vstep l i n sg r = (Ok m, r') -> m = S n.
Proof.
  intro L. unfold vstep. destruct (nth_error (l_sigs l) n) as [v|] eqn:E; [|apply nth_error_None in E; lia].
  assert (SA : sig_at l n r = (Ok v, r)) by (unfold sig_at; now rewrite E). rewrite (mbind_run _ _ _ _ _ SA).
  unfold mbind. pose proof (np_verify i sg (seal_value v) r) as P. destruct (verify cr i sg (seal_value v) r) as [[u|e|] r1]; cbn [fst] in P.
  - split; [discriminate|]. intros m r' H. injection H as <- _. reflexivity.
  - split; [discriminate|]. intros m r' H. discriminate.
  - congruence.
Qed.
Lemma verify_inner l i L : forall n r, n + length L <= length (l_sigs l) ->
  fst (foldT (vstep l i) n L r) <> Panic
  /\ forall m r', foldT (vstep l i) n L r = (Ok m, r') -> m = n + length L.
Proof.
  induction L as [|sg L IH]; intros n r LE; cbn [foldT length] in *.
  - split; [discriminate|]. intros m r' H. injection H as <- _. lia.
  - destruct (vstep_np l i n sg r) as [P Q]; [lia|]. unfold mbind. destruct (vstep l i n sg r) as [[k|e|] r1]; cbn [fst] in P.
    + rewrite (Q _ _ eq_refl). destruct (IH (S n) r1) as [IH1 IH2]; [lia|]. split; [exact IH1|]. intros m r' H. apply IH2 in H. lia.
    + split; [discriminate|]. intros m r' H. discriminate.
    + congruence.
Qed.
Lemma verify_all_np l r : length (flat_map (fun i => loop (i_name i) (e_senders (s_env s))) (s_signers s)) <= length (l_sigs l) ->
  fst (verify_all cr s l r) <> Panic.
Proof.
  intro LE. unfold verify_all, env. revert r LE.
  assert (G : forall I n r, n + length (flat_map (fun i => loop (i_name i) (e_senders (s_env s))) I) <= length (l_sigs l) ->
    fst (foldT (fun n i => foldT (vstep l i) n (loop (i_name i) (e_senders (s_env s)))) n I r) <> Panic).
  { induction I as [|i I IH]; intros n r LE; cbn [foldT flat_map] in *; [discriminate|]. rewrite app_length in LE.
    unfold mbind at 1. destruct (verify_inner l i (loop (i_name i) (e_senders (s_env s))) n r) as [P Q]; [lia|].
    destruct (foldT _ n _ r) as [[m|e|] r1]; cbn [fst] in *; [|discriminate|congruence]. apply IH. rewrite (Q m r1 eq_refl). lia. }
  intros r LE. now apply G.
Qed.

Definition ro {A} (m : M A) : Prop := forall r, snd (m r) = r.
Lemma ro_bind {A B} (m : M A) (f : A -> M B) : ro m -> (forall a, ro (f a)) -> ro (mbind m f).
Proof. intros H1 H2 r. unfold mbind. specialize (H1 r). destruct (m r) as [[a|e|] r']; cbn in H1; subst; [apply H2|reflexivity..]. Qed.
Lemma ro_foldT {A B} (f : B -> A -> M B) l : (forall b a, ro (f b a)) -> forall b, ro (foldT f b l).
Proof. intro H. induction l as [|a l IH]; intro b; cbn [foldT]; [intro; reflexivity|]. now apply ro_bind. Qed.
Lemma ro_verify_all l : ro (verify_all cr s l).
Proof.
  unfold verify_all. apply ro_foldT. intros n i. apply ro_foldT. intros n' sg. apply ro_bind; [intro r; unfold sig_at; destruct (nth_error _ _); reflexivity|].
  intro v. apply ro_bind; [|intros _ r; reflexivity]. intro r. unfold verify. destruct (sg_pub sg); [|reflexivity]. destruct (_ && _); [reflexivity|].
  unfold digest, gets, mbind, check. destruct (cr_verify _ _ _ _ _ _); reflexivity.
Qed.

Definition senders_used : nat := length (flat_map (fun i => loop (i_name i) (e_senders (s_env s))) (s_signers s)).

Lemma with_signatures_np {A} l (m : M A) r : senders_used = length (e_senders (s_env s)) ->
  r_wire r = None -> r_idx r = 0 -> (forall r, r_wire r = None -> r_idx r = 0 -> fst (m r) <> Panic) -> fst (with_signatures cr s l m r) <> Panic.
Proof.
  intros SU W I H. unfold with_signatures, with_sig_hashers. unfold mbind at 1, modify. cbv beta iota. unfold env, deferred.
  match goal with |- context [mbind (check ?b ?e) ?f ?x] => assert (X : fst (mbind (check b e) f x) <> Panic);
    [|destruct (mbind (check b e) f x); exact X] end.
  unfold mbind at 1. destruct (length (e_senders (s_env s)) =? length (l_sigs l))%nat eqn:E; cbn [check]; [|discriminate].
  unfold ret. cbv beta iota. apply Nat.eqb_eq in E. unfold mbind at 1.
  match goal with |- context [verify_all cr s l ?x] => pose proof (verify_all_np l x) as P; pose proof (ro_verify_all l x) as Q;
    destruct (verify_all cr s l x) as [[k|e|] r1]; cbn [fst snd] in * end.
  - subst r1. apply H; cbn; assumption.
  - discriminate.
  - exfalso. apply P; [|reflexivity]. fold senders_used. lia.
Qed.

Lemma open_session_np l d : seals_used <= length (l_keys l) -> (s_signers s <> [] -> senders_used = length (e_senders (s_env s))) ->
  fst (open_session c cr s l (rt_start d None)) <> Panic.
Proof.
  intros L SU. unfold open_session. unfold mbind at 1, modify. cbv beta iota. unfold mbind at 1, is_wire, gets. cbn [r_wire set_buf set_acc rt_start is_none negb].
  unfold mbind. destruct (l_version l =? 1)%N; cbn [check]; [|discriminate]. unfold ret. cbv beta iota.
  destruct (s_signers s) as [|i I] eqn:E; cbn [nonempty].
  - now apply open_payload_np.
  - apply with_signatures_np; auto; [apply SU; discriminate|]. intros r W I0. now apply open_payload_np.
Qed.
Lemma verify_session_np l d : (s_signers s <> [] -> senders_used = length (e_senders (s_env s))) ->
  fst (verify_session cr s l (rt_start d None)) <> Panic.
Proof.
  intros SU. unfold verify_session. unfold mbind at 1, modify. cbv beta iota. unfold mbind at 1, is_wire, gets. cbn [r_wire set_buf set_acc rt_start is_none negb].
  unfold mbind. destruct (l_version l =? 1)%N; cbn [check]; [|discriminate]. unfold ret. cbv beta iota.
  destruct (s_signers s) as [|i I] eqn:E; cbn [nonempty]; [discriminate|].
  apply with_signatures_np; auto; [apply SU; discriminate|]. discriminate.
Qed.
End S.

(** ** newSession never panics, if loading keys does not. *)
Lemma bind_np {A B} (x : outcome A) (f : A -> outcome B) : x <> Panic -> (forall a, x = Ok a -> f a <> Panic) -> bind x f <> Panic.
Proof. intros H1 H2. destruct x; cbn; [now apply H2|discriminate|congruence]. Qed.
Lemma other_np {A} (x : outcome A) : x <> Panic -> other x <> Panic.
Proof. destruct x; cbn; congruence. Qed.
Lemma guard_np b e : guard b e <> Panic. Proof. destruct b; discriminate. Qed.
Lemma foldM_np {A S} (f : S -> A -> outcome S) l : (forall s a, f s a <> Panic) -> forall s, foldM f s l <> Panic.
Proof. intro H. induction l as [|a l IH]; intro s; cbn; [discriminate|]. apply bind_np; auto. Qed.
Lemma foldM_np_in {A S} (f : S -> A -> outcome S) l : (forall s a, In a l -> f s a <> Panic) -> forall s, foldM f s l <> Panic.
Proof. induction l as [|a l IH]; intros H s; cbn; [discriminate|]. apply bind_np; [apply H; now left|]. intros. apply IH. intros; apply H; now right. Qed.

Section N.
Variables (c : config) (reg : list tool) (hreg : list hashtool) (cr : crypto).
Hypothesis load_safe : forall t k b, cr_load cr t k b <> Panic.

Lemma check_level_np e l : check_level c e l <> Panic.
Proof. unfold check_level. repeat destruct (0 <? _)%Z; apply guard_np. Qed.
Lemma tool_level_np i sg : tool_level cr i sg <> Panic.
Proof.
  unfold tool_level. destruct (is_rsa _); [|destruct (i_hash i); [repeat destruct (_ =? _)%Z; repeat destruct (_ <? _)%Z|]; discriminate].
  destruct sg; [|discriminate]. apply bind_np.
  - unfold load_key. destruct (sg_pub s); [discriminate|]. destruct (sg_prot s); [discriminate|]. apply bind_np; [apply load_safe|]. intros [p k] _. discriminate.
  - intros sg' _. destruct (sg_pub sg'); [|discriminate]. cbv zeta. destruct (_ <? _)%Z; discriminate.
Qed.
Lemma calc_level_np i sg : (i = None -> exists s, sg = Some s /\ sg_scheme s = scheme_key) -> calc_level cr i sg <> Panic.
Proof.
  intro H. unfold calc_level. destruct sg as [s|].
  - destruct (bytes_eqb (sg_scheme s) scheme_key) eqn:EK; [discriminate|].
    assert (NI : exists j, i = Some j).
    { destruct i; [eauto|]. destruct (H eq_refl) as (s' & E & ES). injection E as <-. rewrite ES, bytes_eqb_refl in EK. discriminate. }
    destruct NI as (j & ->). destruct (bytes_eqb (sg_scheme s) scheme_pw); [|apply tool_level_np].
    destruct (sg_key s); [discriminate|]. cbv zeta. destruct (_ <? _)%Z; discriminate.
  - destruct i; [apply tool_level_np|]. destruct (H eq_refl) as (s' & E & _). discriminate.
Qed.
Lemma calc_and_check_np s i sg : (i = None -> exists s, sg = Some s /\ sg_scheme s = scheme_key) -> calc_and_check c cr s i sg <> Panic.
Proof.
  intro H. unfold calc_and_check. apply bind_np; [now apply calc_level_np|]. intros l _. destruct (l =? 0)%Z; [discriminate|]. destruct (l <? 0)%Z; [discriminate|].
  apply bind_np; [apply check_level_np|]. discriminate.
Qed.
Lemma tool_hash_np p arg opts : forall acc, tool_hash hreg p arg opts acc <> Panic.
Proof.
  assert (G : hash_get hreg arg <> Panic) by (unfold hash_get, of_option; destruct (find _ _); discriminate).
  induction opts as [|o opts IH]; intro acc; cbn; [discriminate|]. destruct o; try apply IH.
  - destruct p; try discriminate; apply bind_np; auto.
  - apply bind_np; auto.
Qed.
Lemma init_tool_np ids s x : init_tool c reg hreg cr ids s x <> Panic.
Proof.
  unfold init_tool. destruct x as [idx id]. apply bind_np; [apply guard_np|]. intros _ _. destruct (parse_tool_id id) as [name arg].
  apply bind_np; [apply other_np; unfold tools_get, of_option; destruct (find _ _); discriminate|]. intros t _.
  apply bind_np; [apply other_np, tool_hash_np|]. intros h _. cbv zeta. apply bind_np.
  - unfold assign. cbv zeta. destruct (t_purpose _); try discriminate; [destruct (s_kdf s)|destruct (s_pass s)]; discriminate.
  - intros s1 _. apply bind_np; [apply calc_and_check_np; discriminate|]. discriminate.
Qed.
Lemma new_session_np e : new_session c reg hreg cr e <> Panic.
Proof.
  unfold new_session. destruct (e_suite e) as [su|]; [|discriminate].
  apply bind_np; [destruct (0 <? _)%Z; [apply check_level_np|discriminate]|]. intros _ _.
  apply bind_np; [apply check_level_np|]. intros _ _. apply bind_np; [apply foldM_np; intros; apply init_tool_np|]. intros s _.
  apply bind_np.
  { apply foldM_np. intros [[s0 n] b] i. unfold check_signets. destruct (signets_for _ _); [|discriminate]. apply bind_np.
    - apply foldM_np. intros. apply calc_and_check_np. discriminate.
    - intros. apply bind_np; [apply guard_np|]. discriminate. }
  intros st _. apply bind_np.
  { apply foldM_np_in. intros [[s0 n] b] sg Hsg. unfold check_key_secret. cbv zeta. apply bind_np; [|discriminate]. apply calc_and_check_np. intros _. exists sg. split; [reflexivity|].
    unfold loop in Hsg. apply filter_In in Hsg as [_ Hsg]. now apply bytes_eqb_eq in Hsg. }
  intros [[s0 n] b] _. cbv zeta. apply bind_np; [|discriminate].
  unfold final_checks. cbv zeta. repeat (apply bind_np; [first [apply guard_np | unfold req_check; destruct (req_missing _ _); discriminate | idtac]|intros _ _]); try apply check_level_np.
  all: unfold req_check; repeat match goal with |- context [if ?b then _ else _] => destruct b end; discriminate.
Qed.
End N.
