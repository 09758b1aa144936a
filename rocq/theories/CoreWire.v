(** Wire sessions: what sending and receiving do, as functions of the wire state. *)
From Verif Require Export CoreOpen PropTrip.

(** ** Operations that do not look at the wire state *)
Definition wb {A} (m : M A) : Prop := forall r w, m (set_wire r w) = (fst (m r), set_wire (snd (m r)) w).
Lemma wb_bind {A B} (m : M A) (f : A -> M B) : wb m -> (forall a, wb (f a)) -> wb (mbind m f).
Proof. intros H1 H2 r w. unfold mbind. rewrite (H1 r w). destruct (m r) as [[a|e|] r']; cbn [fst snd]; [apply H2|reflexivity..]. Qed.
Lemma wb_ret {A} (a : A) : wb (ret a). Proof. now intros r w. Qed.
Lemma wb_fail {A} e : wb (@fail A e). Proof. now intros r w. Qed.
Lemma wb_panic {A} : wb (@panic A). Proof. now intros r w. Qed.
Lemma wb_lift {A} (x : outcome A) : wb (lift x). Proof. now intros r w. Qed.
Lemma wb_check b e : wb (check b e). Proof. destruct b; now intros r w. Qed.
Lemma wb_upd_tool i f : wb (upd_tool i f). Proof. now intros r w. Qed.
Lemma wb_tool_st i : wb (tool_st i). Proof. now intros r w. Qed.
Lemma wb_digest cr i : wb (digest cr i). Proof. now intros r w. Qed.
Lemma wb_each {A} (f : A -> M unit) l : (forall a, wb (f a)) -> wb (each f l).
Proof. intro H. induction l; cbn [each]; [apply wb_ret|]. now apply wb_bind. Qed.
Lemma wb_foldT {A B} (f : B -> A -> M B) l : (forall b a, wb (f b a)) -> forall b, wb (foldT f b l).
Proof. intro H. induction l; intro b; cbn [foldT]; [apply wb_ret|]. now apply wb_bind. Qed.
Lemma wb_deferred {A} f (m : M A) : (forall r w, f (set_wire r w) = set_wire (f r) w) -> wb m -> wb (deferred f m).
Proof. intros H1 H2 r w. unfold deferred. rewrite (H2 r w). destruct (m r). cbn [fst snd]. now rewrite H1. Qed.
Lemma wb_set_buf g : (forall r w, g (set_wire r w) = g r) -> wb (modify (fun r => set_buf r (g r))).
Proof. intros H r w. unfold modify. rewrite H. reflexivity. Qed.
#[export] Hint Resolve wb_ret wb_fail wb_panic wb_lift wb_check wb_upd_tool wb_tool_st wb_digest : wb.
Ltac wb_auto := repeat first
  [ solve [auto with wb] | apply wb_bind; [|intro] | apply wb_each; intro | apply wb_foldT; intros
  | apply wb_set_buf; intros; reflexivity
  | match goal with |- wb (match ?x with _ => _ end) => destruct x end ].

Section WB.
Variables (cr : crypto) (s : session).
Lemma wb_kdf_read z : wb (kdf_read cr s z).
Proof. intros r w. unfold kdf_read. cbn [set_wire r_kdf]. destruct (r_kdf r); [destruct (cr_kdf _ _ _ _ _ _ _)|]; reflexivity. Qed.
Hint Resolve wb_kdf_read : wb.
Lemma wb_setup : wb (setup cr s). Proof. unfold setup, setup_tool. wb_auto. Qed.
Lemma wb_mac d ad i : wb (mac cr d ad i). Proof. unfold mac. wb_auto. Qed.
Lemma wb_sign i sg : wb (sign cr i sg).
Proof. unfold sign. destruct (sg_priv sg); wb_auto. intros r w. reflexivity. Qed.
Lemma wb_cipher i d : wb (cipher cr i d). Proof. unfold cipher. wb_auto. Qed.
Lemma wb_seal ad i d : wb (aead_seal cr ad i d). Proof. unfold aead_seal. wb_auto. Qed.
Lemma wb_open ad i d : wb (aead_open cr ad i d).
Proof. intros r w. unfold aead_open. cbn [set_wire r_tools]. destruct (cr_open _ _ _ _ _ _); [reflexivity|]. destruct (_ <? _)%nat; reflexivity. Qed.
Hint Resolve wb_setup wb_mac wb_sign wb_cipher wb_seal wb_open : wb.
Lemma wb_with_mac {A} d (m : M A) : wb m -> wb (with_mac_hashers s d m).
Proof. intro H. unfold with_mac_hashers. apply wb_bind; [now intros r w|intros _]. apply wb_deferred; [reflexivity|exact H]. Qed.
Lemma wb_with_sig {A} d (m : M A) : wb m -> wb (with_sig_hashers s d m).
Proof. intro H. unfold with_sig_hashers. apply wb_bind; [now intros r w|intros _]. apply wb_deferred; [reflexivity|exact H]. Qed.
Lemma wb_reset r w : reset s (set_wire r w) = set_wire (reset s r) w.
Proof. unfold reset. revert r. induction (s_stateful s) as [|i l IH]; intro r; [reflexivity|]. cbn [fold_left]. now rewrite <- IH. Qed.
Lemma wb_close_sign l ad : wb (close_sign cr s l ad).
Proof. unfold close_sign. destruct (nonempty _); [|auto with wb]. apply wb_with_sig. unfold sign_all. wb_auto. Qed.
Lemma wb_close_tail full data l : wb (close_tail cr s full data l).
Proof.
  unfold close_tail. apply wb_bind; [apply wb_setup|intros _]. apply wb_deferred; [apply wb_reset|].
  apply wb_bind; [unfold encrypt; wb_auto|intro d]. cbv zeta. apply wb_bind; [wb_auto|intro d'].
  destruct (nonempty _); [|apply wb_close_sign]. apply wb_with_mac. apply wb_bind; [unfold macs; wb_auto|intro m]. apply wb_close_sign.
Qed.
Lemma wb_open_tail l : wb (open_tail cr s l).
Proof.
  unfold open_tail. apply wb_bind; [apply wb_setup|intros _]. apply wb_deferred; [apply wb_reset|]. cbv zeta.
  assert (B : wb (run d <- foldT (fun d i => aead_open cr (open_ad s l) i d) (l_data l) (rev (s_aead s)); decrypt cr s d)).
  { apply wb_bind; [wb_auto|intro d]. unfold decrypt. wb_auto. }
  destruct (nonempty _); [|exact B]. apply wb_with_mac. apply wb_bind; [unfold macs; wb_auto|intro m]. apply wb_bind; [auto with wb|intros _]. exact B.
Qed.
End WB.
Lemma wb_keeps {A} (m : M A) r : wb m -> r_wire (snd (m r)) = r_wire r.
Proof. intro H. specialize (H r (r_wire r)). assert (E : set_wire r (r_wire r) = r) by (destruct r; reflexivity). rewrite E in H.
  rewrite H. reflexivity. Qed.

(** ** A session at rest *)
Record calm (r : rt) : Prop := {
  ca_mach : forall x, r_mach r x = [];
  ca_sigh : forall x, r_sigh r x = [];
  ca_used : forall n, ts_used (r_tools r n) = false
}.
Lemma calm_held r : calm r -> held no_use (fun _ => []) (fun _ => []) (set_wire r None).
Proof. intros []. constructor; cbn; auto. Qed.
Lemma held_calm r w : held no_use (fun _ => []) (fun _ => []) r -> calm (set_wire r w).
Proof. intros []. constructor; cbn; auto. Qed.

Section Tail.
Variables (cr : crypto) (s : session).
Hypothesis sound : sound_session s.
Lemma macs_state i : In i (s_macs s) -> In i (s_stateful s).
Proof. intros; apply (ss_keyed _ sound); tauto. Qed.
Lemma keep_close_tail full data l : keep no_use (fun _ => []) (fun _ => []) (close_tail cr s full data l).
Proof.
  unfold close_tail. apply keep_bind; [apply keep_setup|intros _]. apply keep_reset. apply keep_bind.
  { unfold encrypt. apply keep_foldT. intros b i _. apply keep_bind; [apply keep_cipher|intro d'].
    apply keep_bind; [destruct full; auto with keep|auto with keep]. }
  intro d. apply keep_bind; [apply keep_foldT; intros; apply keep_aead_seal|intro d'].
  destruct (nonempty _).
  - apply keep_with_mac. intro hm. apply keep_bind; [apply keep_macs; exact macs_state|intro m]. apply keep_close_sign.
  - apply keep_close_sign.
Qed.
Lemma keep_open_tail l : keep no_use (fun _ => []) (fun _ => []) (open_tail cr s l).
Proof.
  unfold open_tail. apply keep_bind; [apply keep_setup|intros _]. apply keep_reset. cbn zeta.
  assert (B : forall hm, keep (U s) hm (fun _ => []) (run d <- foldT (fun d i => aead_open cr (open_ad s l) i d) (l_data l) (rev (s_aead s)); decrypt cr s d)).
  { intro hm. apply keep_bind; [apply keep_foldT; intros; apply keep_aead_open|intro d].
    unfold decrypt. apply keep_foldT. intros b i _. apply keep_bind; [apply keep_cipher|intro d'].
    apply keep_bind; auto with keep. }
  destruct (nonempty _); [|apply B].
  apply keep_with_mac. intro hm. apply keep_bind; [apply keep_macs; exact macs_state|intro m]. apply keep_bind; [auto with keep|intros _]. apply B.
Qed.
Lemma tail_calm {A} (m : M A) r : wb m -> keep no_use (fun _ => []) (fun _ => []) m -> calm r -> calm (snd (m r)) /\ r_wire (snd (m r)) = r_wire r.
Proof.
  intros W K C. split; [|now apply wb_keeps].
  pose proof (W (set_wire r None) (r_wire r)) as E. assert (ER : set_wire (set_wire r None) (r_wire r) = r) by (destruct r; reflexivity).
  rewrite ER in E. rewrite E. cbn [snd]. apply held_calm. apply K. now apply calm_held.
Qed.

(** Close, from the moment the key derivation is ready. *)
Lemma wire_close_tail full data l nonce secret off r l' r' :
  calm r -> r_kdf r = Some (mkKdf nonce secret off) -> l_sigs l = [] -> l_mac l = [] -> r_buf r = data -> s_signers s = [] ->
  close_tail cr s full data l r = (Ok l', r') ->
  calm r' /\ r_wire r' = r_wire r
  /\ exists kvs, session_keys cr s nonce secret off = Some kvs /\ l' = set_sigs (sealed cr s kvs data l) [].
Proof.
  intros C EK ES EM EB NS H. destruct (tail_calm _ r (wb_close_tail cr s full data l) (keep_close_tail full data l) C) as [C' W'].
  rewrite H in C', W'. split; [exact C'|]. split; [exact W'|].
  pose proof (wb_close_tail cr s full data l r None) as E. rewrite H in E. cbn [fst snd] in E.
  apply (close_tail_ok cr s (ss_keyed s sound) (ss_ivs s sound) (ss_ids s sound) (ss_macs_ids s sound) full data l nonce secret off) in E
    as (kvs & E1 & E2 & E3 & _); auto; [|now apply calm_held].
  rewrite NS in E3. rewrite (E3 eq_refl) in E2. eauto.
Qed.
End Tail.

(** ** The state during a handshake *)
Definition st (r : rt) (d : nat) (w : wstate) (ks : list seal) (ms : list bytes) (n : nat) : rt :=
  mkRt d (r_kdf r) (r_tools r) (r_mach r) (r_sigh r) (Some w) ks ms n (r_buf r).
Lemma grow_st r r' w ks ms n kxs kes : r_wire r = Some w -> grow r r' ks ms n kxs kes ->
  r' = st r (r_draw r') (add_pairs kxs kes w) (r_keys r ++ ks) (r_mat r ++ ms) (r_idx r + n).
Proof. intros E [A B C D F G H I J]. rewrite E in D. cbn [option_map] in D. destruct r'; unfold st; cbn in *. subst. reflexivity. Qed.

Tactic Notation "rs" "in" hyp(H) := cbn [st set_wire set_kdf set_acc set_draw set_buf r_draw r_kdf r_tools r_mach r_sigh r_wire r_keys r_mat r_idx r_buf
  kd_nonce kd_secret kd_off fst snd ret gets modify add_mat add_key negb] in H.
Tactic Notation "rs" := cbn [st set_wire set_kdf set_acc set_draw set_buf r_draw r_kdf r_tools r_mach r_sigh r_wire r_keys r_mat r_idx r_buf
  kd_nonce kd_secret kd_off fst snd ret gets modify add_mat add_key negb].

Section Hand.
Variables (c : config) (cr : crypto) (s : session).

(** What one message adds to a direction's key chain: from the previous carryover (None for
    the first message of the session), the extra material and the nonce comes the secret of
    this message, and the next carryover is the first part of its key stream. *)
Definition prev_list (prev : option bytes) : list bytes := match prev with Some p => [p] | None => [] end.
Definition secret_of (mats : list bytes) (prev : option bytes) : bytes := concat (mats ++ prev_list prev).
Definition carry_size (prev : option bytes) : nat := match prev with Some p => length p | None => Z.to_nat (s_dks s) end.
Record linked (nonce : bytes) (mats : list bytes) (prev : option bytes) (next : bytes) : Prop := {
  li_dks : prev = None -> (s_dks s =? 0)%Z = false;
  li_ne : nonempty (mats ++ prev_list prev) && nonempty (hd [] (mats ++ prev_list prev)) && nonempty nonce = true;
  li_next : cr_kdf cr (kdf_name s) (kdf_hash s) nonce (secret_of mats prev) 0 (carry_size prev) = Some next
}.
Definition prev_of (sending : bool) (w : wstate) : option bytes := if (w_msgno w =? 0)%N then None else Some (carry sending w).
(** The wire state after a message with that next carryover. *)
Definition moved (sending : bool) (w : wstate) (next : bytes) : wstate :=
  bump (if (w_msgno w =? 0)%N then set_carry (negb sending) (set_carry sending w next) next else set_carry sending w next).

Lemma carry_set b w x : carry b (set_carry b w x) = x. Proof. destruct b; reflexivity. Qed.
Lemma set_carry_twice b w x y : set_carry b (set_carry b w x) y = set_carry b w y. Proof. destruct b; reflexivity. Qed.
Lemma msgno_set b w x : w_msgno (set_carry b w x) = w_msgno w. Proof. destruct b; reflexivity. Qed.

Lemma carryover_run sending nonce r d w ks ms n :
  (forall u r', carryover cr s sending nonce (st r d w ks ms n) = (Ok u, r') ->
     exists next, linked nonce ms (prev_of sending w) next)
  /\ (forall next, linked nonce ms (prev_of sending w) next ->
     carryover cr s sending nonce (st r d w ks ms n)
     = (Ok tt, set_kdf (st r d (moved sending w next) ks (ms ++ prev_list (prev_of sending w)) n)
                 (Some (mkKdf nonce (secret_of ms (prev_of sending w)) (carry_size (prev_of sending w)))))).
Proof.
  set (R := st r d w ks ms n). unfold prev_of, moved.
  assert (W : wire_st R = (Ok w, R)) by reflexivity.
  destruct (w_msgno w =? 0)%N eqn:E0.
  - set (w0 := set_carry sending w (repeat (n2b 0) (Z.to_nat (s_dks s)))).
    split.
    + intros u r' H. unfold carryover in H. rewrite (mbind_run _ _ _ _ _ W), E0 in H. apply mbind_ok in H as ([] & r1 & H1 & H).
      apply mbind_ok in H1 as ([] & r0 & H0 & H1). unfold check in H0. destruct (s_dks s =? 0)%Z eqn:ED; [discriminate|].
      injection H0 as <-. injection H1 as <-.
      apply mbind_ok in H as (m & r2 & H1 & H). injection H1 as <- <-. apply mbind_ok in H as ([] & r2 & H1 & H).
      rewrite kdf_init_run in H1. destruct (_ && _) eqn:EN; [|discriminate]. injection H1 as <-.
      apply mbind_ok in H as (w1 & r2 & H1 & H). injection H1 as <- <-.
      apply mbind_ok in H as (k & r2 & H1 & H). unfold kdf_read in H1. rs in H1. rewrite carry_set, repeat_length, Nat2Z.id in H1.
      destruct (cr_kdf _ _ _ _ _ _ _) as [k'|] eqn:EK; [|discriminate].
      exists k'. constructor; unfold secret_of; cbn [prev_list carry_size]; rewrite ?app_nil_r; auto.
    + intros next [L1 L2 L3]. specialize (L1 eq_refl). unfold secret_of in *. cbn [prev_list carry_size] in *. rewrite app_nil_r in *.
      unfold carryover. rewrite (mbind_run _ _ _ _ _ W), E0.
      assert (S1 : (run _ <- check (negb (s_dks s =? 0)%Z) EOther; upd_wire (fun w => set_carry sending w (repeat (n2b 0) (Z.to_nat (s_dks s))))) R
         = (Ok tt, st r d w0 ks ms n)) by (rewrite L1; reflexivity).
      rewrite (mbind_run _ _ _ _ _ S1). unfold mbind at 1. rs.
      assert (S2 : kdf_init nonce ms (st r d w0 ks ms n) = (Ok tt, set_kdf (st r d w0 ks ms n) (Some (mkKdf nonce (concat ms) 0)))) by (rewrite kdf_init_run, L2; reflexivity).
      unfold st in S2. rewrite (mbind_run _ _ _ _ _ S2). unfold mbind at 1. unfold wire_st. rs.
      assert (S3 : kdf_read cr s (Z.of_nat (length (carry sending w0))) (set_kdf (st r d w0 ks ms n) (Some (mkKdf nonce (concat ms) 0)))
        = (Ok next, set_kdf (st r d w0 ks ms n) (Some (mkKdf nonce (concat ms) (Z.to_nat (s_dks s)))))).
      { unfold kdf_read. rs. unfold w0. rewrite carry_set, repeat_length, Nat2Z.id, L3. reflexivity. }
      unfold st in S3. rs in S3. rewrite (mbind_run _ _ _ _ _ S3). unfold w0. rewrite msgno_set, E0.
      unfold mbind, upd_wire. rs. rewrite set_carry_twice. reflexivity.
  - split.
    + intros u r' H. unfold carryover in H. rewrite (mbind_run _ _ _ _ _ W), E0 in H. apply mbind_ok in H as ([] & r1 & H1 & H).
      injection H1 as <-.
      apply mbind_ok in H as (m & r2 & H1 & H). injection H1 as <- <-. apply mbind_ok in H as ([] & r2 & H1 & H).
      rewrite kdf_init_run in H1. destruct (_ && _) eqn:EN; [|discriminate]. injection H1 as <-.
      apply mbind_ok in H as (w1 & r2 & H1 & H). injection H1 as <- <-.
      apply mbind_ok in H as (k & r2 & H1 & H). unfold kdf_read in H1. rs in H1. rewrite Nat2Z.id in H1.
      destruct (cr_kdf _ _ _ _ _ _ _) as [k'|] eqn:EK; [|discriminate].
      exists k'. constructor; unfold secret_of; cbn [prev_list carry_size]; [discriminate|exact EN|exact EK].
    + intros next [L1 L2 L3]. unfold secret_of in *. cbn [prev_list carry_size] in *.
      unfold carryover. rewrite (mbind_run _ _ _ _ _ W), E0. unfold mbind at 1. rs. unfold mbind at 1. rs.
      set (M := ms ++ [carry sending w]) in *.
      assert (S2 : kdf_init nonce M (st r d w ks M n) = (Ok tt, set_kdf (st r d w ks M n) (Some (mkKdf nonce (concat M) 0)))) by (rewrite kdf_init_run, L2; reflexivity).
      unfold st in S2. unfold R, st. rs. rewrite (mbind_run _ _ _ _ _ S2). unfold mbind at 1. unfold wire_st. rs.
      assert (S3 : kdf_read cr s (Z.of_nat (length (carry sending w))) (set_kdf (st r d w ks M n) (Some (mkKdf nonce (concat M) 0)))
        = (Ok next, set_kdf (st r d w ks M n) (Some (mkKdf nonce (concat M) (length (carry sending w)))))).
      { unfold kdf_read. rs. rewrite Nat2Z.id, L3. reflexivity. }
      unfold st in S3. rs in S3. rewrite (mbind_run _ _ _ _ _ S3). rewrite E0. unfold mbind, upd_wire. rs. reflexivity.
Qed.

(** ** Loops over the pairs *)
Lemma upd_nth_at {A} (f : A -> A) a b rest : upd_nth (length a) f (a ++ b :: rest) = a ++ f b :: rest.
Proof.
  unfold upd_nth. rewrite firstn_app, skipn_app, Nat.sub_diag, firstn_all, skipn_all. cbn. now rewrite app_nil_r.
Qed.
Lemma upd_wire_st f r d w ks ms n : upd_wire f (st r d w ks ms n) = (Ok tt, st r d (f w) ks ms n).
Proof. reflexivity. Qed.
Lemma wire_st_st r d w ks ms n : wire_st (st r d w ks ms n) = (Ok w, st r d w ks ms n).
Proof. reflexivity. Qed.

Definition pub_of (o : option (option (bytes * bytes))) : bytes := match o with Some (Some (p, _)) => p | _ => [] end.
Definition own_seal (q : kxpair) : seal := mkSeal [] [] (cr_store_pub cr (i_name (kx_tool q)) (pub_of (kx_own q))).
Definition ke_pub (x : kesig) : bytes := match x with KOwn (Some (p, _)) => p | _ => [] end.
Definition ke_own_seal (q : kepair) : seal := mkSeal [] [] (cr_store_pub cr (i_name (ke_tool q)) (ke_pub (ke_sig q))).

(** The local key exchange keys are made where there is none yet. *)
Definition kx_made (p q : kxpair) : Prop :=
  kx_tool q = kx_tool p /\ kx_peer q = kx_peer p
  /\ exists pub priv, kx_own q = Some (Some (pub, priv)) /\ pair_ok cr (i_name (kx_tool p)) pub priv.
Lemma gen_kx_run r d w ks ms n u r' : (forall p, In p (w_kx w) -> kx_own p = None) ->
  gen_local_kx cr (st r d w ks ms n) = (Ok u, r') ->
  exists d' new, Forall2 kx_made (w_kx w) new /\ r' = st r d' (set_kx w new) (ks ++ map own_seal new) ms n.
Proof.
  intros HN H. unfold gen_local_kx in H. rewrite (mbind_run _ _ _ _ _ (wire_st_st r d w ks ms n)) in H.
  match type of H with each ?g _ _ = _ => set (f := g) in * end.
  assert (G : forall todo done d ks u r', (forall p, In p todo -> kx_own p = None) ->
     each f (index_from (length done) todo) (st r d (set_kx w (done ++ todo)) ks ms n) = (Ok u, r') ->
     exists d' new, Forall2 kx_made todo new /\ r' = st r d' (set_kx w (done ++ new)) (ks ++ map own_seal new) ms n).
  { clear H HN. induction todo as [|p todo IH]; intros done d0 ks0 u0 r0 HN H; cbn [index_from each] in H.
    - injection H as _ <-. exists d0, []. split; [constructor|]. cbn [map]. now rewrite !app_nil_r.
    - apply mbind_ok in H as ([] & r1 & H1 & H). unfold f at 1 in H1. cbn [fst snd] in H1. rewrite (HN p (or_introl eq_refl)) in H1.
      rewrite (mbind_run _ _ _ _ _ (upd_wire_st _ _ _ _ _ _ _)) in H1. cbn [w_kx set_kx] in H1. rewrite upd_nth_at in H1.
      apply mbind_ok in H1 as ([pub priv] & r2 & H2 & H1). unfold gen in H2. rs in H2.
      destruct (cr_gen cr _ d0) as [[pub' priv']|] eqn:EG; [|discriminate]. injection H2 as -> -> <-.
      change (set_draw _ (S d0)) with (st r (S d0) (set_kx w (done ++ mkKx (kx_tool p) (Some None) (kx_peer p) :: todo)) ks0 ms n) in H1.
      rewrite (mbind_run _ _ _ _ _ (upd_wire_st _ _ _ _ _ _ _)) in H1. cbn [w_kx set_kx] in H1. rewrite upd_nth_at in H1. cbn [kx_tool kx_peer] in H1.
      set (q := mkKx (kx_tool p) (Some (Some (pub, priv))) (kx_peer p)) in *. injection H1 as <-.
      change (set_acc _ _ _ _) with (st r (S d0) (set_kx w (done ++ q :: todo)) (ks0 ++ [own_seal q]) ms n) in H.
      replace (done ++ q :: todo) with ((done ++ [q]) ++ todo) in H by (now rewrite <- app_assoc).
      replace (S (length done)) with (length (done ++ [q])) in H by (rewrite app_length; cbn; lia).
      apply IH in H as (d' & new & F & ->); [|intros; apply HN; now right].
      exists d', (q :: new). split; [constructor; [|exact F]|].
      + split; [reflexivity|]. split; [reflexivity|]. exists pub, priv. split; [reflexivity|]. exists d0. exact EG.
      + cbn [map]. rewrite <- !app_assoc. reflexivity. }
  assert (E0 : st r d w ks ms n = st r d (set_kx w ([] ++ w_kx w)) ks ms n) by (destruct w; reflexivity). rewrite E0 in H.
  apply (G (w_kx w) [] d ks u r' HN) in H. exact H.
Qed.
Lemma gen_kx_idle r d w ks ms n : (forall p, In p (w_kx w) -> kx_own p <> None) ->
  gen_local_kx cr (st r d w ks ms n) = (Ok tt, st r d w ks ms n).
Proof.
  intro HN. unfold gen_local_kx. rewrite (mbind_run _ _ _ _ _ (wire_st_st r d w ks ms n)).
  revert HN. generalize (w_kx w) as l, 0 as k. induction l as [|p l IH]; intros k HN; cbn [index_from each]; [reflexivity|].
  unfold mbind at 1. cbn [fst snd]. destruct (kx_own p) eqn:E; [|destruct (HN p (or_introl eq_refl) E)]. cbn [ret]. apply IH. intros; apply HN. now right.
Qed.

Definition ke_made (p q : kepair) : Prop :=
  ke_tool q = ke_tool p /\ ke_seal q = ke_seal p
  /\ exists pub priv, ke_sig q = KOwn (Some (pub, priv)) /\ pair_ok cr (i_name (ke_tool p)) pub priv.
Lemma gen_ke_run r d w ks ms n u r' : (forall p, In p (w_ke w) -> ke_sig p = KNone) ->
  gen_local_ke cr (st r d w ks ms n) = (Ok u, r') ->
  exists d' new, Forall2 ke_made (w_ke w) new /\ r' = st r d' (set_ke w new) (ks ++ map ke_own_seal new) ms n.
Proof.
  intros HN H. unfold gen_local_ke in H. rewrite (mbind_run _ _ _ _ _ (wire_st_st r d w ks ms n)) in H.
  match type of H with each ?g _ _ = _ => set (f := g) in * end.
  assert (G : forall todo done d ks u r', (forall p, In p todo -> ke_sig p = KNone) ->
     each f (index_from (length done) todo) (st r d (set_ke w (done ++ todo)) ks ms n) = (Ok u, r') ->
     exists d' new, Forall2 ke_made todo new /\ r' = st r d' (set_ke w (done ++ new)) (ks ++ map ke_own_seal new) ms n).
  { clear H HN. induction todo as [|p todo IH]; intros done d0 ks0 u0 r0 HN H; cbn [index_from each] in H.
    - injection H as _ <-. exists d0, []. split; [constructor|]. cbn [map]. now rewrite !app_nil_r.
    - apply mbind_ok in H as ([] & r1 & H1 & H). unfold f at 1 in H1. cbn [fst snd] in H1. rewrite (HN p (or_introl eq_refl)) in H1.
      rewrite (mbind_run _ _ _ _ _ (upd_wire_st _ _ _ _ _ _ _)) in H1. cbn [w_ke set_ke] in H1. rewrite upd_nth_at in H1.
      apply mbind_ok in H1 as ([pub priv] & r2 & H2 & H1). unfold gen in H2. rs in H2.
      destruct (cr_gen cr _ d0) as [[pub' priv']|] eqn:EG; [|discriminate]. injection H2 as -> -> <-.
      change (set_draw _ (S d0)) with (st r (S d0) (set_ke w (done ++ mkKe (ke_tool p) (KOwn None) (ke_seal p) :: todo)) ks0 ms n) in H1.
      rewrite (mbind_run _ _ _ _ _ (upd_wire_st _ _ _ _ _ _ _)) in H1. cbn [w_ke set_ke] in H1. rewrite upd_nth_at in H1. cbn [ke_tool ke_seal] in H1.
      set (q := mkKe (ke_tool p) (KOwn (Some (pub, priv))) (ke_seal p)) in *. injection H1 as <-.
      change (set_acc _ _ _ _) with (st r (S d0) (set_ke w (done ++ q :: todo)) (ks0 ++ [ke_own_seal q]) ms n) in H.
      replace (done ++ q :: todo) with ((done ++ [q]) ++ todo) in H by (now rewrite <- app_assoc).
      replace (S (length done)) with (length (done ++ [q])) in H by (rewrite app_length; cbn; lia).
      apply IH in H as (d' & new & F & ->); [|intros; apply HN; now right].
      exists d', (q :: new). split; [constructor; [|exact F]|].
      + split; [reflexivity|]. split; [reflexivity|]. exists pub, priv. split; [reflexivity|]. exists d0. exact EG.
      + cbn [map]. rewrite <- !app_assoc. reflexivity. }
  assert (E0 : st r d w ks ms n = st r d (set_ke w ([] ++ w_ke w)) ks ms n) by (destruct w; reflexivity). rewrite E0 in H.
  apply (G (w_ke w) [] d ks u r' HN) in H. exact H.
Qed.
Lemma gen_ke_idle r d w ks ms n : (forall p, In p (w_ke w) -> ke_sig p <> KNone) ->
  gen_local_ke cr (st r d w ks ms n) = (Ok tt, st r d w ks ms n).
Proof.
  intro HN. unfold gen_local_ke. rewrite (mbind_run _ _ _ _ _ (wire_st_st r d w ks ms n)).
  revert HN. generalize (w_ke w) as l, 0 as k. induction l as [|p l IH]; intros k HN; cbn [index_from each]; [reflexivity|].
  unfold mbind at 1. cbn [fst snd]. destruct (ke_sig p) eqn:E; [destruct (HN p (or_introl eq_refl) E)| |]; cbn [ret]; apply IH; intros; apply HN; now right.
Qed.

(** The shared keys of the pairs. *)
Definition agrees (p : kxpair) (k : bytes) : Prop :=
  exists pub priv peer pub' pv, kx_own p = Some (Some (pub, priv)) /\ kx_peer p = Some peer
    /\ cr_load cr (i_name (kx_tool p)) peer true = Ok (pub', pv) /\ k = cr_shared cr (i_name (kx_tool p)) priv pub'.
Lemma make_shared_run r d w ks ms n keys : Forall2 agrees (w_kx w) keys ->
  make_shared cr (st r d w ks ms n) = (Ok tt, st r d w ks (ms ++ keys) n).
Proof.
  intro F. unfold make_shared. rewrite (mbind_run _ _ _ _ _ (wire_st_st r d w ks ms n)).
  revert ms F. generalize (w_kx w) as l. intros l ms F. revert ms.
  induction F as [|p k l keys (pub & priv & peer & pub' & pv & E1 & E2 & E3 & E4) F IH]; intro ms; cbn [each]; [now rewrite app_nil_r|].
  erewrite mbind_run.
  2:{ rewrite E1, E2. unfold lift, mbind at 1. rewrite E3. cbn [shared]. unfold mbind, ret, add_mat, modify. cbv beta iota zeta.
      instantiate (1 := st r d w ks (ms ++ [k]) n). rewrite E4. reflexivity. }
  rewrite IH, <- app_assoc. reflexivity.
Qed.

(** New keys for the peers' public keys. *)
Definition encapsulated (p : kepair) (x : bytes * bytes) : Prop :=
  exists stored pub pv j, ke_sig p = KPeer stored /\ cr_load cr (i_name (ke_tool p)) stored true = Ok (pub, pv)
    /\ cr_encap cr (i_name (ke_tool p)) (i_arg (ke_tool p)) pub (fst x) j = Some (snd x)
    /\ exists i, cr_rand cr i (Z.to_nat (s_dks s)) = Some (fst x).
Lemma encap_new_run r d w ks ms n u r' : (forall p, In p (w_ke w) -> exists stored, ke_sig p = KPeer stored) ->
  encap_new cr s (st r d w ks ms n) = (Ok u, r') ->
  exists d' xs, Forall2 encapsulated (w_ke w) xs
    /\ r' = st r d' w (ks ++ map (fun x => mkSeal [] [] (snd x)) xs) (ms ++ map fst xs) n.
Proof.
  intros HP H. unfold encap_new in H. rewrite (mbind_run _ _ _ _ _ (wire_st_st r d w ks ms n)) in H.
  revert d ks ms HP H. generalize (w_ke w) as l. induction l as [|p l IH]; intros d ks ms HP H; cbn [each] in H.
  - injection H as _ <-. exists d, []. split; [constructor|]. cbn [map]. now rewrite !app_nil_r.
  - apply mbind_ok in H as ([] & r1 & H1 & H). destruct (HP p (or_introl eq_refl)) as (stored & ES). rewrite ES in H1.
    apply mbind_ok in H1 as (pub & r2 & H2 & H1). apply mbind_ok in H2 as ([pub' pv] & r3 & H2 & H3). injection H3 as -> <-.
    unfold lift in H2. destruct (cr_load cr _ stored true) as [[pub'' pv']|?|] eqn:EL; [|discriminate..]. injection H2 as -> -> <-.
    apply mbind_ok in H1 as (k & r2 & H2 & H1). unfold rand in H2. rs in H2. destruct (cr_rand _ _ _) as [k'|] eqn:ERD; [|discriminate].
    injection H2 as -> <-. apply mbind_ok in H1 as (v & r2 & H2 & H1). unfold encap in H2. rs in H2.
    destruct (cr_encap _ _ _ _ _ _) as [v'|] eqn:EE; [|discriminate]. injection H2 as -> <-.
    injection H1 as <-.
    match type of H with each _ _ ?q = _ => change q with (st r (S (S d)) w (ks ++ [mkSeal [] [] v]) (ms ++ [k]) n) in H end.
    apply IH in H as (d' & xs & F & ->); [|intros; apply HP; now right].
    exists d', ((k, v) :: xs). split; [constructor; [|exact F]|].
    + exists stored, pub, pv, (S d). eauto 6.
    + cbn [map fst snd]. rewrite <- !app_assoc. reflexivity.
Qed.

Definition unwraps (p : kepair) (k : bytes) : Prop :=
  exists pub priv v, ke_sig p = KOwn (Some (pub, priv)) /\ ke_seal p = Some v
    /\ cr_unwrap cr (i_name (ke_tool p)) (i_arg (ke_tool p)) priv v = Some k.
Lemma unwrap_new_run r d w ks ms n keys : Forall2 unwraps (w_ke w) keys ->
  unwrap_new cr (st r d w ks ms n) = (Ok tt, st r d w ks (ms ++ keys) n).
Proof.
  intro F. unfold unwrap_new. rewrite (mbind_run _ _ _ _ _ (wire_st_st r d w ks ms n)).
  revert ms F. generalize (w_ke w) as l. intros l ms F. revert ms.
  induction F as [|p k l keys (pub & priv & v & E1 & E2 & E3) F IH]; intro ms; cbn [each]; [now rewrite app_nil_r|].
  erewrite mbind_run.
  2:{ rewrite E1, E2. unfold unwrap, lift, mbind. rewrite E3. cbv beta iota zeta. unfold add_mat, modify.
      instantiate (1 := st r d w ks (ms ++ [k]) n). reflexivity. }
  rewrite IH, <- app_assoc. reflexivity.
Qed.

(** Taking the peer's values out of the letter. *)
Definition with_peer (p : kxpair) (k : seal) : kxpair := mkKx (kx_tool p) (kx_own p) (Some (seal_value k)).
Definition with_seal (p : kepair) (k : seal) : kepair := mkKe (ke_tool p) (ke_sig p) (Some (seal_value k)).
Definition with_signet (p : kepair) (k : seal) : kepair := mkKe (ke_tool p) (KPeer (seal_value k)) (ke_seal p).
Definition map2 {A B C} (f : A -> B -> C) (a : list A) (b : list B) : list C := map (fun x => f (fst x) (snd x)) (combine a b).

Lemma assign_kx_run l r d w ks ms pre sel post : l_keys l = pre ++ sel ++ post -> length sel = length (w_kx w) ->
  assign_kx l (st r d w ks ms (length pre)) = (Ok tt, st r d (set_kx w (map2 with_peer (w_kx w) sel)) ks ms (length pre + length sel)).
Proof.
  intros EL EN. unfold assign_kx. rewrite (mbind_run _ _ _ _ _ (wire_st_st r d w ks ms (length pre))).
  match goal with |- each ?g _ _ = _ => set (f := g) end.
  assert (G : forall todo done sel pre, length sel = length todo -> l_keys l = pre ++ sel ++ post ->
     each f (index_from (length done) todo) (st r d (set_kx w (done ++ todo)) ks ms (length pre))
     = (Ok tt, st r d (set_kx w (done ++ map2 with_peer todo sel)) ks ms (length pre + length sel))).
  { clear. induction todo as [|p todo IH]; intros done [|k sel] pre EN EL; try discriminate; cbn [index_from each].
    - unfold map2. cbn. now rewrite Nat.add_0_r.
    - rewrite (mbind_run _ _ _ tt (st r d (set_kx w (done ++ with_peer p k :: todo)) ks ms (S (length pre)))).
      2:{ unfold f, mbind, key_at. rs. rewrite EL, nth_error_app2, Nat.sub_diag by lia. cbn [nth_error app].
          unfold next_idx, modify, upd_wire, modify. rs. cbn [w_kx set_kx]. rewrite upd_nth_at. reflexivity. }
      specialize (IH (done ++ [with_peer p k]) sel (pre ++ [k])). rewrite !app_length in IH. cbn [length] in IH.
      rewrite !Nat.add_1_r, <- !app_assoc in IH. cbn [app] in IH. specialize (IH ltac:(injection EN; auto) EL).
      cbn [length app]. rewrite IH. unfold map2. cbn [combine map fst snd length]. do 2 f_equal. lia. }
  assert (E0 : st r d w ks ms (length pre) = st r d (set_kx w ([] ++ w_kx w)) ks ms (length pre)) by (destruct w; reflexivity). rewrite E0. exact (G (w_kx w) [] sel pre EN EL).
Qed.
Lemma assign_ke_seal_run l r d w ks ms pre sel post : l_keys l = pre ++ sel ++ post -> length sel = length (w_ke w) ->
  assign_ke_seal l (st r d w ks ms (length pre)) = (Ok tt, st r d (set_ke w (map2 with_seal (w_ke w) sel)) ks ms (length pre + length sel)).
Proof.
  intros EL EN. unfold assign_ke_seal. rewrite (mbind_run _ _ _ _ _ (wire_st_st r d w ks ms (length pre))).
  match goal with |- each ?g _ _ = _ => set (f := g) end.
  assert (G : forall todo done sel pre, length sel = length todo -> l_keys l = pre ++ sel ++ post ->
     each f (index_from (length done) todo) (st r d (set_ke w (done ++ todo)) ks ms (length pre))
     = (Ok tt, st r d (set_ke w (done ++ map2 with_seal todo sel)) ks ms (length pre + length sel))).
  { clear. induction todo as [|p todo IH]; intros done [|k sel] pre EN EL; try discriminate; cbn [index_from each].
    - unfold map2. cbn. now rewrite Nat.add_0_r.
    - rewrite (mbind_run _ _ _ tt (st r d (set_ke w (done ++ with_seal p k :: todo)) ks ms (S (length pre)))).
      2:{ unfold f, mbind, key_at. rs. rewrite EL, nth_error_app2, Nat.sub_diag by lia. cbn [nth_error app].
          unfold next_idx, modify, upd_wire, modify. rs. cbn [w_ke set_ke]. rewrite upd_nth_at. reflexivity. }
      specialize (IH (done ++ [with_seal p k]) sel (pre ++ [k])). rewrite !app_length in IH. cbn [length] in IH.
      rewrite !Nat.add_1_r, <- !app_assoc in IH. cbn [app] in IH. specialize (IH ltac:(injection EN; auto) EL).
      cbn [length app]. rewrite IH. unfold map2. cbn [combine map fst snd length]. do 2 f_equal. lia. }
  assert (E0 : st r d w ks ms (length pre) = st r d (set_ke w ([] ++ w_ke w)) ks ms (length pre)) by (destruct w; reflexivity). rewrite E0. exact (G (w_ke w) [] sel pre EN EL).
Qed.
Lemma key_without_id_skip skip k rest n : Forall (fun k => nonempty (seal_id k) = true) skip -> seal_id k = [] ->
  key_without_id (skip ++ k :: rest) n = Some (n + length skip, k).
Proof.
  intros F E. revert n. induction F as [|a skip Ha F IH]; intro n; cbn [app key_without_id length].
  - rewrite E. cbn [nonempty]. now rewrite Nat.add_0_r.
  - rewrite Ha, IH. f_equal. f_equal. lia.
Qed.
Lemma assign_ke_signet_run l r d w ks ms pre skip sel post : l_keys l = pre ++ skip ++ sel ++ post -> length sel = length (w_ke w) ->
  Forall (fun k => nonempty (seal_id k) = true) skip -> Forall (fun k => seal_id k = []) sel ->
  exists n', assign_ke_signet l (st r d w ks ms (length pre)) = (Ok tt, st r d (set_ke w (map2 with_signet (w_ke w) sel)) ks ms n').
Proof.
  intros EL EN FS FN. unfold assign_ke_signet. rewrite (mbind_run _ _ _ _ _ (wire_st_st r d w ks ms (length pre))).
  match goal with |- exists n', each ?g _ _ = _ => set (f := g) end.
  assert (G : forall todo done sel skip pre, length sel = length todo -> l_keys l = pre ++ skip ++ sel ++ post ->
     Forall (fun k => nonempty (seal_id k) = true) skip -> Forall (fun k => seal_id k = []) sel ->
     exists n', each f (index_from (length done) todo) (st r d (set_ke w (done ++ todo)) ks ms (length pre))
     = (Ok tt, st r d (set_ke w (done ++ map2 with_signet todo sel)) ks ms n')).
  { clear. induction todo as [|p todo IH]; intros done [|k sel] skip pre EN EL FS FN; try discriminate; cbn [index_from each].
    - unfold map2. cbn. now exists (length pre).
    - inversion FN as [|? ? NK FN']; subst.
      rewrite (mbind_run _ _ _ tt (st r d (set_ke w (done ++ with_signet p k :: todo)) ks ms (S (length pre + length skip)))).
      2:{ unfold f, mbind. rs. rewrite EL, skipn_app, skipn_all, Nat.sub_diag. cbn [app skipn]. rewrite key_without_id_skip by assumption.
          unfold modify, upd_wire, modify. rs. cbn [w_ke set_ke fst snd]. rewrite upd_nth_at. reflexivity. }
      specialize (IH (done ++ [with_signet p k]) sel [] (pre ++ skip ++ [k])). rewrite !app_length in IH. cbn [length] in IH.
      rewrite !Nat.add_1_r, <- !app_assoc in IH. cbn [app] in IH. specialize (IH ltac:(injection EN; auto) EL (Forall_nil _) FN').
      destruct IH as (n' & IH). exists n'. rewrite Nat.add_succ_r in IH. rewrite IH. reflexivity. }
  assert (E0 : st r d w ks ms (length pre) = st r d (set_ke w ([] ++ w_ke w)) ks ms (length pre)) by (destruct w; reflexivity). rewrite E0. exact (G (w_ke w) [] sel skip pre EN EL FS FN).
Qed.
End Hand.
