(** What an operation leaves behind, and which operations draw no randomness. *)
From Verif Require Export CoreRel.

(** ** Leftovers *)

(** Hashers hold [hm] and [hs]; only the tools at positions in [U] are in use; [w] says
    what is known of the wire session. *)
Record held (U : nat -> Prop) (hm hs : bytes -> bytes) (r : rt) : Prop := {
  he_mach : forall x, r_mach r x = hm x;
  he_sigh : forall x, r_sigh r x = hs x;
  he_used : forall n, ~ U n -> ts_used (r_tools r n) = false;
  he_wire : r_wire r = None
}.
Definition keep U hm hs {A} (m : M A) : Prop := forall r, held U hm hs r -> held U hm hs (snd (m r)).

Section Keep.
Variables (U : nat -> Prop) (hm hs : bytes -> bytes).
Notation K := (keep U hm hs).

Lemma keep_bind {A B} (m : M A) (f : A -> M B) : K m -> (forall a, K (f a)) -> K (mbind m f).
Proof.
  intros Hm Hf r H. specialize (Hm r H). unfold mbind. destruct (m r) as [[a|e|] r1]; cbn [snd] in *; auto.
  now apply Hf.
Qed.
Lemma keep_ret {A} (a : A) : K (ret a). Proof. intros r H; exact H. Qed.
Lemma keep_fail {A} e : K (@fail A e). Proof. intros r H; exact H. Qed.
Lemma keep_panic {A} : K (@panic A). Proof. intros r H; exact H. Qed.
Lemma keep_lift {A} (x : outcome A) : K (lift x). Proof. intros r H; exact H. Qed.
Lemma keep_gets {A} (f : rt -> A) : K (gets f). Proof. intros r H; exact H. Qed.
Lemma keep_check b e : K (check b e). Proof. destruct b; [apply keep_ret|apply keep_fail]. Qed.
Lemma keep_each {A} (f : A -> M unit) l : (forall a, In a l -> K (f a)) -> K (each f l).
Proof.
  induction l as [|a l IH]; intro H; cbn [each]; [apply keep_ret|]. apply keep_bind; [apply H; now left|].
  intros _. apply IH. intros; apply H; now right.
Qed.
Lemma keep_foldT {A B} (f : B -> A -> M B) b l : (forall b a, In a l -> K (f b a)) -> K (foldT f b l).
Proof.
  revert b; induction l as [|a l IH]; intros b H; cbn [foldT]; [apply keep_ret|]. apply keep_bind; [apply H; now left|].
  intro b'. apply IH. intros; apply H; now right.
Qed.
Lemma keep_each_last {A} (f : A -> M unit) l : (forall a, K (f a)) -> K (each_last f l).
Proof.
  intro H. induction l as [|a [|b l] IH]; [apply keep_ret|apply H|].
  intros r HR. rewrite each_last_cons. specialize (H a r HR). destruct (f a r) as [[?|?|] r1]; cbn [snd] in *; auto.
Qed.
Lemma keep_modify f : (forall r, held U hm hs r -> held U hm hs (f r)) -> K (modify f).
Proof. intros H r HR. now apply H. Qed.
Lemma keep_upd_wire f : K (upd_wire f).
Proof. apply keep_modify. intros r H. now rewrite (he_wire _ _ _ _ H). Qed.
Lemma keep_draw {A} (g : nat -> outcome A) : K (fun r => (g (r_draw r), set_draw r (S (r_draw r)))).
Proof. intros r []; constructor; cbn; auto. Qed.
Lemma keep_add_key k : K (add_key k). Proof. apply keep_modify. intros r []; constructor; cbn; auto. Qed.
Lemma keep_add_mat k : K (add_mat k). Proof. apply keep_modify. intros r []; constructor; cbn; auto. Qed.
Lemma keep_next_idx : K next_idx. Proof. apply keep_modify. intros r []; constructor; cbn; auto. Qed.
Lemma keep_is_wire : K is_wire. Proof. apply keep_gets. Qed.
Lemma keep_rand cr z : K (rand cr z).
Proof. exact (keep_draw (fun d => match cr_rand cr d (Z.to_nat z) with Some b => Ok b | None => Err EOther end)). Qed.
Lemma keep_gen cr t : K (gen cr t).
Proof. exact (keep_draw (fun d => match cr_gen cr t d with Some b => Ok b | None => Err EOther end)). Qed.
Lemma keep_set_buf g : K (modify (fun r => set_buf r (g r))).
Proof. apply keep_modify. intros r []; constructor; cbn; auto. Qed.
Lemma keep_key_at l : K (key_at l). Proof. intros r H; exact H. Qed.
Lemma keep_set_kdf k : K (modify (fun r => set_kdf r k)).
Proof. apply keep_modify. intros r []; constructor; cbn; auto. Qed.
Lemma keep_is_wire_bind {A} (f : bool -> M A) : K (f false) -> K (mbind is_wire f).
Proof. intros H r HR. unfold is_wire, gets, mbind. rewrite (he_wire _ _ _ _ HR). now apply H. Qed.
End Keep.

#[export] Hint Resolve keep_ret keep_fail keep_panic keep_lift keep_gets keep_check keep_upd_wire keep_add_key keep_add_mat
  keep_next_idx keep_is_wire keep_rand keep_gen keep_set_buf keep_key_at keep_set_kdf : keep.
Ltac keep_auto := intros; repeat first
  [ solve [auto with keep]
  | apply keep_bind; intros
  | match goal with
    | |- keep _ _ _ (match ?x with _ => _ end) => destruct x
    | |- keep _ _ _ (let '(_, _) := ?x in _) => destruct x
    end ].

Section K.
Variable c : config.
Variable cr : crypto.
Variable s : session.
Definition U n := exists i, In i (s_stateful s) /\ i_idx i = n.

Section Same.
Variables (V : nat -> Prop) (hm hs : bytes -> bytes).
Notation K := (keep V hm hs).

Lemma keep_encap i p k : K (encap cr i p k).
Proof.
  unfold encap. destruct p as [p|]; [|auto with keep].
  exact (keep_draw V hm hs (fun d => match cr_encap cr (i_name i) (i_arg i) p k d with Some v => Ok v | None => Err EOther end)).
Qed.
Lemma keep_shared i p q : K (shared cr i p q). Proof. unfold shared. keep_auto. Qed.
Lemma keep_unwrap i p w : K (unwrap cr i p w). Proof. unfold unwrap. keep_auto. Qed.
Lemma keep_derive_pw p w : K (derive_pw c cr s p w). Proof. unfold derive_pw. keep_auto. Qed.
Hint Resolve keep_encap keep_shared keep_unwrap keep_derive_pw : keep.
Lemma keep_closing_material nonce : K (closing_material c cr s nonce).
Proof.
  unfold closing_material. apply keep_bind; [|intros _; apply keep_bind; [|intros _; apply keep_bind; [|intros _]]].
  - apply keep_each. intros a _. unfold close_key. keep_auto.
  - apply keep_each. intros a _. unfold close_pw. keep_auto.
  - apply keep_each_last. intro i. apply keep_each. intros a _. unfold close_kx. keep_auto.
  - apply keep_each_last. intro i. apply keep_each. intros a _. unfold close_ke. keep_auto.
Qed.
Lemma keep_opening_material l : K (opening_material c cr s l).
Proof.
  unfold opening_material. apply keep_bind; [auto with keep|intro w].
  apply keep_bind; [destruct w; auto with keep|intros _].
  apply keep_bind; [|intros _; apply keep_bind; [|intros _; apply keep_bind; [|intros _]]].
  - apply keep_each. intros a _. unfold open_key. keep_auto.
  - apply keep_each. intros a _. unfold open_pw. keep_auto.
  - apply keep_each_last. intro i. apply keep_each. intros a _. unfold open_kx. keep_auto.
  - apply keep_each_last. intro i. apply keep_each. intros a _. unfold open_ke. keep_auto.
Qed.
Lemma keep_kdf_init nonce mat : K (kdf_init nonce mat).
Proof. unfold kdf_init. destruct (_ || _); auto with keep. Qed.
Lemma keep_kdf_read z : K (kdf_read cr s z).
Proof.
  intros r []. unfold kdf_read. destruct (r_kdf r); [destruct (cr_kdf _ _ _ _ _ _ _)|]; constructor; cbn; auto.
Qed.
Lemma keep_upd_tool i f : (forall t, ts_used (f t) = ts_used t) -> K (upd_tool i f).
Proof.
  intros H. apply keep_modify. intros r []; constructor; cbn; auto. intros n Hn. destruct (_ =? _)%nat; [rewrite H|]; auto.
Qed.
Lemma keep_setup : K (setup cr s).
Proof.
  apply keep_each. intros i _. unfold setup_tool. apply keep_bind; [apply keep_kdf_read|intro k].
  apply keep_bind; [now apply keep_upd_tool|intros _]. apply keep_bind.
  - destruct (has_iv i); [|auto with keep]. apply keep_bind; [apply keep_kdf_read|intro]. now apply keep_upd_tool.
  - intros _. now apply keep_upd_tool.
Qed.
Lemma keep_cipher i d : K (cipher cr i d).
Proof. unfold cipher, tool_st. keep_auto. Qed.
Lemma keep_aead_seal ad i d : K (aead_seal cr ad i d).
Proof. unfold aead_seal, tool_st. keep_auto. Qed.
Lemma keep_aead_open ad i d : K (aead_open cr ad i d).
Proof.
  intros r []. unfold aead_open. cbn zeta. destruct (cr_open _ _ _ _ _ _); [|destruct (_ <? _)%nat]; constructor; cbn; auto.
Qed.
Lemma keep_mac d ad i : V (i_idx i) -> K (mac cr d ad i).
Proof.
  intros Hi r H. rewrite mac_cases. cbn zeta.
  destruct (is_poly i); [destruct (ts_set _); [destruct (negb _)|]|]; try exact H.
  destruct H; constructor; cbn; auto. intros n Hn. destruct (n =? i_idx i)%nat eqn:E; [|auto].
  apply Nat.eqb_eq in E. exfalso. apply Hn. now rewrite E.
Qed.
Lemma keep_sign i sg : K (sign cr i sg).
Proof.
  unfold sign. destruct (sg_priv sg) as [| |k]; [auto with keep|destruct (is_pss i); [destruct (no_crypto_hash i)|]; auto with keep|].
  destruct (_ && _); [auto with keep|]. apply keep_bind; [unfold digest; auto with keep|intro h].
  exact (keep_draw V hm hs (fun d => match cr_sign cr (i_name i) (i_arg i) k h d with Some v => Ok v | None => Err EOther end)).
Qed.
Lemma keep_verify i sg v : K (verify cr i sg v).
Proof. unfold verify, digest. keep_auto. Qed.
End Same.

Lemma keep_with_mac {A} V d (m : M A) hs : (forall hm, keep V hm hs m) -> keep V (fun _ => []) hs (with_mac_hashers s d m).
Proof.
  intros H r HR. unfold with_mac_hashers, mbind, modify, deferred.
  set (r1 := set_mach r _). assert (H1 : held V (fed (s_mac_hashers s) (fun _ => []) d) hs r1).
  { destruct HR; constructor; cbn; auto. intro x. unfold fed. now rewrite he_mach0. }
  specialize (H _ r1 H1). destruct (m r1) as [o r2]. cbn [snd] in *. destruct H; constructor; cbn; auto.
  intro x. unfold emptied. rewrite he_mach0. unfold fed. destruct (existsb _ _); reflexivity.
Qed.
Lemma keep_with_sig {A} V d (m : M A) hm : (forall hs, keep V hm hs m) -> keep V hm (fun _ => []) (with_sig_hashers s d m).
Proof.
  intros H r HR. unfold with_sig_hashers, mbind, modify, deferred.
  set (r1 := set_sigh r _). assert (H1 : held V hm (fed (s_sig_hashers s) (fun _ => []) d) r1).
  { destruct HR; constructor; cbn; auto. intro x. unfold fed. now rewrite he_sigh0. }
  specialize (H _ r1 H1). destruct (m r1) as [o r2]. cbn [snd] in *. destruct H; constructor; cbn; auto.
  intro x. unfold emptied. rewrite he_sigh0. unfold fed. destruct (existsb _ _); reflexivity.
Qed.

Definition no_use (n : nat) := False.
Lemma reset_used r : forall n, ts_used (r_tools (reset s r) n) = true ->
  ts_used (r_tools r n) = true /\ ~ U n.
Proof.
  unfold reset, U. generalize (s_stateful s) as l. intro l. revert r. induction l as [|i l IH]; intros r n H; cbn [fold_left] in H.
  - split; [exact H|]. now intros (? & [] & _).
  - apply IH in H as [H1 H2]. cbn in H1. destruct (n =? i_idx i)%nat eqn:E; [discriminate|]. split; [exact H1|].
    intros (j & [<-|Hj] & Ej); [apply Nat.eqb_neq in E; congruence|]. apply H2. eauto.
Qed.
Lemma reset_frame r : r_draw (reset s r) = r_draw r /\ r_wire (reset s r) = r_wire r /\ r_mach (reset s r) = r_mach r
  /\ r_sigh (reset s r) = r_sigh r /\ r_keys (reset s r) = r_keys r /\ r_mat (reset s r) = r_mat r
  /\ r_buf (reset s r) = r_buf r /\ r_kdf (reset s r) = r_kdf r.
Proof.
  unfold reset. generalize (s_stateful s) as l. intro l. revert r. induction l as [|i l IH]; intro r; cbn [fold_left]; [tauto|].
  destruct (IH (reset_tool r i)) as (A & B & C & D & E & F & G & H). cbn in *. repeat split; assumption.
Qed.
Lemma keep_reset {A} (m : M A) hm hs : keep U hm hs m -> keep no_use hm hs (deferred (reset s) m).
Proof.
  intros H r HR. unfold deferred. specialize (H r). destruct (m r) as [o r1]. cbn [snd] in *.
  assert (H0 : held U hm hs r) by (destruct HR; constructor; auto). specialize (H H0). destruct H.
  destruct (reset_frame r1) as (E1 & E2 & E3 & E4 & _). constructor; cbn; rewrite ?E2, ?E3, ?E4; auto.
  intros n _. destruct (ts_used (r_tools (reset s r1) n)) eqn:E; [|reflexivity]. apply reset_used in E as [E N].
  rewrite he_used0 in E; [discriminate|exact N].
Qed.

Hypothesis macs_stateful : forall i, In i (s_macs s) -> In i (s_stateful s).
Notation nil := (fun _ : bytes => @nil byte).

Lemma keep_macs hm hs d ad : keep U hm hs (macs cr s d ad).
Proof.
  unfold macs. apply keep_foldT. intros b i Hi. apply keep_bind; [|auto with keep]. apply keep_mac.
  exists i. auto.
Qed.
Lemma keep_close_sign V hm l ad : keep V hm nil (close_sign cr s l ad).
Proof.
  unfold close_sign. destruct (nonempty _); [|auto with keep]. apply keep_with_sig. intro hs.
  apply keep_bind; [|auto with keep]. unfold sign_all. apply keep_foldT. intros b i _. apply keep_foldT. intros b' sg _.
  apply keep_bind; [apply keep_sign|auto with keep].
Qed.
Lemma keep_start V hm hs d : keep V hm hs (modify (fun r => set_buf (set_acc r [] [] 0) d)).
Proof. apply keep_modify. intros r []; constructor; cbn; auto. Qed.
Lemma establish_none V hm hs nonce : keep V hm hs (establish c cr s nonce).
Proof.
  unfold establish. apply keep_is_wire_bind. cbn iota.
  apply keep_bind; [apply keep_closing_material|intros _]. apply keep_bind; [auto with keep|intro m].
  apply keep_bind; [apply keep_kdf_init|auto with keep].
Qed.

Lemma keep_close full data : keep no_use nil nil (close_session c cr s full data).
Proof.
  unfold close_session. apply keep_bind; [apply keep_start|intros _]. apply keep_bind; [auto with keep|intro first].
  apply keep_bind; [auto with keep|intro nonce].
  destruct (s_kdf s) as [k|]; [|destruct (needs_key s); [auto with keep|apply keep_close_sign]].
  apply keep_bind; [apply establish_none|intro ap]. apply keep_bind; [auto with keep|intro ks]. cbn zeta.
  apply keep_bind; [apply keep_setup|intros _]. apply keep_reset. apply keep_bind.
  { unfold encrypt. apply keep_foldT. intros b i _. apply keep_bind; [apply keep_cipher|intro d'].
    apply keep_bind; [destruct full; auto with keep|auto with keep]. }
  intro d. apply keep_bind; [apply keep_foldT; intros; apply keep_aead_seal|intro d'].
  destruct (nonempty _).
  - apply keep_with_mac. intro hm. apply keep_bind; [apply keep_macs|intro m]. apply keep_close_sign.
  - apply keep_close_sign.
Qed.

Lemma keep_verify_all V hm hs l : keep V hm hs (verify_all cr s l).
Proof.
  unfold verify_all. apply keep_foldT. intros b i _. apply keep_foldT. intros n sg _.
  apply keep_bind; [unfold sig_at; destruct (nth_error _ _); auto with keep|intro v].
  apply keep_bind; [apply keep_verify|auto with keep].
Qed.
Lemma keep_with_signatures V hm l {A} (x : M A) : (forall hs, keep V hm hs x) -> keep V hm nil (with_signatures cr s l x).
Proof.
  intro H. unfold with_signatures. apply keep_with_sig. intro hs. apply keep_bind; [auto with keep|intros _].
  apply keep_bind; [apply keep_verify_all|intros _]. apply H.
Qed.
Lemma keep_open_payload hs l : keep no_use nil hs (open_payload c cr s l).
Proof.
  unfold open_payload. destruct (s_kdf s) as [k|]; [|destruct (needs_key s); auto with keep].
  apply keep_is_wire_bind. cbn iota.
  apply keep_bind.
  { apply keep_bind; [apply keep_opening_material|intros _]. apply keep_bind; [auto with keep|intro m]. apply keep_kdf_init. }
  intros _. apply keep_bind; [apply keep_setup|intros _]. apply keep_reset. cbn zeta.
  assert (B : forall hm, keep U hm hs (run d <- foldT (fun d i => aead_open cr (open_ad s l) i d) (l_data l) (rev (s_aead s)); decrypt cr s d)).
  { intro hm. apply keep_bind; [apply keep_foldT; intros; apply keep_aead_open|intro d].
    unfold decrypt. apply keep_foldT. intros b i _. apply keep_bind; [apply keep_cipher|intro d'].
    apply keep_bind; auto with keep. }
  destruct (nonempty _); [|apply B].
  apply keep_with_mac. intro hm. apply keep_bind; [apply keep_macs|intro m]. apply keep_bind; [auto with keep|intros _]. apply B.
Qed.
Lemma keep_open l : keep no_use nil nil (open_session c cr s l).
Proof.
  unfold open_session. apply keep_bind; [apply keep_start|intros _]. apply keep_bind; [auto with keep|intro w].
  apply keep_bind; [destruct w; auto with keep|intros _]. destruct (nonempty _); [apply keep_with_signatures; intro hs|]; apply keep_open_payload.
Qed.
Lemma keep_verify_session l : keep no_use nil nil (verify_session cr s l).
Proof.
  unfold verify_session. apply keep_bind; [apply keep_start|intros _]. apply keep_bind; [auto with keep|intro w].
  apply keep_bind; [destruct w; auto with keep|intros _]. destruct (nonempty _); [apply keep_with_signatures; intro hs|]; auto with keep.
Qed.
End K.

(** ** Operations that draw no randomness *)
Definition nodraw {A} (m : M A) : Prop := forall r d, m (set_draw r d) = (fst (m r), set_draw (snd (m r)) d).
Lemma nodraw_bind {A B} (m : M A) (f : A -> M B) : nodraw m -> (forall a, nodraw (f a)) -> nodraw (mbind m f).
Proof.
  intros Hm Hf r d. unfold mbind. rewrite Hm. destruct (m r) as [[a|e|] r1]; cbn [fst snd]; auto. apply Hf.
Qed.
Lemma nodraw_each {A} (f : A -> M unit) l : (forall a, nodraw (f a)) -> nodraw (each f l).
Proof. intro H. induction l; cbn [each]; [now intros r d|]. now apply nodraw_bind. Qed.
Lemma nodraw_foldT {A B} (f : B -> A -> M B) b l : (forall b a, nodraw (f b a)) -> nodraw (foldT f b l).
Proof. intro H. revert b. induction l; intro b; cbn [foldT]; [now intros r d|]. now apply nodraw_bind. Qed.
Lemma nodraw_each_last {A} (f : A -> M unit) l : (forall a, nodraw (f a)) -> nodraw (each_last f l).
Proof.
  intro H. induction l as [|a [|b l] IH]; [now intros r d|apply H|].
  intros r d. rewrite !each_last_cons, (H a r d). destruct (f a r) as [[?|?|] r1]; cbn [fst snd]; auto.
Qed.
Lemma nodraw_deferred {A} f (m : M A) : (forall r d, f (set_draw r d) = set_draw (f r) d) -> nodraw m -> nodraw (deferred f m).
Proof. intros Hf H r d. unfold deferred. rewrite H. destruct (m r) as [o r1]. cbn [fst snd]. now rewrite Hf. Qed.
Lemma nodraw_ret {A} (a : A) : nodraw (ret a). Proof. now intros r d. Qed.
Lemma nodraw_fail {A} e : nodraw (@fail A e). Proof. now intros r d. Qed.
Lemma nodraw_panic {A} : nodraw (@panic A). Proof. now intros r d. Qed.
Lemma nodraw_lift {A} (x : outcome A) : nodraw (lift x). Proof. now intros r d. Qed.
Lemma nodraw_check b e : nodraw (check b e). Proof. now destruct b. Qed.
Lemma nodraw_upd_wire f : nodraw (upd_wire f). Proof. intros r d. unfold upd_wire, modify. cbn. now destruct (r_wire r). Qed.
Lemma nodraw_add_key k : nodraw (add_key k). Proof. now intros r d. Qed.
Lemma nodraw_add_mat k : nodraw (add_mat k). Proof. now intros r d. Qed.
Lemma nodraw_next_idx : nodraw next_idx. Proof. now intros r d. Qed.
Lemma nodraw_start_index : nodraw start_index. Proof. now intros r d. Qed.
Lemma nodraw_is_wire : nodraw is_wire. Proof. now intros r d. Qed.
Lemma nodraw_wire_st : nodraw wire_st. Proof. now intros r d. Qed.
Lemma nodraw_key_at l : nodraw (key_at l). Proof. now intros r d. Qed.
Lemma nodraw_mat : nodraw (gets r_mat). Proof. now intros r d. Qed.
Lemma nodraw_idx : nodraw (gets r_idx). Proof. now intros r d. Qed.
Lemma nodraw_set_idx n : nodraw (modify (fun r => set_acc r (r_keys r) (r_mat r) n)). Proof. now intros r d. Qed.
Lemma nodraw_tool_st i : nodraw (tool_st i). Proof. now intros r d. Qed.
Lemma nodraw_upd_tool i f : nodraw (upd_tool i f). Proof. now intros r d. Qed.
Lemma nodraw_kdf_init n m : nodraw (kdf_init n m). Proof. unfold kdf_init. destruct (_ || _); now intros r d. Qed.
Lemma nodraw_kdf_read cr s z : nodraw (kdf_read cr s z).
Proof. intros r d. unfold kdf_read. cbn. destruct (r_kdf r); [destruct (cr_kdf _ _ _ _ _ _ _)|]; reflexivity. Qed.
#[export] Hint Resolve nodraw_ret nodraw_fail nodraw_panic nodraw_lift nodraw_check nodraw_upd_wire nodraw_add_key nodraw_add_mat
  nodraw_next_idx nodraw_start_index nodraw_is_wire nodraw_wire_st nodraw_key_at nodraw_mat nodraw_idx nodraw_set_idx
  nodraw_tool_st nodraw_upd_tool nodraw_kdf_init nodraw_kdf_read : nodraw.
Ltac nodraw_auto := intros; repeat first
  [ solve [auto with nodraw]
  | apply nodraw_bind; intros
  | apply nodraw_each; intros
  | apply nodraw_foldT; intros
  | apply nodraw_each_last; intros
  | match goal with
    | |- nodraw (match ?x with _ => _ end) => destruct x
    | |- nodraw (let '(_, _) := ?x in _) => destruct x
    end ].

Section D.
Variable c : config.
Variable cr : crypto.
Variable s : session.
Lemma nodraw_derive_pw p w : nodraw (derive_pw c cr s p w). Proof. unfold derive_pw. nodraw_auto. Qed.
Lemma nodraw_shared i p q : nodraw (shared cr i p q). Proof. unfold shared. nodraw_auto. Qed.
Lemma nodraw_unwrap i p w : nodraw (unwrap cr i p w). Proof. unfold unwrap. nodraw_auto. Qed.
Hint Resolve nodraw_derive_pw nodraw_shared nodraw_unwrap : nodraw.
Lemma nodraw_opening_material l : nodraw (opening_material c cr s l).
Proof. unfold opening_material, open_key, open_pw, open_kx, open_ke. nodraw_auto. Qed.
Hint Resolve nodraw_opening_material : nodraw.
Lemma nodraw_carryover b n : nodraw (carryover cr s b n).
Proof. unfold carryover. nodraw_auto. Qed.
Lemma nodraw_recv_handshake l : nodraw (recv_handshake c cr s l).
Proof.
  unfold recv_handshake, recv_idle, assign_kx, assign_ke_signet, assign_ke_seal, make_shared, unwrap_new.
  apply nodraw_bind; [auto with nodraw|intro w]. apply nodraw_bind; [nodraw_auto|intro b].
  apply nodraw_bind; [apply nodraw_carryover|intros _]. destruct b; auto with nodraw.
Qed.
Lemma nodraw_reset r d : reset s (set_draw r d) = set_draw (reset s r) d.
Proof.
  unfold reset. generalize (s_stateful s) as l. intro l. revert r. induction l as [|i l IH]; intro r; cbn [fold_left]; [reflexivity|].
  rewrite <- IH. reflexivity.
Qed.
Lemma nodraw_mac d ad i : nodraw (mac cr d ad i).
Proof. unfold mac. nodraw_auto. Qed.
Lemma nodraw_aead_open ad i b : nodraw (aead_open cr ad i b).
Proof.
  intros r d. unfold aead_open. cbn zeta. cbn [r_tools set_draw r_buf]. destruct (cr_open _ _ _ _ _ _); [reflexivity|].
  destruct (length b <? tag_size)%nat; reflexivity.
Qed.
Lemma nodraw_open_payload l : nodraw (open_payload c cr s l).
Proof.
  unfold open_payload. destruct (s_kdf s) as [k|]; [|nodraw_auto]. apply nodraw_bind; [auto with nodraw|intro w].
  apply nodraw_bind; [destruct w; [apply nodraw_recv_handshake|nodraw_auto]|intros _].
  apply nodraw_bind; [unfold setup, setup_tool; nodraw_auto|intros _]. apply nodraw_deferred; [apply nodraw_reset|]. cbn zeta.
  match goal with |- nodraw (if _ then _ else ?b) => assert (B : nodraw b) end.
  { apply nodraw_bind.
    - apply nodraw_foldT. intros b i. apply nodraw_aead_open.
    - intro d. unfold decrypt. apply nodraw_foldT. intros b i. apply nodraw_bind; [unfold cipher; nodraw_auto|intro].
      apply nodraw_bind; [now intros r d'|auto with nodraw]. }
  destruct (nonempty _); [|exact B]. unfold with_mac_hashers. apply nodraw_bind; [now intros r d|intros _].
  apply nodraw_deferred; [now intros|]. apply nodraw_bind; [|intro m; apply nodraw_bind; [auto with nodraw|intros _; exact B]].
  unfold macs. apply nodraw_foldT. intros b i. apply nodraw_bind; [apply nodraw_mac|auto with nodraw].
Qed.
Lemma nodraw_with_signatures l {A} (m : M A) : nodraw m -> nodraw (with_signatures cr s l m).
Proof.
  intro H. unfold with_signatures, with_sig_hashers. apply nodraw_bind; [now intros r d|intros _].
  apply nodraw_deferred; [now intros|]. apply nodraw_bind; [auto with nodraw|intros _]. apply nodraw_bind; [|auto].
  unfold verify_all, sig_at, verify, digest. nodraw_auto. now intros r d.
Qed.
Lemma nodraw_open l : nodraw (open_session c cr s l).
Proof.
  unfold open_session. apply nodraw_bind; [now intros r d|intros _]. apply nodraw_bind; [auto with nodraw|intro w].
  apply nodraw_bind; [destruct w; auto with nodraw|intros _]. destruct (nonempty _); [apply nodraw_with_signatures|]; apply nodraw_open_payload.
Qed.
Lemma nodraw_verify l : nodraw (verify_session cr s l).
Proof.
  unfold verify_session. apply nodraw_bind; [now intros r d|intros _]. apply nodraw_bind; [auto with nodraw|intro w].
  apply nodraw_bind; [destruct w; auto with nodraw|intros _]. destruct (nonempty _); [apply nodraw_with_signatures|]; auto with nodraw.
Qed.
End D.
