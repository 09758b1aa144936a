(** C75: message keys are overwritten when a message is done. *)
From Coq Require Import Init.Byte.
From Verif Require Import CoreState CoreSession SpecCore SuiteFacts PropInPlace PropTrip SpecWorking CoreKeys WireLive PropWire PropHistory Toy SpecWipe.

(** ** Operations that leave the tools alone *)
Definition still {A} (m : M A) : Prop := forall r, r_tools (snd (m r)) = r_tools r.
Lemma still_bind {A B} (m : M A) (f : A -> M B) : still m -> (forall a, still (f a)) -> still (mbind m f).
Proof. intros Hm Hf r. unfold mbind. specialize (Hm r). destruct (m r) as [[a|e|] r1]; cbn [snd] in *; auto. now rewrite (Hf a r1). Qed.
Lemma still_each {A} (f : A -> M unit) l : (forall a, still (f a)) -> still (each f l).
Proof. intro H. induction l; cbn [each]; [now intro r|]. now apply still_bind. Qed.
Lemma still_foldT {A B} (f : B -> A -> M B) b l : (forall b a, still (f b a)) -> still (foldT f b l).
Proof. intro H. revert b. induction l; intro b; cbn [foldT]; [now intro r|]. now apply still_bind. Qed.
Lemma still_each_last {A} (f : A -> M unit) l : (forall a, still (f a)) -> still (each_last f l).
Proof.
  intro H. induction l as [|a [|b l] IH]; [now intro r|apply H|].
  intro r. rewrite !each_last_cons. specialize (H a r). destruct (f a r) as [[?|?|] r1]; cbn [fst snd] in *; rewrite ?IH; auto.
Qed.
Lemma still_deferred {A} f (m : M A) : (forall r, r_tools (f r) = r_tools r) -> still m -> still (deferred f m).
Proof. intros Hf H r. unfold deferred. specialize (H r). destruct (m r) as [o r1]. cbn [fst snd] in *. now rewrite Hf. Qed.
Lemma still_ret {A} (a : A) : still (ret a). Proof. now intro r. Qed.
Lemma still_fail {A} e : still (@fail A e). Proof. now intro r. Qed.
Lemma still_panic {A} : still (@panic A). Proof. now intro r. Qed.
Lemma still_lift {A} (x : outcome A) : still (lift x). Proof. now intro r. Qed.
Lemma still_gets {A} (f : rt -> A) : still (gets f). Proof. now intro r. Qed.
Lemma still_check b e : still (check b e). Proof. now destruct b. Qed.
Lemma still_upd_wire f : still (upd_wire f). Proof. intro r. unfold upd_wire, modify. cbn. now destruct (r_wire r). Qed.
Lemma still_add_key k : still (add_key k). Proof. now intro r. Qed.
Lemma still_add_mat k : still (add_mat k). Proof. now intro r. Qed.
Lemma still_next_idx : still next_idx. Proof. now intro r. Qed.
Lemma still_start_index : still start_index. Proof. now intro r. Qed.
Lemma still_set_idx n : still (modify (fun r => set_acc r (r_keys r) (r_mat r) n)). Proof. now intro r. Qed.
Lemma still_is_wire : still is_wire. Proof. now intro r. Qed.
Lemma still_wire_st : still wire_st. Proof. now intro r. Qed.
Lemma still_key_at l : still (key_at l). Proof. now intro r. Qed.
Lemma still_rand cr z : still (rand cr z). Proof. now intro r. Qed.
Lemma still_gen cr t : still (gen cr t). Proof. now intro r. Qed.
Lemma still_kdf_init n m : still (kdf_init n m). Proof. unfold kdf_init. destruct (_ || _); now intro r. Qed.
Lemma still_kdf_read cr s z : still (kdf_read cr s z).
Proof. intro r. unfold kdf_read. destruct (r_kdf r); [destruct (cr_kdf _ _ _ _ _ _ _)|]; reflexivity. Qed.
Lemma still_encap cr i p k : still (encap cr i p k). Proof. unfold encap. destruct p; now intro r. Qed.
#[local] Hint Resolve still_ret still_fail still_panic still_lift still_gets still_check still_upd_wire still_add_key still_add_mat
  still_next_idx still_start_index still_set_idx still_is_wire still_wire_st still_key_at still_rand still_gen still_kdf_init still_kdf_read still_encap : still.
Ltac still_auto := intros; repeat first
  [ solve [auto with still]
  | apply still_bind; intros
  | apply still_each; intros
  | apply still_foldT; intros
  | apply still_each_last; intros
  | match goal with
    | |- still (match ?x with _ => _ end) => destruct x
    | |- still (let '(_, _) := ?x in _) => destruct x
    end ].

Section S.
Variables (c : config) (cr : crypto) (s : session).
Lemma still_derive_pw p w : still (derive_pw c cr s p w). Proof. unfold derive_pw. still_auto. Qed.
Lemma still_shared i p q : still (shared cr i p q). Proof. unfold shared. still_auto. Qed.
Lemma still_unwrap i p w : still (unwrap cr i p w). Proof. unfold unwrap. still_auto. Qed.
Hint Resolve still_derive_pw still_shared still_unwrap : still.
Lemma still_closing nonce : still (closing_material c cr s nonce).
Proof. unfold closing_material, close_key, close_pw, close_kx, close_ke. still_auto. Qed.
Lemma still_opening l : still (opening_material c cr s l).
Proof. unfold opening_material, open_key, open_pw, open_kx, open_ke. still_auto. Qed.
Lemma still_carryover b n : still (carryover cr s b n). Proof. unfold carryover. still_auto. Qed.
Hint Resolve still_closing still_opening still_carryover : still.
Lemma still_establish nonce : still (establish c cr s nonce).
Proof. unfold establish, send_handshake, send_idle, gen_local_kx, gen_local_ke, make_shared, encap_new. still_auto. Qed.
Lemma still_recv l : still (recv_handshake c cr s l).
Proof.
  unfold recv_handshake, recv_idle, assign_kx, assign_ke_signet, assign_ke_seal, make_shared, unwrap_new. still_auto.
Qed.
Lemma still_sign i sg : still (sign cr i sg).
Proof. unfold sign, digest. still_auto. all: try now intro r. Qed.
Lemma still_close_sign l ad : still (close_sign cr s l ad).
Proof.
  unfold close_sign. destruct (nonempty _); [|auto with still]. unfold with_sig_hashers. apply still_bind; [now intro r|intros _].
  apply still_deferred; [reflexivity|]. apply still_bind; [|auto with still]. unfold sign_all. apply still_foldT. intros b i. apply still_foldT. intros b' sg.
  apply still_bind; [apply still_sign|auto with still].
Qed.

(** ** After reset all keys are gone *)
Lemma burned_burnt b : burnt (burned b).
Proof. intros x I. apply repeat_spec in I. exact I. Qed.
Lemma reset_blank r : blank s (reset s r).
Proof.
  unfold blank, reset. set (st := s_stateful s). cut (forall l r i, In i l \/ (burnt (ts_key (r_tools r (i_idx i))) /\ burnt (ts_iv (r_tools r (i_idx i)))) ->
     burnt (ts_key (r_tools (fold_left reset_tool l r) (i_idx i))) /\ burnt (ts_iv (r_tools (fold_left reset_tool l r) (i_idx i)))).
  { intros G i I. apply G. now left. }
  clear. induction l as [|j l IH]; intros r i H; cbn [fold_left]; [destruct H as [[]|H]; exact H|]. apply IH.
  destruct H as [[->|H]|H]; [|now left|].
  - right. cbn [reset_tool r_tools set_tools]. rewrite Nat.eqb_refl. cbn [ts_key ts_iv]. split; apply burned_burnt.
  - right. cbn [reset_tool r_tools set_tools]. destruct (i_idx i =? i_idx j)%nat; [cbn [ts_key ts_iv]; split; apply burned_burnt|exact H].
Qed.
Lemma deferred_blank {A} (m : M A) r : blank s (snd (deferred (reset s) m r)).
Proof. unfold deferred. destruct (m r) as [o q]. cbn [snd]. apply reset_blank. Qed.
Lemma blank_still {A} (m : M A) r : still m -> blank s r -> blank s (snd (m r)).
Proof. intros S B i I. rewrite (S r). auto. Qed.

(** The failure of the setup of the tools, the one way to leave keys behind. *)
Definition late {A} (o : outcome A) : Prop := match o with Err EOther => True | Panic => True | _ => False end.
Lemma setup_late r o q : setup cr s r = (o, q) -> o = Ok tt \/ late o.
Proof.
  unfold setup. revert r. induction (s_stateful s) as [|i l IH]; intros r H; cbn [each] in H; [left; now injection H|].
  assert (K : forall z r o q, kdf_read cr s z r = (o, q) -> (exists b, o = Ok b) \/ o = Err EOther \/ o = Panic).
  { intros z r0 o0 q0 E. unfold kdf_read in E. destruct (r_kdf r0); [destruct (cr_kdf _ _ _ _ _ _ _)|]; injection E as <- <-; eauto. }
  unfold mbind in H at 1. destruct (setup_tool cr s i r) as [[[]|e|] q1] eqn:E; [eapply IH, H| |injection H as <- <-; right; exact I].
  injection H as <- <-. right. unfold setup_tool in E. unfold mbind in E at 1.
  destruct (kdf_read cr s _ r) as [o1 q2] eqn:K1. apply K in K1 as [(b & ->) | [-> | ->]]; [|injection E as <- <-; exact I|discriminate].
  unfold mbind at 1 in E. cbn [upd_tool modify] in E. unfold mbind at 1 in E. destruct (has_iv i); [|discriminate].
  unfold mbind at 1 in E. destruct (kdf_read cr s _ _) as [o2 q3] eqn:K2. apply K in K2 as [(b2 & ->) | [-> | ->]]; [discriminate|injection E as <- <-; exact I|discriminate].
Qed.
Lemma after_setup {A} (f : unit -> M A) r : (forall q, blank s (snd (f tt q))) -> blank s (snd (mbind (setup cr s) f r)) \/ late (fst (mbind (setup cr s) f r)).
Proof.
  intro F. unfold mbind. destruct (setup cr s r) as [o q] eqn:E. destruct (setup_late _ _ _ E) as [->|L]; [left; apply F|].
  right. destruct o as [x|e|]; [contradiction|exact L|exact I].
Qed.
Lemma blank_bind {A B} (m : M A) (f : A -> M B) r : still m -> blank s r ->
  (forall a q, blank s q -> blank s (snd (f a q)) \/ late (fst (f a q))) -> blank s (snd (mbind m f r)) \/ late (fst (mbind m f r)).
Proof.
  intros St Bl F. pose proof (blank_still m r St Bl) as B1. unfold mbind. destruct (m r) as [[a|e|] q]; cbn [snd fst] in *; [now apply F|now left..].
Qed.
Lemma blank_close full data r : blank s r -> blank s (snd (close_session c cr s full data r)) \/ late (fst (close_session c cr s full data r)).
Proof.
  intro B. unfold close_session. apply blank_bind; [now intro q|exact B|intros _ q1 B1]. apply blank_bind; [now intro q|exact B1|intros first q2 B2].
  apply blank_bind; [apply still_rand|exact B2|intros nonce q3 B3]. destruct (s_kdf s).
  - apply blank_bind; [apply still_establish|exact B3|intros ap q4 B4]. apply blank_bind; [now intro q|exact B4|intros ks q5 B5]. cbn zeta.
    apply after_setup. intro q. apply deferred_blank.
  - destruct (needs_key s); left; [exact B3|]. apply blank_still; [apply still_close_sign|exact B3].
Qed.
Lemma blank_payload l r : blank s r -> blank s (snd (open_payload c cr s l r)) \/ late (fst (open_payload c cr s l r)).
Proof.
  intro B. unfold open_payload. destruct (s_kdf s); [|destruct (needs_key s); left; exact B].
  apply blank_bind; [now intro q|exact B|intros w q1 B1]. apply blank_bind; [destruct w; [apply still_recv|]|exact B1|intros _ q2 B2].
  - apply still_bind; [apply still_opening|intros _]. apply still_bind; [auto with still|]. intro m. apply still_kdf_init.
  - apply after_setup. intro q. apply deferred_blank.
Qed.
Lemma still_verify_all l : still (verify_all cr s l).
Proof. unfold verify_all, sig_at, verify, digest. still_auto. Qed.
Lemma blank_with_signatures {A} l (m : M A) r : blank s r -> (forall q, blank s q -> blank s (snd (m q)) \/ late (fst (m q))) ->
  blank s (snd (with_signatures cr s l m r)) \/ late (fst (with_signatures cr s l m r)).
Proof.
  intros B F. unfold with_signatures, with_sig_hashers. apply blank_bind; [now intro q|exact B|intros _ q1 B1].
  unfold deferred. match goal with |- context [snd (let (_, _) := ?m' q1 in _)] => assert (G : blank s (snd (m' q1)) \/ late (fst (m' q1))) end.
  { apply blank_bind; [auto with still|exact B1|intros _ q2 B2]. apply blank_bind; [apply still_verify_all|exact B2|intros _ q3 B3]. now apply F. }
  match goal with |- context [snd (let (_, _) := ?m' q1 in _)] => destruct (m' q1) as [o q2] end. exact G.
Qed.
Lemma blank_open l r : blank s r -> blank s (snd (open_session c cr s l r)) \/ late (fst (open_session c cr s l r)).
Proof.
  intro B. unfold open_session. apply blank_bind; [now intro q|exact B|intros _ q1 B1]. apply blank_bind; [now intro q|exact B1|intros w q2 B2].
  apply blank_bind; [destruct w; auto with still|exact B2|intros _ q3 B3]. destruct (nonempty _); [apply blank_with_signatures; [exact B3|]|].
  - intros q B4. now apply blank_payload.
  - now apply blank_payload.
Qed.
Lemma blank_verify l r : blank s r -> blank s (snd (verify_session cr s l r)).
Proof.
  intro B. apply blank_still; [|exact B]. unfold verify_session. apply still_bind; [now intro q|intros _]. apply still_bind; [now intro q|intro w].
  apply still_bind; [destruct w; auto with still|intros _]. destruct (nonempty _); [|auto with still].
  unfold with_signatures, with_sig_hashers. apply still_bind; [now intro q|intros _]. apply still_deferred; [reflexivity|].
  apply still_bind; [auto with still|intros _]. apply still_bind; [apply still_verify_all|auto with still].
Qed.
End S.

(** ** Plain sessions with working key derivation: setup does not fail *)
Section P.
Variables (c : config) (cr : crypto) (s : session).
Hypothesis total : forall q n x, r_kdf q = Some (mkKdf n x 0) -> exists q', setup cr s q = (Ok tt, q').
Lemma kdf_init_zero nonce m r q : kdf_init nonce m r = (Ok tt, q) -> exists n x, r_kdf q = Some (mkKdf n x 0).
Proof. unfold kdf_init. destruct (_ || _); [discriminate|]. intro H. injection H as <-. cbn. eauto. Qed.
Lemma total_bind {A B} (m : M A) (f : A -> M B) r : still m -> blank s r ->
  (forall a q, m r = (Ok a, q) -> blank s q -> blank s (snd (f a q))) -> blank s (snd (mbind m f r)).
Proof.
  intros St Bl F. pose proof (blank_still s m r St Bl) as B1. unfold mbind. destruct (m r) as [[a|e|] q] eqn:E; cbn [snd] in *; [now apply F|exact B1..].
Qed.
Lemma total_setup {A} (f : unit -> M A) r n x : r_kdf r = Some (mkKdf n x 0) -> (forall q, blank s (snd (f tt q))) -> blank s (snd (mbind (setup cr s) f r)).
Proof. intros E F. destruct (total r n x E) as (q & Q). unfold mbind. rewrite Q. apply F. Qed.
Lemma plain_close full data r : blank s r -> r_wire r = None -> blank s (snd (close_session c cr s full data r)).
Proof.
  intros B W. unfold close_session. apply total_bind; [now intro q|exact B|intros [] q1 E1 B1]. apply (f_equal snd) in E1. cbn [snd modify] in E1. subst q1.
  apply total_bind; [now intro q|exact B1|intros first q2 E2 B2]. apply (f_equal snd) in E2. cbn [snd gets] in E2. subst q2.
  apply total_bind; [apply still_rand|exact B2|intros nonce q3 E3 B3].
  assert (W3 : r_wire q3 = None). { unfold rand in E3. destruct (cr_rand _ _ _); [|discriminate]. injection E3 as _ <-. exact W. }
  destruct (s_kdf s).
  - apply total_bind; [apply still_establish|exact B3|intros ap q4 E4 B4].
    assert (Z : exists n x, r_kdf q4 = Some (mkKdf n x 0)).
    { unfold establish, is_wire, gets in E4. unfold mbind at 1 in E4. rewrite W3 in E4. cbn [negb is_none] in E4. unfold mbind at 1 in E4.
      destruct (closing_material c cr s nonce q3) as [[[]|e|] q5]; cbv iota beta in E4; [|discriminate E4|discriminate E4]. unfold mbind at 1 in E4. unfold mbind in E4.
      destruct (kdf_init nonce (r_mat q5) q5) as [[[]|e|] q6] eqn:K; [|discriminate|discriminate]. injection E4 as _ <-. eapply kdf_init_zero, K. }
    destruct Z as (n & x & Z). apply total_bind; [now intro q|exact B4|intros ks q5 E5 B5]. apply (f_equal snd) in E5. cbn [snd gets] in E5. subst q5. cbn zeta.
    eapply total_setup; [exact Z|]. intro q. apply deferred_blank.
  - destruct (needs_key s); [exact B3|]. apply blank_still; [apply still_close_sign|exact B3].
Qed.
Lemma plain_payload l r : blank s r -> r_wire r = None -> blank s (snd (open_payload c cr s l r)).
Proof.
  intros B W. unfold open_payload. destruct (s_kdf s); [|destruct (needs_key s); exact B].
  apply total_bind; [now intro q|exact B|intros w q1 E1 B1]. unfold is_wire, gets in E1. rewrite W in E1. injection E1 as <- <-.
  apply total_bind; [|exact B|intros [] q2 E2 B2].
  - apply still_bind; [apply still_opening|intros _]. apply still_bind; [auto with still|]. intro m. apply still_kdf_init.
  - unfold mbind at 1 in E2. destruct (opening_material c cr s l r) as [[[]|e|] q5]; [|discriminate|discriminate]. unfold mbind at 1 in E2.
    unfold gets at 1 in E2. apply kdf_init_zero in E2 as (n & x & Z). eapply total_setup; [exact Z|]. intro q. apply deferred_blank.
Qed.
Lemma plain_open l r : blank s r -> r_wire r = None -> blank s (snd (open_session c cr s l r)).
Proof.
  intros B W. unfold open_session. apply total_bind; [now intro q|exact B|intros [] q1 E1 B1]. apply (f_equal snd) in E1. cbn [snd modify] in E1. subst q1.
  apply total_bind; [now intro q|exact B1|intros w q2 E2 B2]. unfold is_wire, gets in E2. cbn [r_wire set_buf set_acc] in E2. rewrite W in E2. injection E2 as <- <-.
  apply total_bind; [auto with still|exact B2|intros [] q3 E3 B3].
  assert (W3 : r_wire q3 = None) by (unfold check in E3; destruct (_ =? _)%N in E3; [apply (f_equal snd) in E3; cbn [snd ret] in E3; subst q3; exact W|discriminate]). clear E3.
  destruct (nonempty _); [|now apply plain_payload].
  unfold with_signatures, with_sig_hashers. apply total_bind; [now intro q|exact B3|intros [] q4 E4 B4].
  assert (W4 : r_wire q4 = None) by (apply (f_equal snd) in E4; cbn [snd modify] in E4; subst q4; exact W3). clear E4.
  unfold deferred. match goal with |- context [snd (let (_, _) := ?m q4 in _)] => assert (G : blank s (snd (m q4))); [|destruct (m q4) as [o q5]; exact G] end.
  apply total_bind; [auto with still|exact B4|intros [] q5 E5 B5].
  assert (W5 : r_wire q5 = None). { unfold check in E5. destruct (_ =? _)%nat in E5; [injection E5 as <-; exact W4|discriminate]. }
  apply total_bind; [apply still_verify_all|exact B5|intros k q6 E6 B6]. apply plain_payload; [exact B6|].
  pose proof (keep_verify_all cr s (fun _ => True) (r_mach q5) (r_sigh q5) l q5) as K. rewrite E6 in K. apply he_wire in K; [exact K|].
  constructor; [reflexivity|reflexivity|intros n H; now elim H|exact W5].
Qed.
End P.

(** When a request to a session (plain or wire) whose ciphers and MACs hold no keys came to a result or failed authentication, they hold none again. *)
Theorem C75_overwritten : forall c cr s q r a r', blank s r -> serve c cr s q r = (a, r') -> came_to_end a -> blank s r'.
Proof.
  intros c cr s q r a r' B E H. destruct q as [full d|l|l]; cbn [serve] in E.
  - destruct (blank_close c cr s full d r B) as [G|G]; destruct (close_session c cr s full d r) as [o q]; injection E as <- <-; [exact G|].
    destruct o as [x|[]|]; try contradiction; discriminate.
  - destruct (blank_open c cr s l r B) as [G|G]; destruct (open_session c cr s l r) as [o q]; injection E as <- <-; [exact G|].
    destruct o as [x|[]|]; try contradiction; discriminate.
  - pose proof (blank_verify cr s l r B) as G. destruct (verify_session cr s l r) as [o q]. injection E as <- <-. exact G.
Qed.
Print Assumptions C75_overwritten.

(** For plain sessions of the registered suites, while the primitives work, nothing else is needed: whatever the
    session was asked, and whatever became of it, no cipher or MAC holds a key or nonce afterwards. *)
Theorem C75_always_overwritten : forall c cr e s su d qs,
  working cr -> new_session c tool_registry hash_registry cr e = Ok s -> e_suite e = Some su -> In su suite_registry ->
  blank s (after c cr s qs (rt_start d None)).
Proof.
  intros c cr e s su d qs WK N ES HI. pose proof (session_sound _ _ _ _ _ N) as SS. pose proof (registered_insts _ _ _ _ _ N ES HI) as EA.
  pose proof N as N0. apply new_session_ok in N0 as (su' & _ & O).
  assert (T : forall q n x, r_kdf q = Some (mkKdf n x 0) -> exists q', setup cr s q = (Ok tt, q')).
  { intros q n x K. assert (RM : 0 + demand (s_dks s) (s_stateful s) <= kdf_limit).
    { rewrite (sh_stateful _ _ _ (so_shape _ _ _ _ _ _ _ O)), EA. destruct (registered_demand su (s_dks s) HI) as [A _]. unfold kdf_limit. lia. }
    destruct (derived_total cr WK (kdf_name s) (kdf_hash s) n x (s_dks s) (s_stateful s) 0 RM) as (kvs & D).
    pose proof (setup_run cr s (s_stateful s) n x 0 q (ss_ids s SS) K) as H. rewrite D in H. destruct H as (q' & H & _). exists q'. exact H. }
  destruct (session_keyed _ _ _ _ _ N) as [KY _].
  cut (forall r, rest r -> blank s r -> blank s (after c cr s qs r)).
  { intro G. apply G; [constructor; reflexivity|]. intros i _. split; intros y []. }
  induction qs as [|q qs IH]; intros r R B; cbn [after]; [exact B|]. apply IH; [now apply serve_rest|].
  pose proof (he_wire _ _ _ _ R) as W. destruct q as [full data|l|l]; cbn [serve].
  - pose proof (plain_close c cr s T full data r B W) as G. destruct (close_session c cr s full data r). exact G.
  - pose proof (plain_open c cr s T l r B W) as G. destruct (open_session c cr s l r). exact G.
  - pose proof (blank_verify cr s l r B) as G. destruct (verify_session cr s l r). exact G.
Qed.
Print Assumptions C75_always_overwritten.

(** The toy instance, suite pw_v1: Close gives a letter, and the cipher's 32 byte key and 12 byte nonce are 0xFF. *)
Definition wipe_env := toy_env (suite_named (lit "pw_v1")) [toy_password "pw"] [] [].
Example C75_hypotheses_met : working toy /\ exists s, new_session default_config tool_registry hash_registry toy wipe_env = Ok s
  /\ In (suite_named (lit "pw_v1")) suite_registry
  /\ blank s (rt_start 0 None)
  /\ (let (a, r) := serve default_config toy s (QClose false (lit "hello")) (rt_start 0 None) in came_to_end a
      /\ map (fun i => (ts_key (r_tools r (i_idx i)), ts_iv (r_tools r (i_idx i)))) (s_stateful s) = [(repeat xff 32, repeat xff 12)]).
Proof.
  split; [exact toy_working|]. eexists. split; [vm_compute; reflexivity|]. split; [vm_compute; tauto|]. split; [intros i _; split; intros y []|].
  vm_compute. split; [exact I|reflexivity].
Qed.

(** Refuted: that nothing is left from which the keys could be had.  The key derivation tool keeps its input: whoever
    has the session after Close can derive the letter's key from it and read the letter. *)
Theorem C75_secret_gone_refuted : exists s l r k key iv, new_session default_config tool_registry hash_registry toy wipe_env = Ok s
  /\ close_session default_config toy s false (lit "hello") (rt_start 0 None) = (Ok l, r)
  /\ r_kdf r = Some k /\ kd_nonce k = l_nonce l
  /\ cr_kdf toy (kdf_name s) (kdf_hash s) (kd_nonce k) (kd_secret k) 0 32 = Some key
  /\ cr_kdf toy (kdf_name s) (kdf_hash s) (kd_nonce k) (kd_secret k) 32 12 = Some iv
  /\ cr_open toy (lit "CHACHA20-POLY1305") key iv (assoc_data l) (l_data l) = Some (lit "hello").
Proof.
  destruct (new_session default_config tool_registry hash_registry toy wipe_env) as [s|?|] eqn:N; [|vm_compute in N; discriminate..].
  vm_compute in N. injection N as <-. 
  match goal with |- exists s l r k key iv, Ok ?s0 = _ /\ _ => exists s0;
    destruct (close_session default_config toy s0 false (lit "hello") (rt_start 0 None)) as [[l|?|] r] eqn:C end; [|vm_compute in C; discriminate..].
  exists l, r. vm_compute in C. injection C as <- <-. do 3 eexists. split; [reflexivity|]. split; [vm_compute; reflexivity|]. split; [vm_compute; reflexivity|]. split; [vm_compute; reflexivity|]. split; [vm_compute; reflexivity|]. split; vm_compute; reflexivity.
Qed.
Print Assumptions C75_secret_gone_refuted.
