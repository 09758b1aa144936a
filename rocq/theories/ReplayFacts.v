(** What opening and closing arbitrary letters does to the state of a wire session (for C78). *)
From Verif Require Import WireLive SpecCore SpecWire SessionProps SuiteFacts PropSession PropTrip WireRun WireHurt CoreOpen CoreRound SpecOpen SpecRatchet SpecReplay PropRatchet.

Definition chain3 (w : wstate) := (w_msgno w, w_send w, w_recv w).
(** Operations that touch neither hashers, tools nor the key chain. *)
Definition still {A} (m : M A) : Prop := forall r,
  r_mach (snd (m r)) = r_mach r /\ r_sigh (snd (m r)) = r_sigh r /\ r_tools (snd (m r)) = r_tools r
  /\ option_map chain3 (r_wire (snd (m r))) = option_map chain3 (r_wire r).
Lemma s_bind {A B} (m : M A) (f : A -> M B) : still m -> (forall a, still (f a)) -> still (mbind m f).
Proof.
  intros H1 H2 r. destruct (H1 r) as (A1 & A2 & A3 & A4). unfold mbind. destruct (m r) as [[a|e|] r'] eqn:Em; cbn [fst snd] in *; [|auto..].
  destruct (H2 a r') as (B1 & B2 & B3 & B4). repeat split; congruence.
Qed.
Lemma s_ret {A} (a : A) : still (ret a). Proof. intro r. repeat split. Qed.
Lemma s_fail {A} e : still (@fail A e). Proof. intro r. repeat split. Qed.
Lemma s_panic {A} : still (@panic A). Proof. intro r. repeat split. Qed.
Lemma s_lift {A} (x : outcome A) : still (lift x). Proof. intro r. repeat split. Qed.
Lemma s_check b e : still (check b e). Proof. destruct b; [apply s_ret|apply s_fail]. Qed.
Lemma s_gets {A} (f : rt -> A) : still (gets f). Proof. intro r. repeat split. Qed.
Lemma s_each {A} (f : A -> M unit) l : (forall a, still (f a)) -> still (each f l).
Proof. intro H. induction l as [|a l IH]; cbn [each]; [apply s_ret|]. apply s_bind; auto. Qed.
Lemma s_each_last {A} (f : A -> M unit) l : (forall a, still (f a)) -> still (each_last f l).
Proof.
  intro H. induction l as [|a l IH]; [apply s_ret|]. destruct l as [|a2 l]; [exact (H a)|]. intro r. destruct (H a r) as (A1 & A2 & A3 & A4). rewrite each_last_cons.
  destruct (f a r) as [o r'] eqn:Ef. cbn [fst snd] in *. destruct (IH r') as (B1 & B2 & B3 & B4).
  destruct o; cbn [fst snd]; repeat split; congruence.
Qed.
Lemma s_upd_wire f : (forall w, chain3 (f w) = chain3 w) -> still (upd_wire f).
Proof. intros H r. unfold upd_wire, modify. cbn [fst snd]. destruct (r_wire r) eqn:E; cbn; rewrite ?E; cbn; rewrite ?H; repeat split. Qed.
Lemma s_add_key k : still (add_key k). Proof. intro r. repeat split. Qed.
Lemma s_add_mat k : still (add_mat k). Proof. intro r. repeat split. Qed.
Lemma s_next_idx : still next_idx. Proof. intro r. repeat split. Qed.
Lemma s_start_index : still start_index. Proof. intro r. repeat split. Qed.
Lemma s_set_idx k : still (modify (fun r => set_acc r (r_keys r) (r_mat r) k)). Proof. intro r. repeat split. Qed.
Lemma s_wire_st : still wire_st. Proof. intro r. repeat split. Qed.
Lemma s_rand cr z : still (rand cr z). Proof. intro r. repeat split. Qed.
Lemma s_gen cr t : still (gen cr t). Proof. intro r. repeat split. Qed.
Lemma s_key_at l : still (key_at l). Proof. intro r. repeat split. Qed.
#[export] Hint Resolve s_ret s_fail s_panic s_lift s_check s_gets s_add_key s_add_mat s_next_idx s_start_index s_set_idx s_wire_st s_rand s_gen s_key_at : still.
Ltac s_auto := intros; repeat first
  [ solve [auto with still]
  | apply s_upd_wire; intros []; reflexivity
  | apply s_each; intro | apply s_each_last; intro
  | apply s_bind; intros
  | match goal with
    | |- still (match ?x with _ => _ end) => destruct x
    | |- still (let '(_, _) := ?x in _) => destruct x
    end ].

Section S.
Variables (c : config) (cr : crypto) (s : session).
Lemma s_kdf_read z : still (kdf_read cr s z).
Proof. intro r. unfold kdf_read. destruct (r_kdf r) as [k|]; [|repeat split]. destruct (cr_kdf _ _ _ _ _ _ _); repeat split. Qed.
Lemma s_kdf_init nonce mat : still (kdf_init nonce mat).
Proof. unfold kdf_init. destruct (_ || _); [auto with still|]. intro r. repeat split. Qed.
Lemma s_encap i p k : still (encap cr i p k). Proof. unfold encap. destruct p; [|auto with still]. intro r. repeat split. Qed.
Lemma s_shared i p q : still (shared cr i p q). Proof. unfold shared. s_auto. Qed.
Lemma s_unwrap i p w : still (unwrap cr i p w). Proof. unfold unwrap. s_auto. Qed.
Lemma s_derive_pw p w : still (derive_pw c cr s p w). Proof. unfold derive_pw. s_auto. Qed.
Hint Resolve s_kdf_read s_kdf_init s_encap s_shared s_unwrap s_derive_pw : still.
Lemma s_opening_material l : still (opening_material c cr s l).
Proof. unfold opening_material, open_key, open_pw, open_kx, open_ke. s_auto. Qed.
Lemma s_closing_material l : still (closing_material c cr s l).
Proof. unfold closing_material, close_key, close_pw, close_kx, close_ke. s_auto. Qed.
Lemma s_recv_idle l : still (recv_idle s l).
Proof. unfold recv_idle, assign_kx, assign_ke_signet. s_auto. Qed.
Hint Resolve s_opening_material s_closing_material s_recv_idle : still.
Lemma s_recv_mat l : still (recv_mat c cr s l).
Proof. unfold recv_mat, assign_kx, assign_ke_seal, make_shared, unwrap_new. s_auto. Qed.
Lemma s_send_idle : still (send_idle cr).
Proof. unfold send_idle, gen_local_kx, gen_local_ke. s_auto. Qed.
Hint Resolve s_send_idle : still.
Lemma s_send_mat nonce : still (send_mat c cr s nonce).
Proof. unfold send_mat, gen_local_kx, gen_local_ke, make_shared, encap_new. s_auto. Qed.
Lemma s_burn : still (upd_wire burn_pairs). Proof. apply s_upd_wire. intros []. reflexivity. Qed.
End S.

Lemma calm_eq r r' : calm r -> r_mach r' = r_mach r -> r_sigh r' = r_sigh r -> r_tools r' = r_tools r -> calm r'.
Proof. intros [] E1 E2 E3. constructor; rewrite ?E1, ?E2, ?E3; assumption. Qed.
Lemma still_calm {A} (m : M A) r : still m -> calm r -> calm (snd (m r)).
Proof. intros S C. destruct (S r) as (E1 & E2 & E3 & _). now apply (calm_eq r). Qed.
Lemma still_chain {A} (m : M A) r w : still m -> r_wire r = Some w -> exists w', r_wire (snd (m r)) = Some w' /\ chain3 w' = chain3 w.
Proof. intros S W. destruct (S r) as (_ & _ & _ & E). rewrite W in E. destruct (r_wire (snd (m r))) as [w'|]; [|discriminate]. injection E as E. exists w'. unfold chain3. split; congruence. Qed.
Lemma prev_same w w' : chain3 w' = chain3 w -> forall b, prev_of b w' = prev_of b w.
Proof. intros E b. pose proof (f_equal (fun x => fst (fst x)) E) as E1. pose proof (f_equal (fun x => snd (fst x)) E) as E2. pose proof (f_equal snd E) as E3. cbn in E1, E2, E3. unfold prev_of, carry. now rewrite E1, E2, E3. Qed.

Section R.
Variables (c : config) (cr : crypto) (s : session).

(** When the carryover fails, the chain keys stay what they were. *)
Lemma carry_fails b nonce r w o r' : r_wire r = Some w -> carryover cr s b nonce r = (o, r') -> o <> Ok tt ->
  r_mach r' = r_mach r /\ r_sigh r' = r_sigh r /\ r_tools r' = r_tools r /\ exists w', r_wire r' = Some w' /\ forall b', prev_of b' w' = prev_of b' w.
Proof.
  intros W H NO. assert (WS : wire_st r = (Ok w, r)) by (unfold wire_st; now rewrite W).
  unfold carryover in H. rewrite (mbind_run _ _ _ _ _ WS) in H. destruct (w_msgno w =? 0)%N eqn:E0.
  - unfold check in H. destruct (s_dks s =? 0)%Z; cbn [negb] in H.
    { injection H as <- <-. repeat split. exists w. auto. }
    set (z := repeat (n2b 0) (Z.to_nat (s_dks s))) in *.
    assert (S1 : (run _ <- ret tt; upd_wire (fun w => set_carry b w z)) r = (Ok tt, set_wire r (Some (set_carry b w z)))).
    { unfold mbind, ret, upd_wire, modify. now rewrite W. }
    rewrite (mbind_run _ _ _ _ _ S1) in H. unfold mbind at 1 in H. unfold gets in H. cbv beta iota in H.
    assert (P : forall b', prev_of b' (set_carry b w z) = prev_of b' w) by (intro b'; unfold prev_of; now rewrite msgno_set, E0).
    unfold mbind at 1 in H. rewrite kdf_init_run in H. destruct (_ && _).
    2: { injection H as <- <-. repeat split. eexists. split; [reflexivity|exact P]. }
    unfold mbind at 1 in H. unfold wire_st in H. cbn [set_kdf set_wire r_wire] in H. unfold mbind at 1 in H. unfold kdf_read in H. cbn [set_kdf set_wire r_kdf kd_nonce kd_secret kd_off] in H.
    destruct (cr_kdf _ _ _ _ _ _ _) as [k|].
    + exfalso. rewrite msgno_set, E0 in H. injection H as <- _. now apply NO.
    + injection H as <- <-. repeat split. eexists. split; [reflexivity|exact P].
  - unfold mbind at 1 in H. unfold add_mat, modify in H. unfold mbind at 1 in H. unfold gets in H. cbv beta iota in H.
    unfold mbind at 1 in H. rewrite kdf_init_run in H. destruct (_ && _).
    2: { injection H as <- <-. repeat split. exists w. split; [exact W|reflexivity]. }
    unfold mbind at 1 in H. unfold wire_st in H. cbn [set_kdf set_acc r_wire] in H. rewrite W in H. unfold mbind at 1 in H. unfold kdf_read in H. cbn [set_kdf set_acc r_kdf kd_nonce kd_secret kd_off] in H.
    destruct (cr_kdf _ _ _ _ _ _ _) as [k|].
    + exfalso. rewrite E0 in H. injection H as <- _. now apply NO.
    + injection H as <- <-. repeat split. exists w. split; [exact W|reflexivity].
Qed.
Lemma carry_fate b nonce r w o r' : calm r -> r_wire r = Some w -> carryover cr s b nonce r = (o, r') ->
  calm r' /\ exists w', r_wire r' = Some w' /\
  match o with
  | Ok _ => exists next, linked cr s nonce (r_mat r) (prev_of b w) next /\ w' = moved b w next
      /\ r_kdf r' = Some (mkKdf nonce (secret_of (r_mat r) (prev_of b w)) (carry_size s (prev_of b w)))
  | _ => forall b', prev_of b' w' = prev_of b' w
  end.
Proof.
  intros C W E. assert (ER : r = st r (r_draw r) w (r_keys r) (r_mat r) (r_idx r)) by (unfold st; destruct r; cbn in *; now subst).
  destruct o as [[]|e|].
  - destruct (carryover_run cr s b nonce r (r_draw r) w (r_keys r) (r_mat r) (r_idx r)) as [CR1 CR2]. rewrite <- ER in CR1, CR2.
    destruct (CR1 _ _ E) as (next & LK). rewrite (CR2 _ LK) in E. injection E as <-.
    split; [destruct C; constructor; cbn; auto|]. eexists. split; [reflexivity|]. exists next. split; [exact LK|]. split; reflexivity.
  - destruct (carry_fails b nonce r w _ r' W E) as (E1 & E2 & E3 & G); [discriminate|]. split; [now apply (calm_eq r)|exact G].
  - destruct (carry_fails b nonce r w _ r' W E) as (E1 & E2 & E3 & G); [discriminate|]. split; [now apply (calm_eq r)|exact G].
Qed.

Lemma prev_moved b w next : prev_of b (moved b w next) = Some next /\ prev_of (negb b) (moved b w next) = (if (w_msgno w =? 0)%N then Some next else prev_of (negb b) w).
Proof. change (moved b w next) with (fin false (moved b w next)). split; [apply prev_sent|apply prev_other]. Qed.

Hypothesis sound : sound_session s.
Variable kdf : inst.
Hypothesis has_kdf : s_kdf s = Some kdf.
Hypothesis no_signers : s_signers s = [].

(** Opening any letter. *)
Lemma open_step l r w o r' : calm r -> r_wire r = Some w -> open_session c cr s l r = (o, r') ->
  calm r' /\ exists w', r_wire r' = Some w' /\
  (((forall b, prev_of b w' = prev_of b w) /\ forall d, o <> Ok d)
   \/ exists ms next, linked cr s (l_nonce l) ms (prev_of false w) next
       /\ prev_of false w' = Some next /\ prev_of true w' = (if (w_msgno w =? 0)%N then Some next else prev_of true w)
       /\ forall d, o = Ok d -> exists kv, key_schedule cr s (l_nonce l) (secret_of ms (prev_of false w)) (carry_size s (prev_of false w)) kv /\ accepted cr s kv l d).
Proof.
  intros C W H. rewrite (open_as_tail c cr s kdf has_kdf no_signers l r w W) in H.
  set (r0 := set_buf (set_acc r [] [] 0) (l_data l)) in *. assert (C0 : calm r0) by (destruct C; constructor; cbn; auto). assert (W0 : r_wire r0 = Some w) by exact W.
  clearbody r0. unfold mbind at 1 in H. rewrite recv_split in H. unfold mbind at 1 in H.
  pose proof (still_calm _ r0 (s_recv_mat c cr s l) C0) as C1. destruct (still_chain _ r0 w (s_recv_mat c cr s l) W0) as (w1 & W1 & P1). pose proof (prev_same _ _ P1) as P1'.
  destruct (recv_mat c cr s l r0) as [o1 q1]. cbn [snd] in C1, W1.
  destruct o1 as [b|e|].
  2: { injection H as <- <-. split; [exact C1|]. exists w1. split; [exact W1|]. left. split; [exact P1'|discriminate]. }
  2: { injection H as <- <-. split; [exact C1|]. exists w1. split; [exact W1|]. left. split; [exact P1'|discriminate]. }
  unfold mbind at 1 in H. destruct (carryover cr s false (l_nonce l) q1) as [o2 q2] eqn:E2.
  destruct (carry_fate false (l_nonce l) q1 w1 o2 q2 C1 W1 E2) as (C2 & w2 & W2 & F).
  destruct o2 as [[]|e|].
  2: { injection H as <- <-. split; [exact C2|]. exists w2. split; [exact W2|]. left. split; [intro b'; now rewrite F|discriminate]. }
  2: { injection H as <- <-. split; [exact C2|]. exists w2. split; [exact W2|]. left. split; [intro b'; now rewrite F|discriminate]. }
  destruct F as (next & LK & -> & EK). destruct (prev_moved false w1 next) as [PM1 PM2]. cbn [negb] in PM2.
  assert (EM : (w_msgno w1 =? 0)%N = (w_msgno w =? 0)%N) by (unfold chain3 in P1; congruence).
  set (burn := if b then upd_wire burn_pairs else ret tt) in *.
  assert (SB : still burn) by (unfold burn; destruct b; [apply s_burn|apply s_ret]).
  assert (EB : fst (burn q2) = Ok tt /\ r_kdf (snd (burn q2)) = r_kdf q2) by (unfold burn; destruct b; [|split; reflexivity]; unfold upd_wire, modify; cbn; destruct (r_wire q2); split; reflexivity).
  pose proof (still_calm _ q2 SB C2) as C3. destruct (still_chain _ q2 _ SB W2) as (w3 & W3 & P3). pose proof (prev_same _ _ P3) as P3'.
  destruct (burn q2) as [o3 q3]. cbn [fst snd] in *. destruct EB as [-> EB].
  destruct (tail_calm (open_tail cr s l) q3 (wb_open_tail cr s l) (keep_open_tail cr s sound l) C3) as [C4 W4].
  rewrite H in C4, W4. cbn [snd] in C4, W4. split; [exact C4|]. exists w3. split; [now rewrite W4|]. right. exists (r_mat q1), next.
  rewrite (P1' false) in LK. rewrite (P1' true), EM in PM2. split; [exact LK|]. split; [now rewrite P3'|]. split; [now rewrite P3'|].
  intros d ->. rewrite EK in EB. rewrite (P1' false) in EB.
  pose proof (open_tail_run cr s (ss_keyed s sound) (ss_ivs s sound) (ss_ids s sound) (ss_macs_ids s sound) l (l_nonce l) _ _ q3 (ca_used _ C3) EB) as RT. rewrite H in RT. cbn [fst] in RT.
  destruct (session_keys cr s (l_nonce l) (secret_of (r_mat q1) (prev_of false w)) (carry_size s (prev_of false w))) as [kvs|] eqn:SK; [|destruct RT; discriminate].
  exists (keys kvs). split; [|now apply opened_accepted]. unfold key_schedule. apply derived_schedule; [exact (ss_ids s sound)|exact SK].
Qed.

(** Closing anything. *)
Lemma close_step full d r w o r' : calm r -> r_wire r = Some w -> close_session c cr s full d r = (o, r') ->
  calm r' /\ exists w', r_wire r' = Some w' /\
  ((forall b, prev_of b w' = prev_of b w)
   \/ exists nonce ms next, linked cr s nonce ms (prev_of true w) next
       /\ prev_of true w' = Some next /\ prev_of false w' = (if (w_msgno w =? 0)%N then Some next else prev_of false w)).
Proof.
  intros C W H. rewrite (close_unfold c cr s full d r kdf has_kdf) in H.
  unfold mbind at 1 in H. unfold modify at 1 in H. set (r0 := set_buf (set_acc r [] [] 0) d) in *. assert (C0 : calm r0) by (destruct C; constructor; cbn; auto). assert (W0 : r_wire r0 = Some w) by exact W.
  clearbody r0. unfold mbind at 1 in H. unfold gets at 1 in H. unfold mbind at 1 in H.
  pose proof (still_calm _ r0 (s_rand cr (nonce_size s)) C0) as Cr. destruct (still_chain _ r0 w (s_rand cr (nonce_size s)) W0) as (wr & Wr & Pr). pose proof (prev_same _ _ Pr) as Pr'.
  destruct (rand cr (nonce_size s) r0) as [or qr]. cbn [snd] in Cr, Wr.
  destruct or as [nonce|e|].
  2: { injection H as <- <-. split; [exact Cr|]. exists wr. split; [exact Wr|]. left. exact Pr'. }
  2: { injection H as <- <-. split; [exact Cr|]. exists wr. split; [exact Wr|]. left. exact Pr'. }
  unfold mbind at 1 in H. unfold establish in H. unfold mbind at 1 in H. unfold is_wire, gets in H. rewrite Wr in H. cbn [is_none negb] in H. rewrite send_split in H. unfold mbind at 1 in H.
  pose proof (still_calm _ qr (s_send_mat c cr s nonce) Cr) as C1. destruct (still_chain _ qr wr (s_send_mat c cr s nonce) Wr) as (w1 & W1 & P1).
  assert (P1' : forall b, prev_of b w1 = prev_of b w) by (intro b; rewrite (prev_same _ _ P1); apply Pr').
  destruct (send_mat c cr s nonce qr) as [o1 q1]. cbn [snd] in C1, W1.
  destruct o1 as [b|e|].
  2: { injection H as <- <-. split; [exact C1|]. exists w1. split; [exact W1|]. left. exact P1'. }
  2: { injection H as <- <-. split; [exact C1|]. exists w1. split; [exact W1|]. left. exact P1'. }
  unfold mbind at 1 in H. destruct (carryover cr s true nonce q1) as [o2 q2] eqn:E2.
  destruct (carry_fate true nonce q1 w1 o2 q2 C1 W1 E2) as (C2 & w2 & W2 & F).
  destruct o2 as [[]|e|].
  2: { injection H as <- <-. split; [exact C2|]. exists w2. split; [exact W2|]. left. intro b'; now rewrite F. }
  2: { injection H as <- <-. split; [exact C2|]. exists w2. split; [exact W2|]. left. intro b'; now rewrite F. }
  destruct F as (next & LK & -> & EK). destruct (prev_moved true w1 next) as [PM1 PM2]. cbn [negb] in PM2.
  assert (EM : (w_msgno w1 =? 0)%N = (w_msgno w =? 0)%N) by (unfold chain3 in P1, Pr; congruence).
  unfold mbind at 1 in H. set (burn := if b then upd_wire burn_pairs else ret tt) in *.
  assert (SB : still burn) by (unfold burn; destruct b; [apply s_burn|apply s_ret]).
  assert (EB : fst (burn q2) = Ok tt) by (unfold burn; destruct b; reflexivity).
  pose proof (still_calm _ q2 SB C2) as C3. destruct (still_chain _ q2 _ SB W2) as (w3 & W3 & P3). pose proof (prev_same _ _ P3) as P3'.
  destruct (burn q2) as [o3 q3]. cbn [fst snd] in *. subst o3. unfold ret at 1 in H. unfold mbind at 1 in H. unfold gets in H.
  match type of H with close_tail _ _ _ _ ?l0 _ = _ => set (l := l0) in * end.
  destruct (tail_calm (close_tail cr s full d l) q3 (wb_close_tail cr s full d l) (keep_close_tail cr s sound full d l) C3) as [C4 W4].
  rewrite H in C4, W4. cbn [snd] in C4, W4. split; [exact C4|]. exists w3. split; [now rewrite W4|]. right. exists nonce, (r_mat q1), next.
  rewrite (P1' true) in LK. rewrite (P1' false), EM in PM2. split; [exact LK|]. split; [now rewrite P3'|now rewrite P3'].
Qed.
End R.
