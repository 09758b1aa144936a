(** What opening does to a wire session depends on the nonce and the seals of the letter only (for C21). *)
From Verif Require Import WireLive SpecCore SpecWire SessionProps SuiteFacts PropSession PropTrip WireRun.

(** Operations that neither look at the caller's buffer nor touch hashers and tools. *)
Definition quiet {A} (m : M A) : Prop := forall r,
  (forall b, m (set_buf r b) = (fst (m r), set_buf (snd (m r)) b))
  /\ r_mach (snd (m r)) = r_mach r /\ r_sigh (snd (m r)) = r_sigh r /\ r_tools (snd (m r)) = r_tools r.
Lemma q_bind {A B} (m : M A) (f : A -> M B) : quiet m -> (forall a, quiet (f a)) -> quiet (mbind m f).
Proof.
  intros H1 H2 r. destruct (H1 r) as (E & A1 & A2 & A3). unfold mbind. destruct (m r) as [[a|e|] r'] eqn:Em; cbn [fst snd] in *.
  - destruct (H2 a r') as (F & B1 & B2 & B3). split; [intro b; rewrite E; apply F|]. repeat split; congruence.
  - split; [intro b; now rewrite E|auto].
  - split; [intro b; now rewrite E|auto].
Qed.
Lemma q_ret {A} (a : A) : quiet (ret a). Proof. intro r. repeat split. Qed.
Lemma q_fail {A} e : quiet (@fail A e). Proof. intro r. repeat split. Qed.
Lemma q_panic {A} : quiet (@panic A). Proof. intro r. repeat split. Qed.
Lemma q_lift {A} (x : outcome A) : quiet (lift x). Proof. intro r. repeat split. Qed.
Lemma q_check b e : quiet (check b e). Proof. destruct b; [apply q_ret|apply q_fail]. Qed.
Lemma q_gets {A} (f : rt -> A) : (forall r b, f (set_buf r b) = f r) -> quiet (gets f).
Proof. intros H r. split; [intro b; unfold gets; now rewrite H|repeat split]. Qed.
Lemma q_each {A} (f : A -> M unit) l : (forall a, quiet (f a)) -> quiet (each f l).
Proof. intro H. induction l as [|a l IH]; cbn [each]; [apply q_ret|]. apply q_bind; auto. Qed.
Lemma q_each_last {A} (f : A -> M unit) l : (forall a, quiet (f a)) -> quiet (each_last f l).
Proof.
  intro H. induction l as [|a l IH]; [apply q_ret|]. destruct l as [|a2 l]; [exact (H a)|]. intro r. destruct (H a r) as (E & A1 & A2 & A3). rewrite each_last_cons.
  destruct (f a r) as [o r'] eqn:Ef. cbn [fst snd] in *. destruct (IH r') as (F & B1 & B2 & B3).
  destruct o; cbn [fst snd]; (split; [intro b; rewrite each_last_cons, E; try apply F; reflexivity|repeat split; congruence]).
Qed.
Lemma q_upd_wire f : quiet (upd_wire f).
Proof. intro r. unfold upd_wire, modify. cbn [fst snd]. split; [intro b; cbn; destruct (r_wire r); reflexivity|]. destruct (r_wire r); repeat split. Qed.
Lemma q_add_key k : quiet (add_key k). Proof. intro r. repeat split. Qed.
Lemma q_add_mat k : quiet (add_mat k). Proof. intro r. repeat split. Qed.
Lemma q_next_idx : quiet next_idx. Proof. intro r. repeat split. Qed.
Lemma q_start_index : quiet start_index. Proof. intro r. repeat split. Qed.
Lemma q_set_idx k : quiet (modify (fun r => set_acc r (r_keys r) (r_mat r) k)). Proof. intro r. repeat split. Qed.
Lemma q_is_wire : quiet is_wire. Proof. now apply q_gets. Qed.
Lemma q_wire_st : quiet wire_st. Proof. intro r. repeat split. Qed.
Lemma q_rand cr z : quiet (rand cr z). Proof. intro r. repeat split. Qed.
Lemma q_gen cr t : quiet (gen cr t). Proof. intro r. repeat split. Qed.
Lemma q_key_at l : quiet (key_at l). Proof. intro r. repeat split. Qed.
#[export] Hint Resolve q_ret q_fail q_panic q_lift q_check q_upd_wire q_add_key q_add_mat q_next_idx q_start_index q_set_idx q_is_wire q_wire_st q_rand q_gen q_key_at : quiet.
Ltac q_auto := intros; repeat first
  [ solve [auto with quiet]
  | apply q_each; intro | apply q_each_last; intro
  | apply q_gets; intros; reflexivity
  | apply q_bind; intros
  | match goal with
    | |- quiet (match ?x with _ => _ end) => destruct x
    | |- quiet (let '(_, _) := ?x in _) => destruct x
    end ].

Section Q.
Variables (c : config) (cr : crypto) (s : session).
Lemma q_kdf_read z : quiet (kdf_read cr s z).
Proof.
  intro r. unfold kdf_read. cbn [set_buf r_kdf]. destruct (r_kdf r) as [k|]; [|repeat split].
  change (r_kdf (set_buf r _)) with (r_kdf r). destruct (cr_kdf _ _ _ _ _ _ _) eqn:E; (split; [intro; rewrite ?E; reflexivity|repeat split]).
Qed.
Lemma q_kdf_init nonce mat : quiet (kdf_init nonce mat).
Proof. unfold kdf_init. destruct (_ || _); [auto with quiet|]. intro r. repeat split. Qed.
Lemma q_encap i p k : quiet (encap cr i p k). Proof. unfold encap. destruct p; [|auto with quiet]. intro r. repeat split. Qed.
Lemma q_shared i p q : quiet (shared cr i p q). Proof. unfold shared. q_auto. Qed.
Lemma q_unwrap i p w : quiet (unwrap cr i p w). Proof. unfold unwrap. q_auto. Qed.
Lemma q_derive_pw p w : quiet (derive_pw c cr s p w). Proof. unfold derive_pw. q_auto. Qed.
Hint Resolve q_kdf_read q_kdf_init q_encap q_shared q_unwrap q_derive_pw : quiet.
Lemma q_opening_material l : quiet (opening_material c cr s l).
Proof. unfold opening_material, open_key, open_pw, open_kx, open_ke. q_auto. Qed.
Lemma q_recv_idle l : quiet (recv_idle s l).
Proof. unfold recv_idle, assign_kx, assign_ke_signet. q_auto. Qed.
Lemma q_carryover b nonce : quiet (carryover cr s b nonce).
Proof. unfold carryover. q_auto. Qed.
Hint Resolve q_opening_material q_recv_idle q_carryover : quiet.
Lemma q_recv_handshake l : quiet (recv_handshake c cr s l).
Proof. unfold recv_handshake, assign_kx, assign_ke_seal, make_shared, unwrap_new. q_auto. Qed.

Hypothesis sound : sound_session s.
Variable kdf : inst.
Hypothesis has_kdf : s_kdf s = Some kdf.
Hypothesis no_signers : s_signers s = [].

(** Opening a letter, as far as the wire session is concerned. *)
Lemma open_as_tail l r w : r_wire r = Some w ->
  open_session c cr s l r = mbind (recv_handshake c cr s l) (fun _ => open_tail cr s l) (set_buf (set_acc r [] [] 0) (l_data l)).
Proof.
  intro W. unfold open_session. unfold mbind at 1. unfold modify. unfold mbind at 1. unfold is_wire, gets. cbn [set_buf set_acc r_wire]. rewrite W. cbn [is_none negb].
  unfold mbind at 1. unfold ret. rewrite no_signers. cbn [nonempty]. unfold open_payload. rewrite has_kdf. unfold mbind at 1. unfold is_wire, gets. cbn [set_buf set_acc r_wire]. rewrite W. cbn [is_none negb]. reflexivity.
Qed.
Lemma hurt_same l hurt r w d r1 x r2 :
  calm r -> r_wire r = Some w ->
  l_nonce hurt = l_nonce l -> l_keys hurt = l_keys l -> l_apply hurt = l_apply l ->
  open_session c cr s l r = (Ok d, r1) -> open_session c cr s hurt r = (x, r2) ->
  calm r2 /\ r_wire r2 = r_wire r1.
Proof.
  intros C W EN EK EA O1 O2. rewrite (open_as_tail l r w W) in O1. rewrite (open_as_tail hurt r w W) in O2.
  assert (EH : recv_handshake c cr s hurt = recv_handshake c cr s l).
  { destruct l, hurt. cbn in EN, EK, EA. subst. reflexivity. }
  rewrite EH in O2. clear EH. destruct (q_recv_handshake l (set_acc r [] [] 0)) as (E & A1 & A2 & A3).
  unfold mbind in O1, O2. rewrite E in O1, O2. destruct (recv_handshake c cr s l (set_acc r [] [] 0)) as [o q] eqn:EQ. cbn [fst snd] in *.
  destruct o as [[]|e|]; [|discriminate..].
  assert (Cq : forall b, calm (set_buf q b)).
  { intro b. destruct C. constructor; cbn [set_buf r_mach r_sigh r_tools]; rewrite ?A1, ?A2, ?A3; assumption. }
  destruct (tail_calm (open_tail cr s l) (set_buf q (l_data l)) (wb_open_tail cr s l) (keep_open_tail cr s sound l) (Cq _)) as [_ W1].
  destruct (tail_calm (open_tail cr s hurt) (set_buf q (l_data hurt)) (wb_open_tail cr s hurt) (keep_open_tail cr s sound hurt) (Cq _)) as [C2 W2].
  rewrite O1 in W1. rewrite O2 in C2, W2. cbn [snd] in *. split; [exact C2|]. rewrite W2, W1. reflexivity.
Qed.
End Q.
