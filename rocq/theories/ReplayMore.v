(** For C80: what wire sessions in different states make of the same letters, if these carry neither keys nor the
    ApplyKeys flag. *)
From Verif Require Import WireLive SpecCore SpecWire SessionProps SuiteFacts PropSession PropTrip WireRun WireHurt CoreOpen CoreRound SpecOpen SpecRatchet SpecReplay PropRatchet CoreRel CoreState ReplayFacts PropReplay.

(** ** The handshake does not start over *)
Definition begun (r : rt) : Prop := match r_wire r with Some w => w_state w <> HInit | None => True end.
Definition goes_on {A} (m : M A) : Prop := forall r, begun r -> begun (snd (m r)).
Lemma g_bind {A B} (m : M A) (f : A -> M B) : goes_on m -> (forall a, goes_on (f a)) -> goes_on (mbind m f).
Proof. intros H1 H2 r N. pose proof (H1 r N) as N1. unfold mbind. destruct (m r) as [[a|e|] r'] eqn:Em; cbn [fst snd] in *; [|auto..]. now apply H2. Qed.
Lemma g_wire {A} (m : M A) : (forall r, r_wire (snd (m r)) = r_wire r) -> goes_on m.
Proof. intros H r N. unfold begun. rewrite H. exact N. Qed.
Lemma g_ret {A} (a : A) : goes_on (ret a). Proof. now apply g_wire. Qed.
Lemma g_fail {A} e : goes_on (@fail A e). Proof. now apply g_wire. Qed.
Lemma g_panic {A} : goes_on (@panic A). Proof. now apply g_wire. Qed.
Lemma g_lift {A} (x : outcome A) : goes_on (lift x). Proof. now apply g_wire. Qed.
Lemma g_check b e : goes_on (check b e). Proof. apply g_wire. now destruct b. Qed.
Lemma g_gets {A} (f : rt -> A) : goes_on (gets f). Proof. now apply g_wire. Qed.
Lemma g_each {A} (f : A -> M unit) l : (forall a, goes_on (f a)) -> goes_on (each f l).
Proof. intro H. induction l as [|a l IH]; cbn [each]; [apply g_ret|]. apply g_bind; auto. Qed.
Lemma g_each_last {A} (f : A -> M unit) l : (forall a, goes_on (f a)) -> goes_on (each_last f l).
Proof.
  intro H. induction l as [|a l IH]; [apply g_ret|]. destruct l as [|a2 l]; [exact (H a)|]. intros r N. pose proof (H a r N) as N1. rewrite each_last_cons.
  destruct (f a r) as [o r'] eqn:Ef. cbn [fst snd] in *. pose proof (IH r' N1) as N2. destruct o; cbn [fst snd]; assumption.
Qed.
Lemma g_upd_wire f : (forall w, w_state w <> HInit -> w_state (f w) <> HInit) -> goes_on (upd_wire f).
Proof. intros H r N. unfold begun, upd_wire, modify in *. cbn [fst snd]. destruct (r_wire r) eqn:E; cbn; rewrite ?E; auto. Qed.
Lemma g_add_key k : goes_on (add_key k). Proof. now apply g_wire. Qed.
Lemma g_add_mat k : goes_on (add_mat k). Proof. now apply g_wire. Qed.
Lemma g_next_idx : goes_on next_idx. Proof. now apply g_wire. Qed.
Lemma g_start_index : goes_on start_index. Proof. now apply g_wire. Qed.
Lemma g_set_idx k : goes_on (modify (fun r => set_acc r (r_keys r) (r_mat r) k)). Proof. now apply g_wire. Qed.
Lemma g_wire_st : goes_on wire_st. Proof. now apply g_wire. Qed.
Lemma g_is_wire : goes_on is_wire. Proof. now apply g_wire. Qed.
Lemma g_rand cr z : goes_on (rand cr z). Proof. now apply g_wire. Qed.
Lemma g_gen cr t : goes_on (gen cr t). Proof. now apply g_wire. Qed.
Lemma g_key_at l : goes_on (key_at l). Proof. now apply g_wire. Qed.
Create HintDb goes.
#[export] Hint Resolve g_ret g_fail g_panic g_lift g_check g_gets g_add_key g_add_mat g_next_idx g_start_index g_set_idx g_wire_st g_is_wire g_rand g_gen g_key_at : goes.
Ltac g_auto := intros; repeat first
  [ solve [auto with goes]
  | apply g_upd_wire; intros [] ?; solve [assumption|discriminate]
  | apply g_each; intro | apply g_each_last; intro
  | apply g_bind; intros
  | match goal with
    | |- goes_on (match ?x with _ => _ end) => destruct x
    | |- goes_on (let '(_, _) := ?x in _) => destruct x
    end ].

Section G.
Variables (c : config) (cr : crypto) (s : session).
Lemma g_kdf_read z : goes_on (kdf_read cr s z).
Proof. apply g_wire. intro r. unfold kdf_read. destruct (r_kdf r) as [k|]; [|reflexivity]. destruct (cr_kdf _ _ _ _ _ _ _); reflexivity. Qed.
Lemma g_kdf_init nonce mat : goes_on (kdf_init nonce mat).
Proof. apply g_wire. intro r. unfold kdf_init. destruct (_ || _); reflexivity. Qed.
Lemma g_encap i p k : goes_on (encap cr i p k). Proof. unfold encap. destruct p; [|auto with goes]. now apply g_wire. Qed.
Lemma g_shared i p q : goes_on (shared cr i p q). Proof. unfold shared. g_auto. Qed.
Lemma g_unwrap i p w : goes_on (unwrap cr i p w). Proof. unfold unwrap. g_auto. Qed.
Lemma g_derive_pw p w : goes_on (derive_pw c cr s p w). Proof. unfold derive_pw. g_auto. Qed.
Hint Resolve g_kdf_read g_kdf_init g_encap g_shared g_unwrap g_derive_pw : goes.
Lemma g_closing_material l : goes_on (closing_material c cr s l).
Proof. unfold closing_material, close_key, close_pw, close_kx, close_ke. g_auto. Qed.
Lemma g_send_idle : goes_on (send_idle cr).
Proof. unfold send_idle, gen_local_kx, gen_local_ke. g_auto. Qed.
Lemma g_carryover b nonce : goes_on (carryover cr s b nonce).
Proof. unfold carryover. destruct b; g_auto. Qed.
Hint Resolve g_closing_material g_send_idle g_carryover : goes.
Lemma g_send_handshake nonce : goes_on (send_handshake c cr s nonce).
Proof. unfold send_handshake, gen_local_kx, gen_local_ke, make_shared, encap_new. g_auto. Qed.
Hint Resolve g_send_handshake : goes.
Lemma g_close full d kdf : s_kdf s = Some kdf -> goes_on (close_session c cr s full d).
Proof.
  intros K r N. rewrite (close_unfold c cr s full d r kdf K). revert r N.
  apply g_bind; [now apply g_wire|intros _]. apply g_bind; [auto with goes|intro f]. apply g_bind; [auto with goes|intro nonce].
  apply g_bind; [unfold establish; g_auto|intro a]. apply g_bind; [auto with goes|intro ks]. apply g_wire. intro r. apply wb_keeps, wb_close_tail.
Qed.
End G.

(** ** Plain letters *)
Definition plain (l : letter) : Prop := l_keys l = [] /\ l_apply l = false.

Section Swap.
Variables (c : config) (cr : crypto) (s : session).
Variable kdf : inst.
Hypothesis has_kdf : s_kdf s = Some kdf.
Hypothesis no_signers : s_signers s = [].
Lemma recv_plain l r w : r_wire r = Some w -> w_state w <> HInit -> plain l -> recv_handshake c cr s l r = carryover cr s false (l_nonce l) r.
Proof using.
  intros W N [P1 P2]. rewrite recv_split. unfold recv_mat, recv_idle, mbind at 1 2. unfold wire_st. rewrite W, P1, P2. cbn [nonempty].
  assert (E : forall x, (match (fst x : outcome unit) with Ok a => ret tt (snd x) | Err e => (Err e, snd x) | Panic => (Panic, snd x) end) = x).
  { intros [[[]|e|] q]; reflexivity. }
  assert (Q : (run _ <- carryover cr s false (l_nonce l); ret tt) r = carryover cr s false (l_nonce l) r).
  { unfold mbind. destruct (carryover cr s false (l_nonce l) r) as [[[]|e|] q]; reflexivity. }
  destruct (w_state w); try (exact Q). now destruct N.
Qed.
Lemma carry_swap nonce r w1 w2 : (w_msgno w1 =? 0)%N = false -> (w_msgno w2 =? 0)%N = false -> w_recv w1 = w_recv w2 ->
  exists o q w1' w2', carryover cr s false nonce (set_wire r (Some w1)) = (o, set_wire q (Some w1'))
    /\ carryover cr s false nonce (set_wire r (Some w2)) = (o, set_wire q (Some w2'))
    /\ w_recv w1' = w_recv w2' /\ (w_msgno w1' =? 0)%N = false /\ (w_msgno w2' =? 0)%N = false /\ w_state w1' = w_state w1 /\ w_state w2' = w_state w2.
Proof using.
  intros N1 N2 R.
  set (k := w_recv w1) in *. set (q0 := set_acc r (r_keys r) (r_mat r ++ [k]) (r_idx r)).
  assert (B : forall w, (w_msgno (bump w) =? 0)%N = false) by (intro w; apply N.eqb_neq; cbn; lia).
  assert (E : forall w, (w_msgno w =? 0)%N = false -> w_recv w = k ->
     carryover cr s false nonce (set_wire r (Some w)) =
       if nonempty (r_mat r ++ [k]) && nonempty (hd [] (r_mat r ++ [k])) && nonempty nonce
       then match cr_kdf cr (kdf_name s) (kdf_hash s) nonce (concat (r_mat r ++ [k])) 0 (length k) with
            | Some n => (Ok tt, set_wire (set_kdf q0 (Some (mkKdf nonce (concat (r_mat r ++ [k])) (length k)))) (Some (bump (set_recv w n))))
            | None => (Err EOther, set_wire (set_kdf q0 (Some (mkKdf nonce (concat (r_mat r ++ [k])) 0))) (Some w))
            end
       else (Err EOther, set_wire q0 (Some w))).
  { intros w Nw Rw. unfold carryover. unfold mbind at 1. unfold wire_st. cbn [set_wire r_wire]. rewrite Nw.
    unfold mbind at 1. unfold add_mat at 1, modify at 1. unfold mbind at 1. unfold gets. cbv beta iota. unfold mbind at 1. rewrite kdf_init_run.
    cbn [set_acc set_wire r_mat carry]. rewrite Rw.
    destruct (nonempty (r_mat r ++ [k]) && nonempty (hd [] (r_mat r ++ [k])) && nonempty nonce); [|reflexivity].
    unfold mbind at 1. unfold wire_st. cbn [set_kdf set_acc set_wire r_wire]. unfold mbind at 1. unfold kdf_read. cbn [set_kdf set_acc set_wire r_kdf kd_nonce kd_secret kd_off carry]. rewrite Rw, Nat2Z.id.
    destruct (cr_kdf _ _ _ _ _ _ _) as [n|]; [|reflexivity]. rewrite Nw. reflexivity. }
  rewrite (E w1 N1 eq_refl), (E w2 N2 (eq_sym R)). clear E.
  destruct (_ && _).
  - destruct (cr_kdf _ _ _ _ _ _ _) as [n|]; repeat eexists; auto.
  - repeat eexists; auto.
Qed.
Lemma open_swap l r w1 w2 : plain l -> w_state w1 <> HInit -> w_state w2 <> HInit ->
  (w_msgno w1 =? 0)%N = false -> (w_msgno w2 =? 0)%N = false -> w_recv w1 = w_recv w2 ->
  exists o q w1' w2', open_session c cr s l (set_wire r (Some w1)) = (o, set_wire q (Some w1')) /\ open_session c cr s l (set_wire r (Some w2)) = (o, set_wire q (Some w2'))
    /\ w_recv w1' = w_recv w2' /\ (w_msgno w1' =? 0)%N = false /\ (w_msgno w2' =? 0)%N = false /\ w_state w1' <> HInit /\ w_state w2' <> HInit.
Proof using All.
  intros P S1 S2 N1 N2 R.
  rewrite (open_as_tail c cr s kdf has_kdf no_signers l (set_wire r (Some w1)) w1 eq_refl), (open_as_tail c cr s kdf has_kdf no_signers l (set_wire r (Some w2)) w2 eq_refl).
  set (r0 := set_buf (set_acc r [] [] 0) (l_data l)).
  assert (E : forall w, set_buf (set_acc (set_wire r (Some w)) [] [] 0) (l_data l) = set_wire r0 (Some w)) by reflexivity. rewrite !E. clear E. clearbody r0.
  unfold mbind. rewrite (recv_plain l (set_wire r0 (Some w1)) w1 eq_refl S1 P), (recv_plain l (set_wire r0 (Some w2)) w2 eq_refl S2 P).
  destruct (carry_swap (l_nonce l) r0 w1 w2 N1 N2 R) as (o & q & w1' & w2' & E1 & E2 & R' & M1 & M2 & T1 & T2). rewrite E1, E2.
  assert (X1 : w_state w1' <> HInit) by (rewrite T1; exact S1). assert (X2 : w_state w2' <> HInit) by (rewrite T2; exact S2).
  destruct o as [[]|e|].
  - rewrite !(wb_open_tail cr s l q). exists (fst (open_tail cr s l q)), (snd (open_tail cr s l q)), w1', w2'. repeat split; assumption.
  - exists (Err e), q, w1', w2'. repeat split; assumption.
  - exists Panic, q, w1', w2'. repeat split; assumption.
Qed.
End Swap.
