(** C80: a replayed session opens the same letters, whatever the sessions answer in between. *)
From Verif Require Import WireLive SpecCore SpecWire SessionProps SuiteFacts PropSession PropTrip WireRun WireHurt CoreOpen CoreRound SpecOpen SpecRatchet SpecReplay PropRatchet CoreRel CoreState PropHistory ReplayFacts PropReplay ReplayMore Toy PropWire.

(** What becomes of the letters that a session is given to open, among the other things it is asked to do. *)
Fixpoint openings (c : config) (cr : crypto) (s : session) (qs : list request) (r : rt) : list (outcome bytes) :=
  match qs with
  | [] => []
  | QOpen l :: qs' => let (o, r') := open_session c cr s l r in o :: openings c cr s qs' r'
  | q :: qs' => openings c cr s qs' (snd (serve c cr s q r))
  end.
(** The letters among the requests. *)
Fixpoint letters_of (qs : list request) : list letter :=
  match qs with [] => [] | QOpen l :: qs' => l :: letters_of qs' | _ :: qs' => letters_of qs' end.

Section P.
Variables (c : config) (cr : crypto) (s : session).
Hypothesis sound : sound_session s.
Variable kdf : inst.
Hypothesis has_kdf : s_kdf s = Some kdf.
Hypothesis no_signers : s_signers s = [].

Definition going (r : rt) (k : bytes) : Prop :=
  calm r /\ exists w, r_wire r = Some w /\ (w_msgno w =? 0)%N = false /\ w_recv w = k /\ w_state w <> HInit.

Lemma open_wiped l r : open_session c cr s l r = open_session c cr s l (wiped r).
Proof. reflexivity. Qed.
Lemma open_calm l r : calm r -> (exists w, r_wire r = Some w) -> calm (snd (open_session c cr s l r)).
Proof using All.
  intros C [w W]. destruct (open_session c cr s l r) as [o r'] eqn:E. exact (proj1 (open_step c cr s sound kdf has_kdf no_signers l r w o r' C W E)).
Qed.
Lemma open_pair r1 r2 k l : going r1 k -> going r2 k -> plain l ->
  fst (open_session c cr s l r1) = fst (open_session c cr s l r2)
  /\ exists k', going (snd (open_session c cr s l r1)) k' /\ going (snd (open_session c cr s l r2)) k'.
Proof using All.
  intros (C1 & w1 & W1 & N1 & R1 & S1) (C2 & w2 & W2 & N2 & R2 & S2) P.
  pose proof (open_calm l r1 C1 (ex_intro _ _ W1)) as K1. pose proof (open_calm l r2 C2 (ex_intro _ _ W2)) as K2.
  set (b := wiped r2) in *.
  assert (B2 : open_session c cr s l r2 = open_session c cr s l (set_wire b (Some w2))).
  { rewrite open_wiped. fold b. f_equal. unfold b, wiped. destruct r2; cbn in *. now rewrite W2. }
  destruct (open_swap c cr s kdf has_kdf no_signers l b w1 w2 P S1 S2 N1 N2 ltac:(congruence)) as (o & q & w1' & w2' & E1 & E2 & R' & M1 & M2 & T1 & T2).
  assert (SM : sim (s_stateful s) 0 (wiped r1) (set_draw (set_wire b (Some w1)) (r_draw r1))).
  { constructor; cbn; auto; try lia.
    - intro x. now rewrite (ca_mach _ C1), (ca_mach _ C2).
    - intro x. now rewrite (ca_sigh _ C1), (ca_sigh _ C2).
    - intro x. now rewrite (ca_used _ C1), (ca_used _ C2). }
  destruct (rel_open c cr s (ss_keyed s sound) (ss_ivs s sound) l _ _ SM) as (EO & SO & _).
  rewrite <- open_wiped in EO, SO. rewrite (nodraw_open c cr s l) in EO, SO. rewrite E1 in EO, SO. cbn [fst snd] in EO, SO.
  rewrite B2, E2 in *. cbn [fst snd] in *. split; [exact EO|].
  exists (w_recv w1'). split.
  - split; [exact K1|]. exists w1'. rewrite (si_wire _ _ _ _ SO). cbn. auto.
  - split; [exact K2|]. exists w2'. cbn. auto.
Qed.
Lemma close_going full d r k : going r k -> going (snd (close_session c cr s full d r)) k.
Proof using All.
  intros (C & w & W & N & R & S).
  assert (B : begun (snd (close_session c cr s full d r))).
  { apply (g_close c cr s full d kdf has_kdf). unfold begun. now rewrite W. }
  destruct (close_session c cr s full d r) as [o r'] eqn:E. cbn [snd] in *.
  destruct (close_step c cr s sound kdf has_kdf full d r w o r' C W E) as (C' & w' & W' & F). split; [exact C'|]. exists w'. split; [exact W'|].
  assert (X : prev_of false w' = Some k).
  { assert (P : prev_of false w = Some k) by (unfold prev_of; rewrite N; cbn; congruence).
    destruct F as [F|(nonce & ms & next & _ & _ & F)]; [now rewrite F|]. now rewrite N, P in F. }
  unfold prev_of in X. destruct (w_msgno w' =? 0)%N; [discriminate|]. cbn in X. split; [reflexivity|]. split; [congruence|].
  unfold begun in B. now rewrite W' in B.
Qed.
Lemma verify_going l r k : going r k -> going (snd (verify_session cr s l r)) k.
Proof using All.
  intros (C & w & W & G).
  assert (E : exists o, verify_session cr s l r = (o, set_buf (set_acc r [] [] 0) (l_data l))).
  { unfold verify_session. unfold mbind at 1. unfold modify. unfold mbind at 1. unfold is_wire, gets. cbn [set_buf set_acc r_wire]. rewrite W. cbn [is_none negb]. unfold mbind at 1. unfold ret. rewrite no_signers. eexists. reflexivity. }
  destruct E as (o & ->). cbn [snd]. split; [destruct C; constructor; cbn; auto|]. exists w. cbn. split; [exact W|exact G].
Qed.
(** A session that goes on makes of plain letters what its chain key says. *)
Lemma openings_idle qs : forall r k l ls, going r k -> letters_of qs = l :: ls ->
  exists qs' r', going r' k /\ letters_of qs' = ls /\ openings c cr s qs r = fst (open_session c cr s l r') :: openings c cr s qs' (snd (open_session c cr s l r')).
Proof using All.
  induction qs as [|q qs IH]; intros r k l ls G E; [discriminate|]. destruct q as [full d|l'|l']; cbn [letters_of openings serve] in *.
  - pose proof (close_going full d r k G) as G'. destruct (close_session c cr s full d r) as [o r']. cbn [snd] in *. exact (IH _ _ _ _ G' E).
  - injection E as -> <-. exists qs, r. split; [exact G|]. split; [reflexivity|]. now destruct (open_session c cr s l r).
  - pose proof (verify_going l' r k G) as G'. destruct (verify_session cr s l' r) as [o r']. cbn [snd] in *. exact (IH _ _ _ _ G' E).
Qed.
Lemma openings_none qs : forall r, letters_of qs = [] -> openings c cr s qs r = [].
Proof using. induction qs as [|[full d|l|l] qs IH]; intros r E; cbn [letters_of openings] in *; [reflexivity|now apply IH|discriminate|now apply IH]. Qed.
Lemma openings_pair ls : Forall plain ls -> forall qs1 qs2 r1 r2 k, letters_of qs1 = ls -> letters_of qs2 = ls -> going r1 k -> going r2 k ->
  openings c cr s qs1 r1 = openings c cr s qs2 r2.
Proof using All.
  induction 1 as [|l ls P _ IH]; intros qs1 qs2 r1 r2 k E1 E2 G1 G2.
  - now rewrite !openings_none.
  - destruct (openings_idle qs1 r1 k l ls G1 E1) as (qs1' & r1' & G1' & L1 & ->). destruct (openings_idle qs2 r2 k l ls G2 E2) as (qs2' & r2' & G2' & L2 & ->).
    destruct (open_pair r1' r2' k l G1' G2' P) as (EO & k' & H1 & H2). rewrite EO. f_equal. exact (IH _ _ _ _ _ L1 L2 H1 H2).
Qed.

(** The first letter, if it carries the keys of the other side. *)
Lemma first_going server n l d r' : l_keys l <> [] -> open_session c cr s l (rt_start n (Some (wire_start server))) = (Ok d, r') -> exists k, going r' k.
Proof using All.
  intros NK H.
  assert (C : calm (rt_start n (Some (wire_start server)))) by (constructor; reflexivity).
  destruct (open_step c cr s sound kdf has_kdf no_signers l _ _ _ _ C eq_refl H) as (C' & w' & W' & F).
  destruct F as [[_ F]|(ms & next & _ & P1 & _)]; [now destruct (F d)|].
  exists next. split; [exact C'|]. exists w'. split; [exact W'|]. unfold prev_of in P1. destruct (w_msgno w' =? 0)%N; [discriminate|]. cbn in P1.
  split; [reflexivity|]. split; [congruence|].
  (* the handshake state *)
  rewrite (open_as_tail c cr s kdf has_kdf no_signers l (rt_start n (Some (wire_start server))) (wire_start server) eq_refl) in H. set (r0 := set_buf _ _) in H.
  assert (W0 : r_wire r0 = Some (wire_start server)) by reflexivity. clearbody r0.
  unfold mbind at 1 in H. destruct (recv_handshake c cr s l r0) as [[[]|e|] q] eqn:ER; [|discriminate..].
  assert (B : begun q).
  { unfold recv_handshake in ER. unfold mbind at 1 in ER. unfold wire_st in ER. rewrite W0 in ER. cbn [wire_start w_state] in ER.
    unfold mbind at 1 in ER. unfold mbind at 1 in ER. destruct (opening_material c cr s l r0) as [[[]|e|] q1]; [|discriminate..].
    unfold mbind at 1 in ER. destruct (recv_idle s l q1) as [[[]|e|] q2] eqn:E2; [|discriminate..]. unfold ret at 1 in ER.
    assert (B2 : begun q2).
    { unfold recv_idle in E2. destruct (l_keys l) as [|x xs] eqn:EK; [now destruct NK|]. cbn [nonempty] in E2.
      assert (X : forall q, begun (snd (upd_wire (fun w => set_hs w HSendKey) q))).
      { intro q0. unfold upd_wire, modify, begun. cbn [fst snd]. destruct (r_wire q0) eqn:Eq; cbn; rewrite ?Eq; [discriminate|exact I]. }
      unfold mbind at 1 in E2. destruct (wire_st q1) as [[wx|e|] qa]; [|discriminate..].
      unfold mbind at 1 in E2. match type of E2 with context [match ?m qa with _ => _ end] => destruct (m qa) as [[[]|e|] qb] end; [|discriminate..].
      unfold mbind at 1 in E2. destruct (start_index qb) as [[[]|e|] qc]; [|discriminate..].
      unfold mbind at 1 in E2. destruct (assign_kx l qc) as [[[]|e|] qd]; [|discriminate..].
      unfold mbind at 1 in E2. destruct (assign_ke_signet l qd) as [[[]|e|] qe]; [|discriminate..].
      specialize (X qe). rewrite E2 in X. exact X. }
    pose proof (g_carryover cr s false (l_nonce l) q2 B2) as B3. unfold mbind at 1 in ER. destruct (carryover cr s false (l_nonce l) q2) as [[[]|e|] q3]; [|discriminate..].
    cbn [snd] in B3. injection ER as <-. exact B3. }
  pose proof (wb_keeps (open_tail cr s l) q (wb_open_tail cr s l)) as WK. rewrite H in WK. cbn [snd] in WK. unfold begun in B. now rewrite <- WK, W' in B.
Qed.
End P.

(** Two sessions of the same party open the same first letter; after that they are asked to close, verify and open anything,
    each on its own, with its own randomness, but they are given the same letters to open in the same order, none of them
    with keys or the ApplyKeys flag.  Each letter has the same outcome in both. *)
Theorem C80_whatever_is_answered : forall c hreg cr e s server n m l0 d0 r1 r2 qs1 qs2,
  new_session c tool_registry hreg cr e = Ok s -> init_wire s = Ok tt ->
  l_keys l0 <> [] ->
  open_session c cr s l0 (rt_start n (Some (wire_start server))) = (Ok d0, r1) ->
  r2 = snd (open_session c cr s l0 (rt_start m (Some (wire_start server)))) ->
  letters_of qs1 = letters_of qs2 -> Forall (fun l => l_keys l = [] /\ l_apply l = false) (letters_of qs1) ->
  fst (open_session c cr s l0 (rt_start m (Some (wire_start server)))) = Ok d0
  /\ openings c cr s qs1 r1 = openings c cr s qs2 r2.
Proof.
  intros c hreg cr e s server n m l0 d0 r1 r2 qs1 qs2 N1 W1 NK O1 -> EL P.
  destruct (wire_session _ _ _ _ _ N1 W1) as [(k & K) SG].
  pose proof (session_sound _ _ _ _ _ N1) as S.
  assert (E2 : open_session c cr s l0 (rt_start m (Some (wire_start server))) = (Ok d0, set_draw r1 m)).
  { change (rt_start m (Some (wire_start server))) with (set_draw (rt_start n (Some (wire_start server))) m). rewrite (nodraw_open c cr s l0). rewrite O1. reflexivity. }
  rewrite E2. split; [reflexivity|]. cbn [snd].
  destruct (first_going c cr s S k K SG server n l0 d0 r1 NK O1) as (kk & G).
  apply (openings_pair c cr s S k K SG (letters_of qs1) P qs1 qs2 r1 (set_draw r1 m) kk); auto.
  destruct G as (C & w & G). split; [destruct C; constructor; auto|]. exists w. exact G.
Qed.

(** The hypotheses are met: a client sends "a" and "b"; two sessions of the server open "a"; the first answers "x" and opens
    "b", the other answers twice, verifies "a" and opens "b". *)
Definition c80_run : bool :=
  let c := default_config in
  match new_session c tool_registry hash_registry toy wire_client, new_session c tool_registry hash_registry toy wire_server with
  | Ok s1, Ok s2 =>
      match close_session c toy s1 true (lit "a") (rt_start 3 (Some (wire_start false))) with
      | (Ok l1, c1) =>
      match close_session c toy s1 true (lit "b") c1 with
      | (Ok l2, _) =>
      match open_session c toy s2 l1 (rt_start 5 (Some (wire_start true))), open_session c toy s2 l1 (rt_start 95 (Some (wire_start true))) with
      | (Ok a, v1), (Ok a', q1) =>
          is_tt (init_wire s2) && bytes_eqb a (lit "a") && bytes_eqb a' (lit "a") && nonempty (l_keys l1)
          && negb (nonempty (l_keys l2)) && negb (l_apply l2)
          && match openings c toy s2 [QClose true (lit "x"); QOpen l2] v1, openings c toy s2 [QClose true (lit "y"); QClose true (lit "z"); QVerify l1; QOpen l2] q1 with
             | [Ok b], [Ok b'] => bytes_eqb b (lit "b") && bytes_eqb b' (lit "b")
             | _, _ => false
             end
      | _, _ => false end | _ => false end | _ => false end
  | _, _ => false
  end.
Example c80_runs : c80_run = true.
Proof. vm_compute. reflexivity. Qed.
Print Assumptions C80_whatever_is_answered.
