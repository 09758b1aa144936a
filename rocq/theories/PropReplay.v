(** Property theorems C78: forged and replayed letters in wire sessions.
    Vocabulary: SpecReplay.v, SpecRatchet.v ([link_of_chain]), SpecCore.v ([after]). *)
From Coq Require Import Init.Byte.
From Verif Require Import WireLive SpecCore SpecWire SessionProps SuiteFacts PropSession PropTrip WireRun CoreOpen CoreRound SpecOpen SpecSession SpecRatchet SpecReplay PropRatchet ReplayFacts Toy PropWire.

(** A wire session has a key derivation and no signing tools. *)
Lemma wire_session c hreg cr e s : new_session c tool_registry hreg cr e = Ok s -> init_wire s = Ok tt ->
  (exists k, s_kdf s = Some k) /\ s_signers s = [].
Proof.
  intros N1 W1. pose proof N1 as N0. apply new_session_ok in N0 as (su & ES & O). pose proof (so_shape _ _ _ _ _ _ _ O) as Sh. pose proof (so_res _ _ _ _ _ _ _ O) as Hres.
  destruct (C22_wire_protection _ _ _ _ _ _ _ N1 W1 ES) as (_ & _ & _ & HP & _ & t & Ht & _).
  assert (NP : forall i, In i (s_all s) -> t_purpose (i_tool i) <> PPassDerivation /\ t_purpose (i_tool i) <> PSigning).
  { intros i Hi. apply HP. apply (suite_tool_iff _ _ _ _ _ Hres). exists i. auto. }
  apply (suite_tool_iff _ _ _ _ _ Hres) in Ht as (i & Hi & _).
  assert (SG : s_signers s = []).
  { rewrite (sh_signers _ _ _ Sh). destruct (of_purpose PSigning (s_all s)) as [|j l] eqn:E; [reflexivity|].
    assert (Hj : In j (of_purpose PSigning (s_all s))) by (rewrite E; now left). apply of_purpose_In in Hj as [Hj Pj]. destruct (NP j Hj) as [X1 X2]. first [now destruct (X1 Pj)|now destruct (X2 Pj)]. }
  split; [|exact SG]. destruct (s_kdf s) eqn:EK; [eauto|]. pose proof (so_kdf_missing _ _ _ _ _ _ _ O EK) as L. rewrite SG in L. destruct (s_all s); [easy|discriminate].
Qed.

Section P.
Variables (c : config) (cr : crypto) (s : session).
Hypothesis sound : sound_session s.
Variable kdf : inst.
Hypothesis has_kdf : s_kdf s = Some kdf.
Hypothesis no_signers : s_signers s = [].

Definition live (r : rt) : Prop := calm r /\ exists w, r_wire r = Some w.
Lemma receive_prev r w : r_wire r = Some w -> receive_key r = prev_of false w.
Proof using. unfold receive_key. now intros ->. Qed.
Lemma linked_step nonce ms prev next : linked cr s nonce ms prev next -> chain_step cr s prev next.
Proof using.
  intros [L1 L2 L3]. exists nonce, ms. apply andb_true_iff in L2 as [_ L2]. split; [now destruct nonce|].
  assert (ES : chain_secret ms prev = secret_of ms prev) by (unfold secret_of, chain_secret; rewrite concat_app; destruct prev; cbn [prev_list concat]; now rewrite ?app_nil_r).
  rewrite ES. exact L3.
Qed.
Lemma serve_step q r : live r -> live (snd (serve c cr s q r)) /\ descends cr s (receive_key r) (receive_key (snd (serve c cr s q r))).
Proof using All.
  intros [C (w & W)]. destruct q as [full d|l|l]; cbn [serve].
  - destruct (close_session c cr s full d r) as [o r'] eqn:E. cbn [snd].
    destruct (close_step c cr s sound kdf has_kdf full d r w o r' C W E) as (C' & w' & W' & F). split; [split; eauto|]. rewrite (receive_prev _ _ W), (receive_prev _ _ W').
    destruct F as [P|(nonce & ms & next & LK & P1 & P2)]; [rewrite P; constructor|]. rewrite P2. unfold prev_of in LK. destruct (w_msgno w =? 0)%N eqn:E0.
    + apply de_step with next; [|constructor]. unfold prev_of. rewrite E0. eapply linked_step; eassumption.
    + constructor.
  - destruct (open_session c cr s l r) as [o r'] eqn:E. cbn [snd].
    destruct (open_step c cr s sound kdf has_kdf no_signers l r w o r' C W E) as (C' & w' & W' & F). split; [split; eauto|]. rewrite (receive_prev _ _ W), (receive_prev _ _ W').
    destruct F as [[P _]|(ms & next & LK & P1 & _)]; [rewrite P; constructor|]. rewrite P1. apply de_step with next; [|constructor]. eapply linked_step; eassumption.
  - assert (E : exists o, verify_session cr s l r = (o, set_buf (set_acc r [] [] 0) (l_data l))).
    { unfold verify_session. unfold mbind at 1. unfold modify. unfold mbind at 1. unfold is_wire, gets. cbn [set_buf set_acc r_wire]. rewrite W. cbn [is_none negb]. unfold mbind at 1. unfold ret. rewrite no_signers. eexists. reflexivity. }
    destruct E as (o & ->). cbn [snd]. split.
    + split; [destruct C; constructor; cbn; auto|]. exists w. exact W.
    + unfold receive_key. cbn [set_buf set_acc r_wire]. constructor.
Qed.
Lemma descends_trans a b k : descends cr s a b -> descends cr s b k -> descends cr s a k.
Proof using. intro H. revert k. induction H as [|k k1 k2 S H IH]; intros z Hz; [exact Hz|]. eapply de_step; eauto. Qed.
Lemma after_step qs : forall r, live r -> live (after c cr s qs r) /\ descends cr s (receive_key r) (receive_key (after c cr s qs r)).
Proof using All.
  induction qs as [|q qs IH]; intros r H; cbn [after]; [split; [exact H|constructor]|].
  destruct (serve_step q r H) as [H1 D1]. destruct (IH _ H1) as [H2 D2]. split; [exact H2|]. eapply descends_trans; eassumption.
Qed.
Lemma accept_step l r data r' : live r -> open_session c cr s l r = (Ok data, r') ->
  live r' /\ exists new next, link_of_chain cr s (receive_key r) new (data, l) next /\ receive_key r' = Some next.
Proof using All.
  intros [C (w & W)] H. destruct (open_step c cr s sound kdf has_kdf no_signers l r w _ r' C W H) as (C' & w' & W' & F). split; [split; eauto|].
  destruct F as [[_ F]|(ms & next & LK & P1 & _ & F)]; [now destruct (F data)|]. exists ms, next. rewrite (receive_prev _ _ W), (receive_prev _ _ W').
  assert (ES : forall prev, chain_secret ms prev = secret_of ms prev) by (intro prev; unfold secret_of, chain_secret; rewrite concat_app; destruct prev; cbn [prev_list concat]; now rewrite ?app_nil_r).
  split; [|exact P1]. cbn [link_of_chain]. rewrite ES. split; [exact (li_next _ _ _ _ _ _ LK)|]. apply F. reflexivity.
Qed.
End P.

(** ** C78 *)

(** Whatever a wire session (of either role) sent, received, refused or was fed before: a letter it opens was
    accepted by every cipher and mac tool of the suite, with keys derived with the letter's nonce from the chain
    key it had at that moment (and new key material), and the chain key moves on to the next link. *)
Theorem C78_accepted_with_the_chain_key : forall c hreg cr e s d server qs l data r',
  new_session c tool_registry hreg cr e = Ok s -> init_wire s = Ok tt ->
  let r := after c cr s qs (rt_start d (Some (wire_start server))) in
  open_session c cr s l r = (Ok data, r') ->
  exists new next, link_of_chain cr s (receive_key r) new (data, l) next /\ receive_key r' = Some next.
Proof.
  intros c hreg cr e s d server qs l data r' N W r H. destruct (wire_session _ _ _ _ _ N W) as [(k & K) SG]. pose proof (session_sound _ _ _ _ _ N) as S.
  assert (L0 : live (rt_start d (Some (wire_start server)))) by (split; [apply calm_start|eexists; reflexivity]).
  destruct (after_step c cr s S k K SG qs _ L0) as [L1 _]. exact (proj2 (accept_step c cr s S k K SG l r data r' L1 H)).
Qed.
Print Assumptions C78_accepted_with_the_chain_key.

(** Two letters the same session accepted, with anything in between: the later one was accepted with a chain key
    that descends from the link of the earlier one.  So a letter that is accepted a second time (a replay: [l2] =
    [l1]) has passed every tool under two generations of keys, the later derived from the earlier. *)
Theorem C78_later_letters_use_later_keys : forall c hreg cr e s d server qs l1 data1 r1 qs2 l2 data2 r2,
  new_session c tool_registry hreg cr e = Ok s -> init_wire s = Ok tt ->
  let r := after c cr s qs (rt_start d (Some (wire_start server))) in
  open_session c cr s l1 r = (Ok data1, r1) ->
  open_session c cr s l2 (after c cr s qs2 r1) = (Ok data2, r2) ->
  exists new1 k1 k2 new2 k3,
    link_of_chain cr s (receive_key r) new1 (data1, l1) k1
    /\ descends cr s (Some k1) (Some k2)
    /\ link_of_chain cr s (Some k2) new2 (data2, l2) k3 /\ receive_key r2 = Some k3.
Proof.
  intros c hreg cr e s d server qs l1 data1 r1 qs2 l2 data2 r2 N W r H1 H2. destruct (wire_session _ _ _ _ _ N W) as [(k & K) SG]. pose proof (session_sound _ _ _ _ _ N) as S.
  assert (L0 : live (rt_start d (Some (wire_start server)))) by (split; [apply calm_start|eexists; reflexivity]).
  destruct (after_step c cr s S k K SG qs _ L0) as [Lr _].
  destruct (accept_step c cr s S k K SG l1 r data1 r1 Lr H1) as (L1 & new1 & k1 & LK1 & R1).
  destruct (after_step c cr s S k K SG qs2 r1 L1) as [L2 D].
  destruct (accept_step c cr s S k K SG l2 _ data2 r2 L2 H2) as (_ & new2 & k3 & LK2 & R3). rewrite R1 in D.
  assert (SM : forall a b, descends cr s a b -> a <> None -> b <> None).
  { clear. induction 1 as [|x y z S H IH]; auto. intros _. apply IH. discriminate. }
  destruct (receive_key (after c cr s qs2 r1)) as [k2|] eqn:ER; [|now destruct (SM _ _ D)].
  exists new1, k1, k2, new2, k3. auto.
Qed.
Print Assumptions C78_later_letters_use_later_keys.

Definition c78_run : bool :=
  let c := default_config in
  match new_session c tool_registry hash_registry toy wire_client, new_session c tool_registry hash_registry toy wire_server with
  | Ok s1, Ok s2 =>
      match close_session c toy s1 true (lit "a") (rt_start 3 (Some (wire_start false))) with
      | (Ok l1, c1) =>
      match close_session c toy s1 true (lit "b") c1 with
      | (Ok l2, c2) =>
      match close_session c toy s1 true (lit "d") c2 with
      | (Ok l3, _) =>
          is_tt (init_wire s1) && is_tt (init_wire s2)
          && let v1 := snd (open_session c toy s2 l1 (rt_start 5 (Some (wire_start true)))) in
             match fst (open_session c toy s2 l1 (rt_start 5 (Some (wire_start true)))), open_session c toy s2 l2 v1 with
             | Ok a, (Ok b, v2) =>
                 bytes_eqb a (lit "a") && bytes_eqb b (lit "b")
                 && match fst (open_session c toy s2 l3 v1) with Err _ => true | _ => false end
                 && match open_session c toy s2 l2 v2 with
                    | (Err _, v3) => match fst (open_session c toy s2 l3 v3) with Err _ => true | _ => false end
                    | _ => false
                    end
                 && match fst (open_session c toy s2 l3 v2) with Ok x => bytes_eqb x (lit "d") | _ => false end
             | _, _ => false
             end
      | _ => false
      end
      | _ => false
      end
      | _ => false
      end
  | _, _ => false
  end.
Lemma c78_runs : c78_run = true.
Proof. vm_compute. reflexivity. Qed.

(** Refuted: a wire session does not survive the loss of a letter, nor a second delivery of one.  The client
    closed "a", "b" and "d"; the server opens "d" after "a" and "b", but refuses it when "b" was lost, and when "b"
    came twice (the repeated letter itself is refused as well). *)
Theorem C78_loss_and_repeat_refuted : exists s1 s2 l1 l2 l3 c1 c2 c3 v1 v2 v3 v4 err1 err2 err3,
  new_session default_config tool_registry hash_registry toy wire_client = Ok s1 /\ init_wire s1 = Ok tt
  /\ new_session default_config tool_registry hash_registry toy wire_server = Ok s2 /\ init_wire s2 = Ok tt
  /\ close_session default_config toy s1 true (lit "a") (rt_start 3 (Some (wire_start false))) = (Ok l1, c1)
  /\ close_session default_config toy s1 true (lit "b") c1 = (Ok l2, c2)
  /\ close_session default_config toy s1 true (lit "d") c2 = (Ok l3, c3)
  /\ open_session default_config toy s2 l1 (rt_start 5 (Some (wire_start true))) = (Ok (lit "a"), v1)
  /\ open_session default_config toy s2 l2 v1 = (Ok (lit "b"), v2)
  /\ open_session default_config toy s2 l3 v2 = (Ok (lit "d"), v4)
  /\ fst (open_session default_config toy s2 l3 v1) = Err err1
  /\ open_session default_config toy s2 l2 v2 = (Err err2, v3) /\ fst (open_session default_config toy s2 l3 v3) = Err err3.
Proof.
  pose proof c78_runs as R. unfold c78_run in R. set (c := default_config) in *.
  destruct (new_session c tool_registry hash_registry toy wire_client) as [s1| |] eqn:N1; [|discriminate..].
  destruct (new_session c tool_registry hash_registry toy wire_server) as [s2| |] eqn:N2; [|discriminate..].
  destruct (close_session c toy s1 true (lit "a") (rt_start 3 (Some (wire_start false)))) as [[l1| |] c1] eqn:E1; [|discriminate..].
  destruct (close_session c toy s1 true (lit "b") c1) as [[l2| |] c2] eqn:E2; [|discriminate..].
  destruct (close_session c toy s1 true (lit "d") c2) as [[l3| |] c3] eqn:E3; [|discriminate..].
  apply andb_true_iff in R as [R R3]. apply andb_true_iff in R as [R1 R2]. cbv zeta in R3.
  destruct (open_session c toy s2 l1 (rt_start 5 (Some (wire_start true)))) as [[a| |] v1] eqn:O1; cbn [fst snd] in R3; [|discriminate R3..].
  destruct (open_session c toy s2 l2 v1) as [[b| |] v2] eqn:O2; [|discriminate R3..].
  apply andb_true_iff in R3 as [R3 T5]. apply andb_true_iff in R3 as [R3 T4]. apply andb_true_iff in R3 as [R3 T3]. apply andb_true_iff in R3 as [T1 T2].
  apply bytes_eqb_eq in T1, T2. subst a b.
  destruct (fst (open_session c toy s2 l3 v1)) as [|err1|] eqn:O3; [discriminate T3| |discriminate T3].
  destruct (open_session c toy s2 l2 v2) as [[|err2|] v3] eqn:O4; [discriminate T4| |discriminate T4].
  destruct (fst (open_session c toy s2 l3 v3)) as [|err3|] eqn:O5; [discriminate T4| |discriminate T4].
  destruct (open_session c toy s2 l3 v2) as [[x| |] v4] eqn:O6; cbn [fst] in T5; [|discriminate T5..]. apply bytes_eqb_eq in T5. subst x.
  exists s1, s2, l1, l2, l3, c1, c2, c3, v1, v2, v3, v4, err1, err2, err3.
  split; [reflexivity|]. split; [destruct (init_wire s1) as [[]| |]; [reflexivity|discriminate R1..]|]. split; [reflexivity|].
  split; [destruct (init_wire s2) as [[]| |]; [reflexivity|discriminate R2..]|]. split; [exact E1|]. split; [exact E2|]. split; [exact E3|]. split; [exact O1|]. split; [exact O2|].
  split; [exact O6|]. split; [exact O3|]. split; [exact O4|exact O5].
Qed.
Print Assumptions C78_loss_and_repeat_refuted.

Definition no_nonce (l : letter) : letter := mkLetter (l_version l) (l_suite l) [] [] (l_data l) (l_mac l) [] false.
Definition c78_met_run : bool :=
  let c := default_config in
  match new_session c tool_registry hash_registry toy wire_client, new_session c tool_registry hash_registry toy wire_server with
  | Ok s1, Ok s2 =>
      match close_session c toy s1 true (lit "a") (rt_start 3 (Some (wire_start false))) with
      | (Ok l1, c1) =>
      match close_session c toy s1 true (lit "b") c1 with
      | (Ok l3, _) =>
          is_tt (init_wire s2)
          && match open_session c toy s2 l1 (rt_start 5 (Some (wire_start true))) with
             | (Ok _, v1) =>
                 match open_session c toy s2 (no_nonce l1) v1 with
                 | (Err _, v2) => match open_session c toy s2 l3 v2 with (Ok _, _) => true | _ => false end
                 | _ => false
                 end
             | _ => false
             end
      | _ => false
      end
      | _ => false
      end
  | _, _ => false
  end.
Lemma c78_met_runs : c78_met_run = true.
Proof. vm_compute. reflexivity. Qed.

(** The hypotheses of the theorems are met: the server accepted two letters, and refused a third in between. *)
Example C78_hypotheses_met : exists s l1 l2 l3 err data1 r1 data3 r3,
  new_session default_config tool_registry hash_registry toy wire_server = Ok s /\ init_wire s = Ok tt
  /\ open_session default_config toy s l1 (after default_config toy s [] (rt_start 5 (Some (wire_start true)))) = (Ok data1, r1)
  /\ fst (open_session default_config toy s l2 r1) = Err err
  /\ open_session default_config toy s l3 (after default_config toy s [QOpen l2] r1) = (Ok data3, r3).
Proof.
  pose proof c78_met_runs as R. unfold c78_met_run in R. set (c := default_config) in *.
  destruct (new_session c tool_registry hash_registry toy wire_client) as [s1| |] eqn:N1; [|discriminate..].
  destruct (new_session c tool_registry hash_registry toy wire_server) as [s2| |] eqn:N2; [|discriminate..].
  destruct (close_session c toy s1 true (lit "a") (rt_start 3 (Some (wire_start false)))) as [[l1| |] c1] eqn:E1; [|discriminate..].
  destruct (close_session c toy s1 true (lit "b") c1) as [[l3| |] c2] eqn:E2; [|discriminate..].
  apply andb_true_iff in R as [R1 R2].
  destruct (open_session c toy s2 l1 (rt_start 5 (Some (wire_start true)))) as [[a| |] v1] eqn:O1; [|discriminate..].
  destruct (open_session c toy s2 (no_nonce l1) v1) as [[x|err|] v2] eqn:O2; [discriminate| |discriminate].
  destruct (open_session c toy s2 l3 v2) as [[b| |] v3] eqn:O3; [|discriminate..].
  exists s2, l1, (no_nonce l1), l3, err, a, v1, b, v3. split; [reflexivity|]. split; [destruct (init_wire s2) as [[]| |]; [reflexivity|discriminate R1..]|].
  split; [exact O1|]. split; [rewrite O2; reflexivity|]. cbn [after serve]. rewrite O2. cbn [snd]. exact O3.
Qed.
