(** Wire sessions: the invariant of two connected parties. *)
From Coq Require Import Init.Byte.
From Verif Require Export WireMat SpecWire.

Section Run.
Variables (c : config) (cr : crypto) (s1 s2 : session).
Hypothesis laws : crypto_laws cr.
Hypothesis tw : twins s1 s2.
Hypothesis sound1 : sound_session s1.
Hypothesis sound2 : sound_session s2.
Variable kdf : inst.
Hypothesis has_kdf : s_kdf s1 = Some kdf.
Hypothesis no_signers : s_signers s1 = [].
Hypothesis few_kx : length (s_kx s1) <= 1.
Hypothesis few_ke : length (s_ke s1) <= 1.
Hypothesis no_pass : s_pass s1 = None.
Hypothesis no_key : loop scheme_key (e_secrets (s_env s1)) = [].
Hypothesis pairs : Forall2 (same_step cr) (steps s1) (steps s2).
Hypothesis ke_ids : forall i sg, In (SKe i sg) (steps s1) -> sg_id sg <> [].
Hypothesis dks : (0 < s_dks s1)%Z.

Lemma twins_sym a b : twins a b -> twins b a.
Proof. intros []. constructor; auto. intro x. symmetry. auto. Qed.

(** A letter on its way. *)
Record gm := mkGm { g_data : bytes; g_letter : letter; g_ks : list seal; g_ms : list bytes; g_ab : bool }.
Definition on_way (g : gm) : bytes * letter := (g_data g, g_letter g).
Definition gsent (s : session) (g : gm) := sent cr s (g_letter g) (g_data g) (g_ks g) (g_ms g) (g_ab g).
Fixpoint chain (s : session) (prev : option bytes) (gs : list gm) (last : option bytes) : Prop :=
  match gs with
  | [] => prev = last
  | g :: gs => exists next, gsent s g prev next /\ chain s (Some next) gs last
  end.
Lemma chain_snoc s prev gs mid g next : chain s prev gs mid -> gsent s g mid next -> chain s prev (gs ++ [g]) (Some next).
Proof.
  revert prev. induction gs as [|a gs IH]; intros prev H S; cbn [chain app] in *.
  - subst. exists next. split; [exact S|reflexivity].
  - destruct H as (nx & H1 & H2). exists nx. split; [exact H1|]. now apply IH.
Qed.

Definition plain (g : gm) : Prop := g_ks g = [] /\ g_ms g = [] /\ g_ab g = false.
(** Letters that lead the server from the pending key material [sn] to [cn]. *)
Fixpoint drain (gs : list gm) (sn cn : list bytes) : Prop :=
  match gs with
  | [] => sn = cn
  | g :: gs => g_ks g = [] /\ g_ms g = (if g_ab g then sn else []) /\ drain gs (if g_ab g then [] else sn) cn
  end.
Lemma drain_plain gs n : Forall plain gs -> drain gs n n.
Proof. induction 1 as [|g gs (E1 & E2 & E3) F IH]; cbn [drain]; [reflexivity|]. rewrite E3. auto. Qed.
Lemma drain_snoc gs sn cn g : drain gs sn cn -> g_ks g = [] -> g_ms g = cn -> g_ab g = true -> drain (gs ++ [g]) sn [].
Proof.
  revert sn. induction gs as [|a gs IH]; intros sn H E1 E2 E3; cbn [drain app] in *.
  - rewrite E3. subst. auto.
  - destruct H as (A & B & C). auto.
Qed.

Lemma prev_sent b w x next : prev_of b (fin x (moved b w next)) = Some next.
Proof using Type. clear.
  unfold prev_of, moved. assert (N : forall w, (w_msgno (bump w) =? 0)%N = false) by (intro w'; cbn; lia).
  destruct x, b, (w_msgno w =? 0)%N; cbn [fin burn_pairs set_new set_ke set_kx w_msgno]; rewrite ?N; cbn; try reflexivity;
    destruct (w_msgno w + 1 =? 0)%N eqn:E; try reflexivity; lia.
Qed.
Lemma prev_other b w x next : prev_of (negb b) (fin x (moved b w next)) = if (w_msgno w =? 0)%N then Some next else prev_of (negb b) w.
Proof using Type. clear.
  unfold prev_of, moved. destruct (w_msgno w =? 0)%N eqn:E0;
    destruct x, b; cbn [negb fin burn_pairs set_new set_ke set_kx w_msgno bump set_carry set_send set_recv carry w_send w_recv];
    (destruct (w_msgno w + 1 =? 0)%N eqn:E; [lia|]); reflexivity.
Qed.
Lemma moved_frame b w next : w_state (moved b w next) = w_state w /\ w_kx (moved b w next) = w_kx w /\ w_ke (moved b w next) = w_ke w
  /\ w_new (moved b w next) = w_new w /\ (w_msgno (moved b w next) =? 0)%N = false.
Proof using Type. clear. unfold moved. destruct (w_msgno w =? 0)%N, b; cbn; repeat split; auto; lia. Qed.
Lemma fin_frame x w : w_state (fin x w) = w_state w /\ w_new (fin x w) = (if x then [] else w_new w) /\ w_msgno (fin x w) = w_msgno w.
Proof using Type. clear. destruct x; cbn; auto. Qed.

(** The pairs of a handshake belong to tools of the session. *)
Definition tooled (kx : list kxpair) (ke : list kepair) : Prop :=
  (forall p, In p kx -> In (kx_tool p) (s_kx s1)) /\ (forall p, In p ke -> In (ke_tool p) (s_ke s1)).
(** The stages of the handshake, after the server has received the first letter. *)
Inductive stage (cw sw : wstate) (qs qc : list gm) : Prop :=
| st_keys : w_state cw = HAwaitKey -> w_state sw = HSendKey ->
    Forall2 (kx_match cr) (w_kx cw) (w_kx sw) -> Forall2 (ke_match cr) (w_ke cw) (w_ke sw) ->
    (w_kx cw <> [] \/ w_ke cw <> []) -> Forall plain qs -> qc = [] -> tooled (w_kx cw) (w_ke cw) -> stage cw sw qs qc
| st_reply g qc' : w_state cw = HAwaitKey -> w_state sw = HAwaitApply ->
    qc = g :: qc' -> reply cr (w_kx cw) (w_ke cw) (g_ks g) (g_ms g) -> g_ks g <> [] -> g_ab g = false -> w_new sw = g_ms g ->
    Forall plain qs -> Forall plain qc' -> stage cw sw qs qc
| st_apply : w_state cw = HSendApply -> w_state sw = HAwaitApply ->
    drain qs (w_new sw) (w_new cw) -> Forall plain qc -> stage cw sw qs qc.

(** Carryovers have the session's key size, and pending key material starts with a usable key. *)
Definition fine (w : wstate) : Prop := (forall b x, prev_of b w = Some x -> length x = Z.to_nat (s_dks s1)) /\ hd [x00] (w_new w) <> [].
Lemma linked_fine s nonce ms prev next : s_dks s = s_dks s1 -> linked cr s nonce ms prev next -> (forall x, prev = Some x -> length x = Z.to_nat (s_dks s1)) ->
  length next = Z.to_nat (s_dks s1) /\ hd [x00] ms <> [].
Proof.
  intros D [L1 L2 L3] HP. split.
  - apply (law_kdf _ laws) in L3. rewrite L3. destruct prev as [p|]; cbn [carry_size]; [now apply HP|now rewrite D].
  - destruct ms as [|m ms]; [discriminate|]. cbn [app hd] in *. destruct m; [discriminate|discriminate].
Qed.
Lemma fine_moved b x w next : fine w -> length next = Z.to_nat (s_dks s1) -> fine (fin x (moved b w next)).
Proof.
  intros [F1 F2] NE. split.
  - intros b' y. destruct (Bool.bool_dec b' b) as [->|NB].
    + rewrite prev_sent. intro E. now injection E as <-.
    + assert (EB : b' = negb b) by (destruct b, b'; cbn; congruence). subst b'. rewrite prev_other. destruct (w_msgno w =? 0)%N.
      * intro E. now injection E as <-.
      * apply F1.
  - destruct (fin_frame x (moved b w next)) as (_ & -> & _). destruct (moved_frame b w next) as (_ & _ & _ & -> & _). destruct x; [discriminate|exact F2].
Qed.
Lemma fine_start w : w_msgno w = 0%N -> w_new w = [] -> fine w.
Proof. intros E1 E2. split; [intros b x; unfold prev_of; rewrite E1; discriminate|rewrite E2; discriminate]. Qed.

Inductive inv (k : link) : Prop :=
| inv_new d1 d2 : k = mkLink (rt_start d1 (Some (wire_start false))) (rt_start d2 (Some (wire_start true))) [] [] false 0 0 -> inv k
| inv_first cw d2 g qs cs new next w1 :
    k_sent_server k = 0 -> fine cw -> calm (k_client k) -> r_wire (k_client k) = Some cw -> k_server k = rt_start d2 (Some (wire_start true)) -> k_met k = false ->
    k_to_server k = map on_way (g :: qs) -> k_to_client k = [] ->
    first_pairs c cr s1 (l_nonce (g_letter g)) cs new w1 -> w_kx cw = w_kx w1 -> w_ke cw = w_ke w1 ->
    w_state cw = HAwaitKey -> (w_msgno cw =? 0)%N = false ->
    g_ks g = map co_seal cs ++ map (ke_own_seal cr) new -> g_ms g = map co_mat cs -> g_ab g = false ->
    gsent s1 g None next -> chain s1 (Some next) qs (prev_of true cw) -> prev_of false cw = Some next ->
    Forall plain qs -> inv k
| inv_met cw sw qs qc :
    (w_state sw = HSendKey -> k_sent_server k = 0) -> fine cw -> fine sw -> calm (k_client k) -> calm (k_server k) -> r_wire (k_client k) = Some cw -> r_wire (k_server k) = Some sw ->
    k_to_server k = map on_way qs -> k_to_client k = map on_way qc ->
    (w_msgno cw =? 0)%N = false -> (w_msgno sw =? 0)%N = false ->
    chain s1 (prev_of false sw) qs (prev_of true cw) -> chain s2 (prev_of false cw) qc (prev_of true sw) ->
    stage cw sw qs qc -> inv k.

Lemma calm_start d w : calm (rt_start d w).
Proof. constructor; reflexivity. Qed.

Lemma step_tool x : In x (steps s1) -> match x with SKx i _ => In i (s_kx s1) | SKe i _ => In i (s_ke s1) | _ => True end.
Proof.
  unfold steps, steps_of. rewrite !in_app_iff. intros [H|[H|[H|H]]].
  - apply in_map_iff in H as (? & <- & _). exact I.
  - apply in_map_iff in H as (? & <- & _). exact I.
  - apply in_flat_map in H as (i & Hi & H). apply in_map_iff in H as (? & <- & _). exact Hi.
  - apply in_flat_map in H as (i & Hi & H). apply in_map_iff in H as (? & <- & _). exact Hi.
Qed.
Lemma first_tooled nonce cs new w1 : first_pairs c cr s1 nonce cs new w1 -> tooled (w_kx w1) (w_ke w1).
Proof.
  intros [FM FN -> -> _ _ _].
  assert (B : (forall p, In p (flat_map co_kx cs) -> In (kx_tool p) (s_kx s1)) /\ (forall p, In p (flat_map co_ke cs) -> In (ke_tool p) (s_ke s1))).
  { pose proof step_tool as ST. revert FM ST. clear. generalize (steps s1) as l. intros l FM ST. induction FM as [|x co xs cs M FM IH]; cbn [flat_map]; [split; intros p []|].
    destruct (IH (fun y Hy => ST y (or_intror Hy))) as [I1 I2]. specialize (ST x (or_introl eq_refl)).
    destruct M; cbn [co_kx co_ke app]; split; intros p' Hp; auto; destruct Hp as [<-|Hp]; auto. }
  destruct B as [B1 B2]. split; [exact B1|]. intros p Hp. clear - FN B2 Hp.
  induction FN as [|a b la lb KM FN IH]; [destruct Hp|]. destruct Hp as [<-|Hp]; [|apply IH; auto; intros; apply B2; now right].
  specialize (B2 a (or_introl eq_refl)). destruct KM as (E & _). congruence.
Qed.

(** Sending without a handshake. *)
Lemma send_nothing s nonce R d w ab q : (w_state w = HAwaitKey \/ w_state w = HAwaitApply) ->
  send_mat c cr s nonce (st R d w [] [] 0) = (Ok ab, q) ->
  exists d' w1 ks ms n, (ab = false /\ w1 = w /\ ks = [] /\ ms = []) /\ q = st R d' w1 ks ms n.
Proof.
  intros ES H. unfold send_mat in H. rewrite (mbind_run _ _ _ _ _ (wire_st_st _ _ _ _ _ _)) in H.
  destruct ES as [E|E]; rewrite E in H; injection H as <- <-; exists d, w, [], [], 0; auto.
Qed.
Lemma send_apply s nonce R d w ab q : w_state w = HSendApply ->
  send_mat c cr s nonce (st R d w [] [] 0) = (Ok ab, q) ->
  exists d' w1 ks ms n, (ab = true /\ w1 = w /\ ks = [] /\ ms = w_new w) /\ q = st R d' w1 ks ms n.
Proof.
  intros ES H. unfold send_mat in H. rewrite (mbind_run _ _ _ _ _ (wire_st_st _ _ _ _ _ _)), ES in H.
  rewrite (mbind_run _ _ _ _ _ (each_add_mat _ _ _ _ _ _ _)) in H. injection H as <- <-. exists d, w, [], (w_new w), 0. auto.
Qed.
(** Receiving without a handshake. *)
Lemma recv_nothing s l R d w : l_keys l = [] -> (w_state w = HSendKey \/ w_state w = HSendApply \/ w_state w = HAwaitKey) ->
  recv_mat c cr s l (st R d w [] [] 0) = (Ok false, st R d w [] [] 0).
Proof.
  intros EK ES. unfold recv_mat. rewrite (mbind_run _ _ _ _ _ (wire_st_st _ _ _ _ _ _)), EK.
  destruct ES as [E|[E|E]]; rewrite E; reflexivity.
Qed.
Lemma recv_apply s l R d w : w_state w = HAwaitApply ->
  recv_mat c cr s l (st R d w [] [] 0) = (Ok (l_apply l), st R d w [] (if l_apply l then w_new w else []) 0).
Proof.
  intro ES. unfold recv_mat. rewrite (mbind_run _ _ _ _ _ (wire_st_st _ _ _ _ _ _)), ES. destruct (l_apply l); [|reflexivity].
  rewrite (mbind_run _ _ _ _ _ (each_add_mat _ _ _ _ _ _ _)). reflexivity.
Qed.

Lemma dks2 : (0 < s_dks s2)%Z. Proof. now rewrite <- (tw_dks _ _ tw). Qed.
Lemma has_kdf2 : s_kdf s2 = Some kdf. Proof. now rewrite <- (tw_kdf _ _ tw). Qed.
Lemma no_signers2 : s_signers s2 = []. Proof. now rewrite <- (tw_signers _ _ tw). Qed.

Lemma inv_client_sends k full data l r : inv k -> close_session c cr s1 full data (k_client k) = (Ok l, r) ->
  inv (mkLink r (k_server k) (k_to_server k ++ [(data, l)]) (k_to_client k) (k_met k) (S (k_sent_client k)) (k_sent_server k)).
Proof.
  intros I H. destruct I as [d1 d2 ->|cw d2 g qs cs new next w1 KS FC C1 W1 ES EM EQ EC FP EX EE SC NC GK GM GA SG CH PF PL|cw sw qs qc KS FC FS C1 C2 W1 W2 EQ EC NC NS CH1 CH2 ST].
  - cbn [k_client k_server k_to_server k_to_client k_met k_sent_client k_sent_server] in *.
    apply (send_op c cr s1 sound1 (fun nonce ab w1 ks ms => ab = false /\ exists cs new, first_pairs c cr s1 nonce cs new w1
       /\ ks = map co_seal cs ++ map (ke_own_seal cr) new /\ ms = map co_mat cs)) with (w := wire_start false) (k := kdf) in H; auto using calm_start.
    2: { intros nonce d ab q HM. apply send_first in HM; auto. }
    destruct H as (ab & w1 & ks & ms & next & (-> & cs & new & FP & -> & ->) & S & C & W).
    assert (P1 : prev_of true w1 = None) by (unfold prev_of; now rewrite (fp_msgno _ _ _ _ _ _ _ FP)). rewrite P1 in S.
    destruct (moved_frame true w1 next) as (F1 & F2 & F3 & F4 & F5).
    destruct (linked_fine _ _ _ _ _ eq_refl (se_link _ _ _ _ _ _ _ _ _ S)) as [NE _]; [discriminate|].
    pose proof (fine_moved true false w1 next (fine_start _ (fp_msgno _ _ _ _ _ _ _ FP) (fp_pending _ _ _ _ _ _ _ FP)) NE) as FNE.
    eapply (inv_first _ (fin false (moved true w1 next)) d2 (mkGm data l _ _ false) [] cs new next w1); cbn [k_client k_server k_to_server k_to_client k_met g_data g_letter g_ks g_ms g_ab]; auto.
    + cbn [fin]. now rewrite F1, (fp_state _ _ _ _ _ _ _ FP).
    + cbn [chain]. now rewrite prev_sent.
    + rewrite (prev_other true w1 false next : prev_of false _ = _), (fp_msgno _ _ _ _ _ _ _ FP). reflexivity.
  - apply (send_op c cr s1 sound1 (fun nonce ab w1 ks ms => ab = false /\ w1 = cw /\ ks = [] /\ ms = [])) with (w := cw) (k := kdf) in H; auto.
    2: { intros nonce d ab q HM. apply send_nothing in HM; auto. }
    destruct H as (ab & w2 & ks & ms & next2 & (-> & -> & -> & ->) & S & C & W).
    destruct (moved_frame true cw next2) as (F1 & F2 & F3 & F4 & F5).
    destruct (linked_fine _ _ _ _ _ eq_refl (se_link _ _ _ _ _ _ _ _ _ S)) as [NE _]; [apply FC|]. pose proof (fine_moved true false cw next2 FC NE) as FNE.
    eapply (inv_first _ (fin false (moved true cw next2)) d2 g (qs ++ [mkGm data l [] [] false]) cs new next w1); cbn [k_client k_server k_to_server k_to_client k_met k_sent_client k_sent_server]; auto; try (cbn [fin]; congruence).
    + rewrite EQ. cbn [map]. rewrite map_app. reflexivity.
    + rewrite (prev_sent true cw false next2). eapply chain_snoc; [exact CH|exact S].
    + rewrite <- PF. rewrite (prev_other true cw false next2 : prev_of false (fin false (moved true cw next2)) = _), NC. reflexivity.
    + apply Forall_app. split; [exact PL|]. constructor; [repeat split|constructor].
  - assert (D : (w_state cw = HAwaitKey) \/ (w_state cw = HSendApply)) by (destruct ST; auto).
    destruct D as [SC|SC].
    + apply (send_op c cr s1 sound1 (fun nonce ab w1 ks ms => ab = false /\ w1 = cw /\ ks = [] /\ ms = [])) with (w := cw) (k := kdf) in H; auto.
      2: { intros nonce d ab q HM. apply send_nothing in HM; auto. }
      destruct H as (ab & w2 & ks & ms & next & (-> & -> & -> & ->) & S & C & W).
      destruct (moved_frame true cw next) as (F1 & F2 & F3 & F4 & F5).
      assert (PF : prev_of false (fin false (moved true cw next)) = prev_of false cw) by (rewrite (prev_other true cw false next : prev_of false _ = _), NC; reflexivity).
      destruct (linked_fine _ _ _ _ _ eq_refl (se_link _ _ _ _ _ _ _ _ _ S)) as [NE _]; [apply FC|]. pose proof (fine_moved true false cw next FC NE) as FNE.
      apply (inv_met _ (fin false (moved true cw next)) sw (qs ++ [mkGm data l [] [] false]) qc); cbn [k_client k_server k_to_server k_to_client k_met k_sent_client k_sent_server]; auto.
      * rewrite EQ, map_app. reflexivity.
      * rewrite prev_sent. eapply chain_snoc; [exact CH1|exact S].
      * rewrite PF. exact CH2.
      * assert (PLN : Forall plain qs -> Forall plain (qs ++ [mkGm data l [] [] false])).
        { intro. apply Forall_app. split; [assumption|]. constructor; [repeat split|constructor]. }
        cbn [fin]. destruct ST as [A1 A2 A3 A4 A5 A6 A7 A7t|g qc' A1 A2 A3 A4 A5 A6 A7 A8 A9|A1]; [| |congruence].
        -- apply st_keys; rewrite ?F1, ?F2, ?F3; auto.
        -- apply st_reply with g qc'; rewrite ?F1, ?F2, ?F3; auto.
    + apply (send_op c cr s1 sound1 (fun nonce ab w1 ks ms => ab = true /\ w1 = cw /\ ks = [] /\ ms = w_new cw)) with (w := cw) (k := kdf) in H; auto.
      2: { intros nonce d ab q HM. apply send_apply in HM; auto. }
      destruct H as (ab & w2 & ks & ms & next & (-> & -> & -> & ->) & S & C & W).
      destruct (moved_frame true cw next) as (F1 & F2 & F3 & F4 & F5). destruct (fin_frame true (moved true cw next)) as (G1 & G2 & G3).
      destruct (linked_fine _ _ _ _ _ eq_refl (se_link _ _ _ _ _ _ _ _ _ S)) as [NE _]; [apply FC|]. pose proof (fine_moved true true cw next FC NE) as FNE.
      apply (inv_met _ (fin true (moved true cw next)) sw (qs ++ [mkGm data l [] (w_new cw) true]) qc); cbn [k_client k_server k_to_server k_to_client k_met k_sent_client k_sent_server]; auto.
      * rewrite EQ, map_app. reflexivity.
      * rewrite prev_sent. eapply chain_snoc; [exact CH1|exact S].
      * rewrite (prev_other true cw true next : prev_of false _ = _), NC. exact CH2.
      * destruct ST as [A1|g qc' A1|A1 A2 A3 A4]; [congruence..|].
        apply st_apply; rewrite ?G1, ?F1, ?G2; auto. eapply drain_snoc; eauto.
Qed.

Lemma inv_server_sends k full data l r : inv k -> k_met k = true -> close_session c cr s2 full data (k_server k) = (Ok l, r) ->
  inv (mkLink (k_client k) r (k_to_server k) (k_to_client k ++ [(data, l)]) (k_met k) (k_sent_client k) (S (k_sent_server k))).
Proof.
  intros I MT H. destruct I as [d1 d2 ->|cw d2 g qs cs new next w1 KS FC C1 W1 ES EM EQ EC FP EX EE SC NC GK GM GA SG CH PF PL|cw sw qs qc KS FC FS C1 C2 W1 W2 EQ EC NC NS CH1 CH2 ST]; [discriminate|congruence|].
  assert (D : (w_state sw = HSendKey) \/ (w_state sw = HAwaitApply)) by (destruct ST; auto).
  destruct D as [SC|SC].
  - destruct ST as [A1 A2 A3 A4 A5 A6 A7 A7t|g qc' A1 A2|A1 A2]; [|congruence..].
    apply (send_op c cr s2 sound2 (fun nonce ab w1 ks ms => ab = false /\ reply cr (w_kx cw) (w_ke cw) ks ms /\ w_state w1 = HAwaitApply /\ w_new w1 = ms
      /\ w_msgno w1 = w_msgno sw /\ w_send w1 = w_send sw /\ w_recv w1 = w_recv sw)) with (w := sw) (k := kdf) in H; auto using has_kdf2, no_signers2.
    2: { intros nonce d ab q HM. eapply send_reply in HM; eauto. }
    destruct H as (ab & w2 & ks & ms & next & (-> & RP & B1 & B2 & B3 & B4 & B5) & S & C & W).
    destruct (moved_frame true w2 next) as (F1 & F2 & F3 & F4 & F5).
    assert (PE : forall b, prev_of b w2 = prev_of b sw) by (intro b; unfold prev_of, carry; now rewrite B3, B4, B5). rewrite PE in S.
    destruct (linked_fine _ _ _ _ _ (eq_sym (tw_dks _ _ tw)) (se_link _ _ _ _ _ _ _ _ _ S)) as [NE NM]; [apply FS|].
    assert (FNE : fine (fin false (moved true w2 next))).
    { apply fine_moved; [|exact NE]. split; [intros b x; rewrite PE; apply FS|rewrite B2; exact NM]. }
    apply (inv_met _ cw (fin false (moved true w2 next)) qs (qc ++ [mkGm data l ks ms false])); cbn [k_client k_server k_to_server k_to_client k_met k_sent_client k_sent_server]; auto.
    + cbn [fin]. rewrite F1, B1. discriminate.
    + rewrite EC, map_app. reflexivity.
    + rewrite (prev_other true w2 false next : prev_of false _ = _), B3, NS, PE. exact CH1.
    + rewrite prev_sent. eapply chain_snoc; [exact CH2|exact S].
    + cbn [fin]. subst qc. apply st_reply with (mkGm data l ks ms false) []; rewrite ?F1, ?F4; cbn [g_ks g_ms g_ab]; auto.
      destruct RP as (a & b & x & e & -> & _ & LA & LB & _). intro E. apply app_eq_nil in E as [-> ->].
      destruct A5 as [A5|A5]; apply A5; [destruct (w_kx cw)|destruct (w_ke cw)]; auto; discriminate.
  - apply (send_op c cr s2 sound2 (fun nonce ab w1 ks ms => ab = false /\ w1 = sw /\ ks = [] /\ ms = [])) with (w := sw) (k := kdf) in H; auto using has_kdf2, no_signers2.
    2: { intros nonce d ab q HM. apply send_nothing in HM; auto. }
    destruct H as (ab & w2 & ks & ms & next & (-> & -> & -> & ->) & S & C & W).
    destruct (moved_frame true sw next) as (F1 & F2 & F3 & F4 & F5).
    destruct (linked_fine _ _ _ _ _ (eq_sym (tw_dks _ _ tw)) (se_link _ _ _ _ _ _ _ _ _ S)) as [NE _]; [apply FS|]. pose proof (fine_moved true false sw next FS NE) as FNE.
    apply (inv_met _ cw (fin false (moved true sw next)) qs (qc ++ [mkGm data l [] [] false])); cbn [k_client k_server k_to_server k_to_client k_met k_sent_client k_sent_server]; auto.
    + cbn [fin]. rewrite F1, SC. discriminate.
    + rewrite EC, map_app. reflexivity.
    + rewrite (prev_other true sw false next : prev_of false _ = _), NS. exact CH1.
    + rewrite prev_sent. eapply chain_snoc; [exact CH2|exact S].
    + assert (PLN : forall q, Forall plain q -> Forall plain (q ++ [mkGm data l [] [] false])).
      { intros q Hq. apply Forall_app. split; [assumption|]. constructor; [repeat split|constructor]. }
      cbn [fin]. destruct ST as [A1 A2 A3 A4 A5 A6 A7 A7t|g qc' A1 A2 A3 A4 A5 A6 A7 A8 A9|A1 A2 A3 A4]; [congruence| |].
      * apply st_reply with g (qc' ++ [mkGm data l [] [] false]); rewrite ?F1, ?F4; auto. now subst qc.
      * apply st_apply; rewrite ?F1, ?F4; auto.
Qed.

Lemma inv_server_receives k data l q : inv k -> k_to_server k = (data, l) :: q ->
  exists r, open_session c cr s2 l (k_server k) = (Ok data, r) /\ inv (mkLink (k_client k) r q (k_to_client k) true (k_sent_client k) (k_sent_server k)).
Proof.
  intros I H. destruct I as [d1 d2 ->|cw d2 g qs cs new next w1 KS FC C1 W1 ES EM EQ EC FP EX EE SC NC GK GM GA SG CH PF PL|cw sw qs qc KS FC FS C1 C2 W1 W2 EQ EC NC NS CH1 CH2 ST]; [discriminate| |].
  - rewrite H in EQ. cbn [map] in EQ. injection EQ as -> -> ->. 
    assert (NCS : cs <> []).
    { pose proof (li_ne _ _ _ _ _ _ (se_link _ _ _ _ _ _ _ _ _ SG)) as NE. rewrite GM in NE. cbn [prev_list] in NE. rewrite app_nil_r in NE. now destruct cs. }
    destruct (recv_first c cr s1 s2 laws tw few_kx few_ke no_pass no_key pairs ke_ids (g_letter g) (base (k_server k) (l_data (g_letter g))) (r_draw (k_server k)) w1 cs new FP NCS) as (w2 & n & HM & B1 & B2 & B3 & B4 & B5).
    { rewrite (se_keys _ _ _ _ _ _ _ _ _ SG). exact GK. }
    rewrite <- GM in HM.
    assert (CS : calm (k_server k)) by (rewrite ES; apply calm_start).
    assert (WS : r_wire (k_server k) = Some (wire_start true)) by (rewrite ES; reflexivity).
    assert (PN : prev_of false w2 = None) by (unfold prev_of; rewrite B2; reflexivity).
    destruct (recv_op c cr s1 s2 (g_letter g) (k_server k) (wire_start true) _ w2 _ _ n (g_data g) (g_ks g) (g_ab g) None next false kdf laws tw sound2 has_kdf2 no_signers2 CS WS HM SG PN) as (r & E & C & W).
    exists r. split; [exact E|]. destruct (moved_frame false w2 next) as (F1 & F2 & F3 & F4 & F5).
    destruct (linked_fine _ _ _ _ _ eq_refl (se_link _ _ _ _ _ _ _ _ _ SG)) as [NE _]; [discriminate|].
    pose proof (fine_moved false false w2 next (fine_start _ B2 B5) NE) as FNE.
    apply (inv_met _ cw (fin false (moved false w2 next)) qs []); cbn [k_client k_server k_to_server k_to_client k_met k_sent_client k_sent_server]; auto.
    + rewrite prev_sent. exact CH.
    + cbn [chain]. rewrite (prev_other false w2 false next : prev_of true _ = _), B2. exact PF.
    + cbn [fin]. apply st_keys; rewrite ?F1, ?F2, ?F3, ?EX, ?EE; auto; [|eapply first_tooled; exact FP].
      destruct FP as [FM FN E1 E2 _ _ _]. destruct (steps_split c cr s1 no_pass no_key _ _ FM) as (xa & xb & EST & FA & FB & _).
      rewrite E1, E2. rewrite EST in FM. assert (FAB : Forall (fun x => is_kx x \/ is_ke x) (xa ++ xb)).
      { apply Forall_app. split; [eapply Forall_impl; [|exact FA]|eapply Forall_impl; [|exact FB]]; cbn; auto. }
      destruct FM as [|x co xs cs M FM]; [congruence|]. inversion FAB as [|? ? HX _]; subst.
      destruct M; cbn [flat_map co_kx co_ke app] in *; try (left; discriminate); try (right; inversion FN; discriminate);
        destruct HX as [(i' & sg' & EX')|(i' & sg' & EX')]; discriminate.
  - rewrite H in EQ. destruct qs as [|g qs]; [discriminate|]. cbn [map] in EQ. injection EQ as -> -> ->.
    cbn [chain] in CH1. destruct CH1 as (next & SG & CH1).
    assert (EKS : l_keys (g_letter g) = g_ks g) by exact (se_keys _ _ _ _ _ _ _ _ _ SG).
    assert (EAB : l_apply (g_letter g) = g_ab g) by exact (se_apply _ _ _ _ _ _ _ _ _ SG).
    assert (D : exists ms b w2, recv_mat c cr s2 (g_letter g) (st (base (k_server k) (l_data (g_letter g))) (r_draw (k_server k)) sw [] [] 0)
        = (Ok b, st (base (k_server k) (l_data (g_letter g))) (r_draw (k_server k)) sw [] ms 0) /\ g_ms g = ms
        /\ w2 = fin b (moved false sw next) /\ stage cw w2 qs qc).
    { destruct (moved_frame false sw next) as (F1 & F2 & F3 & F4 & F5).
      destruct ST as [A1 A2 A3 A4 A5 A6 A7 A7t|g' qc' A1 A2 A3 A4 A5 A6 A7 A8 A9|A1 A2 A3 A4].
      - inversion A6 as [|? ? (P1 & P2 & P3) A6']; subst. exists [], false. eexists. split; [|split; [exact P2|split; [reflexivity|]]].
        + apply recv_nothing; [congruence|auto].
        + cbn [fin]. apply st_keys; rewrite ?F1, ?F2, ?F3; auto.
      - inversion A8 as [|? ? (P1 & P2 & P3) A8']; subst. exists [], false. eexists. split; [|split; [exact P2|split; [reflexivity|]]].
        + rewrite recv_apply by assumption. rewrite EAB, P3. reflexivity.
        + cbn [fin]. apply st_reply with g' qc'; rewrite ?F1, ?F4; auto.
      - cbn [drain] in A3. destruct A3 as (P1 & P2 & P3). eexists _, (g_ab g), _. split; [rewrite recv_apply, EAB by assumption; reflexivity|].
        split; [exact P2|]. split; [reflexivity|]. destruct (fin_frame (g_ab g) (moved false sw next)) as (G1 & G2 & G3).
        apply st_apply; rewrite ?G1, ?F1; auto. rewrite G2, F4. exact P3. }
    destruct D as (ms & b & w2 & HM & EMS & Ew2 & ST').
    destruct (recv_op c cr s1 s2 (g_letter g) (k_server k) sw _ sw _ _ 0 (g_data g) (g_ks g) (g_ab g) (prev_of false sw) next b kdf laws tw sound2 has_kdf2 no_signers2 C2 W2 HM) as (r & E & C & W); auto.
    { rewrite <- EMS. exact SG. }
    exists r. split; [exact E|]. destruct (moved_frame false sw next) as (F1 & F2 & F3 & F4 & F5). destruct (fin_frame b (moved false sw next)) as (G1 & G2 & G3).
    destruct (linked_fine _ _ _ _ _ eq_refl (se_link _ _ _ _ _ _ _ _ _ SG)) as [NE _]; [apply FS|]. pose proof (fine_moved false b sw next FS NE) as FNE.
    apply (inv_met _ cw w2 qs qc); cbn [k_client k_server k_to_server k_to_client k_met k_sent_client k_sent_server]; subst w2; auto.
    + rewrite G1, F1. exact KS.
    + now rewrite G3.
    + rewrite prev_sent. exact CH1.
    + rewrite (prev_other false sw b next : prev_of true _ = _), NS. exact CH2.
Qed.

Lemma inv_client_receives k data l q : inv k -> k_to_client k = (data, l) :: q ->
  exists r, open_session c cr s1 l (k_client k) = (Ok data, r) /\ inv (mkLink r (k_server k) (k_to_server k) q (k_met k) (k_sent_client k) (k_sent_server k)).
Proof.
  intros I H. destruct I as [d1 d2 ->|cw d2 g qs cs new next w1 KS FC C1 W1 ES EM EQ EC FP EX EE SC NC GK GM GA SG CH PF PL|cw sw qs qc KS FC FS C1 C2 W1 W2 EQ EC NC NS CH1 CH2 ST]; [discriminate|congruence|].
  rewrite H in EC. destruct qc as [|g qc]; [discriminate|]. cbn [map] in EC. injection EC as -> -> ->.
  cbn [chain] in CH2. destruct CH2 as (next & SG & CH2).
  assert (EKS : l_keys (g_letter g) = g_ks g) by exact (se_keys _ _ _ _ _ _ _ _ _ SG).
  assert (D : exists ms n w2, recv_mat c cr s1 (g_letter g) (st (base (k_client k) (l_data (g_letter g))) (r_draw (k_client k)) cw [] [] 0)
      = (Ok false, st (base (k_client k) (l_data (g_letter g))) (r_draw (k_client k)) w2 [] ms n) /\ g_ms g = ms
      /\ w_msgno w2 = w_msgno cw /\ (forall b, prev_of b w2 = prev_of b cw) /\ (w_new w2 = w_new cw \/ w_new w2 = ms) /\ stage (moved false w2 next) sw qs qc).
  { destruct ST as [A1 A2 A3 A4 A5 A6 A7 A7t|g' qc' A1 A2 A3 A4 A5 A6 A7 A8 A9|A1 A2 A3 A4].
    - discriminate.
    - injection A3 as -> ->. destruct (recv_reply c cr s1 (g_letter g') (base (k_client k) (l_data (g_letter g'))) (r_draw (k_client k)) cw _ _ A1 A4 A5 EKS)
        as (w2 & n & HM & B1 & B2 & B3 & B4 & B5).
      exists (g_ms g'), n, w2. split; [exact HM|]. split; [reflexivity|]. split; [exact B3|].
      split; [intro b; unfold prev_of, carry; now rewrite B3, B4, B5|].
      split; [right; exact B2|].
      destruct (moved_frame false w2 next) as (F1 & F2 & F3 & F4 & F5).
      apply st_apply; rewrite ?F1, ?F4; auto. rewrite A7, B2. now apply drain_plain.
    - inversion A4 as [|? ? (P1 & P2 & P3) A4']; subst. exists [], 0, cw.
      split; [apply recv_nothing; [congruence|auto]|]. split; [exact P2|]. split; [reflexivity|]. split; [reflexivity|]. split; [left; reflexivity|].
      destruct (moved_frame false cw next) as (F1 & F2 & F3 & F4 & F5). apply st_apply; rewrite ?F1, ?F4; auto. }
  destruct D as (ms & n & w2 & HM & EMS & EN & EP & EWN & ST').
  assert (SG' : sent cr s2 (g_letter g) (g_data g) (g_ks g) ms (g_ab g) (prev_of false cw) next) by (rewrite <- EMS; exact SG).
  destruct (recv_op c cr s2 s1 (g_letter g) (k_client k) cw _ w2 _ _ n (g_data g) (g_ks g) (g_ab g) (prev_of false cw) next false kdf laws (twins_sym _ _ tw) sound1 has_kdf no_signers C1 W1 HM SG' (EP false)) as (r & E & C & W).
  exists r. split; [exact E|]. destruct (moved_frame false w2 next) as (F1 & F2 & F3 & F4 & F5).
  destruct (linked_fine _ _ _ _ _ (eq_sym (tw_dks _ _ tw)) (se_link _ _ _ _ _ _ _ _ _ SG')) as [NE NM]; [apply FC|].
  assert (FNE : fine (moved false w2 next)).
  { apply (fine_moved false false w2 next); [|exact NE]. split; [intros b x; rewrite EP; apply FC|]. destruct EWN as [->| ->]; [apply FC|exact NM]. }
  apply (inv_met _ (moved false w2 next) sw qs qc); cbn [k_client k_server k_to_server k_to_client k_met k_sent_client k_sent_server]; auto.
  - rewrite (prev_other false w2 false next : prev_of true (moved false w2 next) = _), EN, NC, EP. exact CH1.
  - rewrite (prev_sent false w2 false next : prev_of false (moved false w2 next) = _). exact CH2.
Qed.

Theorem connected_inv k : connected c cr s1 s2 k -> inv k.
Proof.
  induction 1 as [d1 d2|k full data l r CN IH E|k full data l r CN IH MT E|k data l q x r CN IH EQ E|k data l q x r CN IH EQ E].
  - now apply inv_new with d1 d2.
  - now apply inv_client_sends with full.
  - now apply inv_server_sends with full.
  - destruct (inv_server_receives _ _ _ _ IH EQ) as (r' & E' & I). rewrite E in E'. injection E' as _ ->. exact I.
  - destruct (inv_client_receives _ _ _ _ IH EQ) as (r' & E' & I). rewrite E in E'. injection E' as _ ->. exact I.
Qed.

(** Keys travel only in the first letter of each direction. *)
Lemma client_keys k full data l r : inv k -> close_session c cr s1 full data (k_client k) = (Ok l, r) -> l_keys l <> [] -> k_sent_client k = 0.
Proof.
  intros I H NE. destruct I as [d1 d2 ->|cw d2 g qs cs new next w1 KS FC C1 W1 ES EM EQ EC FP EX EE SC NC GK GM GA SG CH PF PL|cw sw qs qc KS FC FS C1 C2 W1 W2 EQ EC NC NS CH1 CH2 ST].
  - reflexivity.
  - apply (send_op c cr s1 sound1 (fun nonce ab w1 ks ms => ab = false /\ w1 = cw /\ ks = [] /\ ms = [])) with (w := cw) (k := kdf) in H; auto.
    2: { intros nonce d ab q HM. apply send_nothing in HM; auto. }
    destruct H as (ab & w2 & ks & ms & next2 & (-> & -> & -> & ->) & S & _). now destruct (NE (se_keys _ _ _ _ _ _ _ _ _ S)).
  - assert (D : (w_state cw = HAwaitKey) \/ (w_state cw = HSendApply)) by (destruct ST; auto). destruct D as [SC|SC].
    + apply (send_op c cr s1 sound1 (fun nonce ab w1 ks ms => ab = false /\ w1 = cw /\ ks = [] /\ ms = [])) with (w := cw) (k := kdf) in H; auto.
      2: { intros nonce d ab q HM. apply send_nothing in HM; auto. }
      destruct H as (ab & w2 & ks & ms & next2 & (-> & -> & -> & ->) & S & _). now destruct (NE (se_keys _ _ _ _ _ _ _ _ _ S)).
    + apply (send_op c cr s1 sound1 (fun nonce ab w1 ks ms => ab = true /\ w1 = cw /\ ks = [] /\ ms = w_new cw)) with (w := cw) (k := kdf) in H; auto.
      2: { intros nonce d ab q HM. apply send_apply in HM; auto. }
      destruct H as (ab & w2 & ks & ms & next2 & (-> & -> & -> & ->) & S & _). now destruct (NE (se_keys _ _ _ _ _ _ _ _ _ S)).
Qed.
Lemma server_keys k full data l r : inv k -> k_met k = true -> close_session c cr s2 full data (k_server k) = (Ok l, r) -> l_keys l <> [] -> k_sent_server k = 0.
Proof.
  intros I MT H NE. destruct I as [d1 d2 ->|cw d2 g qs cs new next w1 KS FC C1 W1 ES EM EQ EC FP EX EE SC NC GK GM GA SG CH PF PL|cw sw qs qc KS FC FS C1 C2 W1 W2 EQ EC NC NS CH1 CH2 ST]; [discriminate|congruence|].
  assert (D : (w_state sw = HSendKey) \/ (w_state sw = HAwaitApply)) by (destruct ST; auto). destruct D as [SC|SC]; [auto|].
  apply (send_op c cr s2 sound2 (fun nonce ab w1 ks ms => ab = false /\ w1 = sw /\ ks = [] /\ ms = [])) with (w := sw) (k := kdf) in H; auto using has_kdf2, no_signers2.
  2: { intros nonce d ab q HM. apply send_nothing in HM; auto. }
  destruct H as (ab & w2 & ks & ms & next2 & (-> & -> & -> & ->) & S & _). now destruct (NE (se_keys _ _ _ _ _ _ _ _ _ S)).
Qed.

(** A letter without nonce and seals, once a letter was exchanged. *)
Lemma nonceless s l r w k : s_kdf s = Some k -> s_signers s = [] -> calm r -> r_wire r = Some w -> (w_msgno w =? 0)%N = false ->
  w_state w <> HInit -> w_state w <> HIdle -> l_nonce l = [] -> l_keys l = [] ->
  exists r', open_session c cr s l r = (Err EOther, r') /\ calm r' /\ r_wire r' = Some w.
Proof.
  intros EK NSg C EW NM S1 S2 EN EL.
  assert (HM : exists b ms, recv_mat c cr s l (st (base r (l_data l)) (r_draw r) w [] [] 0) = (Ok b, st (base r (l_data l)) (r_draw r) w [] ms 0)).
  { destruct (w_state w) eqn:ES; try congruence.
    - exists false, []. apply recv_nothing; auto.
    - exists false, []. apply recv_nothing; auto.
    - exists false, []. apply recv_nothing; auto.
    - eexists _, _. now apply recv_apply. }
  destruct HM as (b & ms & HM).
  eexists. split; [|split; [|]].
  - unfold open_session. unfold mbind at 1. rs. unfold mbind at 1. unfold is_wire, gets. rs. rewrite EW. cbn [is_none negb].
    unfold mbind at 1. unfold ret. rewrite NSg. cbn [nonempty]. unfold open_payload. rewrite EK. unfold mbind at 1. unfold is_wire, gets. rs. rewrite EW. cbn [is_none negb].
    match goal with |- context [mbind (recv_handshake c cr s l) _ ?q] =>
      assert (ES : q = st (base r (l_data l)) (r_draw r) w [] [] 0) by (unfold st, base; destruct r; cbn in *; subst; reflexivity); rewrite ES end.
    unfold mbind at 1. rewrite recv_split, (mbind_run _ _ _ _ _ HM). unfold carryover. rewrite mbind_assoc, (mbind_run _ _ _ _ _ (wire_st_st _ _ _ _ _ _)), NM.
    unfold mbind at 1. unfold mbind at 1. unfold mbind at 1. unfold mbind at 1. unfold add_mat, modify, gets. rewrite kdf_init_run, EN, andb_false_r. reflexivity.
  - destruct C; constructor; cbn; auto.
  - reflexivity.
Qed.
Lemma inv_server_nonceless k l x r : inv k -> k_met k = true -> l_nonce l = [] -> l_keys l = [] ->
  open_session c cr s2 l (k_server k) = (x, r) ->
  x = Err EOther /\ inv (mkLink (k_client k) r (k_to_server k) (k_to_client k) (k_met k) (k_sent_client k) (k_sent_server k)).
Proof.
  intros I MT EN EL H. destruct I as [d1 d2 ->|cw d2 g qs cs new next w1 KS FC C1 W1 ES EM EQ EC FP EX EE SC NC GK GM GA SG CH PF PL|cw sw qs qc KS FC FS C1 C2 W1 W2 EQ EC NC NS CH1 CH2 ST]; [discriminate|congruence|].
  destruct (nonceless s2 l (k_server k) sw kdf has_kdf2 no_signers2 C2 W2 NS) as (r' & E & C & W); auto; try (destruct ST; congruence).
  rewrite H in E. injection E as -> ->. split; [reflexivity|]. eapply (inv_met _ cw sw qs qc); cbn; auto.
Qed.
Lemma inv_client_nonceless k l x r : inv k -> k_met k = true -> l_nonce l = [] -> l_keys l = [] ->
  open_session c cr s1 l (k_client k) = (x, r) ->
  x = Err EOther /\ inv (mkLink r (k_server k) (k_to_server k) (k_to_client k) (k_met k) (k_sent_client k) (k_sent_server k)).
Proof.
  intros I MT EN EL H. destruct I as [d1 d2 ->|cw d2 g qs cs new next w1 KS FC C1 W1 ES EM EQ EC FP EX EE SC NC GK GM GA SG CH PF PL|cw sw qs qc KS FC FS C1 C2 W1 W2 EQ EC NC NS CH1 CH2 ST]; [discriminate|congruence|].
  destruct (nonceless s1 l (k_client k) cw kdf has_kdf no_signers C1 W1 NC) as (r' & E & C & W); auto; try (destruct ST; congruence).
  rewrite H in E. injection E as -> ->. split; [reflexivity|]. eapply (inv_met _ cw sw qs qc); cbn; auto.
Qed.
(** What each step does to the session, in every state of a conversation. *)
Ltac inv_cases I := destruct I as [d1 d2 ->|cw d2 g qs cs new next w1 KS FC C1 W1 ES EM EQ EC FP EX EE SC NC GK GM GA SG CH PF PL|cw sw qs qc KS FC FS C1 C2 W1 W2 EQ EC NC NS CH1 CH2 ST].

Lemma client_send_shape k full data l r : inv k -> close_session c cr s1 full data (k_client k) = (Ok l, r) ->
  (exists d1 d2 cs new w1 next, k = mkLink (rt_start d1 (Some (wire_start false))) (rt_start d2 (Some (wire_start true))) [] [] false 0 0
     /\ first_pairs c cr s1 (l_nonce l) cs new w1
     /\ gsent s1 (mkGm data l (map co_seal cs ++ map (ke_own_seal cr) new) (map co_mat cs) false) None next
     /\ r_wire r = Some (moved true w1 next))
  \/ (exists cw ab ms next, r_wire (k_client k) = Some cw /\ (w_msgno cw =? 0)%N = false
     /\ ((w_state cw = HAwaitKey /\ ms = [] /\ ab = false) \/ (w_state cw = HSendApply /\ ms = w_new cw /\ ab = true))
     /\ gsent s1 (mkGm data l [] ms ab) (prev_of true cw) next
     /\ r_wire r = Some (fin ab (moved true cw next))).
Proof.
  intros I H. inv_cases I.
  - cbn [k_client] in H. left.
    apply (send_op c cr s1 sound1 (fun nonce ab w1 ks ms => ab = false /\ exists cs new, first_pairs c cr s1 nonce cs new w1
       /\ ks = map co_seal cs ++ map (ke_own_seal cr) new /\ ms = map co_mat cs)) with (w := wire_start false) (k := kdf) in H; auto using calm_start.
    2: { intros nonce d ab q HM. apply send_first in HM; auto. }
    destruct H as (ab & w1 & ks & ms & next & (-> & cs & new & FP & -> & ->) & S & C & W).
    assert (P1 : prev_of true w1 = None) by (unfold prev_of; now rewrite (fp_msgno _ _ _ _ _ _ _ FP)). rewrite P1 in S.
    exists d1, d2, cs, new, w1, next. auto.
  - right. apply (send_op c cr s1 sound1 (fun nonce ab w1 ks ms => ab = false /\ w1 = cw /\ ks = [] /\ ms = [])) with (w := cw) (k := kdf) in H; auto.
    2: { intros nonce d ab q HM. apply send_nothing in HM; auto. }
    destruct H as (ab & w2 & ks & ms & next2 & (-> & -> & -> & ->) & S & C & W). exists cw, false, [], next2. auto 10.
  - right. assert (D : (w_state cw = HAwaitKey) \/ (w_state cw = HSendApply)) by (destruct ST; auto).
    destruct D as [SC|SC].
    + apply (send_op c cr s1 sound1 (fun nonce ab w1 ks ms => ab = false /\ w1 = cw /\ ks = [] /\ ms = [])) with (w := cw) (k := kdf) in H; auto.
      2: { intros nonce d ab q HM. apply send_nothing in HM; auto. }
      destruct H as (ab & w2 & ks & ms & next2 & (-> & -> & -> & ->) & S & C & W). exists cw, false, [], next2. auto 10.
    + apply (send_op c cr s1 sound1 (fun nonce ab w1 ks ms => ab = true /\ w1 = cw /\ ks = [] /\ ms = w_new cw)) with (w := cw) (k := kdf) in H; auto.
      2: { intros nonce d ab q HM. apply send_apply in HM; auto. }
      destruct H as (ab & w2 & ks & ms & next2 & (-> & -> & -> & ->) & S & C & W). exists cw, true, (w_new cw), next2. auto 10.
Qed.

Lemma server_send_shape k full data l r : inv k -> k_met k = true -> close_session c cr s2 full data (k_server k) = (Ok l, r) ->
  exists cw sw w2 ks ms next, r_wire (k_client k) = Some cw /\ r_wire (k_server k) = Some sw /\ (w_msgno sw =? 0)%N = false
    /\ w_msgno w2 = w_msgno sw /\ (forall b, prev_of b w2 = prev_of b sw) /\ w_state w2 = HAwaitApply
    /\ ((w_state sw = HSendKey /\ w_state cw = HAwaitKey /\ reply cr (w_kx cw) (w_ke cw) ks ms /\ w_new w2 = ms)
        \/ (w_state sw = HAwaitApply /\ ks = [] /\ ms = [] /\ w2 = sw))
    /\ gsent s2 (mkGm data l ks ms false) (prev_of true sw) next
    /\ r_wire r = Some (moved true w2 next).
Proof.
  intros I MT H. inv_cases I; [discriminate|congruence|].
  assert (D : (w_state sw = HSendKey) \/ (w_state sw = HAwaitApply)) by (destruct ST; auto).
  destruct D as [SC|SC].
  - destruct ST as [A1 A2 A3 A4 A5 A6 A7 A7t|g qc' A1 A2|A1 A2]; [|congruence..].
    apply (send_op c cr s2 sound2 (fun nonce ab w1 ks ms => ab = false /\ reply cr (w_kx cw) (w_ke cw) ks ms /\ w_state w1 = HAwaitApply /\ w_new w1 = ms
      /\ w_msgno w1 = w_msgno sw /\ w_send w1 = w_send sw /\ w_recv w1 = w_recv sw)) with (w := sw) (k := kdf) in H; auto using has_kdf2, no_signers2.
    2: { intros nonce d ab q HM. eapply send_reply in HM; eauto. }
    destruct H as (ab & w2 & ks & ms & next & (-> & RP & B1 & B2 & B3 & B4 & B5) & S & C & W).
    assert (PE : forall b, prev_of b w2 = prev_of b sw) by (intro b; unfold prev_of, carry; now rewrite B3, B4, B5). rewrite PE in S.
    exists cw, sw, w2, ks, ms, next. split; [exact W1|]. split; [exact W2|]. split; [exact NS|]. split; [exact B3|]. split; [exact PE|]. split; [exact B1|].
    split; [left; auto|]. split; [exact S|exact W].
  - apply (send_op c cr s2 sound2 (fun nonce ab w1 ks ms => ab = false /\ w1 = sw /\ ks = [] /\ ms = [])) with (w := sw) (k := kdf) in H; auto using has_kdf2, no_signers2.
    2: { intros nonce d ab q HM. apply send_nothing in HM; auto. }
    destruct H as (ab & w2 & ks & ms & next & (-> & -> & -> & ->) & S & C & W).
    exists cw, sw, sw, [], [], next. split; [exact W1|]. split; [exact W2|]. split; [exact NS|]. split; [reflexivity|]. split; [reflexivity|]. split; [exact SC|].
    split; [right; auto|]. split; [exact S|exact W].
Qed.

Lemma server_recv_shape k data l q x r : inv k -> k_to_server k = (data, l) :: q -> open_session c cr s2 l (k_server k) = (x, r) ->
  exists cw, r_wire (k_client k) = Some cw
  /\ ((k_met k = false /\ exists w2 next, w_msgno w2 = 0%N /\ w_state w2 = HSendKey /\ prev_of false cw = Some next /\ r_wire r = Some (moved false w2 next))
      \/ (exists sw ms b next, r_wire (k_server k) = Some sw /\ (w_msgno sw =? 0)%N = false
            /\ l_apply l = b /\ ms = (if b then w_new sw else []) /\ (b = true -> w_state sw = HAwaitApply)
            /\ gsent s1 (mkGm data l [] ms b) (prev_of false sw) next
            /\ r_wire r = Some (fin b (moved false sw next)))).
Proof.
  intros I H HO. inv_cases I; [discriminate| |].
  - rewrite H in EQ. cbn [map] in EQ. injection EQ as -> -> ->. exists cw. split; [exact W1|]. left. split; [exact EM|].
    assert (NCS : cs <> []).
    { pose proof (li_ne _ _ _ _ _ _ (se_link _ _ _ _ _ _ _ _ _ SG)) as NE. rewrite GM in NE. cbn [prev_list] in NE. rewrite app_nil_r in NE. now destruct cs. }
    destruct (recv_first c cr s1 s2 laws tw few_kx few_ke no_pass no_key pairs ke_ids (g_letter g) (base (k_server k) (l_data (g_letter g))) (r_draw (k_server k)) w1 cs new FP NCS) as (w2 & n & HM & B1 & B2 & B3 & B4 & B5).
    { rewrite (se_keys _ _ _ _ _ _ _ _ _ SG). exact GK. }
    rewrite <- GM in HM.
    assert (CS : calm (k_server k)) by (rewrite ES; apply calm_start).
    assert (WS : r_wire (k_server k) = Some (wire_start true)) by (rewrite ES; reflexivity).
    assert (PN : prev_of false w2 = None) by (unfold prev_of; rewrite B2; reflexivity).
    destruct (recv_op c cr s1 s2 (g_letter g) (k_server k) (wire_start true) _ w2 _ _ n (g_data g) (g_ks g) (g_ab g) None next false kdf laws tw sound2 has_kdf2 no_signers2 CS WS HM SG PN) as (r' & E & C & W).
    rewrite HO in E. injection E as _ <-. exists w2, next. auto.
  - rewrite H in EQ. destruct qs as [|g qs]; [discriminate|]. cbn [map] in EQ. injection EQ as -> -> ->. exists cw. split; [exact W1|]. right.
    cbn [chain] in CH1. destruct CH1 as (next & SG & CH1).
    assert (EKS : l_keys (g_letter g) = g_ks g) by exact (se_keys _ _ _ _ _ _ _ _ _ SG).
    assert (EAB : l_apply (g_letter g) = g_ab g) by exact (se_apply _ _ _ _ _ _ _ _ _ SG).
    assert (D : g_ks g = [] /\ g_ms g = (if g_ab g then w_new sw else []) /\ (g_ab g = true -> w_state sw = HAwaitApply)
        /\ recv_mat c cr s2 (g_letter g) (st (base (k_server k) (l_data (g_letter g))) (r_draw (k_server k)) sw [] [] 0)
        = (Ok (g_ab g), st (base (k_server k) (l_data (g_letter g))) (r_draw (k_server k)) sw [] (g_ms g) 0)).
    { destruct ST as [A1 A2 A3 A4 A5 A6 A7 A7t|g' qc' A1 A2 A3 A4 A5 A6 A7 A8 A9|A1 A2 A3 A4].
      - inversion A6 as [|? ? (P1 & P2 & P3) A6']; subst. rewrite P2, P3. repeat split; auto; [discriminate|]. apply recv_nothing; [congruence|auto].
      - inversion A8 as [|? ? (P1 & P2 & P3) A8']; subst. rewrite P2, P3. repeat split; auto. rewrite recv_apply by assumption. now rewrite EAB, P3.
      - cbn [drain] in A3. destruct A3 as (P1 & P2 & P3). repeat split; auto. rewrite recv_apply, EAB, P2 by assumption. reflexivity. }
    destruct D as (D1 & D2 & D3 & HM).
    destruct (recv_op c cr s1 s2 (g_letter g) (k_server k) sw _ sw _ _ 0 (g_data g) (g_ks g) (g_ab g) (prev_of false sw) next (g_ab g) kdf laws tw sound2 has_kdf2 no_signers2 C2 W2 HM SG) as (r' & E & C & W); auto.
    rewrite HO in E. injection E as _ <-. exists sw, (g_ms g), (g_ab g), next. split; [exact W2|]. split; [exact NS|]. split; [exact EAB|]. split; [exact D2|]. split; [exact D3|].
    split; [|exact W]. unfold gsent in *. cbn [g_letter g_data g_ks g_ms g_ab]. rewrite <- D1. exact SG.
Qed.

Lemma client_recv_shape k data l q x r : inv k -> k_to_client k = (data, l) :: q -> open_session c cr s1 l (k_client k) = (x, r) ->
  exists cw w2 ms next, r_wire (k_client k) = Some cw /\ (w_msgno cw =? 0)%N = false
    /\ w_msgno w2 = w_msgno cw /\ (forall b, prev_of b w2 = prev_of b cw) /\ w_state w2 = HSendApply
    /\ ((w_state cw = HAwaitKey /\ w_new w2 = ms /\ reply cr (w_kx cw) (w_ke cw) (l_keys l) ms)
        \/ (w_state cw = HSendApply /\ w2 = cw /\ ms = []))
    /\ gsent s2 (mkGm data l (l_keys l) ms (l_apply l)) (prev_of false cw) next
    /\ r_wire r = Some (moved false w2 next).
Proof.
  intros I H HO. inv_cases I; [discriminate|congruence|].
  rewrite H in EC. destruct qc as [|g qc]; [discriminate|]. cbn [map] in EC. injection EC as -> -> ->.
  cbn [chain] in CH2. destruct CH2 as (next & SG & CH2).
  assert (EKS : l_keys (g_letter g) = g_ks g) by exact (se_keys _ _ _ _ _ _ _ _ _ SG).
  assert (EAB : l_apply (g_letter g) = g_ab g) by exact (se_apply _ _ _ _ _ _ _ _ _ SG).
  assert (D : exists n w2, recv_mat c cr s1 (g_letter g) (st (base (k_client k) (l_data (g_letter g))) (r_draw (k_client k)) cw [] [] 0)
      = (Ok false, st (base (k_client k) (l_data (g_letter g))) (r_draw (k_client k)) w2 [] (g_ms g) n)
      /\ w_msgno w2 = w_msgno cw /\ (forall b, prev_of b w2 = prev_of b cw) /\ w_state w2 = HSendApply
      /\ ((w_state cw = HAwaitKey /\ w_new w2 = g_ms g /\ reply cr (w_kx cw) (w_ke cw) (g_ks g) (g_ms g))
        \/ (w_state cw = HSendApply /\ w2 = cw /\ g_ms g = []))).
  { destruct ST as [A1 A2 A3 A4 A5 A6 A7 A7t|g' qc' A1 A2 A3 A4 A5 A6 A7 A8 A9|A1 A2 A3 A4].
    - discriminate.
    - injection A3 as -> ->. destruct (recv_reply c cr s1 (g_letter g') (base (k_client k) (l_data (g_letter g'))) (r_draw (k_client k)) cw _ _ A1 A4 A5 EKS)
        as (w2 & n & HM & B1 & B2 & B3 & B4 & B5).
      exists n, w2. split; [exact HM|]. split; [exact B3|].
      split; [intro b; unfold prev_of, carry; now rewrite B3, B4, B5|]. split; [exact B1|]. left. auto.
    - inversion A4 as [|? ? (P1 & P2 & P3) A4']; subst. exists 0, cw. rewrite P2.
      split; [apply recv_nothing; [congruence|auto]|]. auto 10. }
  destruct D as (n & w2 & HM & D1 & D2 & D3 & D4).
  destruct (recv_op c cr s2 s1 (g_letter g) (k_client k) cw _ w2 _ _ n (g_data g) (g_ks g) (g_ab g) (prev_of false cw) next false kdf laws (twins_sym _ _ tw) sound1 has_kdf no_signers C1 W1 HM SG (D2 false)) as (r' & E & C & W).
  rewrite HO in E. injection E as _ <-. exists cw, w2, (g_ms g), next. rewrite EKS, EAB. split; [exact W1|]. split; [exact NC|]. split; [exact D1|]. split; [exact D2|]. split; [exact D3|].
  split; [exact D4|]. split; [exact SG|exact W].
Qed.
End Run.
