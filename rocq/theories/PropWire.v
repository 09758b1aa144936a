(** Property theorems C19, C20, C21: wire sessions.
    Vocabulary: SpecWire.v (two parties connected by two reliable ordered channels). *)
From Coq Require Import Init.Byte.
From Verif Require Import WireLive SpecCore SpecWire SessionProps SuiteFacts PropSession PropTrip Toy.

Lemma conf_sized : forall t, In t tool_registry -> gives (t_purpose t) Confidentiality = true -> (0 < t_keysize t)%Z.
Proof.
  assert (C : forallb (fun t => implb (gives (t_purpose t) Confidentiality) (0 <? t_keysize t)%Z) tool_registry = true) by (vm_compute; reflexivity).
  rewrite forallb_forall in C. intros t Ht Hg. specialize (C t Ht). rewrite Hg in C. now apply Z.ltb_lt.
Qed.
Lemma max_ks_ge l i : In i l -> (t_keysize (i_tool i) <= max_ks l)%Z.
Proof.
  unfold max_ks. assert (G : forall l z, (z <= fold_left (fun m i => Z.max m (t_keysize (i_tool i))) l z)%Z).
  { clear. induction l as [|a l IH]; intro z; cbn [fold_left]; [lia|]. specialize (IH (Z.max z (t_keysize (i_tool a)))). lia. }
  intro H. generalize 0%Z. revert H. induction l as [|a l IH]; intros H z; [easy|]. cbn [fold_left]. destruct H as [<-|H]; [|now apply IH].
  specialize (G l (Z.max z (t_keysize (i_tool a)))). lia.
Qed.

(** What the wire guard and session creation give. *)
Record wire_ready (cr : crypto) (s1 s2 : session) : Prop := {
  wr_twins : twins s1 s2;
  wr_sound1 : sound_session s1;
  wr_sound2 : sound_session s2;
  wr_kdf : exists k, s_kdf s1 = Some k;
  wr_signers : s_signers s1 = [];
  wr_pass : s_pass s1 = None;
  wr_key : loop scheme_key (e_secrets (s_env s1)) = [];
  wr_pairs : Forall2 (same_step cr) (steps s1) (steps s2);
  wr_dks : (0 < s_dks s1)%Z;
  wr_steps : steps s1 <> []
}.
Lemma wire_sessions c hreg cr e1 e2 s1 s2 :
  new_session c tool_registry hreg cr e1 = Ok s1 -> init_wire s1 = Ok tt ->
  new_session c tool_registry hreg cr e2 = Ok s2 -> counterpart cr e1 e2 ->
  wire_ready cr s1 s2.
Proof.
  intros N1 W1 N2 (CS & CSec & CR & CSn).
  pose proof (session_env _ _ _ _ _ _ N1) as EE1. pose proof (session_env _ _ _ _ _ _ N2) as EE2.
  pose proof (session_twins _ _ _ _ _ _ _ _ N1 N2 CS) as T. pose proof (session_sound _ _ _ _ _ N2) as S2.
  pose proof N1 as N0. apply new_session_ok in N0 as (su & ES & O). pose proof (so_shape _ _ _ _ _ _ _ O) as Sh. pose proof (so_res _ _ _ _ _ _ _ O) as Hres.
  destruct (C22_wire_protection _ _ _ _ _ _ _ N1 W1 ES) as (DC & _ & _ & HP & HK & t & Ht & Hp).
  assert (NP : forall i, In i (s_all s1) -> t_purpose (i_tool i) <> PPassDerivation /\ t_purpose (i_tool i) <> PSigning).
  { intros i Hi. apply HP. apply (suite_tool_iff _ _ _ _ _ Hres). exists i. auto. }
  apply (suite_tool_iff _ _ _ _ _ Hres) in Ht as (i & Hi & Et).
  assert (SG : s_signers s1 = []).
  { rewrite (sh_signers _ _ _ Sh). destruct (of_purpose PSigning (s_all s1)) as [|j l] eqn:E; [reflexivity|].
    assert (Hj : In j (of_purpose PSigning (s_all s1))) by (rewrite E; now left). apply of_purpose_In in Hj as [Hj Pj]. destruct (NP j Hj) as [X1 X2]. first [now destruct (X1 Pj)|now destruct (X2 Pj)]. }
  constructor; auto.
  - exact (session_sound _ _ _ _ _ N1).
  - destruct (s_kdf s1) eqn:EK; [eauto|]. pose proof (so_kdf_missing _ _ _ _ _ _ _ O EK) as L. rewrite SG in L. destruct (s_all s1); [easy|discriminate].
  - pose proof (sh_pass _ _ _ Sh) as SP. destruct (s_pass s1) as [j|]; [|reflexivity].
    assert (Hj : In j (of_purpose PPassDerivation (s_all s1))) by (rewrite SP; now left). apply of_purpose_In in Hj as [Hj Pj]. destruct (NP j Hj) as [X1 X2]. first [now destruct (X1 Pj)|now destruct (X2 Pj)].
  - rewrite EE1. rewrite has_key_loop in HK. destruct (loop scheme_key (e_secrets e1)); [reflexivity|]. destruct HK. discriminate.
  - unfold steps. rewrite EE1, EE2, (tw_kx _ _ T), (tw_ke _ _ T). apply steps_match; auto. intros j Hj. apply (ss_names _ S2). tauto.
  - destruct DC as [(t' & Ht' & Hg)|(Hk & _)]; [|easy]. apply (suite_tool_iff _ _ _ _ _ Hres) in Ht' as (j & Hj & <-).
    assert (KS : (0 < t_keysize (i_tool j))%Z).
    { apply conf_sized; [|exact Hg]. assert (ST : suite_tool tool_registry su (i_tool j)) by (apply (suite_tool_iff _ _ _ _ _ Hres); eauto).
      destruct ST as (id & _ & G). unfold tools_get in G. destruct (find _ tool_registry) eqn:F; [|discriminate]. injection G as <-. now apply find_some in F. }
    pose proof (max_ks_ge _ _ Hj). rewrite (so_dks _ _ _ _ _ _ _ O). destruct (0 <? c_min_ks c)%Z; lia.
  - pose proof (so_ne _ _ _ _ _ _ _ O i Hi) as NE. unfold signets_for in NE. unfold steps, steps_of. rewrite EE1.
    intro E. apply app_eq_nil in E as [_ E]. apply app_eq_nil in E as [_ E]. apply app_eq_nil in E as [E1 E2].
    assert (FM : forall {A B} (f : A -> list B) l x, flat_map f l = [] -> In x l -> f x = []).
    { clear. intros A B f l x H Hx. induction l as [|a l IH]; [easy|]. cbn in H. apply app_eq_nil in H as [H1 H2]. destruct Hx as [<-|Hx]; auto. }
    destruct Hp as [Hp|Hp]; rewrite <- Et in Hp; rewrite Hp in NE; apply NE; f_equal.
    + apply (FM _ _ _ _ i) in E1; [|rewrite (sh_kx _ _ _ Sh); now apply of_purpose_In]. first [exact (map_eq_nil _ _ E1)|exact (map_eq_nil _ _ E2)].
    + apply (FM _ _ _ _ i) in E2; [|rewrite (sh_ke _ _ _ Sh); now apply of_purpose_In]. first [exact (map_eq_nil _ _ E1)|exact (map_eq_nil _ _ E2)].
Qed.

(** ** C19 *)

(** Whatever letter is next in either direction, opening it gives the data it was closed with. *)
Definition all_open (c : config) (cr : crypto) (client server : session) (k : link) : Prop :=
  (forall data l q, k_to_server k = (data, l) :: q -> fst (open_session c cr server l (k_server k)) = Ok data)
  /\ (forall data l q, k_to_client k = (data, l) :: q -> fst (open_session c cr client l (k_client k)) = Ok data).

(** A wire session and its counterpart, over any interleaving of sends and in-order
    deliveries of any length: every letter opens to what was sent.  The suite has at most one
    key exchange and one key encapsulation tool (as all registered suites), and recipients of
    a key encapsulation tool have an ID (the handshake takes seals without ID for new keys). *)
Theorem C19_wire_agreement : forall c hreg cr e1 e2 s1 s2 k,
  crypto_laws cr ->
  new_session c tool_registry hreg cr e1 = Ok s1 -> init_wire s1 = Ok tt ->
  new_session c tool_registry hreg cr e2 = Ok s2 ->
  counterpart cr e1 e2 ->
  length (s_kx s1) <= 1 -> length (s_ke s1) <= 1 ->
  (forall i sg, In i (s_ke s1) -> In sg (e_recipients e1) -> sg_scheme sg = i_name i -> sg_id sg <> []) ->
  connected c cr s1 s2 k ->
  all_open c cr s1 s2 k.
Proof.
  intros c hreg cr e1 e2 s1 s2 k L N1 W1 N2 CP K1 K2 ID CN.
  pose proof (session_env _ _ _ _ _ _ N1) as EE1. pose proof (session_sound _ _ _ _ _ N1) as S1.
  destruct (wire_sessions _ _ _ _ _ _ _ N1 W1 N2 CP) as [T _ S2 (kdf & KD) SG PS KY PR DK _].
  assert (KI : forall i sg, In (SKe i sg) (steps s1) -> sg_id sg <> []).
  { intros i sg H. unfold steps, steps_of in H. rewrite !in_app_iff in H. destruct H as [H|[H|[H|H]]].
    - apply in_map_iff in H as (? & ? & _). discriminate.
    - apply in_map_iff in H as (? & ? & _). discriminate.
    - apply in_flat_map in H as (j & _ & H). apply in_map_iff in H as (? & ? & _). discriminate.
    - apply in_flat_map in H as (j & Hj & H). apply in_map_iff in H as (g & E & H). injection E as -> ->. rewrite EE1 in H.
      unfold loop in H. apply filter_In in H as [H1 H2]. apply (ID i sg); auto.
      assert (NM : i_name i <> []) by (apply (ss_names _ S1); tauto). destruct (i_name i) eqn:EI; [congruence|]. now apply bytes_eqb_eq in H2. }
  assert (I : inv c cr s1 s2 k) by (eapply connected_inv; eassumption).
  split; intros data l q EQ.
  - assert (R : exists r, open_session c cr s2 l (k_server k) = (Ok data, r) /\ inv c cr s1 s2 (mkLink (k_client k) r q (k_to_client k) true (k_sent_client k) (k_sent_server k))) by (eapply inv_server_receives; eassumption).
    destruct R as (r & -> & _). reflexivity.
  - assert (R : exists r, open_session c cr s1 l (k_client k) = (Ok data, r) /\ inv c cr s1 s2 (mkLink r (k_server k) (k_to_server k) q (k_met k) (k_sent_client k) (k_sent_server k))) by (eapply inv_client_receives; eassumption).
    destruct R as (r & -> & _). reflexivity.
Qed.
Print Assumptions C19_wire_agreement.

Lemma registered_no_ke : forall su, In su suite_registry -> of_purpose PKeyEncapsulation (suite_insts su) = [].
Proof.
  assert (C : forallb (fun su => negb (nonempty (of_purpose PKeyEncapsulation (suite_insts su)))) suite_registry = true) by (vm_compute; reflexivity).
  rewrite forallb_forall in C. intros su H. specialize (C su H). destruct (of_purpose _ _); [reflexivity|discriminate].
Qed.
Lemma registered_wire c cr e s su : new_session c tool_registry hash_registry cr e = Ok s -> e_suite e = Some su -> In su suite_registry ->
  length (s_kx s) <= 1 /\ s_ke s = [].
Proof.
  intros N ES HI. pose proof (registered_insts _ _ _ _ _ N ES HI) as EA. pose proof N as N0. apply new_session_ok in N0 as (su' & _ & O).
  rewrite (sh_kx _ _ _ (so_shape _ _ _ _ _ _ _ O)), (sh_ke _ _ _ (so_shape _ _ _ _ _ _ _ O)), EA.
  split; [apply (registered_few su HI)|now apply registered_no_ke].
Qed.

(** For the registered suites nothing else is needed. *)
Theorem C19_registered_wire_agreement : forall c cr e1 e2 s1 s2 su k,
  crypto_laws cr ->
  new_session c tool_registry hash_registry cr e1 = Ok s1 -> init_wire s1 = Ok tt ->
  new_session c tool_registry hash_registry cr e2 = Ok s2 ->
  e_suite e1 = Some su -> In su suite_registry -> counterpart cr e1 e2 ->
  connected c cr s1 s2 k ->
  all_open c cr s1 s2 k.
Proof.
  intros c cr e1 e2 s1 s2 su k L N1 W1 N2 ES HI CP CN. destruct (registered_wire _ _ _ _ _ N1 ES HI) as [K1 K2].
  eapply C19_wire_agreement; eauto; rewrite K2; [cbn; lia|easy].
Qed.
Print Assumptions C19_registered_wire_agreement.

Lemma registered_demand su dks : In su suite_registry ->
  demand dks (filter (fun i => has_option (i_tool i) OHasState) (suite_insts su)) <= 44 /\ (max_ks (suite_insts su) <= 32)%Z.
Proof.
  unfold suite_registry. cbn [In]. intro H. repeat (destruct H as [<-|H]; [vm_compute; split; [lia|discriminate]|]). destruct H.
Qed.
Lemma registered_room c cr e s su : new_session c tool_registry hash_registry cr e = Ok s -> e_suite e = Some su -> In su suite_registry ->
  (c_min_ks c <= 7000)%Z -> Z.to_nat (s_dks s) + demand (s_dks s) (s_stateful s) <= kdf_limit.
Proof.
  intros N ES HI KS. pose proof (registered_insts _ _ _ _ _ N ES HI) as EA. pose proof N as N0. apply new_session_ok in N0 as (su' & _ & O).
  rewrite (sh_stateful _ _ _ (so_shape _ _ _ _ _ _ _ O)), (so_dks _ _ _ _ _ _ _ O), EA.
  match goal with |- Z.to_nat ?d + _ <= _ => destruct (registered_demand su d HI) as [A B]; set (dks := d) in * end.
  assert (dks <= 7000)%Z by (unfold dks; destruct (0 <? c_min_ks c)%Z; lia). unfold kdf_limit. lia.
Qed.
Lemma registered_gen c cr e s i d : new_session c tool_registry hash_registry cr e = Ok s -> working cr -> In i (s_kx s) ->
  exists p, cr_gen cr (i_name i) d = Some p.
Proof.
  intros N WK Hi. apply new_session_ok in N as (su & _ & O). rewrite (sh_kx _ _ _ (so_shape _ _ _ _ _ _ _ O)) in Hi. apply of_purpose_In in Hi as [Hi Hp].
  destruct (Forall2_In_r _ _ _ _ (so_res _ _ _ _ _ _ _ O) Hi) as (x & _ & _ & R & _).
  apply (wk_gen _ WK); [|exact Hp]. unfold tools_get in R. destruct (find _ tool_registry) as [t|] eqn:E; [|discriminate]. injection R as <-.
  now apply find_some in E as [E _].
Qed.

(** And, while the primitives do not fail, both sides can send at any time (the server once
    it received a letter). *)
Theorem C19_wire_never_stuck : forall c cr e1 e2 s1 s2 su k full data,
  crypto_laws cr -> working cr -> (c_min_ks c <= 7000)%Z ->
  new_session c tool_registry hash_registry cr e1 = Ok s1 -> init_wire s1 = Ok tt ->
  new_session c tool_registry hash_registry cr e2 = Ok s2 ->
  e_suite e1 = Some su -> In su suite_registry -> counterpart cr e1 e2 ->
  connected c cr s1 s2 k ->
  (exists l r, close_session c cr s1 full data (k_client k) = (Ok l, r))
  /\ (k_met k = true -> exists l r, close_session c cr s2 full data (k_server k) = (Ok l, r)).
Proof.
  intros c cr e1 e2 s1 s2 su k full data L WK KS N1 W1 N2 ES HI CP CN.
  pose proof (session_env _ _ _ _ _ _ N1) as EE1. pose proof (registered_room _ _ _ _ _ N1 ES HI KS) as RM. pose proof (session_sound _ _ _ _ _ N1) as S1.
  destruct (wire_sessions _ _ _ _ _ _ _ N1 W1 N2 CP) as [T _ S2 (kdf & KD) SG PS KY PR DK ST].
  destruct (registered_wire _ _ _ _ _ N1 ES HI) as [K1 K2].
  assert (K2' : length (s_ke s1) <= 1) by (rewrite K2; cbn; lia).
  assert (KI : forall i sg, In (SKe i sg) (steps s1) -> sg_id sg <> []).
  { intros i sg H. unfold steps, steps_of in H. rewrite K2 in H. cbn [flat_map] in H. rewrite app_nil_r, !in_app_iff in H. destruct H as [H|[H|H]].
    - apply in_map_iff in H as (? & ? & _). discriminate.
    - apply in_map_iff in H as (? & ? & _). discriminate.
    - apply in_flat_map in H as (j & _ & H). apply in_map_iff in H as (? & ? & _). discriminate. }
  assert (PW : loop scheme_pw (e_secrets (s_env s1)) = []).
  { destruct (registered_few su HI) as (_ & _ & DT).
    pose proof N1 as N0. apply new_session_acceptable in N0 as (su' & E & A). rewrite ES in E. injection E as <-.
    pose proof (acceptable_served _ _ _ _ _ _ _ A registry_names DT) as (SV & _ & _).
    destruct (C22_wire_protection _ _ _ _ _ _ _ N1 W1 ES) as (_ & _ & _ & HP & _). rewrite EE1.
    unfold loop. destruct (filter _ (e_secrets e1)) as [|sg q] eqn:EF; [reflexivity|].
    assert (Hin : In sg (filter (fun s => match scheme_pw with [] => true | _ => bytes_eqb (sg_scheme s) scheme_pw end) (e_secrets e1))) by (rewrite EF; now left).
    apply filter_In in Hin as [Hin Hs]. apply (bytes_eqb_eq (sg_scheme sg) scheme_pw) in Hs.
    destruct (SV sg Hin) as [X|[_ (t & Ht & Hp)]]; [rewrite X in Hs; discriminate|]. destruct (HP t Ht). congruence. }
  assert (NZ : forall s, (0 < nonce_size s)%Z) by (intro s; unfold nonce_size; lia).
  assert (GN : forall i d, In i (s_kx s1) -> exists p, cr_gen cr (i_name i) d = Some p) by (intros i d Hi; exact (registered_gen _ _ _ _ i d N1 WK Hi)).
  split; [|intro MT]; [eapply client_live|eapply server_live]; eauto.
Qed.
Print Assumptions C19_wire_never_stuck.

(** ** C20 *)

(** Refuted: new keys travel in the first letter of each direction and never again, ... *)
Theorem C20_keys_only_once : forall c cr e1 e2 s1 s2 su k full data l r,
  crypto_laws cr ->
  new_session c tool_registry hash_registry cr e1 = Ok s1 -> init_wire s1 = Ok tt ->
  new_session c tool_registry hash_registry cr e2 = Ok s2 ->
  e_suite e1 = Some su -> In su suite_registry -> counterpart cr e1 e2 ->
  connected c cr s1 s2 k -> l_keys l <> [] ->
  (close_session c cr s1 full data (k_client k) = (Ok l, r) -> k_sent_client k = 0)
  /\ (k_met k = true -> close_session c cr s2 full data (k_server k) = (Ok l, r) -> k_sent_server k = 0).
Proof.
  intros c cr e1 e2 s1 s2 su k full data l r L N1 W1 N2 ES HI CP CN NE.
  destruct (wire_sessions _ _ _ _ _ _ _ N1 W1 N2 CP) as [T S1 S2 (kdf & KD) SG PS KY PR DK ST].
  destruct (registered_wire _ _ _ _ _ N1 ES HI) as [K1 K2].
  assert (K2' : length (s_ke s1) <= 1) by (rewrite K2; cbn; lia).
  assert (KI : forall i sg, In (SKe i sg) (steps s1) -> sg_id sg <> []).
  { intros i sg H. unfold steps, steps_of in H. rewrite K2 in H. cbn [flat_map] in H. rewrite app_nil_r, !in_app_iff in H. destruct H as [H|[H|H]].
    - apply in_map_iff in H as (? & ? & _). discriminate.
    - apply in_map_iff in H as (? & ? & _). discriminate.
    - apply in_flat_map in H as (j & _ & H). apply in_map_iff in H as (? & ? & _). discriminate. }
  assert (I : inv c cr s1 s2 k) by (eapply connected_inv; eassumption).
  split; [intro H|intros MT H]; [eapply (client_keys c cr s1 s2)|eapply (server_keys c cr s1 s2)]; eauto.
Qed.
Print Assumptions C20_keys_only_once.

(** ... no matter how many letters are exchanged. *)
Theorem C20_rekeying_refuted : forall c cr e1 e2 s1 s2 su n,
  crypto_laws cr -> working cr -> (c_min_ks c <= 7000)%Z ->
  new_session c tool_registry hash_registry cr e1 = Ok s1 -> init_wire s1 = Ok tt ->
  new_session c tool_registry hash_registry cr e2 = Ok s2 ->
  e_suite e1 = Some su -> In su suite_registry -> counterpart cr e1 e2 ->
  exists k, connected c cr s1 s2 k /\ k_sent_client k = S n /\ k_sent_server k = S n
    /\ (forall full data l r, close_session c cr s1 full data (k_client k) = (Ok l, r) -> l_keys l = [])
    /\ (forall full data l r, close_session c cr s2 full data (k_server k) = (Ok l, r) -> l_keys l = []).
Proof.
  intros c cr e1 e2 s1 s2 su n L WK KS N1 W1 N2 ES HI CP.
  assert (RT : forall k, connected c cr s1 s2 k -> k_to_server k = [] -> k_to_client k = [] ->
    exists k', connected c cr s1 s2 k' /\ k_to_server k' = [] /\ k_to_client k' = [] /\ k_met k' = true
      /\ k_sent_client k' = S (k_sent_client k) /\ k_sent_server k' = S (k_sent_server k)).
  { intros k CN Q1 Q2.
    destruct (C19_wire_never_stuck c cr e1 e2 s1 s2 su k true [] L WK KS N1 W1 N2 ES HI CP CN) as [(l & r & E) _].
    pose proof (con_client_sends _ _ _ _ k true [] l r CN E) as C1. rewrite Q1 in C1. cbn [app] in C1.
    destruct (open_session c cr s2 l (k_server k)) as [x r2] eqn:E2.
    pose proof (con_server_receives _ _ _ _ _ [] l [] x r2 C1 eq_refl E2) as C2. cbn [k_client k_server k_to_server k_to_client k_met k_sent_client k_sent_server] in C2.
    match type of C2 with connected _ _ _ _ ?kk => set (k2 := kk) in * end.
    destruct (C19_wire_never_stuck c cr e1 e2 s1 s2 su k2 true [] L WK KS N1 W1 N2 ES HI CP C2) as [_ H]. destruct (H eq_refl) as (l3 & r3 & E3).
    pose proof (con_server_sends _ _ _ _ k2 true [] l3 r3 C2 eq_refl E3) as C3. unfold k2 in C3. cbn [k_client k_server k_to_server k_to_client k_met k_sent_client k_sent_server] in C3.
    rewrite Q2 in C3. cbn [app] in C3.
    destruct (open_session c cr s1 l3 r) as [x4 r4] eqn:E4.
    pose proof (con_client_receives _ _ _ _ _ [] l3 [] x4 r4 C3 eq_refl E4) as C4. eexists. split; [exact C4|]. cbn. auto. }
  assert (G : exists k, connected c cr s1 s2 k /\ k_to_server k = [] /\ k_to_client k = [] /\ k_met k = true /\ k_sent_client k = S n /\ k_sent_server k = S n).
  { induction n as [|n (k & CN & Q1 & Q2 & _ & M1 & M2)].
    - destruct (RT _ (con_start c cr s1 s2 0 0) eq_refl eq_refl) as (k & CN & Q1 & Q2 & MT & M1 & M2). exists k. cbn in M1, M2. auto 10.
    - destruct (RT _ CN Q1 Q2) as (k' & CN' & Q1' & Q2' & MT & M1' & M2'). exists k'. rewrite M1', M2'. auto 10. }
  destruct G as (k & CN & _ & _ & MT & M1 & M2). exists k. split; [exact CN|]. split; [exact M1|]. split; [exact M2|].
  split; intros full data l r E; destruct (l_keys l) as [|a b] eqn:EL; try reflexivity; exfalso;
    (assert (NE : l_keys l <> []) by (rewrite EL; discriminate));
    destruct (C20_keys_only_once c cr e1 e2 s1 s2 su k full data l r L N1 W1 N2 ES HI CP CN NE) as [A B]; [specialize (A E)|specialize (B MT E)]; congruence.
Qed.
Print Assumptions C20_rekeying_refuted.

(** ** C21 *)

(** A client and a server of the suite "w2". *)
Definition wire_client : envelope := toy_env (suite_named (lit "w2")) [] [] [toy_recipient "srv" "ECDH-X25519" 7].
Definition wire_server : envelope := toy_env (suite_named (lit "w2")) [] [] [toy_signet "srv" "ECDH-X25519" 7].
Lemma wire_demo_counterpart : counterpart toy wire_client wire_server.
Proof.
  unfold counterpart, wire_client, wire_server, toy_env; cbn. split; [reflexivity|]. split; [constructor|]. split; [|constructor].
  constructor; [|constructor]. split; [reflexivity|]. exists (toy_key 7), (toy_key 7). repeat split. cbn. apply toy_pair.
Qed.
Lemma toy_working : working toy.
Proof.
  constructor; intros; cbn; eauto; try discriminate. eexists; split; [reflexivity|].
  destruct (Z.to_nat n) eqn:E; [lia|discriminate].
Qed.

(** The hypotheses of the theorems above are met. *)
Example C19_hypotheses_met : exists s1 s2,
  new_session default_config tool_registry hash_registry toy wire_client = Ok s1 /\ init_wire s1 = Ok tt
  /\ new_session default_config tool_registry hash_registry toy wire_server = Ok s2 /\ init_wire s2 = Ok tt
  /\ In (suite_named (lit "w2")) suite_registry /\ counterpart toy wire_client wire_server /\ working toy /\ crypto_laws toy
  /\ (c_min_ks default_config <= 7000)%Z.
Proof.
  eexists _, _. split; [vm_compute; reflexivity|]. split; [vm_compute; reflexivity|]. split; [vm_compute; reflexivity|].
  split; [vm_compute; reflexivity|]. split; [vm_compute; tauto|].
  split; [exact wire_demo_counterpart|]. split; [exact toy_working|]. split; [exact toy_laws|discriminate].
Qed.

Definition made_up : letter := mkLetter 1 [] (lit "zy") [] [] [] [] false.
Definition is_tt (x : outcome unit) : bool := match x with Ok _ => true | _ => false end.
Definition c21_run : bool :=
  let c := default_config in
  match new_session c tool_registry hash_registry toy wire_client, new_session c tool_registry hash_registry toy wire_server with
  | Ok s1, Ok s2 =>
      match close_session c toy s1 true (lit "a") (rt_start 3 (Some (wire_start false))) with
      | (Ok l1, c1) =>
          match open_session c toy s2 l1 (rt_start 5 (Some (wire_start true))) with
          | (_, v2) =>
              match close_session c toy s1 true (lit "d") c1 with
              | (Ok l3, _) =>
                  is_tt (init_wire s1) && is_tt (init_wire s2)
                  && match open_session c toy s2 made_up v2 with
                     | (Err _, r) => match fst (open_session c toy s2 l3 r) with Err _ => true | _ => false end
                     | _ => false
                     end
                  && match fst (open_session c toy s2 l3 v2) with Ok d => bytes_eqb d (lit "d") | _ => false end
              | _ => false
              end
          end
      | _ => false
      end
  | _, _ => false
  end.
Lemma c21_runs : c21_run = true.
Proof. vm_compute. reflexivity. Qed.
(** Refuted: there is a run in which the server rejects a letter made up by an outsider, and
    then rejects the genuine letter it would have opened otherwise: the key chain advances
    before the letter is authenticated. *)
Theorem C21_garbage_refuted : exists s1 s2 k data l q err r,
  new_session default_config tool_registry hash_registry toy wire_client = Ok s1 /\ init_wire s1 = Ok tt
  /\ new_session default_config tool_registry hash_registry toy wire_server = Ok s2 /\ init_wire s2 = Ok tt
  /\ connected default_config toy s1 s2 k /\ k_met k = true /\ k_to_server k = (data, l) :: q
  /\ open_session default_config toy s2 made_up (k_server k) = (Err err, r)
  /\ fst (open_session default_config toy s2 l (k_server k)) = Ok data
  /\ exists err', fst (open_session default_config toy s2 l r) = Err err'.
Proof.
  pose proof c21_runs as R. unfold c21_run in R. set (c := default_config) in *.
  destruct (new_session c tool_registry hash_registry toy wire_client) as [s1| |] eqn:N1; [|discriminate..].
  destruct (new_session c tool_registry hash_registry toy wire_server) as [s2| |] eqn:N2; [|discriminate..].
  destruct (close_session c toy s1 true (lit "a") (rt_start 3 (Some (wire_start false)))) as [[l1| |] c1] eqn:E1; [|discriminate..].
  destruct (open_session c toy s2 l1 (rt_start 5 (Some (wire_start true)))) as [x2 v2] eqn:E2.
  destruct (close_session c toy s1 true (lit "d") c1) as [[l3| |] c3] eqn:E3; [|discriminate..].
  apply andb_true_iff in R as [R R4]. apply andb_true_iff in R as [R R3]. apply andb_true_iff in R as [R1 R2].
  destruct (open_session c toy s2 made_up v2) as [[?|err|] r] eqn:E4; [discriminate| |discriminate].
  pose proof (con_client_sends c toy s1 s2 _ true (lit "a") l1 c1 (con_start c toy s1 s2 3 5) E1) as C1.
  pose proof (con_server_receives c toy s1 s2 _ (lit "a") l1 [] x2 v2 C1 eq_refl E2) as C2.
  pose proof (con_client_sends c toy s1 s2 _ true (lit "d") l3 c3 C2 E3) as C3.
  eexists s1, s2, _, (lit "d"), l3, [], err, r. split; [reflexivity|].
  split; [destruct (init_wire s1) as [[]| |]; [reflexivity|discriminate..]|]. split; [reflexivity|].
  split; [destruct (init_wire s2) as [[]| |]; [reflexivity|discriminate..]|]. split; [exact C3|]. split; [reflexivity|]. split; [reflexivity|].
  cbn [k_server]. split; [exact E4|]. split.
  - destruct (fst (open_session c toy s2 l3 v2)) as [d| |]; [|discriminate..]. apply bytes_eqb_eq in R4. now subst.
  - destruct (fst (open_session c toy s2 l3 r)) as [|err'|]; [discriminate| |discriminate]. now exists err'.
Qed.
Print Assumptions C21_garbage_refuted.

(** What does hold: once the server received a letter, a letter without nonce and seals is an
    error for either side and everything on its way still opens. *)
Theorem C21_nonceless_ignored : forall c cr e1 e2 s1 s2 su k bad,
  crypto_laws cr ->
  new_session c tool_registry hash_registry cr e1 = Ok s1 -> init_wire s1 = Ok tt ->
  new_session c tool_registry hash_registry cr e2 = Ok s2 ->
  e_suite e1 = Some su -> In su suite_registry -> counterpart cr e1 e2 ->
  connected c cr s1 s2 k -> k_met k = true -> l_nonce bad = [] -> l_keys bad = [] ->
  (forall x r, open_session c cr s2 bad (k_server k) = (x, r) -> x = Err EOther
     /\ all_open c cr s1 s2 (mkLink (k_client k) r (k_to_server k) (k_to_client k) true (k_sent_client k) (k_sent_server k)))
  /\ (forall x r, open_session c cr s1 bad (k_client k) = (x, r) -> x = Err EOther
     /\ all_open c cr s1 s2 (mkLink r (k_server k) (k_to_server k) (k_to_client k) true (k_sent_client k) (k_sent_server k))).
Proof.
  intros c cr e1 e2 s1 s2 su k bad L N1 W1 N2 ES HI CP CN MT EN EL.
  destruct (wire_sessions _ _ _ _ _ _ _ N1 W1 N2 CP) as [T S1 S2 (kdf & KD) SG PS KY PR DK ST].
  destruct (registered_wire _ _ _ _ _ N1 ES HI) as [K1 K2].
  assert (K2' : length (s_ke s1) <= 1) by (rewrite K2; cbn; lia).
  assert (KI : forall i sg, In (SKe i sg) (steps s1) -> sg_id sg <> []).
  { intros i sg H. unfold steps, steps_of in H. rewrite K2 in H. cbn [flat_map] in H. rewrite app_nil_r, !in_app_iff in H. destruct H as [H|[H|H]].
    - apply in_map_iff in H as (? & ? & _). discriminate.
    - apply in_map_iff in H as (? & ? & _). discriminate.
    - apply in_flat_map in H as (j & _ & H). apply in_map_iff in H as (? & ? & _). discriminate. }
  assert (I : inv c cr s1 s2 k) by (eapply connected_inv; eassumption).
  assert (AO : forall k', inv c cr s1 s2 k' -> all_open c cr s1 s2 k').
  { intros k' I'. split; intros data l q EQ.
    - assert (R : exists r, open_session c cr s2 l (k_server k') = (Ok data, r) /\ inv c cr s1 s2 (mkLink (k_client k') r q (k_to_client k') true (k_sent_client k') (k_sent_server k'))) by (eapply inv_server_receives; eassumption).
      destruct R as (r & -> & _). reflexivity.
    - assert (R : exists r, open_session c cr s1 l (k_client k') = (Ok data, r) /\ inv c cr s1 s2 (mkLink r (k_server k') (k_to_server k') q (k_met k') (k_sent_client k') (k_sent_server k'))) by (eapply inv_client_receives; eassumption).
      destruct R as (r & -> & _). reflexivity. }
  split; intros x r H.
  - destruct (inv_server_nonceless c cr s1 s2 T kdf KD SG k bad x r I MT EN EL H) as [-> I2]. split; [reflexivity|]. rewrite MT in I2. auto.
  - destruct (inv_client_nonceless c cr s1 s2 kdf KD SG k bad x r I MT EN EL H) as [-> I2]. split; [reflexivity|]. rewrite MT in I2. auto.
Qed.
Print Assumptions C21_nonceless_ignored.
