(** Property theorem C21, continued: damage on the way only loses the damaged letter.
    Vocabulary: SpecWire.v ([noisy], [same_steps]). *)
From Coq Require Import Init.Byte.
From Verif Require Import WireLive SpecCore SpecWire SessionProps SuiteFacts PropSession PropTrip WireRun WireHurt Toy PropWire.

(** A machine's slot in the invariant can be taken by any calm one with the same wire state. *)
Lemma swap_server c cr s1 s2 cl sv sv' a b m n1 n2 : calm sv' -> r_wire sv' = r_wire sv ->
  inv c cr s1 s2 (mkLink cl sv a b true n1 n2) -> m = true -> inv c cr s1 s2 (mkLink cl sv' a b m n1 n2).
Proof.
  intros C W H ->. destruct H as [d1 d2 E|cw d2 g qs cs new next w1 KS FC C1 W1 ES EM|cw sw qs qc KS FC FS C1 C2 W1 W2 EQ EC NC NS CH1 CH2 ST]; [discriminate E|discriminate EM|].
  cbn [k_client k_server k_to_server k_to_client k_met k_sent_client k_sent_server] in *.
  apply (inv_met c cr s1 s2 _ cw sw qs qc); cbn [k_client k_server k_to_server k_to_client k_met k_sent_client k_sent_server]; auto. now rewrite W.
Qed.
Lemma swap_client c cr s1 s2 cl cl' sv a b n1 n2 : calm cl' -> r_wire cl' = r_wire cl ->
  inv c cr s1 s2 (mkLink cl sv a b true n1 n2) -> inv c cr s1 s2 (mkLink cl' sv a b true n1 n2).
Proof.
  intros C W H. destruct H as [d1 d2 E|cw d2 g qs cs new next w1 KS FC C1 W1 ES EM|cw sw qs qc KS FC FS C1 C2 W1 W2 EQ EC NC NS CH1 CH2 ST]; [discriminate E|discriminate EM|].
  cbn [k_client k_server k_to_server k_to_client k_met k_sent_client k_sent_server] in *.
  apply (inv_met c cr s1 s2 _ cw sw qs qc); cbn [k_client k_server k_to_server k_to_client k_met k_sent_client k_sent_server]; auto. now rewrite W.
Qed.
(** Who has something to receive is calm and has a wire state. *)
Lemma ready_server c cr s1 s2 k : inv c cr s1 s2 k -> k_to_server k <> [] -> calm (k_server k) /\ exists w, r_wire (k_server k) = Some w.
Proof.
  intros [d1 d2 ->|cw d2 g qs cs new next w1 KS FC C1 W1 ES EM|cw sw qs qc KS FC FS C1 C2 W1 W2 EQ EC NC NS CH1 CH2 ST] NE; [now destruct NE| |eauto].
  rewrite ES. split; [apply calm_start|]. eexists. reflexivity.
Qed.
Lemma ready_client c cr s1 s2 k : inv c cr s1 s2 k -> k_to_client k <> [] -> calm (k_client k) /\ exists w, r_wire (k_client k) = Some w.
Proof.
  intros [d1 d2 ->|cw d2 g qs cs new next w1 KS FC C1 W1 ES EM EQ EC|cw sw qs qc KS FC FS C1 C2 W1 W2 EQ EC NC NS CH1 CH2 ST] NE; [now destruct NE|congruence|eauto].
Qed.

Section Noisy.
Variables (c : config) (cr : crypto) (s1 s2 : session).
Hypothesis laws : crypto_laws cr.
Hypothesis tw : twins s1 s2.
Hypothesis sound1 : sound_session s1.
Hypothesis sound2 : sound_session s2.
Variable kdf : inst.
Hypothesis has_kdf : s_kdf s1 = Some kdf.
Hypothesis no_signers : s_signers s1 = [].
Hypothesis few_kx : length (s_kx s1) <= 1.
Hypothesis few_ke : length (s_ke s1) <= 1.
Hypothesis no_pass : s_pass s1 = None.
Hypothesis no_key : loop scheme_key (e_secrets (s_env s1)) = [].
Hypothesis pairs : Forall2 (same_step cr) (steps s1) (steps s2).
Hypothesis ke_ids : forall i sg, In (SKe i sg) (steps s1) -> sg_id sg <> [].

Theorem noisy_inv k : noisy c cr s1 s2 k -> inv c cr s1 s2 k /\ (k_to_client k <> [] -> k_met k = true).
Proof using All.
  induction 1 as [d1 d2|k full data l r CN [IH MT] E|k full data l r CN [IH MT] ME E|k data l q hurt x r CN [IH MT] EQ SS E|k data l q hurt x r CN [IH MT] EQ SS E].
  - split; [now apply inv_new with d1 d2|intro NE; now destruct NE].
  - split; [eapply inv_client_sends; eassumption|exact MT].
  - split; [eapply inv_server_sends; eassumption|intros _; exact ME].
  - assert (R : exists r, open_session c cr s2 l (k_server k) = (Ok data, r) /\ inv c cr s1 s2 (mkLink (k_client k) r q (k_to_client k) true (k_sent_client k) (k_sent_server k))) by (eapply inv_server_receives; eassumption).
    destruct R as (r1 & E1 & I1). destruct (ready_server _ _ _ _ _ IH) as (C & w & W); [congruence|]. destruct SS as (EN & EK & EA).
    assert (K2 : s_kdf s2 = Some kdf) by (rewrite <- (tw_kdf _ _ tw); exact has_kdf). assert (N2 : s_signers s2 = []) by (rewrite <- (tw_signers _ _ tw); exact no_signers).
    destruct (hurt_same c cr s2 sound2 kdf K2 N2 l hurt (k_server k) w data r1 x r C W EN EK EA E1 E) as [C2 W2].
    split; [|intros _; reflexivity]. now apply (swap_server c cr s1 s2 (k_client k) r1 r q (k_to_client k) true).
  - assert (R : exists r, open_session c cr s1 l (k_client k) = (Ok data, r) /\ inv c cr s1 s2 (mkLink r (k_server k) (k_to_server k) q (k_met k) (k_sent_client k) (k_sent_server k))) by (eapply inv_client_receives; eassumption).
    destruct R as (r1 & E1 & I1). assert (NE : k_to_client k <> []) by congruence. destruct (ready_client _ _ _ _ _ IH NE) as (C & w & W). destruct SS as (EN & EK & EA).
    destruct (hurt_same c cr s1 sound1 kdf has_kdf no_signers l hurt (k_client k) w data r1 x r C W EN EK EA E1 E) as [C2 W2].
    rewrite (MT NE) in *. split; [|intros _; reflexivity]. now apply (swap_client c cr s1 s2 r1 r (k_server k) (k_to_server k) q).
Qed.
Lemma noisy_all_open k : noisy c cr s1 s2 k -> all_open c cr s1 s2 k.
Proof using All.
  intro CN. destruct (noisy_inv k CN) as [IH _]. split; intros data l q EQ.
  - assert (R : exists r, open_session c cr s2 l (k_server k) = (Ok data, r) /\ inv c cr s1 s2 (mkLink (k_client k) r q (k_to_client k) true (k_sent_client k) (k_sent_server k))) by (eapply inv_server_receives; eassumption).
    destruct R as (r & -> & _). reflexivity.
  - assert (R : exists r, open_session c cr s1 l (k_client k) = (Ok data, r) /\ inv c cr s1 s2 (mkLink r (k_server k) (k_to_server k) q (k_met k) (k_sent_client k) (k_sent_server k))) by (eapply inv_client_receives; eassumption).
    destruct R as (r & -> & _). reflexivity.
Qed.
End Noisy.

(** However many letters were damaged on the way (in either direction, in their data, mac,
    signatures, version or envelope), every letter that is next on its way and arrives
    undamaged opens to the data it was closed with.  Suites, keys and recipients as in
    [C19_wire_agreement]. *)
Theorem C21_damage_only_loses_itself : forall c hreg cr e1 e2 s1 s2 k,
  crypto_laws cr ->
  new_session c tool_registry hreg cr e1 = Ok s1 -> init_wire s1 = Ok tt ->
  new_session c tool_registry hreg cr e2 = Ok s2 ->
  counterpart cr e1 e2 ->
  length (s_kx s1) <= 1 -> length (s_ke s1) <= 1 ->
  (forall i sg, In i (s_ke s1) -> In sg (e_recipients e1) -> sg_scheme sg = i_name i -> sg_id sg <> []) ->
  noisy c cr s1 s2 k ->
  all_open c cr s1 s2 k.
Proof.
  intros c hreg cr e1 e2 s1 s2 k L N1 W1 N2 CP K1 K2 ID CN.
  pose proof (session_env _ _ _ _ _ _ N1) as EE1. pose proof (session_sound _ _ _ _ _ N1) as S1.
  destruct (wire_sessions _ _ _ _ _ _ _ N1 W1 N2 CP) as [T _ S2 (kdf & KD) SG PS KY PR DK _].
  assert (KI : forall i sg, In (SKe i sg) (steps s1) -> sg_id sg <> []).
  { intros i sg H. unfold steps, steps_of in H. rewrite !in_app_iff in H. destruct H as [H|[H|[H|H]]].
    - apply in_map_iff in H as (? & ? & _). discriminate.
    - apply in_map_iff in H as (? & ? & _). discriminate.
    - apply in_flat_map in H as (j & _ & H). apply in_map_iff in H as (? & ? & _). discriminate.
    - apply in_flat_map in H as (j & Hj & H). apply in_map_iff in H as (g & E & H). injection E as -> ->. rewrite EE1 in H.
      unfold loop in H. apply filter_In in H as [H1 H2]. apply (ID i sg); auto.
      assert (NM : i_name i <> []) by (apply (ss_names _ S1); tauto). destruct (i_name i) eqn:EI; [congruence|]. now apply bytes_eqb_eq in H2. }
  eapply noisy_all_open; eassumption.
Qed.
Print Assumptions C21_damage_only_loses_itself.

(** For the registered suites nothing else is needed. *)
Theorem C21_registered_damage_only_loses_itself : forall c cr e1 e2 s1 s2 su k,
  crypto_laws cr ->
  new_session c tool_registry hash_registry cr e1 = Ok s1 -> init_wire s1 = Ok tt ->
  new_session c tool_registry hash_registry cr e2 = Ok s2 ->
  e_suite e1 = Some su -> In su suite_registry -> counterpart cr e1 e2 ->
  noisy c cr s1 s2 k ->
  all_open c cr s1 s2 k.
Proof.
  intros c cr e1 e2 s1 s2 su k L N1 W1 N2 ES HI CP CN. destruct (registered_wire _ _ _ _ _ N1 ES HI) as [K1 K2].
  eapply C21_damage_only_loses_itself; eauto; rewrite K2; [cbn; lia|easy].
Qed.
Print Assumptions C21_registered_damage_only_loses_itself.

(** A run in which a letter really is damaged (and refused) while another one is behind it. *)
Definition hurt_of (l : letter) : letter := mkLetter (l_version l) (l_suite l) (l_nonce l) (l_keys l) (lit "zz") (l_mac l) (l_sigs l) (l_apply l).
Definition c21_hurt_run : bool :=
  let c := default_config in
  match new_session c tool_registry hash_registry toy wire_client, new_session c tool_registry hash_registry toy wire_server with
  | Ok s1, Ok s2 =>
      match close_session c toy s1 true (lit "a") (rt_start 3 (Some (wire_start false))) with
      | (Ok l1, c1) =>
          match close_session c toy s1 true (lit "d") c1 with
          | (Ok l3, _) =>
              is_tt (init_wire s1) && is_tt (init_wire s2)
              && match open_session c toy s2 (hurt_of l1) (rt_start 5 (Some (wire_start true))) with (Err _, _) => true | _ => false end
          | _ => false
          end
      | _ => false
      end
  | _, _ => false
  end.
Lemma c21_hurt_runs : c21_hurt_run = true.
Proof. vm_compute. reflexivity. Qed.
Example C21_damage_met : exists s1 s2 k data l q l1 err r,
  new_session default_config tool_registry hash_registry toy wire_client = Ok s1 /\ init_wire s1 = Ok tt
  /\ new_session default_config tool_registry hash_registry toy wire_server = Ok s2
  /\ In (suite_named (lit "w2")) suite_registry /\ counterpart toy wire_client wire_server /\ crypto_laws toy
  /\ open_session default_config toy s2 (hurt_of l1) (rt_start 5 (Some (wire_start true))) = (Err err, r)
  /\ k_server k = r /\ noisy default_config toy s1 s2 k /\ k_to_server k = (data, l) :: q.
Proof.
  pose proof c21_hurt_runs as R. unfold c21_hurt_run in R. set (c := default_config) in *.
  destruct (new_session c tool_registry hash_registry toy wire_client) as [s1| |] eqn:N1; [|discriminate..].
  destruct (new_session c tool_registry hash_registry toy wire_server) as [s2| |] eqn:N2; [|discriminate..].
  destruct (close_session c toy s1 true (lit "a") (rt_start 3 (Some (wire_start false)))) as [[l1| |] c1] eqn:E1; [|discriminate..].
  destruct (close_session c toy s1 true (lit "d") c1) as [[l3| |] c3] eqn:E3; [|discriminate..].
  apply andb_true_iff in R as [R R3]. apply andb_true_iff in R as [R1 R2].
  destruct (open_session c toy s2 (hurt_of l1) (rt_start 5 (Some (wire_start true)))) as [[?|err|] r] eqn:E2; [discriminate R3| |discriminate R3].
  pose proof (noi_client_sends c toy s1 s2 _ true (lit "a") l1 c1 (noi_start c toy s1 s2 3 5) E1) as C1.
  pose proof (noi_client_sends c toy s1 s2 _ true (lit "d") l3 c3 C1 E3) as C3.
  assert (SS : same_steps (hurt_of l1) l1) by (split; [reflexivity|split; reflexivity]).
  pose proof (noi_server_receives c toy s1 s2 _ (lit "a") l1 [(lit "d", l3)] (hurt_of l1) _ r C3 eq_refl SS E2) as C4.
  eexists s1, s2, _, (lit "d"), l3, [], l1, err, r. split; [reflexivity|].
  split; [destruct (init_wire s1) as [[]| |]; [reflexivity|discriminate..]|]. split; [reflexivity|].
  split; [vm_compute; tauto|]. split; [exact wire_demo_counterpart|]. split; [exact toy_laws|]. split; [exact E2|]. split; [|split; [exact C4|reflexivity]]. reflexivity.
Qed.
