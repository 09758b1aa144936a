(** C74: data enters a letter only through the ciphers. *)
From Coq Require Import Init.Byte.
From Verif Require Import CoreState CoreSession SpecCore SuiteFacts PropInPlace PropTrip Toy LeakFacts SpecLeak PropHistory.

(** The cover that Close starts from has no signatures. *)
Lemma cover_no_sigs c cr s r l q : cover c cr s r = (Ok l, q) -> l_sigs l = [] /\ l_data l = [] /\ l_mac l = [].
Proof.
  intro H. unfold cover in H. apply mbind_ok in H as (? & ? & _ & H). apply mbind_ok in H as (first & ? & _ & H). apply mbind_ok in H as (nonce & q1 & _ & H).
  destruct (s_kdf s).
  - apply mbind_ok in H as (ap & q2 & _ & H). apply mbind_ok in H as (ks & q3 & _ & H). apply mbind_ok in H as ([] & q4 & _ & H). injection H as <- <-. auto.
  - destruct (needs_key s); [discriminate|]. injection H as <- <-. auto.
Qed.

Lemma close_alike c cr s f1 f2 d1 d2 r a1 a2 q1 q2 :
  close_session c cr s f1 d1 r = (Ok a1, q1) -> close_session c cr s f2 d2 r = (Ok a2, q2) ->
  same_cover a1 a2 /\ alike q1 q2 /\ (forall x, r_mach q1 x = r_mach q2 x) /\ (forall x, r_sigh q1 x = r_sigh q2 x).
Proof.
  rewrite !close_split. intros H1 H2. destruct (cover c cr s r) as [[l|e|] q] eqn:C; [|discriminate..].
  destruct (cover_no_sigs _ _ _ _ _ _ C) as (NS & _ & _).
  destruct (work_alike cr s f1 f2 d1 d2 l q a1 a2 q1 q2 NS H1 H2) as (A & M & G & _ & _ & N1 & N2 & L & V).
  split; [|auto]. destruct a1, a2. unfold no_sigs in N1, N2. cbn in *. injection N1 as -> -> -> -> ->. injection N2 as -> -> -> -> ->.
  constructor; auto.
Qed.

(** Whatever is closed from one and the same state of a session - any session, any state - gives letters with the same
    version, suite, nonce, keys, key switch and signers; and the same encrypted data makes the same letter. *)
Theorem C74_cover : forall c cr s f1 f2 d1 d2 r a1 a2 q1 q2,
  close_session c cr s f1 d1 r = (Ok a1, q1) -> close_session c cr s f2 d2 r = (Ok a2, q2) -> same_cover a1 a2.
Proof. intros c cr s f1 f2 d1 d2 r a1 a2 q1 q2 H1 H2. exact (proj1 (close_alike _ _ _ _ _ _ _ _ _ _ _ _ H1 H2)). Qed.
Print Assumptions C74_cover.

(** The data of a letter under a registered suite with confidentiality: the data sealed with CHACHA20-POLY1305, with a key and a
    nonce that are the same whatever the data is. *)
Lemma registered_aead c cr e s su :
  new_session c tool_registry hash_registry cr e = Ok s -> e_suite e = Some su -> In su suite_registry -> In Confidentiality (su_provides su) ->
  exists i k, s_aead s = [i] /\ i_name i = lit "CHACHA20-POLY1305" /\ s_ciph s = [] /\ s_kdf s = Some k.
Proof.
  intros N ES HI HC. destruct (registered_ciphers _ _ _ _ _ N ES HI) as (C1 & C2 & C3 & C4). pose proof (registered_insts _ _ _ _ _ N ES HI) as EA.
  apply new_session_ok in N as (su' & _ & O). pose proof (so_shape _ _ _ _ _ _ _ O) as SH. apply (proj1 C3) in HC.
  pose proof (sh_kdf _ _ _ SH) as KD. rewrite (sh_aead _ _ _ SH) in *. rewrite EA in *.
  assert (C : forallb (fun su => forallb (fun i => bytes_eqb (i_name i) (lit "CHACHA20-POLY1305")) (of_purpose PIntegratedCipher (suite_insts su))
     && (negb (nonempty (of_purpose PIntegratedCipher (suite_insts su))) || nonempty (of_purpose PKeyDerivation (suite_insts su)))) suite_registry = true) by (vm_compute; reflexivity).
  rewrite forallb_forall in C. specialize (C su HI). apply andb_prop in C as [CA CB].
  destruct (of_purpose PIntegratedCipher (suite_insts su)) as [|i [|]]; [congruence| |cbn in C2; lia].
  cbn [forallb] in CA. apply andb_prop in CA as [CA _]. apply bytes_eqb_eq in CA. cbn [nonempty negb orb] in CB.
  rewrite KD in CB. destruct (s_kdf s) as [k|]; [|discriminate]. exists i, k. auto.
Qed.
Theorem C74_sealed : forall c cr e s su r,
  new_session c tool_registry hash_registry cr e = Ok s -> e_suite e = Some su -> In su suite_registry -> In Confidentiality (su_provides su) ->
  exists key iv, forall full data l q, close_session c cr s full data r = (Ok l, q) ->
    l_data l = cr_seal cr (lit "CHACHA20-POLY1305") key iv (assoc_data l) data.
Proof.
  intros c cr e s su r N ES HI HC. destruct (registered_aead _ _ _ _ _ N ES HI HC) as (i & k & EA & NM & EC & EK).
  destruct (cover c cr s r) as [[l0|x|] q0] eqn:C.
  - exists (ts_key (r_tools q0 (i_idx i))), (ts_iv (r_tools q0 (i_idx i))). intros full data l q H. rewrite close_split, C in H.
    destruct (cover_no_sigs _ _ _ _ _ _ C) as (NS & _ & _).
    destruct (work_alike cr s full full data data l0 q0 l l q q NS H H) as (_ & _ & _ & D & _ & N1 & _).
    rewrite D. unfold ciphertext. rewrite EK, EA, EC. cbn [fold_left]. unfold seal_up. rewrite NM. unfold uses_ad. rewrite EA. cbn [nonempty orb].
    f_equal. destruct l, l0. unfold no_sigs in N1. cbn in N1. injection N1 as -> -> -> -> ->. reflexivity.
  - exists [], []. intros full data l q H. rewrite close_split, C in H. discriminate.
  - exists [], []. intros full data l q H. rewrite close_split, C in H. discriminate.
Qed.
Print Assumptions C74_sealed.

(** ** Conversations *)
Section Conv.
Variables (c : config) (cr : crypto) (s : session).
Hypothesis keyed : forall i, In i (s_aead s) \/ In i (s_ciph s) \/ In i (s_macs s) -> In i (s_stateful s).
Hypothesis ivs : forall i, In i (s_aead s) \/ In i (s_ciph s) -> has_iv i = true.
Definition near (r1 r2 : rt) : Prop := sim (s_stateful s) 0 (PropHistory.wiped r1) (PropHistory.wiped r2).
Lemma sim_trans st r1 r2 r3 : sim st 0 r1 r2 -> sim st 0 r2 r3 -> sim st 0 r1 r3.
Proof. intros [] []. constructor; try congruence; intros; try congruence; lia. Qed.
Lemma alike_near r1 r2 : alike r1 r2 -> (forall x, r_mach r1 x = r_mach r2 x) -> (forall x, r_sigh r1 x = r_sigh r2 x) -> near r1 r2.
Proof. intros [] M G. constructor; cbn; auto; try congruence; lia. Qed.
Lemma sim_near r1 r2 : sim (s_stateful s) 0 r1 r2 -> near r1 r2.
Proof. intros []. constructor; cbn; auto; lia. Qed.
Lemma near_trans r1 r2 r3 : near r1 r2 -> near r2 r3 -> near r1 r3.
Proof. apply sim_trans. Qed.

Lemma close_both f1 f2 d1 d2 r : nonempty (s_signers s) = false \/ (closed (fst (serve c cr s (QClose f1 d1) r)) /\ closed (fst (serve c cr s (QClose f2 d2) r))) ->
  same_answer (fst (serve c cr s (QClose f1 d1) r)) (fst (serve c cr s (QClose f2 d2) r)) /\ near (snd (serve c cr s (QClose f1 d1) r)) (snd (serve c cr s (QClose f2 d2) r)).
Proof using.
  cbn [serve]. destruct (close_session c cr s f1 d1 r) as [o1 q1] eqn:E1, (close_session c cr s f2 d2 r) as [o2 q2] eqn:E2. cbn [fst snd].
  intros [NS|[H1 H2]].
  - assert (B : both (fun _ _ => True) o1 o2 /\ near q1 q2).
    { rewrite close_split in E1, E2. destruct (cover c cr s r) as [[l|e|] q].
      - destruct (work_outcome cr s f1 f2 d1 d2 l q NS) as (B & A & M & G). rewrite E1, E2 in *. cbn [fst snd] in *. split; [exact B|now apply alike_near].
      - injection E1 as <- <-. injection E2 as <- <-. split; [reflexivity|]. apply alike_near; [constructor; reflexivity|reflexivity..].
      - injection E1 as <- <-. injection E2 as <- <-. split; [exact I|]. apply alike_near; [constructor; reflexivity|reflexivity..]. }
    destruct B as [B NR]. split; [|exact NR]. destruct o1 as [a1|e1|], o2 as [a2|e2|]; cbn in B; try contradiction; [|subst e2; constructor|constructor].
    constructor. exact (proj1 (close_alike _ _ _ _ _ _ _ _ _ _ _ _ E1 E2)).
  - destruct o1 as [a1| |], o2 as [a2| |]; try contradiction. destruct (close_alike _ _ _ _ _ _ _ _ _ _ _ _ E1 E2) as (SC & A & M & G).
    split; [now constructor|now apply alike_near].
Qed.

Lemma serve_near q r1 r2 : near r1 r2 -> fst (serve c cr s q r1) = fst (serve c cr s q r2) /\ near (snd (serve c cr s q r1)) (snd (serve c cr s q r2)).
Proof using keyed ivs.
  intro N. rewrite (serve_wiped c cr s q r1), (serve_wiped c cr s q r2). split; [now apply serve_sim|]. unfold near in N.
  set (p1 := PropHistory.wiped r1) in *. set (p2 := PropHistory.wiped r2) in *. destruct q as [full d|l|l]; cbn [serve].
  - destruct (rel_close c cr s keyed ivs full d p1 p2 N) as (_ & S0 & _). destruct (close_session _ _ _ _ _ p1), (close_session _ _ _ _ _ p2). now apply sim_near.
  - destruct (rel_open c cr s keyed ivs l p1 p2 N) as (_ & S0 & _). destruct (open_session _ _ _ _ p1), (open_session _ _ _ _ p2). now apply sim_near.
  - destruct (rel_verify_session cr s l p1 p2 N) as (_ & S0 & _). destruct (verify_session _ _ _ p1), (verify_session _ _ _ p2). now apply sim_near.
Qed.

Lemma conversation qs1 qs2 : Forall2 same_request qs1 qs2 -> forall r1 r2, near r1 r2 ->
  nonempty (s_signers s) = false \/ (Forall closed (replies c cr s qs1 r1) /\ Forall closed (replies c cr s qs2 r2)) ->
  Forall2 same_answer (replies c cr s qs1 r1) (replies c cr s qs2 r2).
Proof using keyed ivs.
  induction 1 as [|q1 q2 qs1 qs2 Q F IH]; intros r1 r2 N H; cbn [replies] in *; [constructor|].
  destruct (serve_near q2 r1 r2 N) as [E2 N2].
  assert (ST : same_answer (fst (serve c cr s q1 r1)) (fst (serve c cr s q2 r2)) /\ near (snd (serve c cr s q1 r1)) (snd (serve c cr s q2 r2))).
  { rewrite <- E2. destruct Q as [f1 d1 f2 d2|l|l].
    - destruct (close_both f1 f2 d1 d2 r1) as [SA NR].
      + destruct H as [H|[H1 H2]]; [now left|right]. inversion H1; subst. inversion H2; subst. rewrite E2. auto.
      + split; [exact SA|]. eapply near_trans; [exact NR|exact N2].
    - split; [|exact N2]. cbn [serve]. destruct (open_session _ _ _ _ _). constructor.
    - split; [|exact N2]. cbn [serve]. destruct (verify_session _ _ _ _). constructor. }
  destruct ST as [SA N']. constructor; [exact SA|]. apply IH; [exact N'|].
  destruct H as [H|[H1 H2]]; [now left|right]. inversion H1; inversion H2; auto.
Qed.
End Conv.

(** Two conversations with a session - a plain or a wire session - that differ only in the data that is closed: the letters have the
    same covers, whatever is opened or verified has the same result; and if the suite has no signatures, the same letters are refused.
    (Signing may fail for some data: nothing is claimed about what comes after that.) *)
Theorem C74_conversation : forall c hreg cr e s d w qs1 qs2,
  new_session c tool_registry hreg cr e = Ok s ->
  Forall2 same_request qs1 qs2 ->
  s_signers s = [] \/ (Forall closed (replies c cr s qs1 (rt_start d w)) /\ Forall closed (replies c cr s qs2 (rt_start d w))) ->
  Forall2 same_answer (replies c cr s qs1 (rt_start d w)) (replies c cr s qs2 (rt_start d w)).
Proof.
  intros c hreg cr e s d w qs1 qs2 N F H. destruct (session_keyed _ _ _ _ _ N) as [K I].
  apply (conversation c cr s K I qs1 qs2 F).
  - constructor; cbn; auto; lia.
  - destruct H as [H|H]; [left; now rewrite H|now right].
Qed.
Print Assumptions C74_conversation.

(** Without confidentiality the data is in the letter as it is. *)
Theorem C74_in_clear : forall c cr e s su r full data l q,
  new_session c tool_registry hash_registry cr e = Ok s -> e_suite e = Some su -> In su suite_registry -> ~ In Confidentiality (su_provides su) ->
  close_session c cr s full data r = (Ok l, q) -> l_data l = data.
Proof.
  intros c cr e s su r full data l q N ES HI HC H. destruct (registered_ciphers _ _ _ _ _ N ES HI) as (C1 & _ & C3 & _).
  rewrite close_split in H. destruct (cover c cr s r) as [[l0|x|] q0] eqn:C; [|discriminate..].
  destruct (cover_no_sigs _ _ _ _ _ _ C) as (NS & _ & _).
  destruct (work_alike cr s full full data data l0 q0 l l q q NS H H) as (_ & _ & _ & D & _). rewrite D. unfold ciphertext.
  assert (EA : s_aead s = []) by (destruct (s_aead s); [reflexivity|exfalso; apply HC, C3; discriminate]).
  rewrite EA, C1. now destruct (s_kdf s).
Qed.
Print Assumptions C74_in_clear.

Example C74_hypotheses_met :
  let e := toy_env (suite_named (lit "pw_v1")) [toy_password "pw"] [] [] in
  exists s a1 a2 q1 q2, new_session default_config tool_registry hash_registry toy e = Ok s
    /\ close_session default_config toy s false (lit "hello") (rt_start 7 None) = (Ok a1, q1)
    /\ close_session default_config toy s true (lit "something else") (rt_start 7 None) = (Ok a2, q2)
    /\ l_keys a1 <> [] /\ l_data a1 <> l_data a2
    /\ In (suite_named (lit "pw_v1")) suite_registry /\ In Confidentiality (su_provides (suite_named (lit "pw_v1")))
    /\ Forall closed (replies default_config toy s [QClose true (lit "x"); QOpen a1; QClose false (lit "y")] (rt_start 0 None))
    /\ s_signers s = [].
Proof.
  eexists _, _, _, _, _. split; [vm_compute; reflexivity|]. split; [vm_compute; reflexivity|]. split; [vm_compute; reflexivity|].
  split; [vm_compute; discriminate|]. split; [vm_compute; discriminate|]. split; [vm_compute; tauto|]. split; [vm_compute; tauto|].
  split; [repeat (constructor; [vm_compute; exact I|]); constructor|vm_compute; reflexivity].
Qed.
