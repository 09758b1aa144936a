(** Property theorems C71: opening a letter takes the key of every party. *)
From Coq Require Import Init.Byte Permutation.
From Verif Require Import CoreOpen LetterFacts SpecOpen SuiteFacts SpecSession SessionFacts SpecCore PropHistory PropTrip PropOpen CoreRound CorePanic Toy PropSide Envelope PropLetter SpecReaders.

Section R.
Variables (c : config) (cr : crypto) (s : session).
Lemma opening_material_small l r q : r_wire r = None -> length (s_kx s) <= 1 -> length (s_ke s) <= 1 ->
  opening_material c cr s l r = (Ok tt, q) -> each (open_step c cr s l) (steps s) r = (Ok tt, q).
Proof.
  intros W L1 L2 H. rewrite <- opening_material_each. unfold opening_material, env in H.
  apply mbind_ok in H as (w & r0 & H0 & H). unfold is_wire, gets in H0. rewrite W in H0. injection H0 as <- <-.
  apply mbind_ok in H as ([] & r0 & H0 & H). cbn [is_none negb] in H0. unfold check in H0.
  destruct (negb _) in H0; [|discriminate]. injection H0 as <-.
  apply mbind_ok in H as ([] & r1 & E1 & H). apply mbind_ok in H as ([] & r2 & E2 & H). apply mbind_ok in H as ([] & r3 & E3 & H).
  rewrite each_last_small in E3 by exact L1. rewrite each_last_small in H by exact L2.
  now rewrite (mbind_run _ _ _ _ _ E1), (mbind_run _ _ _ _ _ E2), (mbind_run _ _ _ _ _ E3).
Qed.

Definition got (l : letter) (n : nat) (x : kstep) (m : bytes) : Prop :=
  match x with
  | SKey sg => m = sg_key sg
  | SPw sg => exists i, s_pass s = Some i /\ sg_key sg <> [] /\ cr_pwd cr (i_name i) (sg_key sg) (l_nonce l) (helper_dks c s) = Some m
  | SKx i sg => exists priv v pub y, sg_priv sg = PKey priv /\ nth_error (l_keys l) n = Some v
      /\ cr_load cr (i_name i) (seal_value v) true = Ok (pub, y) /\ m = cr_shared cr (i_name i) priv pub
  | SKe i sg => exists priv v, sg_priv sg = PKey priv /\ nth_error (l_keys l) n = Some v
      /\ cr_unwrap cr (i_name i) (i_arg i) priv (seal_value v) = Some m
  end.
Lemma open_step_got l x r q : r_wire r = None -> open_step c cr s l x r = (Ok tt, q) ->
  exists m, got l (r_idx r) x m /\ r_mat q = r_mat r ++ [m] /\ r_idx q = S (r_idx r) /\ r_wire q = None.
Proof.
  intros W H. destruct x as [sg|sg|i sg|i sg]; cbn [open_step got] in *.
  - unfold open_key, add_mat, next_idx, modify, mbind in H. injection H as <-. eexists. split; [reflexivity|]. auto.
  - unfold open_pw in H. apply mbind_ok in H as ([] & r0 & H0 & H). unfold check in H0. destruct (nonempty (sg_key sg)) eqn:NE; [|discriminate].
    injection H0 as <-. apply mbind_ok in H as (m & r1 & H1 & H). unfold derive_pw in H1. destruct (s_pass s) as [i|]; [|discriminate].
    unfold lift in H1. destruct (cr_pwd _ _ _ _ _) as [k|] eqn:EP; [|discriminate]. assert (k = m /\ r1 = r) as [-> ->] by (split; congruence).
    unfold add_mat, next_idx, modify, mbind in H. injection H as <-. exists m. split; [|auto]. exists i. split; [reflexivity|]. split; [|exact EP].
    intro Z. rewrite Z in NE. discriminate.
  - unfold open_kx in H. apply mbind_ok in H as (v & r0 & H0 & H). unfold key_at in H0.
    destruct (nth_error (l_keys l) (r_idx r)) as [v'|] eqn:NT; [|discriminate]. assert (v' = v /\ r0 = r) as [-> ->] by (split; congruence).
    apply mbind_ok in H as ([] & r1 & H1 & H). unfold next_idx, modify in H1. injection H1 as <-.
    apply mbind_ok in H as ([pub y] & r2 & H2 & H). unfold lift in H2. destruct (cr_load _ _ _ _) as [z| |] eqn:EL; [|discriminate..].
    assert (z = (pub, y)) as -> by congruence. assert (r2 = set_acc r (r_keys r) (r_mat r) (S (r_idx r))) as -> by congruence. clear H2.
    apply mbind_ok in H as ([] & r3 & H3 & H). unfold upd_wire, modify in H3. cbn [r_wire set_acc] in H3. rewrite W in H3. injection H3 as <-.
    apply mbind_ok in H as (m & r4 & H4 & H). unfold shared in H4. destruct (sg_priv sg) as [| |priv] eqn:EP; [discriminate..|].
    unfold ret in H4. injection H4 as <- <-. unfold add_mat, modify in H. injection H as <-.
    eexists. split; [exists priv, v, pub, y; auto|]. cbn. auto.
  - unfold open_ke in H. apply mbind_ok in H as ([] & r3 & H3 & H). unfold upd_wire, modify in H3. rewrite W in H3. injection H3 as <-.
    apply mbind_ok in H as (v & r0 & H0 & H). unfold key_at in H0.
    destruct (nth_error (l_keys l) (r_idx r)) as [v'|] eqn:NT; [|discriminate]. assert (v' = v /\ r0 = r) as [-> ->] by (split; congruence).
    apply mbind_ok in H as (m & r1 & H1 & H). unfold unwrap in H1. destruct (sg_priv sg) as [| |priv] eqn:EP; [discriminate..|].
    unfold lift in H1. destruct (cr_unwrap _ _ _ _ _) as [k|] eqn:EU; [|discriminate]. assert (k = m /\ r1 = r) as [-> ->] by (split; congruence).
    unfold add_mat, next_idx, modify, mbind in H. injection H as <-. exists m. split; [exists priv, v; auto|]. cbn. auto.
Qed.
Lemma open_steps_got l xs : forall r q, r_wire r = None -> each (open_step c cr s l) xs r = (Ok tt, q) ->
  exists ms, length ms = length xs /\ r_mat q = r_mat r ++ ms
    /\ forall n x m, nth_error xs n = Some x -> nth_error ms n = Some m -> got l (r_idx r + n) x m.
Proof.
  induction xs as [|x xs IH]; intros r q W H; cbn [each] in H.
  - unfold ret in H. injection H as <-. exists []. rewrite app_nil_r. split; [reflexivity|]. split; [reflexivity|]. intros [|n] x m E; discriminate.
  - apply mbind_ok in H as ([] & r1 & H1 & H). destruct (open_step_got _ _ _ _ W H1) as (m & G & M1 & I1 & W1).
    destruct (IH r1 q W1 H) as (ms & L & M2 & GS). exists (m :: ms). split; [cbn; congruence|]. split; [rewrite M2, M1, <- app_assoc; reflexivity|].
    intros [|n] y k E1 E2; cbn in E1, E2.
    + assert (y = x) as -> by congruence. assert (k = m) as -> by congruence. now rewrite Nat.add_0_r.
    + rewrite I1 in GS. rewrite Nat.add_succ_r. exact (GS n y k E1 E2).
Qed.
End R.

(** Open succeeds only if every secret and every recipient of the session contributed, each
    with the opener's own key; the keys under which the letter is accepted are derived from all
    of that.  (With two key exchange tools an error can get lost, see C17.) *)
Theorem C71_every_key_needed : forall c hreg cr e s su l d data r',
  new_session c tool_registry hreg cr e = Ok s -> e_suite e = Some su -> distinct_tools su ->
  length (s_kx s) <= 1 -> length (s_ke s) <= 1 -> s_kdf s <> None ->
  open_session c cr s l (rt_start d None) = (Ok data, r') ->
  exists (parts : list (signet * bytes)) kv,
    Permutation (map fst parts) (e_secrets e ++ e_recipients e)
    /\ (forall n sg m, nth_error parts n = Some (sg, m) -> obtains c cr s l n sg m)
    /\ key_schedule cr s (l_nonce l) (concat (map snd parts)) 0 kv /\ accepted cr s kv l data.
Proof.
  intros c hreg cr e s su l d data r' N ES DT K1 K2 HK H. pose proof (session_sound _ _ _ _ _ N) as S1.
  pose proof (steps_perm _ _ _ _ _ _ N ES DT) as P1.
  destruct (s_kdf s) as [kd|] eqn:EK; [|congruence]. clear HK.
  assert (PAY : forall h q, open_payload c cr s l (set_sigh (set_buf (set_acc (rt_start d None) [] [] 0) (l_data l)) h) = (Ok data, q) ->
     exists ms kv, length ms = length (steps s) /\ (forall n x m, nth_error (steps s) n = Some x -> nth_error ms n = Some m -> got c cr s l n x m)
       /\ key_schedule cr s (l_nonce l) (concat ms) 0 kv /\ accepted cr s kv l data).
  { intros h q HP. set (r := set_sigh _ h) in HP.
    assert (EP : open_payload c cr s l r = (run w <- is_wire;
      run _ <- (if w then recv_handshake c cr s l else run _ <- opening_material c cr s l; run m <- gets r_mat; kdf_init (l_nonce l) m);
      open_tail cr s l) r).
    { unfold open_payload. rewrite EK. reflexivity. }
    rewrite EP in HP. unfold is_wire, gets in HP. unfold mbind at 1 in HP. assert (HW : r_wire r = None) by reflexivity. rewrite HW in HP. cbn [is_none negb] in HP.
    apply mbind_ok in HP as ([] & q1 & H1 & HP). apply mbind_ok in H1 as ([] & q0 & H0 & H1). unfold mbind at 1 in H1.
    rewrite kdf_init_run in H1. destruct (_ && _); [|discriminate]. injection H1 as <-.
    assert (HQ : held no_use (r_mach r) (r_sigh r) q0).
    { assert (HR : held no_use (r_mach r) (r_sigh r) r) by (constructor; auto).
      pose proof (keep_opening_material c cr s no_use _ _ l r HR) as KP. now rewrite H0 in KP. }
    pose proof (open_tail_run cr s (ss_keyed s S1) (ss_ivs s S1) (ss_ids s S1) (ss_macs_ids s S1) l (l_nonce l) (concat (r_mat q0)) 0
      (set_kdf q0 (Some (mkKdf (l_nonce l) (concat (r_mat q0)) 0)))) as RT.
    apply (opening_material_small c cr s l r q0 HW K1 K2) in H0.
    destruct (open_steps_got c cr s l _ _ _ HW H0) as (ms & LM & EM & GS). cbn [r r_mat set_sigh set_buf set_acc] in EM. cbn in EM.
    destruct (session_keys cr s (l_nonce l) (concat (r_mat q0)) 0) as [kvs|] eqn:SK.
    - rewrite HP in RT. cbn [fst] in RT.
      assert (EO : Ok data = opened cr s kvs l) by (apply RT; [intro n; apply (he_used _ _ _ _ HQ); intros []|reflexivity]).
      exists ms, (keys kvs). split; [exact LM|]. split; [exact GS|]. split; [|now apply opened_accepted].
      unfold key_schedule. apply derived_schedule; [exact (ss_ids s S1)|]. now rewrite <- EM.
    - destruct RT as (er & RT); [intro n; apply (he_used _ _ _ _ HQ); intros []|reflexivity|]. rewrite HP in RT. discriminate. }
  assert (X : exists ms kv, length ms = length (steps s) /\ (forall n x m, nth_error (steps s) n = Some x -> nth_error ms n = Some m -> got c cr s l n x m)
       /\ key_schedule cr s (l_nonce l) (concat ms) 0 kv /\ accepted cr s kv l data).
  { unfold open_session, is_wire, modify, gets in H. unfold mbind at 1 2 in H. cbn [set_buf set_acc r_wire rt_start] in H. cbn [is_none negb] in H.
    apply mbind_ok in H as ([] & q & H1 & H). unfold check in H1. destruct (l_version l =? 1)%N; [|discriminate]. injection H1 as <-.
    destruct (nonempty (s_signers s)).
    - apply with_signatures_ok in H as (_ & _ & h & q & H3); [|reflexivity]. eapply PAY. exact H3.
    - eapply PAY with (h := fun _ => []). exact H. }
  destruct X as (ms & kv & LM & GS & KS & AC). exists (combine (map step_signet (steps s)) ms), kv.
  assert (C1 : forall A B (a : list A) (b : list B), length b = length a -> map fst (combine a b) = a /\ map snd (combine a b) = b).
  { clear. induction a as [|x a IH]; intros [|y b] E; cbn in *; try discriminate; [auto|]. injection E as E. destruct (IH b E). split; congruence. }
  destruct (C1 _ _ (map step_signet (steps s)) ms) as [D1 D2]; [now rewrite map_length|].
  split; [now rewrite D1|]. split; [|rewrite D2; auto].
  intros n sg m HN.
  assert (N1 : nth_error (map step_signet (steps s)) n = Some sg) by (rewrite <- D1, nth_error_map, HN; reflexivity).
  assert (N2 : nth_error ms n = Some m) by (rewrite <- D2, nth_error_map, HN; reflexivity).
  rewrite nth_error_map in N1. destruct (nth_error (steps s) n) as [x|] eqn:NX; [|discriminate]. cbn in N1. injection N1 as <-.
  specialize (GS n x m NX N2). apply nth_error_In in NX. apply step_in in NX.
  destruct x as [sg|sg|i sg|i sg]; cbn [step_signet got] in *.
  - rewrite GS. now constructor.
  - destruct GS as (i & G1 & G2 & G3). eapply ob_pw; eassumption.
  - destruct GS as (priv & v & pub & y & G1 & G2 & G3 & ->). destruct NX as [Y1 Y2].
    eapply ob_kx; [exact Y1|apply Y2; apply (ss_names _ S1); tauto|exact G1|exact G2|exact G3].
  - destruct GS as (priv & v & G1 & G2 & G3). destruct NX as [Y1 Y2].
    eapply ob_ke; [exact Y1|apply Y2; apply (ss_names _ S1); tauto|exact G1|exact G2|exact G3].
Qed.
Print Assumptions C71_every_key_needed.

(** ** Letter.Open with a trust store *)

Lemma registered_kdf c cr e s su :
  new_session c tool_registry hash_registry cr e = Ok s -> e_suite e = Some su -> In su suite_registry ->
  In Confidentiality (su_provides su) -> s_kdf s <> None /\ length (s_kx s) <= 1 /\ length (s_ke s) <= 1 /\ distinct_tools su.
Proof.
  intros N ES HI HC. destruct (registered_few su HI) as (F1 & F2 & DT). pose proof (registered_insts _ _ _ _ _ N ES HI) as EA.
  apply new_session_ok in N as (su' & _ & O). pose proof (so_shape _ _ _ _ _ _ _ O) as Sh.
  rewrite (sh_kx _ _ _ Sh), (sh_ke _ _ _ Sh), EA. split; [|auto]. pose proof (sh_kdf _ _ _ Sh) as EK. rewrite EA in EK.
  assert (C : forallb (fun su => negb (existsb (N.eqb Confidentiality) (su_provides su)) || nonempty (of_purpose PKeyDerivation (suite_insts su))) suite_registry = true)
    by (vm_compute; reflexivity).
  rewrite forallb_forall in C. specialize (C su HI). apply orb_prop in C as [C|C].
  - apply negb_true_iff in C. assert (X : existsb (N.eqb Confidentiality) (su_provides su) = true); [|congruence].
    apply existsb_exists. exists Confidentiality. split; [exact HC|apply N.eqb_refl].
  - intro Z. rewrite Z in EK. cbn in EK. rewrite EK in C. discriminate.
Qed.

Lemma named_id st sg : sg_id (named st sg) = sg_id sg.
Proof. unfold named. repeat match goal with |- context [match ?x with _ => _ end] => destruct x end; reflexivity. Qed.
Lemma fill_answered w sg b lv n q : fill_password w sg b lv = (Ok n, q) -> n = sg \/ answered w (sg_id sg) n.
Proof.
  unfold fill_password. destruct b.
  - destruct (w_create w) as [f|] eqn:E; intro H; [|left; congruence]. right. exists (named (w_signet w) sg). split; [apply named_id|].
    right. exists f, lv. split; [exact E|congruence].
  - destruct (w_get w) as [f|] eqn:E; intro H; [|left; congruence]. right. exists (named (w_signet w) sg). split; [apply named_id|].
    left. exists f. split; [exact E|congruence].
Qed.

Definition prepared cr w (b : bool) (sg n : signet) : Prop :=
  (sg_scheme sg = scheme_pw /\ sg_scheme n = scheme_pw /\ (n = sg \/ answered w (sg_id sg) n))
  \/ (sg_scheme sg <> scheme_pw /\ exists b' n0, (sg_scheme sg = scheme_key -> b' = false) /\ (b = false -> b' = false)
        /\ fetch w sg b' = Ok n0 /\ prep_loaded tool_registry cr n0 = Ok n).
Lemma prep_signets_prepared cr w lv l : callbacks_keep_scheme w -> forall b ns q, (forall sg, In sg l -> sg_key sg = []) ->
  prep_signets tool_registry cr w lv b l = (Ok ns, q) -> Forall2 (prepared cr w b) l ns.
Proof.
  intro K. induction l as [|sg l IH]; intros b ns q NK H; cbn [prep_signets] in H.
  - injection H as <- _. constructor.
  - rewrite (NK sg (or_introl eq_refl)) in H. cbn [nonempty] in H. cbv zeta in H.
    assert (NK' : forall s, In s l -> sg_key s = []) by (intros; apply NK; now right).
    destruct (bytes_eqb (sg_scheme sg) scheme_pw) eqn:EP.
    + destruct (fill_password w sg (negb b) lv) as [x a] eqn:EF. destruct x as [n| |]; cbn [other] in H; [|discriminate..].
      destruct (prep_signets _ _ _ _ b l) as [[ns'| |] q'] eqn:ER; cbn in H; [|discriminate..]. injection H as <- _.
      constructor; [|eapply IH; eassumption]. left. apply bytes_eqb_eq in EP. split; [exact EP|]. split; [rewrite (fill_scheme _ _ _ _ _ _ K EF); exact EP|]. eapply fill_answered. exact EF.
    + set (b' := if bytes_eqb (sg_scheme sg) scheme_key then false else b) in *.
      destruct (fetch w sg b') as [n0| |] eqn:EF; cbn [bind] in H; [|discriminate..].
      destruct (prep_loaded tool_registry cr n0) as [n| |] eqn:EL; [|discriminate..].
      destruct (prep_signets _ _ _ _ b' l) as [[ns'| |] q'] eqn:ER; cbn in H; [|discriminate..]. injection H as <- _.
      assert (B1 : sg_scheme sg = scheme_key -> b' = false) by (intro E; unfold b'; rewrite E; reflexivity).
      assert (B2 : b = false -> b' = false) by (intro E; unfold b'; rewrite E; destruct (bytes_eqb (sg_scheme sg) scheme_key); reflexivity).
      constructor.
      * right. split; [intro E; rewrite E, bytes_eqb_refl in EP; discriminate|]. exists b', n0. auto.
      * specialize (IH b' ns' q' NK' ER). clear - IH B2. induction IH as [|x y xs ys P F IH]; constructor; [|exact IH].
        destruct P as [P|(P & b'' & n0 & Q1 & Q2 & Q3)]; [now left|]. right. split; [exact P|]. exists b'', n0. split; [exact Q1|]. split; [auto|exact Q3].
Qed.

Lemma prep_loaded_priv cr n n' t : prep_loaded tool_registry cr n = Ok n' -> sg_scheme n = t_name t -> In t tool_registry ->
  tools_get tool_registry (t_name t) = Ok t ->
  forall k, sg_priv n' = PKey k -> sg_priv n = PKey k \/ sg_pub n = None /\ exists p, cr_load cr (t_name t) (sg_key n) (sg_public n) = Ok (p, PKey k).
Proof.
  intros H ES Ht TG k HP. unfold prep_loaded in H. destruct (sg_prot n) eqn:EP; [discriminate|].
  destruct (registry_no_secret_names t Ht) as [K1 K2]. rewrite <- ES in K1, K2.
  destruct (bytes_eqb (sg_scheme n) scheme_key) eqn:E1; [apply bytes_eqb_eq in E1; contradiction|].
  destruct (bytes_eqb (sg_scheme n) scheme_pw) eqn:E2; [apply bytes_eqb_eq in E2; contradiction|]. cbn [orb] in H.
  unfold load_key in H. destruct (sg_pub n) eqn:EN; [injection H as <-; left; congruence|]. rewrite EP, ES, TG in H. cbn [bind] in H.
  destruct (uses_signets t); [|discriminate]. destruct (cr_load _ _ _ _) as [[p' k']| |] eqn:EL; [|discriminate..].
  cbn in H. injection H as <-. cbn in HP. subst k'. right. eauto.
Qed.

(** Letter.Open under a suite that encrypts gives data only to somebody who holds the key for
    every single named seal of the letter's key list. *)
Theorem C71_letter_keys_held : forall c cr w req r d data su v,
  callbacks_keep_scheme w ->
  get_suite suite_registry (l_suite (rw_letter r)) = Some su -> In Confidentiality (su_provides su) ->
  letter_open c suite_registry tool_registry hash_registry cr w req r d = Ok data ->
  In (Some v) (rw_keys r) -> seal_id v <> [] ->
  key_held cr w su v.
Proof.
  intros c cr w req r d data su v K GS HC H HV NV. unfold letter_open in H.
  destruct (letter_envelope _ req r) as [e| |] eqn:EE; cbn [bind] in H; [|discriminate..].
  destruct (correspondence _ _ _ _ _ _ e) as [s| |] eqn:EC; cbn [bind] in H; [|discriminate..].
  destruct (open_session _ _ _ _ _) as [o r'] eqn:RUN. cbn [fst] in H. subst o.
  destruct (letter_envelope_ok _ _ _ EE) as (su' & G & E1 & _ & _ & EK & _ & EX & _ & ER & _ & EO).
  rewrite GS in G. injection G as <-. pose proof (get_suite_in _ _ GS) as HI.
  unfold correspondence in EC. destruct (prepare _ _ _ _ e) as [[e'| |] q] eqn:EP; cbn [bind fst] in EC; [|discriminate..].
  destruct (prepare_ok _ _ _ _ _ EP) as (su' & a & b & d' & q1 & q2 & q3 & LS & -> & PS1 & _ & PS3 & _).
  unfold load_suite in LS. rewrite E1 in LS. injection LS as <-. rewrite EO, EX in PS1. rewrite EO, ER in PS3. cbn [negb] in PS3.
  assert (ES2 : e_suite (set_signets e su a b d') = Some su) by reflexivity.
  destruct (registered_kdf _ _ _ _ _ EC ES2 HI HC) as (HK & K1 & K2 & DT).
  destruct (C71_every_key_needed _ _ _ _ _ _ _ _ _ _ EC ES2 DT K1 K2 HK RUN) as (parts & kv & P & OB & _).
  cbn [set_signets e_secrets e_recipients] in P.
  assert (OBT : forall sg, In sg (a ++ d') -> exists n m, obtains c cr s (complete r) n sg m).
  { intros sg Hsg. apply (Permutation_in _ (Permutation_sym P)) in Hsg. apply in_map_iff in Hsg as ([sg' m] & <- & Hsg).
    apply In_nth_error in Hsg as (n & Hn). exists n, m. exact (OB n _ m Hn). }
  pose proof EC as EC1. apply new_session_acceptable in EC1 as (su' & E & A). rewrite ES2 in E. injection E as <-.
  pose proof (ac_res _ _ _ _ _ _ _ A) as Hres. pose proof (acceptable_served _ _ _ _ _ _ _ A registry_names DT) as (SS & _ & SV).
  cbn [set_signets e_secrets e_recipients] in SS, SV.
  assert (TR : forall t, suite_tool tool_registry su t -> In t tool_registry /\ tools_get tool_registry (t_name t) = Ok t).
  { intros t (id & _ & TG). unfold tools_get, of_option in *. destruct (find _ tool_registry) as [t'|] eqn:EF in TG; [|discriminate].
    injection TG as ->. pose proof EF as EF'. apply find_some in EF' as [EF1 EF2]. split; [exact EF1|].
    apply bytes_eqb_eq in EF2. rewrite EF2, EF. reflexivity. }
  assert (KXN : forall i, In i (s_kx s) \/ In i (s_ke s) -> i_name i <> scheme_pw).
  { intros i Hi. pose proof EC as EC2. apply new_session_ok in EC2 as (su' & E & O). rewrite ES2 in E. injection E as <-.
    pose proof (so_shape _ _ _ _ _ _ _ O) as Sh.
    assert (Hi2 : In i (s_all s)) by (destruct Hi as [Hi|Hi]; [rewrite (sh_kx _ _ _ Sh) in Hi|rewrite (sh_ke _ _ _ Sh) in Hi]; apply of_purpose_In in Hi; tauto).
    assert (ST : suite_tool tool_registry su (i_tool i)) by (apply (suite_tool_iff _ _ _ _ _ Hres); exists i; auto).
    destruct (TR _ ST) as [Tin _]. exact (proj2 (registry_no_secret_names _ Tin)). }
  assert (SV_pw : forall n, sg_scheme n = scheme_pw -> (exists k m, obtains c cr s (complete r) k n m) -> exists i, s_pass s = Some i /\ sg_key n <> [] /\ True).
  { intros n SC (k & m & O). inversion O as [Y|i ? Y1 Y2 Y3|i ? ? ? ? Y1 Y2 ?|i ? ? ? Y1 Y2 ?].
    - rewrite SC in Y. discriminate.
    - eauto.
    - exfalso. apply (KXN i (or_introl Y1)). congruence.
    - exfalso. apply (KXN i (or_intror Y1)). congruence. }
  assert (HV' : In v (filter (fun s => nonempty (seal_id s)) (seals_of (rw_keys r)))).
  { apply filter_In. split; [|destruct (seal_id v); [congruence|reflexivity]]. unfold seals_of. apply in_flat_map. exists (Some v). split; [exact HV|now left]. }
  assert (NOKEY : forall L sg, In sg (map (refer (l_version (rw_letter r))) L) -> sg_key sg = []).
  { intros L sg Hsg. apply in_map_iff in Hsg as (? & <- & _). reflexivity. }
  pose proof (prep_signets_prepared _ _ _ _ K _ _ _ (NOKEY _) PS1) as F1. pose proof (prep_signets_prepared _ _ _ _ K _ _ _ (NOKEY _) PS3) as F3.
  destruct (is_secret v) eqn:IS.
  - assert (HR : In (refer (l_version (rw_letter r)) v) (map (refer (l_version (rw_letter r))) (filter is_secret (filter (fun s => nonempty (seal_id s)) (seals_of (rw_keys r))))))
      by (apply in_map, filter_In; auto).
    assert (X : exists n, In n a /\ prepared cr w true (refer (l_version (rw_letter r)) v) n).
    { clear - F1 HR. induction F1 as [|x y xs ys Q F IH]; [destruct HR|]. destruct HR as [<-|HR]; [exists y; split; [now left|exact Q]|].
      destruct (IH HR) as (n & I1 & I2). exists n. split; [now right|exact I2]. }
    destruct X as (n & Hn & PR). destruct (OBT n (in_or_app _ _ _ (or_introl Hn))) as (k & m & OBn).
    unfold is_secret in IS. destruct PR as [(Z & SC & AN)|(Z & b' & n0 & B1 & _ & FE & PL)]; cbn [refer sg_scheme sg_id] in *.
    + destruct (SV_pw n SC) as (i & EI & NE & _); [exists k, m; exact OBn|].
      destruct AN as [->|AN]; [exfalso; apply NE; reflexivity|]. exact (kh_pw _ _ _ _ n Z AN NE).
    + destruct (bytes_eqb (seal_scheme v) scheme_key) eqn:EQ; cbn [orb] in IS.
      * apply bytes_eqb_eq in EQ. specialize (B1 EQ). subst b'. destruct (fetch_ok _ _ _ _ FE) as (g & G1 & _ & G2 & [G3|G3]); cbn [refer sg_id sg_scheme] in *.
        -- rewrite EQ in G3. discriminate.
        -- apply (kh_key _ _ _ _ g n0 EQ G1 G2). congruence.
      * apply bytes_eqb_eq in IS. contradiction.
  - assert (HR : In (refer (l_version (rw_letter r)) v) (map (refer (l_version (rw_letter r))) (filter (fun s => negb (is_secret s)) (filter (fun s => nonempty (seal_id s)) (seals_of (rw_keys r))))))
      by (apply in_map, filter_In; rewrite IS; auto).
    assert (X : exists n, In n d' /\ prepared cr w false (refer (l_version (rw_letter r)) v) n).
    { clear - F3 HR. induction F3 as [|x y xs ys Q F IH]; [destruct HR|]. destruct HR as [<-|HR]; [exists y; split; [now left|exact Q]|].
      destruct (IH HR) as (n & I1 & I2). exists n. split; [now right|exact I2]. }
    destruct X as (n & Hn & PR). destruct (OBT n (in_or_app _ _ _ (or_intror Hn))) as (k & m & OBn).
    unfold is_secret in IS. apply orb_false_iff in IS as [IS1 IS2].
    destruct PR as [(Z & _)|(_ & b' & n0 & _ & B2 & FE & PL)]; cbn [refer sg_scheme sg_id] in *; [rewrite Z, bytes_eqb_refl in IS2; discriminate|].
    specialize (B2 eq_refl). subst b'. destruct (fetch_ok _ _ _ _ FE) as (g & G1 & _ & G2 & G3); cbn [refer sg_id sg_scheme] in *.
    pose proof (prep_loaded_scheme _ _ _ _ PL) as SC. destruct (SV n Hn) as (t & ST & TP & EN). destruct (TR t ST) as [Tin TG].
    destruct (registry_no_secret_names t Tin) as [NK NP].
    assert (PK : exists priv, sg_priv n = PKey priv).
    { inversion OBn as [Y|i ? Y1 Y2 Y3|? priv ? ? ? ? Y1 Y2 ?|? priv ? ? ? Y1 Y2 ?]; try (exists priv; exact Y2); exfalso; congruence. }
    destruct PK as (priv & PK). apply (kh_private _ _ _ _ g n0 t priv G1 G2 ST TP); [congruence|destruct G3 as [G3|G3]; [now left|right; congruence]|].
    eapply prep_loaded_priv; [exact PL|congruence|exact Tin|exact TG|exact PK].
Qed.
Print Assumptions C71_letter_keys_held.

(** The registered suites that encrypt have at most one key exchange tool and distinct tools. *)
Corollary C71_registered_every_key_needed : forall c cr e s su l d data r',
  new_session c tool_registry hash_registry cr e = Ok s -> e_suite e = Some su -> In su suite_registry ->
  In Confidentiality (su_provides su) ->
  open_session c cr s l (rt_start d None) = (Ok data, r') ->
  exists (parts : list (signet * bytes)) kv,
    Permutation (map fst parts) (e_secrets e ++ e_recipients e)
    /\ (forall n sg m, nth_error parts n = Some (sg, m) -> obtains c cr s l n sg m)
    /\ key_schedule cr s (l_nonce l) (concat (map snd parts)) 0 kv /\ accepted cr s kv l data.
Proof.
  intros c cr e s su l d data r' N ES HI HC H. destruct (registered_kdf _ _ _ _ _ N ES HI HC) as (HK & K1 & K2 & DT).
  eapply C71_every_key_needed; eassumption.
Qed.
Print Assumptions C71_registered_every_key_needed.

(** A letter for two recipients is for both together: one of them alone cannot open it. *)
Definition pair_letter : letter :=
  toy_close (lit "rcpt_v1") [] [] [toy_recipient "bob" "ECDH-X25519" 7; toy_recipient "carol" "ECDH-X25519" 8] (lit "hello").
Definition pair_open (l : list signet) : outcome bytes :=
  letter_open default_config suite_registry tool_registry hash_registry toy (toy_world l) (Some []) (raw pair_letter) 0.
Definition bob := toy_signet "bob" "ECDH-X25519" 7.
Definition carol := toy_signet "carol" "ECDH-X25519" 8.
Theorem C71_any_recipient_refuted :
  length (l_keys pair_letter) = 2
  /\ pair_open [bob; carol] = Ok (lit "hello")
  /\ (exists e, pair_open [bob] = Err e) /\ (exists e, pair_open [carol] = Err e).
Proof.
  split; [vm_compute; reflexivity|]. split; [vm_compute; reflexivity|]. split; eexists; vm_compute; reflexivity.
Qed.
Print Assumptions C71_any_recipient_refuted.

Example C71_hypotheses_met :
  let w := toy_world [bob; carol] in let su := suite_named (lit "rcpt_v1") in
  callbacks_keep_scheme w /\ get_suite suite_registry (l_suite (rw_letter (raw pair_letter))) = Some su
  /\ In Confidentiality (su_provides su) /\ pair_open [bob; carol] = Ok (lit "hello")
  /\ exists v, In (Some v) (rw_keys (raw pair_letter)) /\ seal_id v = lit "carol".
Proof.
  cbv zeta. split; [split; discriminate|]. split; [vm_compute; reflexivity|]. split; [vm_compute; auto|]. split; [vm_compute; reflexivity|].
  destruct (l_keys pair_letter) as [|a [|b k]] eqn:E; [vm_compute in E; discriminate..|]. exists b.
  unfold raw. rewrite E. cbn [rw_keys map In]. split; [auto|]. vm_compute in E. injection E as <- <- <-. reflexivity.
Qed.

(** C08, an exception: a shared key without content has no security level, and so is let
    through however high the floor is.  It protects nothing: a session with such a key only is
    made but closes nothing, beside another key it contributes no material. *)
Definition empty_secret : signet := mkSignet 1 (lit "none") scheme_key [] false false None None PNil.
Theorem C08_empty_key_refuted :
  let su := suite_named (lit "key_v1") in
  (exists s, new_session default_config tool_registry hash_registry toy (toy_env su [empty_secret] [] []) = Ok s /\ s_level s = 128%Z
     /\ forall full data d, exists x r, close_session default_config toy s full data (rt_start d None) = (Err x, r))
  /\ exists s l r, new_session default_config tool_registry hash_registry toy (toy_env su [toy_secret "k"; empty_secret] [] []) = Ok s
     /\ close_session default_config toy s false (lit "hello") (rt_start 3 None) = (Ok l, r)
     /\ exists m, contributes default_config toy s (l_nonce l) empty_secret (mkSeal scheme_key (lit "none") []) m /\ m = [].
Proof.
  cbv zeta. split.
  - eexists. split; [vm_compute; reflexivity|]. split; [reflexivity|]. intros full data d.
    destruct (close_session _ _ _ _ _ _) as [o r] eqn:E. destruct o as [l|x|].
    + exfalso. revert E. unfold close_session. vm_compute. discriminate.
    + eauto.
    + exfalso. revert E. unfold close_session. vm_compute. discriminate.
  - eexists. eexists. eexists. split; [vm_compute; reflexivity|]. split; [vm_compute; reflexivity|].
    eexists. split; [now apply con_key|reflexivity].
Qed.
Print Assumptions C08_empty_key_refuted.
