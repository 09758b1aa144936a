(** The round trip: what one session closes, its counterpart opens. *)
From Verif Require Export CoreTrip CoreSession.

Lemma rest_start d : held no_use (fun _ => []) (fun _ => []) (rt_start d None).
Proof. constructor; reflexivity. Qed.

Lemma fed_ext a b h d x : (forall n, In n a <-> In n b) -> fed a h d x = fed b h d x.
Proof.
  intro H. unfold fed. assert (E : existsb (bytes_eqb x) a = existsb (bytes_eqb x) b).
  { apply Bool.eq_true_iff_eq. rewrite !existsb_exists. split; intros (y & Hy & E); exists y; split; auto; now apply H. }
  now rewrite E.
Qed.

(** ** A successful Close, in a session that is not a wire session *)
Section C.
Variables (c : config) (cr : crypto) (s : session).
Hypothesis sound : sound_session s.

Lemma close_plain_ok full data r l r' k :
  held no_use (fun _ => []) (fun _ => []) r -> s_kdf s = Some k ->
  close_session c cr s full data r = (Ok l, r') ->
  exists nonce q0 q1 kvs,
    cr_rand cr (r_draw r) (Z.to_nat (nonce_size s)) = Some nonce
    /\ q0 = set_draw (set_buf (set_acc r [] [] 0) data) (S (r_draw r))
    /\ closing_material c cr s nonce q0 = (Ok tt, q1)
    /\ nonempty (r_mat q1) && nonempty (hd [] (r_mat q1)) && nonempty nonce = true
    /\ session_keys cr s nonce (concat (r_mat q1)) 0 = Some kvs
    /\ let l0 := mkLetter (e_version (s_env s)) (e_suite_id (s_env s)) nonce (r_keys q1) [] [] [] false in
       l = set_sigs (sealed cr s kvs data l0) (l_sigs l)
       /\ (nonempty (s_signers s) = false -> l_sigs l = [])
       /\ (nonempty (s_signers s) = true -> Forall2 (signed cr (sig_fed s (sealed cr s kvs data l0))) (sig_steps s) (l_sigs l))
       /\ r_buf r' = (if full && nonempty (s_ciph s) then fold_left (p_cipher cr kvs) (s_ciph s) data else data).
Proof.
  intros HR EK H. unfold close_session in H. rewrite EK in H.
  unfold modify, gets in H. unfold mbind at 1 2 in H. cbn [set_buf set_acc r_wire] in H. rewrite (he_wire _ _ _ _ HR) in H.
  apply mbind_ok in H as (nonce & q0 & H1 & H). unfold rand in H1.
  destruct (cr_rand cr _ _) as [nonce'|] eqn:ER; [|discriminate]. injection H1 as -> <-. cbn [r_draw set_buf set_acc] in *.
  apply mbind_ok in H as (ap & q2 & H1 & H). unfold establish in H1.
  unfold is_wire, gets in H1. unfold mbind at 1 in H1. cbn [set_draw set_buf set_acc r_wire] in H1. rewrite (he_wire _ _ _ _ HR) in H1.
  cbn [is_none negb] in H1. apply mbind_ok in H1 as ([] & q1 & H1 & H2).
  unfold mbind at 1 in H2. apply mbind_ok in H2 as ([] & q2' & H2 & H3). injection H3 as <- <-.
  rewrite kdf_init_run in H2. destruct (_ && _) eqn:EN; [|discriminate]. injection H2 as <-.
  exists nonce, (set_draw (set_buf (set_acc r [] [] 0) data) (S (r_draw r))), q1.
  assert (HQ : held no_use (fun _ => []) (fun _ => []) q1 /\ r_buf q1 = data).
  { split.
    - assert (H0 : held no_use (fun _ => []) (fun _ => []) (set_draw (set_buf (set_acc r [] [] 0) data) (S (r_draw r))))
        by (destruct HR; constructor; auto).
      pose proof (keep_closing_material c cr s no_use _ _ nonce _ H0) as KP. rewrite H1 in KP. exact KP.
    - assert (KB : r_buf (snd (closing_material c cr s nonce (set_draw (set_buf (set_acc r [] [] 0) data) (S (r_draw r))))) = data); [|now rewrite H1 in KB].
      (* the material loops leave the buffer alone *)
      clear. generalize (set_draw (set_buf (set_acc r [] [] 0) data) (S (r_draw r))) as q, (eq_refl : r_buf (set_draw (set_buf (set_acc r [] [] 0) data) (S (r_draw r))) = data).
      intros q Hq. rewrite <- Hq. clear Hq.
      assert (P : forall A (m : M A), (forall q, r_buf (snd (m q)) = r_buf q) -> True) by trivial. clear P.
      pose (kb := fun A (m : M A) => forall q, r_buf (snd (m q)) = r_buf q).
      assert (KBind : forall A B (m : M A) (f : A -> M B), kb A m -> (forall a, kb B (f a)) -> kb B (mbind m f)).
      { intros A B m f Hm Hf q0. unfold mbind. specialize (Hm q0). destruct (m q0) as [[a|e|] q1]; cbn [snd] in *; auto. now rewrite (Hf a q1). }
      assert (KEach : forall A (f : A -> M unit) l, (forall a, kb unit (f a)) -> kb unit (each f l)).
      { intros A f l Hf. induction l; cbn [each]; [now intro|]. apply KBind; auto. }
      assert (KLast : forall A (f : A -> M unit) l, (forall a, kb unit (f a)) -> kb unit (each_last f l)).
      { intros A f l Hf. induction l as [|a [|b l] IH]; [now intro|apply Hf|]. intro q0. rewrite each_last_cons. specialize (Hf a q0).
        destruct (f a q0) as [[?|?|] q1]; cbn [snd] in *; auto; now rewrite (IH q1). }
      assert (KW : forall f, kb unit (upd_wire f)) by (intros f q0; unfold upd_wire, modify; cbn; now destruct (r_wire q0)).
      assert (KM1 : kb unit (closing_material c cr s nonce)); [|apply KM1].
      unfold closing_material. apply KBind; [|intros _; apply KBind; [|intros _; apply KBind; [|intros _]]].
      + apply KEach. intros a q0. reflexivity.
      + apply KEach. intros a. unfold close_pw. apply KBind; [unfold check; now destruct (nonempty _)|intros _].
        apply KBind; [unfold derive_pw; destruct (s_pass s); now intro|]. intros k0 q0. reflexivity.
      + apply KLast. intro i. apply KEach. intro a. unfold close_kx. apply KBind; [now intro|intros [pub priv]].
        apply KBind; [unfold shared; destruct (sg_pub a); now intro|intro k0]. apply KBind; [now intro|intros _].
        apply KBind; [apply KW|]. now intros _ q0.
      + apply KLast. intro i. apply KEach. intro a. unfold close_ke. apply KBind; [apply KW|intros _].
        apply KBind; [now intro|intro k0]. apply KBind; [unfold encap; destruct (sg_pub a); now intro|]. now intros v q0. }
  destruct HQ as [HQ HB].
  apply (close_tail_ok cr s (ss_keyed s sound) (ss_ivs s sound) (ss_ids s sound) (ss_macs_ids s sound) full data
     (mkLetter (e_version (s_env s)) (e_suite_id (s_env s)) nonce (r_keys q1) [] [] [] false) nonce (concat (r_mat q1)) 0) in H
    as (kvs & E1 & E2 & E3 & E4 & E5); try reflexivity.
  - exists kvs. repeat (split; [first [assumption|reflexivity]|]). exact E5.
  - destruct HQ; constructor; auto.
  - exact HB.
Qed.

Lemma close_signonly_ok full data r l r' :
  held no_use (fun _ => []) (fun _ => []) r -> s_kdf s = None ->
  close_session c cr s full data r = (Ok l, r') ->
  exists nonce, cr_rand cr (r_draw r) (Z.to_nat (nonce_size s)) = Some nonce /\ needs_key s = false
    /\ let l0 := mkLetter (e_version (s_env s)) (e_suite_id (s_env s)) nonce [] data [] [] false in
       l = set_sigs l0 (l_sigs l)
       /\ (nonempty (s_signers s) = false -> l_sigs l = [])
       /\ (nonempty (s_signers s) = true -> Forall2 (signed cr (sig_fed s l0)) (sig_steps s) (l_sigs l))
       /\ r_buf r' = data.
Proof.
  intros HR EK H. unfold close_session in H. rewrite EK in H.
  unfold modify, gets in H. unfold mbind at 1 2 in H. cbn [set_buf set_acc r_wire] in H. rewrite (he_wire _ _ _ _ HR) in H.
  apply mbind_ok in H as (nonce & q0 & H1 & H). unfold rand in H1.
  destruct (cr_rand cr _ _) as [nonce'|] eqn:ER; [|discriminate]. injection H1 as -> <-. cbn [r_draw set_buf set_acc] in *.
  exists nonce. split; [reflexivity|]. destruct (needs_key s) eqn:NK; [discriminate|]. split; [reflexivity|]. cbn zeta.
  assert (UA : uses_ad s = false).
  { unfold needs_key in NK. unfold uses_ad. apply orb_false_iff in NK as [NK1 NK2]. apply orb_false_iff in NK1 as [_ NK1]. now rewrite NK1, NK2. }
  apply close_sign_ok with (hm := fun _ => []) in H as (E1 & E2 & E3 & E4 & _).
  - split; [exact E1|]. split; [intro Z; now rewrite (E2 Z)|]. split; [exact E3|]. rewrite E4. reflexivity.
  - left. destruct HR; constructor; auto.
  - now rewrite UA.
Qed.
End C.

(** ** Opening *)
Section O.
Variables (c : config) (cr : crypto) (s : session).
Hypothesis sound : sound_session s.

(** The signature check succeeds iff every signature verifies; then the payload is opened. *)
Lemma with_signatures_run l {A} (m : M A) r :
  (forall x, r_sigh r x = []) -> length (e_senders (s_env s)) = length (l_sigs l) ->
  Forall2 (verified cr (sig_fed s l)) (sig_steps s) (l_sigs l) ->
  exists h, fst (with_signatures cr s l m r) = fst (m (set_sigh r h)).
Proof.
  intros HS LE F. unfold with_signatures, with_sig_hashers. unfold mbind at 1. unfold modify.
  set (h := fed _ _ _). exists h. unfold deferred. unfold mbind at 1. unfold check, env. rewrite LE, Nat.eqb_refl. unfold ret at 1.
  destruct (verify_all_complete cr s l (set_sigh r h)) as (n & E).
  { clear - F HS. induction F as [|x v xs vs (p & P1 & P2 & P3) F IH]; [constructor|]. constructor; [|exact IH].
    exists p. split; [exact P1|]. split; [exact P2|]. rewrite <- P3. cbn. f_equal. f_equal.
    unfold h, sig_fed, fed, sig_input, open_ad. now rewrite HS. }
  rewrite (mbind_run _ _ _ _ _ E). destruct (m (set_sigh r h)) as [x q]. reflexivity.
Qed.

Lemma open_plain_run l r : r_wire r = None -> l_version l = 1%N -> (forall x, r_sigh r x = []) ->
  (nonempty (s_signers s) = true -> length (e_senders (s_env s)) = length (l_sigs l)) ->
  (nonempty (s_signers s) = true -> Forall2 (verified cr (sig_fed s l)) (sig_steps s) (l_sigs l)) ->
  exists h, fst (open_session c cr s l r) = fst (open_payload c cr s l (set_sigh (set_buf (set_acc r [] [] 0) (l_data l)) h)).
Proof.
  intros HW HV HS HL HF. unfold open_session, is_wire, modify, gets. unfold mbind at 1 2 3. cbn [set_buf set_acc r_wire].
  rewrite HW. cbn [is_none negb]. rewrite HV. cbn [N.eqb Pos.eqb check ret].
  destruct (nonempty (s_signers s)).
  - destruct (with_signatures_run l (open_payload c cr s l) (set_buf (set_acc r [] [] 0) (l_data l)) HS (HL eq_refl) (HF eq_refl)) as (h & E).
    exists h. exact E.
  - exists (r_sigh r). destruct r; reflexivity.
Qed.
End O.

Lemma slots_eq s1 s2 : twins s1 s2 -> forall cr n secret off, session_keys cr s1 n secret off = session_keys cr s2 n secret off.
Proof. intros [] cr n secret off. unfold session_keys, kdf_name, kdf_hash. now rewrite tw_kdf, tw_dks, tw_stateful. Qed.

Lemma opened_sealed cr s1 s2 kvs data l0 sigs : crypto_laws cr -> twins s1 s2 -> l_mac l0 = [] ->
  opened cr s2 kvs (set_sigs (sealed cr s1 kvs data l0) sigs) = Ok data.
Proof.
  intros L [] EM. unfold opened, sealed. cbn zeta. rewrite <- tw_aead, <- tw_ciph, <- tw_macs.
  set (ad := if uses_ad s1 then assoc_data l0 else []). set (D := fold_left _ _ _).
  assert (EA : forall m sg, open_ad s2 (set_sigs (set_mac (set_data l0 D) m) sg) = ad).
  { intros m sg. unfold open_ad, uses_ad, ad. unfold uses_ad. now rewrite <- tw_aead, <- tw_macs. }
  rewrite EA. cbn [set_sigs set_mac set_data l_mac l_data].
  assert (EC : nonempty (s_macs s1) && negb (bytes_eqb (if nonempty (s_macs s1) then p_macs cr kvs D ad (s_macs s1) else l_mac l0)
       (p_macs cr kvs D ad (s_macs s1))) = false).
  { destruct (nonempty (s_macs s1)); [|reflexivity]. now rewrite bytes_eqb_refl. }
  rewrite EC. unfold D. rewrite aeads_invert by exact L. now rewrite ciphers_invert.
Qed.

Lemma sigs_match cr h1 h2 s1 s2 sigs : crypto_laws cr -> s_signers s1 = s_signers s2 -> (forall i, In i (s_signers s2) -> i_name i <> []) ->
  Forall2 (fun a b => key_pair cr b a) (e_senders (s_env s1)) (e_senders (s_env s2)) -> (forall x, h1 x = h2 x) ->
  Forall2 (signed cr h1) (sig_steps s1) sigs -> Forall2 (verified cr h2) (sig_steps s2) sigs.
Proof.
  intros L ES NN FK EH F. unfold sig_steps in *. rewrite ES in F. revert sigs F NN. generalize (s_signers s2) as is.
  induction is as [|i is IH]; intros sigs F NN; cbn [flat_map] in *; [inversion F; constructor|].
  apply Forall2_app_inv_l in F as (v1 & v2 & F1 & F2 & ->). apply Forall2_app; [|apply IH; [exact F2|intros; apply NN; now right]].
  assert (Ni : i_name i <> []) by (apply NN; now left). clear - F1 FK L EH Ni.
  revert v1 F1. induction FK as [|a b l m (E1 & p & k & P1 & P2 & P3) FK IH]; intros v1 F1; cbn [loop filter map] in *; [inversion F1; constructor|].
  unfold loop in *. cbn [filter] in *. rewrite E1 in *. destruct (i_name i) as [|n0 nn] eqn:EN; [congruence|].
  destruct (bytes_eqb (sg_scheme a) (n0 :: nn)) eqn:EB; [|now apply IH].
  cbn [map] in *. inversion F1 as [|? v ? vs (k' & d & Q1 & Q2 & Q3 & Q4) F1']; subst. constructor; [|now apply IH].
  cbn [fst snd] in *. exists p. cbn [fst snd]. split; [exact P1|]. split; [exact Q2|]. rewrite P2 in Q1. injection Q1 as <-.
  apply bytes_eqb_eq in EB. rewrite EB in P3. rewrite <- EN in P3. rewrite <- EH. eapply (law_sign _ L); [exact P3|exact Q3].
Qed.
