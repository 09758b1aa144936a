(** What a successful Open or Verify implies. *)
From Verif Require Export CoreRound SpecOpen.

Lemma derived_schedule cr kdf hash nonce secret l dks off kvs :
  NoDup (map i_idx l) ->
  derived cr kdf hash nonce secret (slots dks l off) = Some kvs ->
  Forall (fun x => let '(i, (o1, n1), (o2, n2)) := x in
            cr_kdf cr kdf hash nonce secret o1 n1 = Some (fst (keys kvs i))
            /\ (has_iv i = true -> cr_kdf cr kdf hash nonce secret o2 n2 = Some (snd (keys kvs i)))) (slots dks l off).
Proof.
  revert off kvs. induction l as [|i l IH]; intros off kvs ND D; cbn [slots]; [constructor|].
  inversion ND as [|? ? NI ND']; subst. cbn [slots derived] in D.
  destruct (cr_kdf cr _ _ _ _ off _) as [k|] eqn:E1; [|discriminate].
  destruct (if has_iv i then _ else _) as [v|] eqn:E2; [|discriminate].
  destruct (derived _ _ _ _ _ _) as [kvs'|] eqn:D'; [|discriminate]. injection D as <-. constructor.
  - unfold keys, key_of. cbn [find fst snd]. rewrite Nat.eqb_refl. cbn [fst snd]. split; [exact E1|]. intro HI. rewrite HI in *. exact E2.
  - assert (HK : forall x, In x l -> keys ((i, k, v) :: kvs') x = keys kvs' x).
    { intros x Hx. unfold keys, key_of. cbn [find fst snd]. destruct (i_idx i =? i_idx x)%nat eqn:E; [|reflexivity].
      apply Nat.eqb_eq in E. exfalso. apply NI. rewrite E. now apply in_map. }
    specialize (IH _ _ ND' D'). rewrite Forall_forall in *. intros [[x [o1 n1]] [o2 n2]] Hx. specialize (IH _ Hx). cbn beta iota in *.
    rewrite HK; [exact IH|]. clear - Hx. revert Hx. generalize (off + Z.to_nat (if (0 <? t_keysize (i_tool i))%Z then t_keysize (i_tool i) else dks)
      + (if has_iv i then Z.to_nat (if (0 <? t_noncesize (i_tool i))%Z then t_noncesize (i_tool i) else dks) else 0)) as o.
    induction l as [|j l IH]; intros o Hx; cbn [slots] in Hx; [easy|]. destruct Hx as [Hx|Hx]; [injection Hx as -> _; now left|right; eapply IH; exact Hx].
Qed.

Lemma p_opens_chain cr kvs ad d l pt : p_opens cr kvs ad d l = Ok pt -> aead_chain cr (keys kvs) ad l d pt.
Proof.
  revert d. induction l as [|i l IH]; intros d H; cbn [p_opens] in H; [injection H as ->; constructor|].
  destruct (p_open cr kvs ad d i) as [d'|] eqn:E; [|discriminate]. econstructor; [exact E|]. auto.
Qed.

Lemma chain_ext cr kv kv' ad l ct pt : (forall i, In i l -> kv i = kv' i) -> aead_chain cr kv ad l ct pt -> aead_chain cr kv' ad l ct pt.
Proof.
  intros H C. revert H. induction C as [|i l ct d pt E C IH]; intro H; [constructor|]. econstructor; [rewrite <- H by (now left); eassumption|]. apply IH. intros; apply H; now right.
Qed.




Lemma opened_accepted cr s kvs l data : opened cr s kvs l = Ok data -> accepted cr s (keys kvs) l data.
Proof.
  unfold opened, accepted. intro H.
  destruct (nonempty (s_macs s) && _) eqn:EM; [discriminate|].
  destruct (p_opens _ _ _ _ _) as [d|e|] eqn:EO; [|discriminate..]. injection H as <-. split.
  - intro NM. destruct (s_macs s) as [|m ms] eqn:ES; [congruence|]. cbn [nonempty andb] in EM. apply negb_false_iff in EM.
    apply bytes_eqb_eq in EM. rewrite EM. unfold p_macs, mac_tags, open_ad, uses_ad. rewrite ES. cbn [nonempty]. now rewrite orb_true_r.
  - exists d. split; [|reflexivity]. destruct (s_aead s) as [|a al] eqn:EA.
    + cbn in EO. injection EO as ->. constructor.
    + apply p_opens_chain in EO. unfold open_ad, uses_ad in EO. rewrite EA in EO. cbn [nonempty orb] in EO. exact EO.
Qed.

Section O.
Variables (c : config) (cr : crypto) (s : session).
Hypothesis sound : sound_session s.

(** With the signature part of Open and Verify out of the way. *)
Lemma with_signatures_ok {A} l (m : M A) r a r' : (forall x, r_sigh r x = []) ->
  with_signatures cr s l m r = (Ok a, r') ->
  length (e_senders (s_env s)) = length (l_sigs l)
  /\ (forall k x, nth_error (sig_steps s) k = Some x -> exists v, nth_error (l_sigs l) k = Some v /\ verified cr (sig_fed s l) x v)
  /\ exists h q, m (set_sigh r h) = (Ok a, q).
Proof.
  intros HS H. unfold with_signatures, with_sig_hashers, modify, deferred in H. unfold mbind at 1 in H.
  set (h := fed _ _ _) in H.
  match type of H with (let (x, r') := ?b in _) = _ => destruct b as [x q] eqn:E end. injection H as -> <-.
  apply mbind_ok in E as ([] & q1 & E1 & E). unfold check in E1. destruct (_ =? _)%nat eqn:EL; [|discriminate].
  injection E1 as <-. apply Nat.eqb_eq in EL. split; [exact EL|].
  apply mbind_ok in E as (n & q1 & E1 & E). apply verify_all_sound in E1 as (-> & _ & _ & V). split; [|eauto].
  intros k x Hx. destruct (V k x Hx) as (v & Hv & p & P1 & P2 & P3). exists v. split; [exact Hv|]. exists p. split; [exact P1|].
  split; [exact P2|]. rewrite <- P3. f_equal. f_equal. cbn. unfold h, sig_fed, fed, sig_input, open_ad. now rewrite HS.
Qed.

Lemma open_payload_accepts l r data r' k : s_kdf s = Some k -> (forall n, ts_used (r_tools r n) = false) -> r_wire r = None ->
  open_payload c cr s l r = (Ok data, r') ->
  exists secret kv, key_schedule cr s (l_nonce l) secret 0 kv /\ accepted cr s kv l data.
Proof.
  intros EK HU HW H.
  assert (EP : open_payload c cr s l r = (run w <- is_wire;
      run _ <- (if w then recv_handshake c cr s l else run _ <- opening_material c cr s l; run m <- gets r_mat; kdf_init (l_nonce l) m);
      open_tail cr s l) r).
  { unfold open_payload. rewrite EK. reflexivity. }
  rewrite EP in H. unfold is_wire, gets in H. unfold mbind at 1 in H. rewrite HW in H. cbn [is_none negb] in H.
  apply mbind_ok in H as ([] & q & H1 & H). apply mbind_ok in H1 as ([] & q0 & H0 & H1). unfold mbind at 1 in H1.
  rewrite kdf_init_run in H1. destruct (_ && _); [|discriminate]. injection H1 as <-.
  assert (HQ : held no_use (r_mach r) (r_sigh r) q0).
  { assert (HR : held no_use (r_mach r) (r_sigh r) r) by (constructor; auto).
    pose proof (keep_opening_material c cr s no_use _ _ l r HR) as KP. now rewrite H0 in KP. }
  pose proof (open_tail_run cr s (ss_keyed s sound) (ss_ivs s sound) (ss_ids s sound) (ss_macs_ids s sound) l (l_nonce l) (concat (r_mat q0)) 0
    (set_kdf q0 (Some (mkKdf (l_nonce l) (concat (r_mat q0)) 0)))) as RT.
  destruct (session_keys cr s (l_nonce l) (concat (r_mat q0)) 0) as [kvs|] eqn:SK.
  - rewrite H in RT. cbn [fst] in RT.
    assert (EO : Ok data = opened cr s kvs l) by (apply RT; [intro n; apply (he_used _ _ _ _ HQ); intros []|reflexivity]).
    exists (concat (r_mat q0)), (keys kvs). split; [|now apply opened_accepted].
    unfold key_schedule. apply derived_schedule; [exact (ss_ids s sound)|exact SK].
  - destruct RT as (e & RT); [intro n; apply (he_used _ _ _ _ HQ); intros []|reflexivity|]. rewrite H in RT. discriminate.
Qed.

Lemma open_ok l r data r' : held no_use (fun _ => []) (fun _ => []) r ->
  open_session c cr s l r = (Ok data, r') ->
  l_version l = 1%N
  /\ (nonempty (s_signers s) = true -> length (e_senders (s_env s)) = length (l_sigs l)
      /\ (forall k x, nth_error (sig_steps s) k = Some x -> exists v, nth_error (l_sigs l) k = Some v /\ verified cr (sig_fed s l) x v))
  /\ match s_kdf s with
     | Some _ => exists secret kv, key_schedule cr s (l_nonce l) secret 0 kv /\ accepted cr s kv l data
     | None => data = l_data l
     end.
Proof.
  intros HR H. unfold open_session, is_wire, modify, gets in H. unfold mbind at 1 2 in H. cbn [set_buf set_acc r_wire] in H.
  rewrite (he_wire _ _ _ _ HR) in H. cbn [is_none negb] in H. apply mbind_ok in H as ([] & q & H1 & H). unfold check in H1.
  destruct (l_version l =? 1)%N eqn:EV; [|discriminate]. injection H1 as <-. apply N.eqb_eq in EV. split; [exact EV|].
  assert (PAY : forall h q, open_payload c cr s l (set_sigh (set_buf (set_acc r [] [] 0) (l_data l)) h) = (Ok data, q) ->
    match s_kdf s with
     | Some _ => exists secret kv, key_schedule cr s (l_nonce l) secret 0 kv /\ accepted cr s kv l data
     | None => data = l_data l
     end).
  { intros h q HP. destruct (s_kdf s) as [k|] eqn:EK.
    - eapply open_payload_accepts; [exact EK| | |exact HP]; cbn; [intro n; apply (he_used _ _ _ _ HR); intros []|apply (he_wire _ _ _ _ HR)].
    - unfold open_payload in HP. rewrite EK in HP. destruct (needs_key s); [discriminate|]. now injection HP as <- _. }
  destruct (nonempty (s_signers s)).
  - apply with_signatures_ok in H as (H1 & H2 & h & q & H3); [|intro x; apply (he_sigh _ _ _ _ HR)]. split; [intros _; split; assumption|eapply PAY; exact H3].
  - split; [discriminate|]. apply (PAY (r_sigh r) r'). rewrite <- H. destruct r; reflexivity.
Qed.

Lemma verify_ok l r r' : held no_use (fun _ => []) (fun _ => []) r ->
  verify_session cr s l r = (Ok tt, r') ->
  l_version l = 1%N /\ nonempty (s_signers s) = true /\ length (e_senders (s_env s)) = length (l_sigs l)
  /\ (forall k x, nth_error (sig_steps s) k = Some x -> exists v, nth_error (l_sigs l) k = Some v /\ verified cr (sig_fed s l) x v).
Proof.
  intros HR H. unfold verify_session, is_wire, modify, gets in H. unfold mbind at 1 2 in H. cbn [set_buf set_acc r_wire] in H.
  rewrite (he_wire _ _ _ _ HR) in H. cbn [is_none negb] in H. apply mbind_ok in H as ([] & q & H1 & H). unfold check in H1.
  destruct (l_version l =? 1)%N eqn:EV; [|discriminate]. injection H1 as <-. apply N.eqb_eq in EV. split; [exact EV|].
  destruct (nonempty (s_signers s)); [|discriminate]. split; [reflexivity|].
  apply with_signatures_ok in H as (H1 & H2 & _); [|intro x; apply (he_sigh _ _ _ _ HR)]. auto.
Qed.
End O.

(** The signers' hashers see the whole message. *)
Lemma sig_fed_message s l i : In i (s_signers s) -> In (i_arg i) (s_sig_hashers s) -> sig_fed s l (i_arg i) = signed_message l.
Proof.
  intros _ HA. unfold sig_fed, fed, sig_input, signed_message.
  assert (E : existsb (bytes_eqb (i_arg i)) (s_sig_hashers s) = true) by (apply existsb_exists; exists (i_arg i); split; [assumption|apply bytes_eqb_refl]).
  rewrite E. cbn [app]. f_equal. unfold assoc_signing_data. destruct (uses_ad s); [reflexivity|]. cbn [nonempty].
  now destruct (assoc_data l).
Qed.
