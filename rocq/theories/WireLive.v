(** Wire sessions: closing succeeds while the primitives work. *)
From Coq Require Import Init.Byte.
From Verif Require Export WireRun SpecWorking.

Section Tail.
Variables (cr : crypto) (s : session).
Hypothesis sound : sound_session s.
Hypothesis work : working cr.
(** How much of the key derivation stream the tools take. *)
Fixpoint demand (dks : Z) (l : list inst) : nat :=
  match l with
  | [] => 0
  | i :: l' => Z.to_nat (if (0 <? t_keysize (i_tool i))%Z then t_keysize (i_tool i) else dks)
      + (if has_iv i then Z.to_nat (if (0 <? t_noncesize (i_tool i))%Z then t_noncesize (i_tool i) else dks) else 0)
      + demand dks l'
  end.
Lemma derived_total kdf hash nonce secret dks l off : off + demand dks l <= kdf_limit ->
  exists kvs, derived cr kdf hash nonce secret (slots dks l off) = Some kvs.
Proof.
  revert off. induction l as [|i l IH]; intros off H; cbn [slots derived]; [eauto|]. cbn [demand] in H.
  set (nk := Z.to_nat _) in *. destruct (wk_kdf _ work kdf hash nonce secret off nk) as (k & ->); [lia|].
  destruct (IH (off + nk + (if has_iv i then Z.to_nat (if (0 <? t_noncesize (i_tool i))%Z then t_noncesize (i_tool i) else dks) else 0))) as (kvs & IH1); [lia|].
  rewrite IH1. destruct (has_iv i); [|eauto].
  match goal with |- context [cr_kdf cr kdf hash nonce secret ?a ?b] => destruct (wk_kdf _ work kdf hash nonce secret a b) as (v & ->); [lia|] end. eauto.
Qed.
Lemma close_tail_live full data l nonce secret off r : calm r -> (forall x y z, exists x' z', close_sign cr s x y z = (Ok x', z')) -> r_kdf r = Some (mkKdf nonce secret off) ->
  off + demand (s_dks s) (s_stateful s) <= kdf_limit ->
  exists l' r', close_tail cr s full data l r = (Ok l', r').
Proof.
  intros C CS EK RM. destruct (derived_total (kdf_name s) (kdf_hash s) nonce secret (s_dks s) (s_stateful s) off RM) as (kvs & DT).
  pose proof (setup_spec cr s (ss_keyed s sound) (ss_ivs s sound) (ss_ids s sound) nonce secret off r EK) as SP.
  unfold session_keys in SP. rewrite DT in SP. destruct SP as (q & E & RD & SB & MP & INJ & KA & KC & KM).
  unfold close_tail. rewrite (mbind_run _ _ _ _ _ E). unfold deferred.
  destruct (encrypt_run cr kvs INJ full data (s_ciph s) q RD KC) as (q3 & E3 & B3 & _). unfold encrypt. rewrite (mbind_run _ _ _ _ _ E3).
  assert (RD3 : ready kvs q3) by (destruct B3 as (b & ->); exact RD).
  assert (US : forall n, ts_used (r_tools q3 n) = false).
  { intro n. destruct B3 as (b & ->). cbn. rewrite (sk_used _ _ SB). apply C. }
  rewrite (mbind_run _ _ _ _ _ (aead_seal_run cr kvs INJ _ _ (s_aead s) q3 RD3 KA)).
  destruct (nonempty (s_macs s)) eqn:EM.
  2: { match goal with |- context [close_sign cr s ?x ?y ?z] => destruct (CS x y z) as (x' & z' & ->) end. eauto. }
  unfold with_mac_hashers, modify, deferred. unfold mbind at 1.
  match goal with |- context [macs cr s ?D ?ad] => match goal with |- context [mbind (macs cr s D ad) _ ?q4] =>
    destruct (macs_run cr kvs INJ D ad (s_macs s) [] q4 RD3 KM (ss_macs_ids s sound)) as (q6 & E6 & U6); [intros; apply US|] end end.
  unfold macs. rewrite (mbind_run _ _ _ _ _ E6).
  match goal with |- context [close_sign cr s ?x ?y ?z] => destruct (CS x y z) as (x' & z' & ->) end. eauto.
Qed.
End Tail.

Section Ops.
Variables (c : config) (cr : crypto) (s : session).
Hypothesis sound : sound_session s.
Hypothesis work : working cr.
Hypothesis room : Z.to_nat (s_dks s) + demand (s_dks s) (s_stateful s) <= kdf_limit.
Lemma send_live full data r w k : s_kdf s = Some k -> s_signers s = [] -> calm r -> r_wire r = Some w ->
  (0 < nonce_size s)%Z -> (s_dks s =? 0)%Z = false -> crypto_laws cr ->
  (forall nonce d, nonce <> [] -> exists ab d' w1 ks ms n, send_mat c cr s nonce (st (base r data) d w [] [] 0) = (Ok ab, st (base r data) d' w1 ks ms n)
      /\ hd [] (ms ++ prev_list (prev_of true w1)) <> [] /\ (forall x, prev_of true w1 = Some x -> length x = Z.to_nat (s_dks s))) ->
  exists l r', close_session c cr s full data r = (Ok l, r').
Proof.
  intros EK NS C EW NZ DZ L HM. rewrite (close_unfold c cr s full data r k EK).
  unfold mbind at 1. rs. unfold mbind at 1. rs. unfold mbind at 1. unfold rand at 1. rs.
  destruct (wk_rand _ work (r_draw r) (Z.to_nat (nonce_size s))) as (nonce & ER). rewrite ER.
  assert (NE : nonce <> []) by (pose proof (law_rand _ L _ _ _ ER); destruct nonce; [cbn in *; lia|congruence]).
  destruct (HM nonce (S (r_draw r)) NE) as (ab & d' & w1 & ks & ms & n & SM & HD & HL).
  assert (CZ : carry_size s (prev_of true w1) = Z.to_nat (s_dks s)) by (unfold carry_size; destruct (prev_of true w1) as [x|]; [now apply HL|reflexivity]).
  unfold establish. rewrite mbind_assoc. unfold mbind at 1. unfold is_wire, gets. rs. rewrite EW. cbn [is_none negb].
  match goal with |- context [mbind (send_handshake _ _ _ _) _ ?q] =>
    assert (ES : q = st (base r data) (S (r_draw r)) w [] [] 0) by (unfold st, base; destruct r; cbn in *; subst; reflexivity); rewrite ES end.
  destruct (wk_kdf _ work (kdf_name s) (kdf_hash s) nonce (secret_of ms (prev_of true w1)) 0 (carry_size s (prev_of true w1))) as (next & EN); [lia|].
  assert (LK : linked cr s nonce ms (prev_of true w1) next).
  { constructor; auto. destruct (ms ++ prev_list (prev_of true w1)) as [|m0 ?]; [now destruct HD|]. cbn [hd nonempty andb] in *. destruct m0; [congruence|]. destruct nonce; [congruence|reflexivity]. }
  destruct (carryover_run cr s true nonce (base r data) d' w1 ks ms n) as [_ CR]. specialize (CR _ LK).
  erewrite mbind_run. 2: { rewrite send_split, (mbind_run _ _ _ _ _ SM), (mbind_run _ _ _ _ _ CR), (mbind_run _ _ _ _ _ (st_kdf_burn _ _ _ _ _ _ _ _)). reflexivity. }
  unfold mbind at 1. rs. eapply (close_tail_live cr s sound work); [| |reflexivity|now rewrite CZ].
  - destruct C; constructor; cbn; auto.
  - intros x y z. unfold close_sign. rewrite NS. cbn [nonempty]. unfold ret. eauto.
Qed.
End Ops.

Section Run.
Variables (c : config) (cr : crypto) (s1 s2 : session).
Hypothesis laws : crypto_laws cr.
Hypothesis work : working cr.
Hypothesis tw : twins s1 s2.
Hypothesis sound1 : sound_session s1.
Hypothesis sound2 : sound_session s2.
Variable kdf : inst.
Hypothesis has_kdf : s_kdf s1 = Some kdf.
Hypothesis no_signers : s_signers s1 = [].
Hypothesis few_kx : length (s_kx s1) <= 1.
Hypothesis few_ke : length (s_ke s1) <= 1.
Hypothesis no_pass : s_pass s1 = None.
Hypothesis no_key : loop scheme_key (e_secrets (s_env s1)) = [].
Hypothesis pairs : Forall2 (same_step cr) (steps s1) (steps s2).
Hypothesis ke_ids : forall i sg, In (SKe i sg) (steps s1) -> sg_id sg <> [].
Hypothesis some_steps : steps s1 <> [].
Hypothesis no_pw : loop scheme_pw (e_secrets (s_env s1)) = [].
Hypothesis nonce1 : (0 < nonce_size s1)%Z.
Hypothesis nonce2 : (0 < nonce_size s2)%Z.
Hypothesis dks : (0 < s_dks s1)%Z.
Hypothesis room : Z.to_nat (s_dks s1) + demand (s_dks s1) (s_stateful s1) <= kdf_limit.
Hypothesis gen_kx : forall i d, In i (s_kx s1) -> exists p, cr_gen cr (i_name i) d = Some p.
Hypothesis no_ke : s_ke s1 = [].

Definition exchange (x : kstep) : Prop := exists i sg, x = SKx i sg /\ In i (s_kx s1).
Lemma close_steps_live nonce xs ys r : Forall2 (same_step cr) xs ys -> Forall exchange xs ->
  exists r', each (close_step c cr s1 nonce) xs r = (Ok tt, r').
Proof.
  intros FS. revert r. induction FS as [|x y xs ys SS FS IH]; intros r FX; cbn [each]; [unfold ret; eauto|].
  assert (HX : exchange x) by now inversion FX. assert (FX' : Forall exchange xs) by now inversion FX.
  assert (S1 : exists r1, close_step c cr s1 nonce x r = (Ok tt, r1)).
  { destruct HX as (i & a & -> & Hi). inversion SS as [| |? ? b p k E1 E2 PO|]; subst. cbn [close_step].
    unfold close_kx. unfold mbind at 1. unfold gen. destruct (gen_kx i (r_draw r) Hi) as ([pub priv] & ->).
    unfold mbind, shared. rewrite E1. unfold ret, upd_wire, add_key, add_mat, modify. eauto. }
  destruct S1 as (r1 & E1). rewrite (mbind_run _ _ _ _ _ E1). now apply IH.
Qed.

Lemma steps_kinds : Forall exchange (steps s1).
Proof.
  unfold steps, steps_of. rewrite no_key, no_pw, no_ke. cbn [map app flat_map]. rewrite app_nil_r. apply Forall_forall; intros x Hx;
    apply in_flat_map in Hx as (i & Hi & Hx); apply in_map_iff in Hx as (sg & <- & _). now exists i, sg.
Qed.
Lemma gen_ke_live r d w ks ms n : w_ke w = [] -> exists q, gen_local_ke cr (st r d w ks ms n) = (Ok tt, q).
Proof.
  intro E. unfold gen_local_ke. rewrite (mbind_run _ _ _ _ _ (wire_st_st r d w ks ms n)), E. cbn. unfold ret. eauto.
Qed.
Lemma gen_kx_live r d w ks ms n : (forall p, In p (w_kx w) -> In (kx_tool p) (s_kx s1)) -> exists q, gen_local_kx cr (st r d w ks ms n) = (Ok tt, q).
Proof.
  intro HT. unfold gen_local_kx. rewrite (mbind_run _ _ _ _ _ (wire_st_st r d w ks ms n)).
  assert (HL : forall x, In x (index_from 0 (w_kx w)) -> In (kx_tool (snd x)) (s_kx s1)).
  { revert HT. generalize 0 as m. generalize (w_kx w) as l. induction l as [|a l IH]; intros m HT x Hx; [destruct Hx|].
    cbn [index_from] in Hx. destruct Hx as [<-|Hx]; [apply HT; now left|]. eapply IH; [|exact Hx]. intros; apply HT; now right. }
  revert HL. generalize (index_from 0 (w_kx w)) as l. generalize (st r d w ks ms n) as q. intros q l. revert q.
  induction l as [|[j p] l IH]; intros q HL; cbn [each]; [unfold ret; eauto|].
  assert (S1 : exists q1, (match kx_own p with
          | Some _ => ret tt
          | None =>
              run _ <- upd_wire (fun w => set_kx w (upd_nth j
                         (fun x => mkKx (kx_tool x) (Some None) (kx_peer x)) (w_kx w)));
              run kp <- gen cr (i_name (kx_tool p));
              run _ <- upd_wire (fun w => set_kx w (upd_nth j
                         (fun x => mkKx (kx_tool x) (Some (Some kp)) (kx_peer x)) (w_kx w)));
              add_key (mkSeal [] [] (cr_store_pub cr (i_name (kx_tool p)) (fst kp)))
          end) q = (Ok tt, q1)).
  { destruct (kx_own p); [unfold ret; eauto|]. unfold mbind at 1. unfold upd_wire at 1, modify. unfold mbind at 1. unfold gen.
    match goal with |- context [cr_gen cr _ ?b] => destruct (gen_kx (kx_tool p) b (HL (j, p) (or_introl eq_refl))) as ([pub priv] & ->) end.
    unfold mbind, upd_wire, add_key, modify. eauto. }
  destruct S1 as (q1 & E1). cbn [fst snd]. rewrite (mbind_run _ _ _ _ _ E1). apply IH. intros. apply HL. now right.
Qed.

Lemma first_live nonce R d : exists ab d' w1 ks ms n,
  send_mat c cr s1 nonce (st R d (wire_start false) [] [] 0) = (Ok ab, st R d' w1 ks ms n)
  /\ hd [] (ms ++ prev_list (prev_of true w1)) <> [] /\ (forall x, prev_of true w1 = Some x -> length x = Z.to_nat (s_dks s1)).
Proof.
  assert (E : exists q, send_mat c cr s1 nonce (st R d (wire_start false) [] [] 0) = (Ok false, q)).
  { unfold send_mat. rewrite (mbind_run _ _ _ _ _ (wire_st_st _ _ _ _ _ _)). cbn [wire_start w_state].
    assert (KE0 : forall cs, Forall2 (made c cr s1 nonce) (steps s1) cs -> flat_map co_ke cs = []).
    { intros cs FM. pose proof steps_kinds as SK. revert FM SK. clear. generalize (steps s1) as l. intros l FM. induction FM as [|x co l cs M FM IH]; intro SK; [reflexivity|].
      inversion SK as [|? ? (i & sg & -> & _) SK']; subst. inversion M; subst. cbn. auto. }
    destruct (close_steps_live nonce (steps s1) (steps s2) (st R d (wire_start false) [] [] 0) pairs steps_kinds) as (r1 & E1).
    rewrite <- (closing_material_small c cr s1 nonce _ few_kx few_ke) in E1.
    rewrite (mbind_run _ _ _ _ _ E1). rewrite closing_material_small in E1 by assumption.
    apply close_steps_ok in E1 as (cs & FM & G). apply (grow_st _ _ (wire_start false)) in G; [|reflexivity].
    rewrite G. unfold send_idle. rewrite mbind_assoc, (mbind_run _ _ _ _ _ (wire_st_st _ _ _ _ _ _)). cbn [add_pairs wire_start w_msgno set_kx set_ke N.eqb orb].
    rewrite mbind_assoc.
    match goal with |- context [gen_local_kx cr] => match goal with |- context [mbind (gen_local_kx cr) _ (st ?a ?b ?d ?e ?f ?g)] =>
       rewrite (mbind_run _ _ _ _ _ (gen_kx_idle cr a b d e f g (fun p => co_kx_owned c cr s1 _ _ _ p FM))) end end.
    rewrite mbind_assoc.
    match goal with |- context [mbind (gen_local_ke cr) _ (st ?a ?b ?d ?e ?f ?g)] => destruct (gen_ke_live a b d e f g (KE0 _ FM)) as (q & EQ) end.
    rewrite (mbind_run _ _ _ _ _ EQ). unfold mbind, upd_wire, modify, ret. eauto. }
  destruct E as (q & E). pose proof E as E0. apply send_first in E as (d' & w1 & ks & ms & n & (_ & cs & new & FP & _ & ->) & ->); [|assumption..].
  exists false, d', w1, ks, (map co_mat cs), n. split; [exact E0|].
  destruct FP as [FM _ _ _ _ MN]. pose proof steps_kinds as SK. split.
  - destruct FM as [|x co xs cs M FM]; [congruence|].
    cbn [map app hd]. inversion SK as [|? ? (i & sg & -> & _) _]; subst. inversion M; subst. cbn [co_mat]. apply (wk_shared _ work).
  - intros x. unfold prev_of. rewrite MN. discriminate.
Qed.

Lemma encap_live R d w ks ms n : w_ke w = [] -> exists q, encap_new cr s2 (st R d w ks ms n) = (Ok tt, q).
Proof. intros E. unfold encap_new. rewrite (mbind_run _ _ _ _ _ (wire_st_st R d w ks ms n)), E. cbn. unfold ret. eauto. Qed.

Lemma reply_live nonce R d w ckx cke : Forall2 (kx_match cr) ckx (w_kx w) -> Forall2 (ke_match cr) cke (w_ke w) -> w_state w = HSendKey ->
  (ckx <> [] \/ cke <> []) -> tooled s1 ckx cke -> (forall x, prev_of true w = Some x -> length x = Z.to_nat (s_dks s2)) ->
  exists ab d' w1 ks ms n, send_mat c cr s2 nonce (st R d w [] [] 0) = (Ok ab, st R d' w1 ks ms n)
    /\ hd [] (ms ++ prev_list (prev_of true w1)) <> [] /\ (forall x, prev_of true w1 = Some x -> length x = Z.to_nat (s_dks s2)).
Proof.
  intros FX FE ES NE [TX TE] HP.
  assert (cke = []) as -> by (destruct cke as [|p cke]; [reflexivity|]; specialize (TE p (or_introl eq_refl)); rewrite no_ke in TE; destruct TE).
  assert (WE : w_ke w = []) by now inversion FE.
  assert (TW : forall p, In p (w_kx w) -> In (kx_tool p) (s_kx s1)).
  { revert FX TX. clear. intros FX TX p Hp. induction FX as [|a b l m (E & _) FX IH]; [easy|]. destruct Hp as [<-|Hp]; [rewrite <- E; apply TX; now left|apply IH; auto; intros; apply TX; now right]. }
  assert (E : exists q, send_mat c cr s2 nonce (st R d w [] [] 0) = (Ok false, q)).
  { unfold send_mat. rewrite (mbind_run _ _ _ _ _ (wire_st_st _ _ _ _ _ _)), ES.
    destruct (gen_kx_live R d w [] [] 0 TW) as (q1 & E1). rewrite (mbind_run _ _ _ _ _ E1).
    apply gen_kx_run in E1 as (d1 & new & FN & ->).
    2: { intros p Hp. clear - FX Hp. induction FX as [|a b l m (_ & E & _) FX IH]; [easy|]. destruct Hp as [<-|Hp]; auto. }
    assert (AG : exists keys, Forall2 (agrees cr) new keys).
    { clear - FX FN laws. revert new FN. induction FX as [|p q l m (E1 & E2 & pub & priv & E3 & PO & E4) FX IH]; intros new FN; inversion FN as [|? n0 ? new' (N1 & N2 & pub2 & priv2 & N3 & PO2) FN']; subst.
      - exists []. constructor.
      - destruct (IH new' FN') as (keys & A). destruct (law_store _ laws _ _ _ PO) as (pv & LD).
        eexists. constructor; [|exact A]. exists pub2, priv2, (cr_store_pub cr (i_name (kx_tool p)) pub), pub, pv. rewrite N1, <- E1, N2, E4. repeat split; auto. }
    destruct AG as (keys & AG). cbn [app].
    rewrite (mbind_run _ _ _ _ _ (make_shared_run cr R d1 (set_kx w new) (map (own_seal cr) new) [] 0 keys AG)). cbn [app].
    rewrite (mbind_run _ _ _ tt (st R d1 (set_kx w new) (map (own_seal cr) new) keys 0)).
    2: { apply gen_ke_idle. intros p Hp. clear - FE Hp. cbn [set_kx w_ke] in Hp. induction FE as [|a b l m (_ & pub & priv & _ & _ & E) FE IH]; [easy|].
         destruct Hp as [<-|Hp]; [congruence|auto]. }
    destruct (encap_live R d1 (set_kx w new) (map (own_seal cr) new) keys 0 WE) as (q2 & E2).
    rewrite (mbind_run _ _ _ _ _ E2). unfold mbind, gets, upd_wire, modify, ret. eauto. }
  destruct E as (q & E). pose proof E as E0.
  apply (send_reply_full c cr s2 laws) with (ckx := ckx) (cke := []) in E as (d' & w1 & ks & ms & n & (_ & RP & _ & _ & Q1 & Q2 & Q3) & HK & ->); auto.
  exists false, d', w1, ks, ms, n. split; [exact E0|].
  split; [|intro x; unfold prev_of, carry; rewrite Q1, Q2; exact (HP x)].
  destruct RP as (a & b & x & e & -> & -> & LA & LB & FA & FU).
  destruct ckx as [|p0 ckx']; [destruct NE as [NE|NE]; now destruct NE|].
  - destruct a as [|a0 a]; [discriminate|]. unfold map2 in FA. cbn [map combine fst snd] in FA. inversion FA as [|? k ? x' AG FA']; subst.
    destruct AG as (pub & priv & peer & pub' & pv & _ & _ & _ & ->). cbn [app hd]. apply (wk_shared _ work).
Qed.

(** Whatever happened before, both sides can send. *)
Theorem client_live k full data : connected c cr s1 s2 k -> exists l r, close_session c cr s1 full data (k_client k) = (Ok l, r).
Proof.
  intro CN. assert (I : inv c cr s1 s2 k) by (eapply connected_inv; eassumption).
  assert (DZ : (s_dks s1 =? 0)%Z = false) by lia.
  assert (NZ : forall x : bytes, length x = Z.to_nat (s_dks s1) -> x <> []) by (intros x Hx ->; cbn in Hx; lia).
  destruct I as [d1 d2 ->|cw d2 g qs cs new next w1 KS FC C1 W1 ES EM EQ EC FP EX EE SC NC GK GM GA SG CH PF PL|cw sw qs qc KS FC FS C1 C2 W1 W2 EQ EC NC NS CH1 CH2 ST].
  - cbn [k_client]. eapply (send_live c cr s1 sound1 work room); eauto using calm_start; [reflexivity|].
    intros nonce d _. apply first_live.
  - eapply (send_live c cr s1 sound1 work room); eauto. intros nonce d _. exists false, d, cw, [], [], 0. split; [|split; [|apply FC]].
    + unfold send_mat. rewrite (mbind_run _ _ _ _ _ (wire_st_st _ _ _ _ _ _)), SC. reflexivity.
    + cbn [app]. unfold prev_of. rewrite NC. cbn [prev_list hd]. apply NZ, (proj1 FC true). unfold prev_of. now rewrite NC.
  - eapply (send_live c cr s1 sound1 work room); eauto. intros nonce d _.
    assert (PN : forall ms, hd [x00] ms <> [] -> hd [] (ms ++ prev_list (prev_of true cw)) <> []).
    { intros ms HM. destruct ms as [|m ms]; [|exact HM]. cbn [app]. unfold prev_of. rewrite NC. cbn [prev_list hd]. apply NZ, (proj1 FC true). unfold prev_of. now rewrite NC. }
    assert (D : (w_state cw = HAwaitKey) \/ (w_state cw = HSendApply)) by (destruct ST; auto). destruct D as [SC|SC].
    + exists false, d, cw, [], [], 0. split; [|split; [apply PN; discriminate|apply FC]]. unfold send_mat. rewrite (mbind_run _ _ _ _ _ (wire_st_st _ _ _ _ _ _)), SC. reflexivity.
    + exists true, d, cw, [], (w_new cw), 0. split; [|split; [apply PN, FC|apply FC]].
      unfold send_mat. rewrite (mbind_run _ _ _ _ _ (wire_st_st _ _ _ _ _ _)), SC, (mbind_run _ _ _ _ _ (each_add_mat _ _ _ _ _ _ _)). reflexivity.
Qed.
Theorem server_live k full data : connected c cr s1 s2 k -> k_met k = true -> exists l r, close_session c cr s2 full data (k_server k) = (Ok l, r).
Proof.
  intros CN MT. assert (I : inv c cr s1 s2 k) by (eapply connected_inv; eassumption).
  assert (DZ : (s_dks s2 =? 0)%Z = false) by (rewrite <- (tw_dks _ _ tw); lia).
  assert (NZ : forall x : bytes, length x = Z.to_nat (s_dks s1) -> x <> []) by (intros x Hx ->; cbn in Hx; lia).
  destruct I as [d1 d2 ->|cw d2 g qs cs new next w1 KS FC C1 W1 ES EM EQ EC FP EX EE SC NC GK GM GA SG CH PF PL|cw sw qs qc KS FC FS C1 C2 W1 W2 EQ EC NC NS CH1 CH2 ST]; [discriminate|congruence|].
  assert (K2 : s_kdf s2 = Some kdf) by (rewrite <- (tw_kdf _ _ tw); assumption).
  assert (G2 : s_signers s2 = []) by (rewrite <- (tw_signers _ _ tw); assumption).
  assert (room2 : Z.to_nat (s_dks s2) + demand (s_dks s2) (s_stateful s2) <= kdf_limit) by (rewrite <- (tw_dks _ _ tw), <- (tw_stateful _ _ tw); exact room).
  eapply (send_live c cr s2 sound2 work room2); eauto. intros nonce d _.
  assert (AW : w_state sw = HAwaitApply -> exists ab d' w1 ks ms n, send_mat c cr s2 nonce (st (base (k_server k) data) d sw [] [] 0) = (Ok ab, st (base (k_server k) data) d' w1 ks ms n)
      /\ hd [] (ms ++ prev_list (prev_of true w1)) <> [] /\ (forall x, prev_of true w1 = Some x -> length x = Z.to_nat (s_dks s2))).
  { intro SC. exists false, d, sw, [], [], 0. split; [|split; [|rewrite <- (tw_dks _ _ tw); apply FS]].
    - unfold send_mat. rewrite (mbind_run _ _ _ _ _ (wire_st_st _ _ _ _ _ _)), SC. reflexivity.
    - cbn [app]. unfold prev_of. rewrite NS. cbn [prev_list hd]. apply NZ, (proj1 FS true). unfold prev_of. now rewrite NS. }
  destruct ST as [A1 A2 A3 A4 A5 A6 A7 A7t|g' qc' A1 A2 A3 A4 A5 A6 A7 A8 A9|A1 A2 A3 A4]; auto.
  eapply reply_live; eauto. rewrite <- (tw_dks _ _ tw). apply FS.
Qed.
End Run.
