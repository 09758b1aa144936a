(** Wire sessions: the key material of each stage of the handshake. *)
From Verif Require Export WireOps.

Lemma each_add_mat r d w ks ms n l : each add_mat l (st r d w ks ms n) = (Ok tt, st r d w ks (ms ++ l) n).
Proof.
  revert ms. induction l as [|x l IH]; intro ms; cbn [each]; [now rewrite app_nil_r|].
  rewrite (mbind_run _ _ _ tt (st r d w ks (ms ++ [x]) n)) by reflexivity. rewrite IH, <- app_assoc. reflexivity.
Qed.

Section Mat.
Variables (c : config) (cr : crypto) (s1 s2 : session).
Hypothesis laws : crypto_laws cr.
Hypothesis tw : twins s1 s2.
Hypothesis few_kx : length (s_kx s1) <= 1.
Hypothesis few_ke : length (s_ke s1) <= 1.
Hypothesis no_pass : s_pass s1 = None.
Hypothesis no_key : loop scheme_key (e_secrets (s_env s1)) = [].
Hypothesis pairs : Forall2 (same_step cr) (steps s1) (steps s2).
Hypothesis ke_ids : forall i sg, In (SKe i sg) (steps s1) -> sg_id sg <> [].

(** The first letter of the client. *)
Record first_pairs (nonce : bytes) (cs : list contrib) (new : list kepair) (w1 : wstate) : Prop := {
  fp_made : Forall2 (made c cr s1 nonce) (steps s1) cs;
  fp_new : Forall2 (ke_made cr) (flat_map co_ke cs) new;
  fp_kx : w_kx w1 = flat_map co_kx cs;
  fp_ke : w_ke w1 = new;
  fp_state : w_state w1 = HAwaitKey;
  fp_msgno : w_msgno w1 = 0%N;
  fp_pending : w_new w1 = []
}.

Lemma co_kx_owned nonce xs cs p : Forall2 (made c cr s1 nonce) xs cs -> In p (flat_map co_kx cs) -> kx_own p <> None.
Proof.
  induction 1 as [|x co xs cs M F IH]; cbn [flat_map]; [easy|]. rewrite in_app_iff. intros [H|H]; [|auto].
  destruct M; cbn [co_kx] in H; try easy. destruct H as [<-|[]]. discriminate.
Qed.
Lemma co_ke_none nonce xs cs p : Forall2 (made c cr s1 nonce) xs cs -> In p (flat_map co_ke cs) -> ke_sig p = KNone.
Proof.
  induction 1 as [|x co xs cs M F IH]; cbn [flat_map]; [easy|]. rewrite in_app_iff. intros [H|H]; [|auto].
  destruct M; cbn [co_ke] in H; try easy. destruct H as [<-|[]]. reflexivity.
Qed.

Lemma send_first nonce R d ab q : send_mat c cr s1 nonce (st R d (wire_start false) [] [] 0) = (Ok ab, q) ->
  exists d' w1 ks ms n, (ab = false /\ exists cs new, first_pairs nonce cs new w1
       /\ ks = map co_seal cs ++ map (ke_own_seal cr) new /\ ms = map co_mat cs)
    /\ q = st R d' w1 ks ms n.
Proof.
  intro H. unfold send_mat in H. rewrite (mbind_run _ _ _ _ _ (wire_st_st _ _ _ _ _ _)) in H. cbn [wire_start w_state] in H.
  apply mbind_ok in H as ([] & r1 & H1 & H). rewrite closing_material_small in H1 by assumption.
  apply close_steps_ok in H1 as (cs & FM & G). apply (grow_st _ _ (wire_start false)) in G; [|reflexivity].
  rs in G. cbn [app] in G. unfold add_pairs in G. cbn [wire_start w_kx w_ke app set_kx set_ke w_server w_msgno w_last w_send w_recv w_state w_new] in G.
  set (w0 := set_ke (set_kx (wire_start false) _) _) in G.
  assert (EST : r1 = st R (r_draw r1) w0 (map co_seal cs) (map co_mat cs) 0) by (rewrite G; reflexivity).
  rewrite EST in H. apply mbind_ok in H as ([] & r2 & H1 & H). injection H as <- <-.
  unfold send_idle in H1. rewrite (mbind_run _ _ _ _ _ (wire_st_st _ _ _ _ _ _)) in H1. change (w_msgno w0 =? 0)%N with true in H1. cbn [orb] in H1.
  rewrite (mbind_run _ _ _ _ _ (gen_kx_idle cr R _ w0 _ _ _ (fun p => co_kx_owned _ _ _ p FM))) in H1.
  apply mbind_ok in H1 as ([] & r3 & H2 & H1). apply gen_ke_run in H2 as (d' & new & F & ->); [|exact (fun p => co_ke_none _ _ _ p FM)].
  injection H1 as <-. exists d'. eexists. eexists. eexists. exists 0. split; [|reflexivity].
  split; [reflexivity|]. exists cs, new. split; [|split; reflexivity]. constructor; auto.
Qed.

(** The server takes the first letter. *)
Definition kx_match (p q : kxpair) : Prop :=
  kx_tool p = kx_tool q /\ kx_own q = None
  /\ exists pub priv, kx_own p = Some (Some (pub, priv)) /\ pair_ok cr (i_name (kx_tool p)) pub priv
       /\ kx_peer q = Some (cr_store_pub cr (i_name (kx_tool p)) pub).
Definition ke_match (p q : kepair) : Prop :=
  ke_tool p = ke_tool q
  /\ exists pub priv, ke_sig p = KOwn (Some (pub, priv)) /\ pair_ok cr (i_name (ke_tool p)) pub priv
       /\ ke_sig q = KPeer (cr_store_pub cr (i_name (ke_tool p)) pub).

Definition is_kx (x : kstep) : Prop := exists i sg, x = SKx i sg.
Definition is_ke (x : kstep) : Prop := exists i sg, x = SKe i sg.

Lemma kx_part nonce xs ys cs : Forall is_kx xs -> Forall2 (same_step cr) xs ys -> Forall2 (made c cr s1 nonce) xs cs ->
  Forall2 kx_match (flat_map co_kx cs) (map2 with_peer (opened_kxs ys cs) (map co_seal cs))
  /\ length (map co_seal cs) = length (opened_kxs ys cs)
  /\ flat_map co_ke cs = [] /\ flat_map open_kes ys = [].
Proof.
  intros FX FS. revert cs. induction FS as [|x y xs ys SS FS IH]; intros cs FM; inversion FM as [|? co ? cs' MD FM']; subst.
  - repeat split; constructor.
  - inversion FX as [|? ? (i & sg & ->) FX']; subst. inversion SS; subst. inversion MD; subst.
    destruct (IH FX' cs' FM') as (A & B & C & D). unfold opened_kxs in *. cbn [combine flat_map fst snd open_kxs co_seal co_kx co_ke map app seal_value length open_kes].
    split; [|split; [now rewrite B|auto]].
    unfold map2 in *. cbn [combine map fst snd]. constructor; [|exact A].
    split; [reflexivity|]. split; [reflexivity|]. eexists _, _. repeat split; eauto.
Qed.
Lemma ke_part nonce xs ys cs : Forall is_ke xs -> Forall2 (same_step cr) xs ys -> Forall2 (made c cr s1 nonce) xs cs ->
  flat_map co_kx cs = [] /\ opened_kxs ys cs = [] /\ flat_map open_kes ys = flat_map co_ke cs
  /\ (forall i sg, In (SKe i sg) xs -> sg_id sg <> []) = (forall i sg, In (SKe i sg) xs -> sg_id sg <> [])
  /\ Forall2 (fun x co => exists i sg, x = SKe i sg /\ seal_id (co_seal co) = sg_id sg) xs cs.
Proof.
  intros FX FS. revert cs. induction FS as [|x y xs ys SS FS IH]; intros cs FM; inversion FM as [|? co ? cs' MD FM']; subst.
  - repeat split; constructor.
  - inversion FX as [|? ? (i & sg & ->) FX']; subst. inversion SS; subst. inversion MD; subst.
    destruct (IH FX' cs' FM') as (A & B & C & _ & D). unfold opened_kxs in *. cbn [combine flat_map fst snd open_kxs co_seal co_kx co_ke map app open_kes].
    split; [exact A|]. split; [exact B|]. split; [now rewrite C|]. split; [reflexivity|]. constructor; [|exact D]. eexists _, _. split; reflexivity.
Qed.

Lemma steps_split nonce cs : Forall2 (made c cr s1 nonce) (steps s1) cs ->
  exists a b, steps s1 = a ++ b /\ Forall is_kx a /\ Forall is_ke b /\ (s_ke s1 = [] -> b = []).
Proof.
  intro FM. assert (EP : loop scheme_pw (e_secrets (s_env s1)) = []).
  { destruct (loop scheme_pw (e_secrets (s_env s1))) as [|sg l] eqn:E; [reflexivity|exfalso].
    unfold steps, steps_of in FM. rewrite no_key, E in FM. cbn [map app] in FM. inversion FM as [|? ? ? ? MD _]; subst. inversion MD; subst. congruence. }
  unfold steps, steps_of. rewrite no_key, EP. cbn [map app]. eexists _, _. split; [reflexivity|]. repeat split.
  - apply Forall_forall. intros x Hx. apply in_flat_map in Hx as (i & _ & Hx). apply in_map_iff in Hx as (sg & <- & _). now exists i, sg.
  - apply Forall_forall. intros x Hx. apply in_flat_map in Hx as (i & _ & Hx). apply in_map_iff in Hx as (sg & <- & _). now exists i, sg.
  - intros ->. reflexivity.
Qed.

Lemma combine_app {A B} (a1 a2 : list A) (b1 b2 : list B) : length a1 = length b1 -> combine (a1 ++ a2) (b1 ++ b2) = combine a1 b1 ++ combine a2 b2.
Proof. revert b1. induction a1 as [|x a1 IH]; intros [|y b1] H; cbn in *; try discriminate; [reflexivity|]. f_equal. apply IH. lia. Qed.
Lemma Forall2_map2_length {A B C} (f : A -> B -> C) a b : length b = length a -> length (map2 f a b) = length a.
Proof. intro H. unfold map2. rewrite map_length, combine_length. lia. Qed.

Lemma recv_first l R d w1 cs new : first_pairs (l_nonce l) cs new w1 -> cs <> [] ->
  l_keys l = map co_seal cs ++ map (ke_own_seal cr) new ->
  exists w2 n, recv_mat c cr s2 l (st R d (wire_start true) [] [] 0) = (Ok false, st R d w2 [] (map co_mat cs) n)
    /\ w_state w2 = HSendKey /\ w_msgno w2 = 0%N
    /\ Forall2 kx_match (w_kx w1) (w_kx w2) /\ Forall2 ke_match (w_ke w1) (w_ke w2) /\ w_new w2 = [].
Proof.
  intros [FM FN EX EE _ _] NE EL. destruct (steps_split _ _ FM) as (xa & xb & ES & FXA & FXB & NKE).
  pose proof pairs as FS. rewrite ES in FM, FS. apply Forall2_app_inv_l in FM as (ca & cb & FMa & FMb & ->).
  apply Forall2_app_inv_l in FS as (ya & yb & FSa & FSb & EY).
  destruct (kx_part _ _ _ _ FXA FSa FMa) as (KA & KB & KC & KD).
  destruct (ke_part _ _ _ _ FXB FSb FMb) as (EA & EB & EC & _ & ED).
  rewrite flat_map_app, KC in FN. cbn [app] in FN. rewrite flat_map_app, EA, app_nil_r in EX.
  rewrite !map_app, <- app_assoc in EL.
  assert (LA : length ya = length ca) by (rewrite <- (F2_length _ _ _ FSa); exact (F2_length _ _ _ FMa)).
  unfold recv_mat. rewrite (mbind_run _ _ _ _ _ (wire_st_st _ _ _ _ _ _)). cbn [wire_start w_state].
  set (r0 := st R d (wire_start true) [] [] 0).
  destruct (open_steps_ok c cr s1 s2 laws (tw_pass _ _ tw) (tw_dks _ _ tw) l (xa ++ xb) (ya ++ yb) (ca ++ cb) [] (map (ke_own_seal cr) new) r0) as (r1 & E1 & D1 & G1).
  { now apply Forall2_app. } { now apply Forall2_app. } { rewrite EL, map_app, <- app_assoc. reflexivity. } { reflexivity. }
  rewrite <- EY in E1. apply opening_material_ok in E1; [|discriminate].
  rewrite (mbind_run _ _ _ _ _ E1).
  apply (grow_st _ _ (wire_start true)) in G1; [|reflexivity]. rewrite D1 in G1. rs in G1. cbn [app r0 st r_keys r_mat r_idx r_draw] in G1.
  unfold add_pairs in G1. cbn [wire_start w_kx w_ke app set_kx set_ke w_server w_msgno w_last w_send w_recv w_state w_new] in G1.
  assert (EO : opened_kxs (ya ++ yb) (ca ++ cb) = opened_kxs ya ca).
  { unfold opened_kxs. rewrite combine_app by exact LA. rewrite flat_map_app. unfold opened_kxs in EB. rewrite EB. apply app_nil_r. }
  assert (EK : flat_map open_kes (ya ++ yb) = flat_map co_ke cb) by (rewrite flat_map_app, KD; exact EC).
  rewrite EO, EK in G1. set (w0 := set_ke (set_kx (wire_start true) _) _) in G1.
  set (len := 0 + length (ca ++ cb)) in G1.
  assert (EST : r1 = st R d w0 [] (map co_mat (ca ++ cb)) len) by (rewrite G1; reflexivity).
  rewrite EST. unfold recv_idle.
  assert (NK : nonempty (l_keys l) = true).
  { rewrite EL. destruct ca; [destruct cb; [now destruct NE|reflexivity]|reflexivity]. }
  rewrite NK. rewrite mbind_assoc. rewrite (mbind_run _ _ _ _ _ (wire_st_st _ _ _ _ _ _)).
  assert (CK : (if nonempty (s_ke s2) then ret tt else check (length (l_keys l) =? length (w_kx w0) + length (w_ke w0))%nat EOther)
      (st R d w0 [] (map co_mat (ca ++ cb)) len) = (Ok tt, st R d w0 [] (map co_mat (ca ++ cb)) len)).
  { destruct (nonempty (s_ke s2)) eqn:N; [reflexivity|]. rewrite <- (tw_ke _ _ tw) in N. destruct (s_ke s1) eqn:EKE; [|discriminate].
    specialize (NKE eq_refl). subst xb. assert (ECB : cb = []) by (inversion FMb; reflexivity).
    assert (ENW : new = []) by (rewrite ECB in FN; inversion FN; reflexivity).
    assert (LK : length (l_keys l) = length (w_kx w0) + length (w_ke w0)).
    { change (w_kx w0) with (opened_kxs ya ca). change (w_ke w0) with (flat_map co_ke cb). rewrite EL, ECB, ENW. cbn [map app flat_map length].
      rewrite !app_nil_r, KB. lia. }
    rewrite LK, Nat.eqb_refl. reflexivity. }
  rewrite mbind_assoc, (mbind_run _ _ _ _ _ CK), mbind_assoc. unfold start_index.
  rewrite (mbind_run _ _ _ tt (st R d w0 [] (map co_mat (ca ++ cb)) 0)) by reflexivity.
  rewrite mbind_assoc.
  pose proof (assign_kx_run l R d w0 [] (map co_mat (ca ++ cb)) [] (map co_seal ca) (map co_seal cb ++ map (ke_own_seal cr) new)) as AX.
  cbn [app length Nat.add] in AX. rewrite (mbind_run _ _ _ _ _ (AX EL KB)). rewrite mbind_assoc.
  destruct (assign_ke_signet_run l R d (set_kx w0 (map2 with_peer (w_kx w0) (map co_seal ca))) [] (map co_mat (ca ++ cb))
     (map co_seal ca) (map co_seal cb) (map (ke_own_seal cr) new) []) as (n' & AK).
  { now rewrite app_nil_r. }
  { rewrite map_length. symmetry. exact (F2_length _ _ _ FN). }
  { rewrite Forall_map. apply Forall_forall. intros co Hco. clear - ED Hco ke_ids ES.
    assert (ID : forall i sg, In (SKe i sg) xb -> sg_id sg <> []) by (intros i sg Hi; apply (ke_ids i sg); rewrite ES; apply in_or_app; auto).
    clear ke_ids ES. induction ED as [|x co' xs cs (i & sg & -> & E) ED IH]; [easy|]. destruct Hco as [->|Hco].
    - rewrite E. specialize (ID i sg (or_introl eq_refl)). destruct (sg_id sg); [congruence|reflexivity].
    - apply IH; auto. intros. eapply ID. right. eassumption. }
  { rewrite Forall_map. apply Forall_forall. reflexivity. }
  rewrite (mbind_run _ _ _ _ _ AK). cbn [w0 set_kx w_kx w_ke]. rewrite (mbind_run _ _ _ _ _ (upd_wire_st _ _ _ _ _ _ _)).
  eexists. exists n'. split; [reflexivity|]. cbn [set_hs set_ke set_kx w_state w_msgno w_kx w_ke w0].
  split; [reflexivity|]. split; [reflexivity|]. rewrite EX, EE. split; [exact KA|]. split; [|reflexivity].
  clear - FN. unfold map2. induction FN as [|p q l m (E1 & E2 & pub & priv & E3 & PO) FN IH]; cbn [map combine fst snd]; constructor; [|exact IH].
  split; [exact E1|]. exists pub, priv. split; [exact E3|]. rewrite E1. split; [exact PO|].
  unfold with_signet, ke_own_seal. cbn [ke_sig seal_value]. rewrite E1, E3. reflexivity.
Qed.

(** The server's reply. *)
Definition reply (ckx : list kxpair) (cke : list kepair) (ks : list seal) (ms : list bytes) : Prop :=
  exists a b x e, ks = a ++ b /\ ms = x ++ e /\ length a = length ckx /\ length b = length cke
    /\ Forall2 (agrees cr) (map2 with_peer ckx a) x /\ Forall2 (unwraps cr) (map2 with_seal cke b) e
    /\ Forall2 (fun p sl => exists pub priv, pair_ok cr (i_name (kx_tool p)) pub priv /\ sl = mkSeal [] [] (cr_store_pub cr (i_name (kx_tool p)) pub)) ckx a.

Lemma send_reply_full nonce R d w ckx cke ab q : Forall2 kx_match ckx (w_kx w) -> Forall2 ke_match cke (w_ke w) -> w_state w = HSendKey ->
  send_mat c cr s2 nonce (st R d w [] [] 0) = (Ok ab, q) ->
  exists d' w1 ks ms n, (ab = false /\ reply ckx cke ks ms /\ w_state w1 = HAwaitApply /\ w_new w1 = ms
      /\ w_msgno w1 = w_msgno w /\ w_send w1 = w_send w /\ w_recv w1 = w_recv w)
    /\ (ckx = [] -> cke <> [] -> exists i k, hd_error ms = Some k /\ cr_rand cr i (Z.to_nat (s_dks s2)) = Some k)
    /\ q = st R d' w1 ks ms n.
Proof.
  intros FX FE ES H. unfold send_mat in H. rewrite (mbind_run _ _ _ _ _ (wire_st_st _ _ _ _ _ _)) in H. rewrite ES in H.
  apply mbind_ok in H as ([] & r1 & H1 & H).
  apply gen_kx_run in H1 as (d1 & new & FN & ->).
  2: { intros p Hp. clear - FX Hp. induction FX as [|a b l m (_ & E & _) FX IH]; [easy|]. destruct Hp as [<-|Hp]; auto. }
  cbn [app] in H.
  assert (AG : exists keys, Forall2 (agrees cr) new keys /\ Forall2 (agrees cr) (map2 with_peer ckx (map (own_seal cr) new)) keys).
  { clear - FX FN laws. revert new FN. induction FX as [|p q l m (E1 & E2 & pub & priv & E3 & PO & E4) FX IH]; intros new FN; inversion FN as [|? n0 ? new' (N1 & N2 & pub2 & priv2 & N3 & PO2) FN']; subst.
    - exists []. split; constructor.
    - destruct (IH new' FN') as (keys & A & B). rewrite <- E1 in PO2.
      destruct (law_store _ laws _ _ _ PO) as (pv & LD). destruct (law_store _ laws _ _ _ PO2) as (pv2 & LD2).
      exists (cr_shared cr (i_name (kx_tool p)) priv pub2 :: keys). split; [constructor; [|exact A]|].
      + exists pub2, priv2, (cr_store_pub cr (i_name (kx_tool p)) pub), pub, pv. rewrite N1, <- E1, N2, E4. repeat split; auto.
        exact (law_dh _ laws _ _ _ _ _ PO PO2).
      + unfold map2 in *. cbn [map combine fst snd]. constructor; [|exact B].
        exists pub, priv, (cr_store_pub cr (i_name (kx_tool p)) pub2), pub2, pv2. unfold with_peer, own_seal. cbn [kx_own kx_tool kx_peer seal_value].
        rewrite N1, <- E1, N3. repeat split; auto. }
  destruct AG as (keys & AG1 & AG2).
  rewrite (mbind_run _ _ _ _ _ (make_shared_run cr R d1 (set_kx w new) (map (own_seal cr) new) [] 0 keys AG1)) in H. cbn [app] in H.
  rewrite (mbind_run _ _ _ tt (st R d1 (set_kx w new) (map (own_seal cr) new) keys 0)) in H.
  2: { apply gen_ke_idle. intros p Hp. clear - FE Hp. cbn [set_kx w_ke] in Hp. induction FE as [|a b l m (_ & pub & priv & _ & _ & E) FE IH]; [easy|].
       destruct Hp as [<-|Hp]; [congruence|auto]. }
  apply mbind_ok in H as ([] & r2 & H2 & H).
  apply encap_new_run in H2 as (d2 & xs & FE2 & ->).
  2: { intros p Hp. clear - FE Hp. cbn [set_kx w_ke] in Hp. induction FE as [|a b l m (_ & pub & priv & _ & _ & E) FE IH]; [easy|].
       destruct Hp as [<-|Hp]; [eauto|auto]. }
  cbn [set_kx w_ke] in FE2.
  apply mbind_ok in H as (m & r3 & H3 & H). injection H3 as <- <-. rewrite (mbind_run _ _ _ _ _ (upd_wire_st _ _ _ _ _ _ _)) in H. injection H as <- <-.
  eexists d2, _, _, _, 0. split; [|split; [|reflexivity]].
  2: { intros EC NC. assert (EK : keys = []).
       { clear - AG2 EC. subst ckx. unfold map2 in AG2. cbn [map combine] in AG2. now inversion AG2. }
       subst keys. cbn [app]. destruct FE as [|p0 q0 l0 m0 _ _]; [congruence|]. inversion FE2 as [|? x0 ? xs' (stored & pub2 & pv & j & _ & _ & _ & i & ERD) FE2']; subst.
       exists i, (fst x0). split; [reflexivity|exact ERD]. }
  split; [reflexivity|]. split; [|cbn; auto].
  exists (map (own_seal cr) new), (map (fun x => mkSeal [] [] (snd x)) xs), keys, (map fst xs).
  split; [reflexivity|]. split; [reflexivity|].
  pose proof (F2_length _ _ _ FX). pose proof (F2_length _ _ _ FN). pose proof (F2_length _ _ _ FE). pose proof (F2_length _ _ _ FE2).
  rewrite !map_length. split; [congruence|]. split; [congruence|]. split; [exact AG2|]. split.
  2: { clear - FX FN. revert new FN. induction FX as [|p q l m (E1 & E2 & pub & priv & E3 & PO & E4) FX IH]; intros new FN; inversion FN as [|? n0 ? new' (N1 & N2 & pub2 & priv2 & N3 & PO2) FN']; subst; cbn [map]; constructor; auto.
       exists pub2, priv2. rewrite E1. split; [exact PO2|]. unfold own_seal. now rewrite N1, N3. }
  clear - FE FE2 laws. revert xs FE2. induction FE as [|p q l m (E1 & pub & priv & E2 & PO & E3) FE IH]; intros xs FE2; inversion FE2 as [|? x0 ? xs' (stored & pub2 & pv & j & F1 & F2 & F3 & _) FE2']; subst.
  - constructor.
  - unfold map2 in *. cbn [map combine fst snd]. constructor; [|now apply IH].
    rewrite E3 in F1. injection F1 as <-. rewrite <- E1 in F2, F3. destruct (law_store _ laws _ _ _ PO) as (pv' & LD). rewrite LD in F2. injection F2 as <- <-.
    exists pub, priv, (snd x0). unfold with_seal. cbn [ke_sig ke_seal ke_tool seal_value]. repeat split; auto.
    exact (law_encap _ laws _ _ _ _ _ _ _ PO F3).
Qed.
Lemma send_reply nonce R d w ckx cke ab q : Forall2 kx_match ckx (w_kx w) -> Forall2 ke_match cke (w_ke w) -> w_state w = HSendKey ->
  send_mat c cr s2 nonce (st R d w [] [] 0) = (Ok ab, q) ->
  exists d' w1 ks ms n, (ab = false /\ reply ckx cke ks ms /\ w_state w1 = HAwaitApply /\ w_new w1 = ms
      /\ w_msgno w1 = w_msgno w /\ w_send w1 = w_send w /\ w_recv w1 = w_recv w)
    /\ q = st R d' w1 ks ms n.
Proof.
  intros FX FE ES H. destruct (send_reply_full _ _ _ _ _ _ _ _ FX FE ES H) as (d' & w1 & ks & ms & n & A & _ & B). eauto 10.
Qed.

Lemma recv_reply l R d w ks ms : w_state w = HAwaitKey -> reply (w_kx w) (w_ke w) ks ms -> ks <> [] -> l_keys l = ks ->
  exists w1 n, recv_mat c cr s1 l (st R d w [] [] 0) = (Ok false, st R d w1 [] ms n)
    /\ w_state w1 = HSendApply /\ w_new w1 = ms /\ w_msgno w1 = w_msgno w /\ w_send w1 = w_send w /\ w_recv w1 = w_recv w.
Proof.
  intros ES (a & b & x & e & -> & -> & LA & LB & FA & FU & _) NE EL.
  unfold recv_mat. rewrite (mbind_run _ _ _ _ _ (wire_st_st _ _ _ _ _ _)), ES.
  assert (NK : nonempty (l_keys l) = true) by (rewrite EL; destruct (a ++ b); [congruence|reflexivity]).
  rewrite NK. unfold mbind at 1. unfold check.
  assert (LL : (length (l_keys l) =? length (w_kx w) + length (w_ke w))%nat = true) by (rewrite EL, app_length, LA, LB; apply Nat.eqb_refl).
  rewrite LL. cbn [ret]. rewrite (mbind_run _ _ _ tt (st R d w [] [] 0)) by reflexivity.
  pose proof (assign_kx_run l R d w [] [] [] a b) as AX. cbn [app length Nat.add] in AX.
  rewrite (mbind_run _ _ _ _ _ (AX EL LA)).
  pose proof (assign_ke_seal_run l R d (set_kx w (map2 with_peer (w_kx w) a)) [] [] a b []) as AK. cbn [set_kx w_ke] in AK. rewrite app_nil_r in AK.
  rewrite (mbind_run _ _ _ _ _ (AK EL LB)).
  rewrite (mbind_run _ _ _ _ _ (make_shared_run cr R d (set_ke (set_kx w (map2 with_peer (w_kx w) a)) (map2 with_seal (w_ke w) b)) [] [] _ x FA)).
  cbn [app].
  rewrite (mbind_run _ _ _ _ _ (unwrap_new_run cr R d (set_ke (set_kx w (map2 with_peer (w_kx w) a)) (map2 with_seal (w_ke w) b)) [] x _ e FU)).
  unfold mbind at 1. unfold gets. rs. rewrite (mbind_run _ _ _ _ _ (upd_wire_st _ R d _ [] (x ++ e) _)).
  eexists. eexists. split; [reflexivity|]. cbn. auto 10.
Qed.
End Mat.
