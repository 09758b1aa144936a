(** Key derivation and tool setup: the keys of the tools are a function of nonce and
    key material. *)
From Verif Require Export CoreMaterial SpecKeys.

(** The tools hold the keys of the list. *)
Definition holds (r : rt) (kv : inst * bytes * bytes) : Prop :=
  let '(i, k, v) := kv in
  let t := r_tools r (i_idx i) in
  ts_key t = k /\ (has_iv i = true -> ts_iv t = v) /\ ts_set t = true.

Record same_but_keys (r r' : rt) : Prop := {
  sk_draw : r_draw r' = r_draw r;
  sk_mach : r_mach r' = r_mach r;
  sk_sigh : r_sigh r' = r_sigh r;
  sk_wire : r_wire r' = r_wire r;
  sk_keys : r_keys r' = r_keys r;
  sk_mat : r_mat r' = r_mat r;
  sk_buf : r_buf r' = r_buf r;
  sk_used : forall n, ts_used (r_tools r' n) = ts_used (r_tools r n)
}.
Lemma same_but_keys_trans r1 r2 r3 : same_but_keys r1 r2 -> same_but_keys r2 r3 -> same_but_keys r1 r3.
Proof. intros [] []. constructor; congruence. Qed.
Lemma same_but_keys_refl r : same_but_keys r r.
Proof. constructor; reflexivity. Qed.

Section Keys.
Variables (cr : crypto) (s : session).

Lemma setup_tool_run i nonce secret off r : r_kdf r = Some (mkKdf nonce secret off) ->
  match derived cr (kdf_name s) (kdf_hash s) nonce secret (slots (s_dks s) [i] off) with
  | Some kvs => exists r' n k v, setup_tool cr s i r = (Ok tt, r') /\ kvs = [(i, k, v)] /\ holds r' (i, k, v)
      /\ same_but_keys r r' /\ r_kdf r' = Some (mkKdf nonce secret n)
      /\ (forall l', slots (s_dks s) (i :: l') off = slots (s_dks s) [i] off ++ slots (s_dks s) l' n)
      /\ (forall m, m <> i_idx i -> r_tools r' m = r_tools r m)
  | None => exists e r', setup_tool cr s i r = (Err e, r')
  end.
Proof.
  intro EK. cbn [slots derived]. unfold setup_tool, kdf_read, pick_size, mbind. rewrite EK. cbn [kd_nonce kd_secret kd_off].
  set (nk := Z.to_nat (if (0 <? t_keysize (i_tool i))%Z then t_keysize (i_tool i) else s_dks s)).
  destruct (cr_kdf cr (kdf_name s) (kdf_hash s) nonce secret off nk) as [k|] eqn:E1; [|eexists _, _; reflexivity].
  unfold upd_tool, modify. cbn [set_tools set_kdf r_kdf r_tools]. destruct (has_iv i) eqn:HI; cbn [kd_nonce kd_secret kd_off].
  - set (nv := Z.to_nat (if (0 <? t_noncesize (i_tool i))%Z then t_noncesize (i_tool i) else s_dks s)).
    destruct (cr_kdf cr (kdf_name s) (kdf_hash s) nonce secret (off + nk) nv) as [v|] eqn:E2;
      cbn [r_kdf set_tools set_kdf kd_nonce kd_secret kd_off]; rewrite E2; [|eexists _, _; reflexivity].
    eexists _, (off + nk + nv), k, v. split; [reflexivity|]. split; [reflexivity|]. split; [|split; [|split; [|split]]].
    + cbn. rewrite Nat.eqb_refl. cbn. auto.
    + constructor; cbn; auto. intro n. destruct (n =? i_idx i)%nat; reflexivity.
    + cbn [set_tools set_kdf r_kdf]. reflexivity.
    + reflexivity.
    + intros m Hm. cbn. apply Nat.eqb_neq in Hm. now rewrite Hm.
  - eexists _, (off + nk + 0), k, []. split; [reflexivity|]. split; [reflexivity|]. split; [|split; [|split; [|split]]].
    + cbn. rewrite Nat.eqb_refl. cbn. rewrite HI. split; [reflexivity|]. split; [discriminate|reflexivity].
    + constructor; cbn; auto. intro n. destruct (n =? i_idx i)%nat; reflexivity.
    + cbn [set_tools set_kdf r_kdf]. now rewrite Nat.add_0_r.
    + reflexivity.
    + intros m Hm. cbn. apply Nat.eqb_neq in Hm. now rewrite Hm.
Qed.

Lemma derived_app kdf hash nonce secret a b :
  derived cr kdf hash nonce secret (a ++ b) =
  match derived cr kdf hash nonce secret a, derived cr kdf hash nonce secret b with
  | Some x, Some y => Some (x ++ y)
  | _, _ => None
  end.
Proof.
  induction a as [|[[i [o1 n1]] [o2 n2]] a IH]; cbn [app derived].
  - destruct (derived _ _ _ _ _ b); reflexivity.
  - rewrite IH. destruct (cr_kdf _ _ _ _ _ o1 n1); [|reflexivity]. destruct (if has_iv i then _ else _); [|reflexivity].
    destruct (derived _ _ _ _ _ a); [|reflexivity]. destruct (derived _ _ _ _ _ b); reflexivity.
Qed.

Lemma setup_run l nonce secret off r : NoDup (map i_idx l) -> r_kdf r = Some (mkKdf nonce secret off) ->
  match derived cr (kdf_name s) (kdf_hash s) nonce secret (slots (s_dks s) l off) with
  | Some kvs => exists r', each (setup_tool cr s) l r = (Ok tt, r') /\ Forall (holds r') kvs /\ same_but_keys r r'
      /\ map (fun x => fst (fst x)) kvs = l
      /\ (forall m, ~ In m (map i_idx l) -> r_tools r' m = r_tools r m)
  | None => exists e r', each (setup_tool cr s) l r = (Err e, r')
  end.
Proof.
  revert off r. induction l as [|i l IH]; intros off r ND EK.
  - cbn. exists r. split; [reflexivity|]. split; [constructor|]. split; [apply same_but_keys_refl|]. auto.
  - pose proof (setup_tool_run i nonce secret off r EK) as ST.
    inversion ND as [|? ? NI ND']; subst. cbn [each].
    destruct (derived cr (kdf_name s) (kdf_hash s) nonce secret (slots (s_dks s) [i] off)) as [kvs|] eqn:D1.
    + destruct ST as (r1 & n & k & v & E1 & -> & H1 & SB & EK1 & SL & T1).
      rewrite SL, derived_app, D1. specialize (IH n r1 ND' EK1).
      destruct (derived cr (kdf_name s) (kdf_hash s) nonce secret (slots (s_dks s) l n)) as [kvs'|] eqn:D2.
      * destruct IH as (r2 & E2 & H2 & SB2 & MP & T2). exists r2. unfold mbind. rewrite E1. split; [exact E2|].
        split; [|split; [|split]].
        -- cbn [app]. constructor; [|exact H2]. unfold holds in *. rewrite (T2 _ NI). exact H1.
        -- eapply same_but_keys_trans; eassumption.
        -- cbn. now rewrite MP.
        -- intros m Hm. cbn in Hm. rewrite T2, T1; [reflexivity| |]; intuition.
      * destruct IH as (e & r2 & E2). exists e, r2. unfold mbind. now rewrite E1.
    + destruct ST as (e & r1 & E1).
      assert (D0 : derived cr (kdf_name s) (kdf_hash s) nonce secret (slots (s_dks s) (i :: l) off) = None).
      { change (slots (s_dks s) (i :: l) off) with (slots (s_dks s) [i] off ++ slots (s_dks s) l (off
          + Z.to_nat (if (0 <? t_keysize (i_tool i))%Z then t_keysize (i_tool i) else s_dks s)
          + (if has_iv i then Z.to_nat (if (0 <? t_noncesize (i_tool i))%Z then t_noncesize (i_tool i) else s_dks s) else 0))).
        now rewrite derived_app, D1. }
      rewrite D0. exists e, r1. unfold mbind. now rewrite E1.
Qed.

Lemma kdf_init_run nonce mat r :
  kdf_init nonce mat r =
    if nonempty mat && nonempty (hd [] mat) && nonempty nonce
    then (Ok tt, set_kdf r (Some (mkKdf nonce (concat mat) 0))) else (Err EOther, r).
Proof. unfold kdf_init. destruct (nonempty mat), (nonempty (hd [] mat)), (nonempty nonce); reflexivity. Qed.
End Keys.

(** ** Ciphers and MACs, given the keys *)
Section Tools.
Variable cr : crypto.
Variable s : session.
Variable kvs : list (inst * bytes * bytes).

(** All tools of the list are set up with their keys and not yet used. *)
Definition ready (r : rt) : Prop := Forall (holds r) kvs.

Definition key_of (i : inst) : option (bytes * bytes) :=
  match find (fun kv => (i_idx (fst (fst kv)) =? i_idx i)%nat) kvs with Some (_, k, v) => Some (k, v) | None => None end.
Definition keys (i : inst) : bytes * bytes := match key_of i with Some kv => kv | None => ([], []) end.

Hypothesis inst_inj : forall i j, In i (map (fun x => fst (fst x)) kvs) -> In j (map (fun x => fst (fst x)) kvs) -> i_idx i = i_idx j -> i = j.

Lemma keys_ok r i : ready r -> In i (map (fun x => fst (fst x)) kvs) ->
  ts_key (r_tools r (i_idx i)) = fst (keys i) /\ (has_iv i = true -> ts_iv (r_tools r (i_idx i)) = snd (keys i))
  /\ ts_set (r_tools r (i_idx i)) = true.
Proof.
  intros R Hi. unfold keys, key_of. destruct (find _ kvs) as [[[j k] v]|] eqn:E.
  - apply find_some in E as [Hin E]. cbn in E. apply Nat.eqb_eq in E.
    assert (j = i). { apply inst_inj; auto. apply in_map_iff. exists (j, k, v). auto. } subst j.
    unfold ready in R. rewrite Forall_forall in R. specialize (R _ Hin). exact R.
  - exfalso. apply in_map_iff in Hi as ([[j k] v] & Ej & Hin). cbn in Ej. subst j.
    pose proof (find_none _ _ E _ Hin) as F. cbn in F. now rewrite Nat.eqb_refl in F.
Qed.

Definition p_cipher (d : bytes) (i : inst) : bytes :=
  xor_bytes d (cr_stream cr (i_name i) (fst (keys i)) (snd (keys i)) (length d)).
Definition p_seal (ad d : bytes) (i : inst) : bytes := cr_seal cr (i_name i) (fst (keys i)) (snd (keys i)) ad d.
Definition p_open (ad d : bytes) (i : inst) : option bytes := cr_open cr (i_name i) (fst (keys i)) (snd (keys i)) ad d.
Definition p_macs (d ad : bytes) (l : list inst) : bytes :=
  concat (map (fun i => cr_mac cr (i_name i) (i_arg i) (fst (keys i)) (d ++ ad)) l).

Definition in_keys i := In i (map (fun x => fst (fst x)) kvs).
Definition keyed_iv (l : list inst) := forall i, In i l -> in_keys i /\ has_iv i = true.

Lemma cipher_run r i d : ready r -> in_keys i -> has_iv i = true -> cipher cr i d r = (Ok (p_cipher d i), r).
Proof.
  intros R Hi HI. destruct (keys_ok r i R Hi) as (A & B & _). unfold cipher, tool_st, gets, mbind, ret. rewrite A, (B HI). reflexivity.
Qed.
Lemma ready_set_buf r b : ready r -> ready (set_buf r b).
Proof. auto. Qed.

(** States equal but for the buffer. *)
Definition buf_only (r r' : rt) : Prop := exists b, r' = set_buf r b.
Lemma buf_only_trans r1 r2 r3 : buf_only r1 r2 -> buf_only r2 r3 -> buf_only r1 r3.
Proof. intros (b & ->) (b' & ->). exists b'. reflexivity. Qed.
Lemma buf_only_refl r : buf_only r r.
Proof. exists (r_buf r). now destruct r. Qed.

Lemma encrypt_run full d l r : ready r -> keyed_iv l ->
  exists r', foldT (fun d i => run d' <- cipher cr i d;
                    run _ <- (if full : bool then modify (fun r => set_buf r d') else ret tt); ret d') d l r
    = (Ok (fold_left p_cipher l d), r') /\ buf_only r r' /\ (full = false \/ l = [] -> r' = r)
    /\ (full = true -> l <> [] -> r_buf r' = fold_left p_cipher l d).
Proof.
  revert d r; induction l as [|i l IH]; intros d r R K; cbn [foldT fold_left].
  - exists r. split; [reflexivity|]. split; [apply buf_only_refl|]. split; [reflexivity|congruence].
  - destruct (K i (or_introl eq_refl)) as [K1 K2]. unfold mbind at 1 2. rewrite (cipher_run r i d R K1 K2).
    assert (K' : keyed_iv l) by (intros j Hj; apply K; now right).
    destruct full.
    + unfold modify, mbind. cbn [ret]. destruct (IH (p_cipher d i) (set_buf r (p_cipher d i)) R K') as (r' & E & B & F1 & F2).
      exists r'. split; [exact E|]. split; [eapply buf_only_trans; [eexists; reflexivity|exact B]|]. split; [intros [|]; discriminate|].
      intros _ _. destruct l as [|j l]; [rewrite (F1 (or_intror eq_refl)); reflexivity|]. now apply F2.
    + destruct (IH (p_cipher d i) r R K') as (r' & E & B & F1 & F2). exists r'. split; [exact E|]. split; [exact B|].
      split; [intros _; apply F1; now left|discriminate].
Qed.

Lemma aead_seal_run ad d l r : ready r -> keyed_iv l ->
  foldT (fun d i => aead_seal cr ad i d) d l r = (Ok (fold_left (p_seal ad) l d), r).
Proof.
  revert d; induction l as [|i l IH]; intros d R K; cbn [foldT fold_left]; [reflexivity|].
  destruct (K i (or_introl eq_refl)) as [K1 K2]. destruct (keys_ok r i R K1) as (A & B & _).
  unfold mbind, aead_seal, tool_st, gets. unfold mbind. rewrite A, (B K2). cbn [ret].
  rewrite IH; [reflexivity|exact R|]. intros j Hj; apply K; now right.
Qed.

Lemma aead_open_run ad d i r : ready r -> in_keys i -> has_iv i = true ->
  exists b, aead_open cr ad i d r = (match p_open ad d i with Some p => Ok p | None => Err EIntegrity end, set_buf r b).
Proof.
  intros R K1 K2. destruct (keys_ok r i R K1) as (A & B & _). unfold aead_open, p_open. cbn zeta. rewrite A, (B K2).
  destruct (cr_open _ _ _ _ _ _); [eexists; reflexivity|]. destruct (_ <? _)%nat; [|eexists; reflexivity].
  exists (r_buf r). now destruct r.
Qed.

Fixpoint p_opens (ad d : bytes) (l : list inst) : outcome bytes :=
  match l with [] => Ok d | i :: l' => match p_open ad d i with Some p => p_opens ad p l' | None => Err EIntegrity end end.
Lemma aead_opens_run ad d l r : ready r -> keyed_iv l ->
  exists r', foldT (fun d i => aead_open cr ad i d) d l r = (p_opens ad d l, r') /\ buf_only r r'.
Proof.
  revert d r; induction l as [|i l IH]; intros d r R K; cbn [foldT p_opens].
  - exists r. split; [reflexivity|apply buf_only_refl].
  - destruct (K i (or_introl eq_refl)) as [K1 K2]. destruct (aead_open_run ad d i r R K1 K2) as (b & E).
    unfold mbind. rewrite E. destruct (p_open ad d i) as [p|].
    + destruct (IH p (set_buf r b) R) as (r' & E' & B); [intros j Hj; apply K; now right|].
      exists r'. split; [exact E'|]. eapply buf_only_trans; [eexists; reflexivity|exact B].
    + eexists; split; [reflexivity|]. eexists; reflexivity.
Qed.
Lemma decrypt_run d l r : ready r -> keyed_iv l ->
  exists r', foldT (fun d i => run d' <- cipher cr i d;
                    run _ <- modify (fun r => set_buf r (d' ++ skipn (length d') (r_buf r))); ret d') d l r
    = (Ok (fold_left p_cipher l d), r') /\ buf_only r r'.
Proof.
  revert d r; induction l as [|i l IH]; intros d r R K; cbn [foldT fold_left].
  - exists r. split; [reflexivity|apply buf_only_refl].
  - destruct (K i (or_introl eq_refl)) as [K1 K2]. unfold mbind at 1 2. rewrite (cipher_run r i d R K1 K2).
    unfold modify, mbind. cbn [ret]. edestruct (IH (p_cipher d i)) as (r' & E & B);
      [|intros j Hj; apply K; now right| exists r'; split; [exact E|eapply buf_only_trans; [eexists; reflexivity|exact B]]].
    exact R.
Qed.

(** MACs: each MAC tool is used once. *)
Definition used_only (l : list inst) (r r' : rt) : Prop :=
  exists f, r' = set_tools r f
    /\ (forall n, ts_key (f n) = ts_key (r_tools r n) /\ ts_iv (f n) = ts_iv (r_tools r n) /\ ts_set (f n) = ts_set (r_tools r n))
    /\ (forall n, ~ In n (map i_idx l) -> f n = r_tools r n).
Lemma macs_run d ad l acc r : ready r -> (forall i, In i l -> in_keys i) -> NoDup (map i_idx l) ->
  (forall i, In i l -> ts_used (r_tools r (i_idx i)) = false) ->
  exists r', foldT (fun acc i => run m <- mac cr d ad i; ret (acc ++ m)) acc l r = (Ok (acc ++ p_macs d ad l), r')
    /\ used_only l r r'.
Proof.
  revert acc r; induction l as [|i l IH]; intros acc r R K ND NU.
  - exists r. cbn. rewrite app_nil_r. split; [reflexivity|]. exists (r_tools r). split; [now destruct r|]. auto.
  - inversion ND as [|? ? NI ND']; subst. cbn [foldT]. destruct (keys_ok r i R (K i (or_introl eq_refl))) as (A & _ & B).
    unfold mbind. rewrite mac_cases. cbn zeta. rewrite A, B, (NU i (or_introl eq_refl)). cbn [negb].
    unfold p_macs. cbn [map concat]. rewrite (app_assoc acc).
    assert (K' : forall j, In j l -> in_keys j) by (intros j Hj; apply K; now right).
    destruct (is_poly i); cbn [ret].
    + set (r1 := snd (upd_tool i (fun t => mkTState (ts_key t) (ts_iv t) (ts_set t) true) r)).
      assert (R1 : ready r1).
      { unfold ready in *. rewrite Forall_forall in *. intros [[j k] v] Hj. specialize (R _ Hj). unfold holds in *. cbn.
        destruct (i_idx j =? i_idx i)%nat; exact R. }
      destruct (IH (acc ++ cr_mac cr (i_name i) (i_arg i) (fst (keys i)) (d ++ ad)) r1 R1 K' ND') as (r' & E & f & -> & F1 & F2).
      { intros j Hj. cbn. destruct (i_idx j =? i_idx i)%nat eqn:EJ; [|apply NU; now right].
        apply Nat.eqb_eq in EJ. exfalso. apply NI. rewrite <- EJ. apply in_map_iff. eauto. }
      exists (set_tools r1 f). split; [exact E|]. exists f. split; [reflexivity|]. split.
      * intro n. destruct (F1 n) as (X & Y & Z). cbn in X, Y, Z. destruct (n =? i_idx i)%nat; cbn in *; auto.
      * intros n Hn. cbn in Hn. rewrite F2 by tauto. cbn. destruct (n =? i_idx i)%nat eqn:EN; [|reflexivity].
        apply Nat.eqb_eq in EN. exfalso. auto.
    + destruct (IH (acc ++ cr_mac cr (i_name i) (i_arg i) (fst (keys i)) (d ++ ad)) r R K' ND') as (r' & E & f & -> & F1 & F2).
      { intros j Hj. apply NU. now right. }
      exists (set_tools r f). split; [exact E|]. exists f. split; [reflexivity|]. split; [exact F1|].
      intros n Hn. apply F2. cbn in Hn. tauto.
Qed.
Lemma used_only_ready l r r' : used_only l r r' -> ready r -> ready r'.
Proof.
  intros (f & -> & F & _) R. unfold ready in *. rewrite Forall_forall in *. intros [[j k] v] Hj. specialize (R _ Hj). unfold holds in *. cbn.
  destruct (F (i_idx j)) as (-> & -> & ->). exact R.
Qed.
End Tools.

(** ** Inverses *)
Lemma xor_small a b : (a < 256 -> b < 256 -> N.lxor a b < 256)%N.
Proof.
  intros Ha Hb. destruct (N.eq_dec (N.lxor a b) 0) as [->|NZ]; [reflexivity|]. apply (N.log2_lt_pow2 _ 8); [lia|].
  eapply N.le_lt_trans; [apply N.log2_lxor|].
  assert (L : forall x, (x < 256 -> N.log2 x < 8)%N).
  { intros x Hx. destruct (N.eq_dec x 0) as [->|]; [reflexivity|]. apply N.log2_lt_pow2; [lia|exact Hx]. }
  apply N.max_lub_lt; now apply L.
Qed.
Lemma xor_byte_invol a b : xor_byte (xor_byte a b) b = a.
Proof.
  unfold xor_byte. assert (X : b2n (n2b (N.lxor (b2n a) (b2n b))) = N.lxor (b2n a) (b2n b)).
  { rewrite b2n_n2b. apply N.mod_small. apply xor_small; apply b2n_lt. }
  rewrite X, N.lxor_assoc, N.lxor_nilpotent, N.lxor_0_r. apply n2b_b2n.
Qed.
Lemma xor_bytes_length d k : length (xor_bytes d k) = length d.
Proof. revert k; induction d as [|x d IH]; intros [|y k]; cbn; auto. Qed.
Lemma xor_bytes_invol d k : xor_bytes (xor_bytes d k) k = d.
Proof. revert k; induction d as [|x d IH]; intros [|y k]; cbn; auto. now rewrite xor_byte_invol, IH. Qed.
Lemma p_cipher_invol cr kvs i d : p_cipher cr kvs (p_cipher cr kvs d i) i = d.
Proof. unfold p_cipher at 1. unfold p_cipher at 2. rewrite xor_bytes_length. apply xor_bytes_invol. Qed.
Lemma ciphers_invert cr kvs l d : fold_left (p_cipher cr kvs) (rev l) (fold_left (p_cipher cr kvs) l d) = d.
Proof.
  revert d; induction l as [|i l IH]; intro d; cbn [rev fold_left]; [reflexivity|].
  rewrite fold_left_app. cbn [fold_left]. rewrite IH. apply p_cipher_invol.
Qed.
Lemma p_opens_app cr kvs ad d a b : p_opens cr kvs ad d (a ++ b) =
  match p_opens cr kvs ad d a with Ok p => p_opens cr kvs ad p b | x => x end.
Proof. revert d; induction a as [|i a IH]; intro d; cbn [app p_opens]; [reflexivity|]. destruct (p_open _ _ _ _ _); [apply IH|reflexivity]. Qed.
Lemma aeads_invert cr kvs ad l d : crypto_laws cr -> p_opens cr kvs ad (fold_left (p_seal cr kvs ad) l d) (rev l) = Ok d.
Proof.
  intro L. revert d; induction l as [|i l IH]; intro d; cbn [rev fold_left]; [reflexivity|].
  rewrite p_opens_app, IH. cbn [p_opens]. unfold p_open, p_seal. now rewrite (law_aead _ L).
Qed.
