(** Closing and opening as functions of the keys; the round trip. *)
From Verif Require Export CoreKeys.

Lemma foldT_flat {A B C} (f : B -> C -> M B) (g : A -> list C) l b r :
  foldT f b (flat_map g l) r = foldT (fun b a => foldT f b (g a)) b l r.
Proof.
  revert b r; induction l as [|a l IH]; intros b r; cbn [flat_map foldT]; [reflexivity|].
  rewrite foldT_app. apply mbind_ext. intros. apply IH.
Qed.
Lemma foldT_map {A B C} (f : B -> C -> M B) (g : A -> C) l b r :
  foldT f b (map g l) r = foldT (fun b a => f b (g a)) b l r.
Proof. revert b r; induction l as [|a l IH]; intros b r; cbn [map foldT]; [reflexivity|]. apply mbind_ext. intros. apply IH. Qed.
Lemma foldT_ext {A B} (f g : B -> A -> M B) l b r : (forall b a r, f b a r = g b a r) -> foldT f b l r = foldT g b l r.
Proof.
  intro H. revert b r; induction l as [|a l IH]; intros b r; cbn [foldT]; [reflexivity|]. unfold mbind. rewrite H.
  destruct (g b a r) as [[x|e|] r1]; auto.
Qed.

(** ** Signatures *)
Definition sig_steps (s : session) : list (inst * signet) :=
  flat_map (fun i => map (pair i) (loop (i_name i) (e_senders (s_env s)))) (s_signers s).

Definition signed (cr : crypto) (h : bytes -> bytes) (x : inst * signet) (v : seal) : Prop :=
  exists k d, sg_priv (snd x) = PKey k /\ (is_pss (fst x) && no_crypto_hash (fst x) = false)
    /\ cr_sign cr (i_name (fst x)) (i_arg (fst x)) k (cr_hash cr (i_arg (fst x)) (h (i_arg (fst x)))) d = Some (seal_value v)
    /\ seal_scheme v = i_name (fst x) /\ seal_id v = sg_id (snd x).
Definition verified (cr : crypto) (h : bytes -> bytes) (x : inst * signet) (v : seal) : Prop :=
  exists p, sg_pub (snd x) = Some p /\ (is_pss (fst x) && no_crypto_hash (fst x) = false)
    /\ cr_verify cr (i_name (fst x)) (i_arg (fst x)) p (cr_hash cr (i_arg (fst x)) (h (i_arg (fst x)))) (seal_value v) = true.

Lemma sign_ok cr i sg r v r' : sign cr i sg r = (Ok v, r') ->
  (exists k d, sg_priv sg = PKey k /\ (is_pss i && no_crypto_hash i = false)
    /\ cr_sign cr (i_name i) (i_arg i) k (cr_hash cr (i_arg i) (r_sigh r (i_arg i))) d = Some v)
  /\ exists n, r' = set_draw r n.
Proof.
  unfold sign. destruct (sg_priv sg) as [| |k]; [discriminate|destruct (is_pss i); [destruct (no_crypto_hash i)|]; discriminate|].
  destruct (_ && _) eqn:EB; [discriminate|]. unfold mbind, digest, gets. intro H.
  destruct (cr_sign _ _ _ _ _ _) as [v'|] eqn:E; [|discriminate]. injection H as -> <-. eauto 8.
Qed.
Lemma sign_all_ok cr s l r sigs r' : sign_all cr s l r = (Ok sigs, r') ->
  Forall2 (signed cr (r_sigh r)) (sig_steps s) sigs /\ exists n, r' = set_draw r n.
Proof.
  unfold sign_all, env.
  assert (G : forall xs acc r sigs r',
     foldT (fun acc x => run v <- sign cr (fst x) (snd x); ret (acc ++ [mkSeal (i_name (fst x)) (sg_id (snd x)) v])) acc xs r = (Ok sigs, r') ->
     exists new, sigs = acc ++ new /\ Forall2 (signed cr (r_sigh r)) xs new /\ exists n, r' = set_draw r n).
  { induction xs as [|[i sg] xs IH]; intros acc q sg' q' H; cbn [foldT] in H.
    - injection H as <- <-. exists []. rewrite app_nil_r. split; [reflexivity|]. split; [constructor|]. exists (r_draw q). now destruct q.
    - apply mbind_ok in H as (b & q1 & H1 & H). apply mbind_ok in H1 as (v & q2 & H1 & H2). injection H2 as <- <-.
      cbn [fst snd] in *. apply sign_ok in H1 as ((k & d & P1 & P2 & P3) & n & ->). apply IH in H as (new & -> & F & n' & ->).
      exists (mkSeal (i_name i) (sg_id sg) v :: new). split; [now rewrite <- app_assoc|]. split; [|exists n'; reflexivity].
      constructor; [|exact F]. exists k, d. auto. }
  intro H. destruct (G (sig_steps s) [] r sigs r') as (new & -> & F & D); [|split; assumption].
  rewrite <- H. unfold sig_steps. rewrite foldT_flat. apply foldT_ext. intros b i q. now rewrite foldT_map.
Qed.

Lemma verify_run cr i sg v r :
  verify cr i sg v r = match sg_pub sg with
    | None => (Err EInvalidKey, r)
    | Some p => if is_pss i && no_crypto_hash i then (Err EOther, r)
                else if cr_verify cr (i_name i) (i_arg i) p (cr_hash cr (i_arg i) (r_sigh r (i_arg i))) v then (Ok tt, r) else (Err EOther, r)
    end.
Proof.
  unfold verify, mbind, digest, gets, check, fail, ret. destruct (sg_pub sg); [|reflexivity]. destruct (_ && _); [reflexivity|].
  now destruct (cr_verify _ _ _ _ _ _).
Qed.

Lemma verify_all_flat cr s l r :
  verify_all cr s l r = foldT (fun n x => run v <- sig_at l n; run _ <- verify cr (fst x) (snd x) (seal_value v); ret (S n)) 0 (sig_steps s) r.
Proof.
  unfold verify_all, env, sig_steps. rewrite foldT_flat. apply foldT_ext. intros b i q. now rewrite foldT_map.
Qed.
Lemma verify_all_complete cr s l r : Forall2 (verified cr (r_sigh r)) (sig_steps s) (l_sigs l) ->
  exists n, verify_all cr s l r = (Ok n, r).
Proof.
  rewrite verify_all_flat.
  assert (G : forall xs post n, Forall2 (verified cr (r_sigh r)) xs post -> (exists pre, l_sigs l = pre ++ post /\ length pre = n) ->
     exists m, foldT (fun n x => run v <- sig_at l n; run _ <- verify cr (fst x) (snd x) (seal_value v); ret (S n)) n xs r = (Ok m, r)).
  { induction xs as [|x xs IH]; intros post n F (pre & E & L); inversion F as [|? v ? post' V F']; subst; cbn [foldT].
    - eexists; reflexivity.
    - assert (R1 : (run v <- sig_at l (length pre); run _ <- verify cr (fst x) (snd x) (seal_value v); ret (S (length pre))) r = (Ok (S (length pre)), r)).
      { unfold mbind, sig_at. rewrite E, nth_error_app2, Nat.sub_diag by lia. cbn [nth_error ret].
        rewrite verify_run. destruct V as (p & -> & -> & ->). reflexivity. }
      rewrite (mbind_run _ _ _ _ _ R1).
      apply (IH post' (S (length pre)) F'). exists (pre ++ [v]). rewrite E, <- app_assoc, app_length. split; [reflexivity|cbn; lia]. }
  intro F. apply (G _ _ _ F). now exists [].
Qed.
Lemma verify_all_sound cr s l r n r' : verify_all cr s l r = (Ok n, r') ->
  r' = r /\ n = length (sig_steps s) /\ n <= length (l_sigs l) /\
  forall k x, nth_error (sig_steps s) k = Some x -> exists v, nth_error (l_sigs l) k = Some v /\ verified cr (r_sigh r) x v.
Proof.
  rewrite verify_all_flat. generalize (sig_steps s) as xs.
  assert (G : forall xs m n r', m <= length (l_sigs l) ->
     foldT (fun n x => run v <- sig_at l n; run _ <- verify cr (fst x) (snd x) (seal_value v); ret (S n)) m xs r = (Ok n, r') ->
     r' = r /\ n = m + length xs /\ n <= length (l_sigs l) /\
     forall k x, nth_error xs k = Some x -> exists v, nth_error (l_sigs l) (m + k) = Some v /\ verified cr (r_sigh r) x v).
  { induction xs as [|x xs IH]; intros m n' q' Lm H; cbn [foldT] in H.
    - injection H as <- <-. cbn. split; [reflexivity|]. split; [lia|]. split; [lia|]. intros [|]; discriminate.
    - apply mbind_ok in H as (b & q1 & H1 & H). apply mbind_ok in H1 as (v & q2 & H1 & H2).
      unfold sig_at in H1. destruct (nth_error (l_sigs l) m) as [v'|] eqn:EV; [|discriminate]. injection H1 as <- <-.
      apply mbind_ok in H2 as ([] & q2 & H1 & H2). injection H2 as <- <-. rewrite verify_run in H1.
      destruct (sg_pub (snd x)) as [p|] eqn:EP; [|discriminate]. destruct (_ && _) eqn:EB; [discriminate|].
      destruct (cr_verify _ _ _ _ _ _) eqn:EC; [|discriminate]. injection H1 as <-.
      assert (m < length (l_sigs l)) by (apply nth_error_Some; congruence).
      destruct (IH (S m) n' q' ltac:(lia) H) as (-> & -> & L & V). split; [reflexivity|]. split; [cbn; lia|]. split; [exact L|].
      intros [|k] y Hy; cbn in Hy.
      + injection Hy as <-. rewrite Nat.add_0_r. exists v'. split; [exact EV|]. exists p. auto.
      + rewrite <- Nat.add_succ_comm. now apply V. }
  intros xs H. destruct (G xs 0 n r' ltac:(lia) H) as (A & B & C & D). auto.
Qed.

(** ** The part of Close after the key derivation is ready *)
Section Tail.
Variables (cr : crypto) (s : session).
Hypothesis keyed : forall i, In i (s_aead s) \/ In i (s_ciph s) \/ In i (s_macs s) -> In i (s_stateful s).
Hypothesis ivs : forall i, In i (s_aead s) \/ In i (s_ciph s) -> has_iv i = true.
Hypothesis ids : NoDup (map i_idx (s_stateful s)).
Hypothesis macs_ids : NoDup (map i_idx (s_macs s)).

Definition close_tail (full : bool) (data : bytes) (l : letter) : M letter :=
  run _ <- setup cr s;
  deferred (reset s)
    (run d <- encrypt cr s full data;
     let ad := if uses_ad s then assoc_data l else [] in
     run d <- foldT (fun d i => aead_seal cr ad i d) d (s_aead s);
     (if nonempty (s_macs s)
      then with_mac_hashers s (d ++ ad)
             (run m <- macs cr s d ad; close_sign cr s (set_mac (set_data l d) m) ad)
      else close_sign cr s (set_data l d) ad)).

Definition session_keys (nonce secret : bytes) (off : nat) : option (list (inst * bytes * bytes)) :=
  derived cr (kdf_name s) (kdf_hash s) nonce secret (slots (s_dks s) (s_stateful s) off).

(** The letter before it is signed. *)
Definition sealed (kvs : list (inst * bytes * bytes)) (data : bytes) (l : letter) : letter :=
  let ad := if uses_ad s then assoc_data l else [] in
  let d := fold_left (p_seal cr kvs ad) (s_aead s) (fold_left (p_cipher cr kvs) (s_ciph s) data) in
  set_mac (set_data l d) (if nonempty (s_macs s) then p_macs cr kvs d ad (s_macs s) else l_mac l).

Definition sig_input (l : letter) : bytes := l_data l ++ assoc_signing_data l (if uses_ad s then assoc_data l else []).
Definition sig_fed (l : letter) : bytes -> bytes := fed (s_sig_hashers s) (fun _ => []) (sig_input l).

Lemma same_but_keys_held r r' hm hs : same_but_keys r r' -> held no_use hm hs r -> held no_use hm hs r'.
Proof.
  intros S H. destruct S as [S1 S2 S3 S4 S5 S6 S7 S8], H as [H1 H2 H3 H4]. constructor.
  - intro x. now rewrite S2. - intro x. now rewrite S3. - intros n Hn. rewrite S8. auto. - congruence.
Qed.

Lemma kvs_inj nonce secret off kvs r r' : each (setup_tool cr s) (s_stateful s) r = (Ok tt, r') ->
  map (fun x => fst (fst x)) kvs = s_stateful s -> session_keys nonce secret off = Some kvs ->
  forall i j, In i (map (fun x => fst (fst x)) kvs) -> In j (map (fun x => fst (fst x)) kvs) -> i_idx i = i_idx j -> i = j.
Proof.
  intros _ -> _ i j Hi Hj E. clear - ids Hi Hj E. revert ids Hi Hj.
  generalize (s_stateful s) as l. induction l as [|a l IH]; intros ND Hi Hj; [easy|]. cbn in ND. inversion ND as [|? ? N ND']; subst.
  destruct Hi as [<-|Hi], Hj as [<-|Hj]; auto.
  - exfalso. apply N. rewrite E. apply in_map_iff. eauto.
  - exfalso. apply N. rewrite <- E. apply in_map_iff. eauto.
Qed.

Lemma setup_spec nonce secret off r : r_kdf r = Some (mkKdf nonce secret off) ->
  match session_keys nonce secret off with
  | Some kvs => exists r', setup cr s r = (Ok tt, r') /\ ready kvs r' /\ same_but_keys r r'
      /\ map (fun x => fst (fst x)) kvs = s_stateful s
      /\ (forall i j, In i (map (fun x => fst (fst x)) kvs) -> In j (map (fun x => fst (fst x)) kvs) -> i_idx i = i_idx j -> i = j)
      /\ keyed_iv kvs (s_aead s) /\ keyed_iv kvs (s_ciph s) /\ (forall i, In i (s_macs s) -> in_keys kvs i)
  | None => exists e r', setup cr s r = (Err e, r')
  end.
Proof.
  intro EK. pose proof (setup_run cr s (s_stateful s) nonce secret off r ids EK) as H. unfold session_keys, setup.
  destruct (derived _ _ _ _ _ _) as [kvs|] eqn:D; [|exact H]. destruct H as (r' & E & H & SB & MP & _). exists r'.
  split; [exact E|]. split; [exact H|]. split; [exact SB|]. split; [exact MP|].
  split; [apply (kvs_inj nonce secret off kvs r r' E MP D)|].
  split; [|split]; intros i Hi; unfold in_keys; rewrite MP.
  - split; [apply keyed|apply ivs]; auto.
  - split; [apply keyed|apply ivs]; auto.
  - apply keyed; auto.
Qed.

Lemma close_sign_ok hm l ad r l' r' : held no_use hm (fun _ => []) r \/ (forall x, r_sigh r x = []) ->
  ad = (if uses_ad s then assoc_data l else []) ->
  close_sign cr s l ad r = (Ok l', r') ->
  l' = set_sigs l (l_sigs l') /\ (nonempty (s_signers s) = false -> l' = l)
  /\ (nonempty (s_signers s) = true -> Forall2 (signed cr (sig_fed l)) (sig_steps s) (l_sigs l'))
  /\ r_buf r' = r_buf r /\ r_wire r' = r_wire r.
Proof.
  intros HR EA H. assert (HS : forall x, r_sigh r x = []) by (destruct HR as [[]|]; auto). clear HR. unfold close_sign in H.
  destruct (nonempty (s_signers s)).
  - unfold with_sig_hashers, mbind, modify, deferred in H.
    match type of H with context [sign_all cr s l ?q] => destruct (sign_all cr s l q) as [[sigs|e|] q1] eqn:E end; [|discriminate..].
    injection H as <- <-. apply sign_all_ok in E as [F (n & ->)]. cbn [set_sigh r_sigh] in F.
    split; [reflexivity|]. split; [discriminate|]. split; [intros _; cbn; rewrite EA in F|split; reflexivity].
    clear - F HS. induction F as [|x v xs vs (k & d & P1 & P2 & P3 & P4) F IH]; [constructor|].
    constructor; [|exact IH]. exists k, d. split; [exact P1|]. split; [exact P2|]. split; [|exact P4].
    rewrite <- P3. f_equal. f_equal. unfold sig_fed, fed, sig_input. now rewrite HS.
  - injection H as <- <-. split; [now destruct l|]. split; [reflexivity|]. split; [discriminate|]. split; reflexivity.
Qed.

Lemma close_tail_ok full data l nonce secret off r l' r' :
  held no_use (fun _ => []) (fun _ => []) r -> r_kdf r = Some (mkKdf nonce secret off) -> l_sigs l = [] -> l_mac l = [] ->
  r_buf r = data ->
  close_tail full data l r = (Ok l', r') ->
  exists kvs, session_keys nonce secret off = Some kvs
    /\ l' = set_sigs (sealed kvs data l) (l_sigs l')
    /\ (nonempty (s_signers s) = false -> l_sigs l' = [])
    /\ (nonempty (s_signers s) = true -> Forall2 (signed cr (sig_fed (sealed kvs data l))) (sig_steps s) (l_sigs l'))
    /\ r_buf r' = (if full && nonempty (s_ciph s) then fold_left (p_cipher cr kvs) (s_ciph s) data else data).
Proof.
  intros HR EK ES EM EB H. unfold close_tail in H. apply mbind_ok in H as ([] & r1 & H1 & H).
  pose proof (setup_spec nonce secret off r EK) as SP. destruct (session_keys nonce secret off) as [kvs|];
    [|destruct SP as (e & q & SP); rewrite SP in H1; discriminate].
  destruct SP as (q & E & RD & SB & MP & INJ & KA & KC & KM). rewrite E in H1. injection H1 as ->.
  pose proof (same_but_keys_held _ _ _ _ SB HR) as HR1.
  exists kvs. split; [reflexivity|]. unfold deferred in H.
  match type of H with (let (x, r') := ?b in _) = _ => destruct b as [x q2] eqn:EQ end. injection H as -> <-.
  apply mbind_ok in EQ as (d & q3 & H3 & H).
  destruct (encrypt_run cr kvs INJ full data (s_ciph s) r1 RD KC) as (q3' & E3 & B3 & F3 & G3).
  unfold encrypt in H3. rewrite E3 in H3. injection H3 as <- ->.
  assert (RD3 : ready kvs q3) by (destruct B3 as (b & ->); exact RD).
  assert (HR3 : held no_use (fun _ => []) (fun _ => []) q3) by (destruct B3 as (b & ->); destruct HR1; constructor; auto).
  cbn zeta in H. rewrite (mbind_run _ _ _ _ _ (aead_seal_run cr kvs INJ _ _ (s_aead s) q3 RD3 KA)) in H.
  assert (BUF : r_buf q3 = if full && nonempty (s_ciph s) then fold_left (p_cipher cr kvs) (s_ciph s) data else data).
  { assert (B0 : r_buf r1 = data) by (rewrite (sk_buf _ _ SB); exact EB).
    destruct full; [destruct (s_ciph s) as [|i ci] eqn:EC|].
    - rewrite (F3 (or_intror eq_refl)). exact B0.
    - cbn [andb nonempty]. now apply G3.
    - rewrite (F3 (or_introl eq_refl)). exact B0. }
  destruct (reset_frame s q2) as (_ & _ & _ & _ & _ & _ & RB & _). rewrite RB. clear RB.
  unfold sealed. cbn zeta. destruct (nonempty (s_macs s)) eqn:EMAC.
  - unfold with_mac_hashers, modify, deferred in H. unfold mbind at 1 in H.
    match type of H with (let (x, r') := mbind _ _ ?q in _) = _ => set (q4 := q) in * end.
    match type of H with (let (x, r') := ?b in _) = _ => destruct b as [x q5] eqn:EQ end. injection H as -> <-.
    set (D := fold_left (p_seal cr kvs _) _ _) in *. set (ad := if uses_ad s then assoc_data l else []) in *.
    destruct (macs_run cr kvs INJ D ad (s_macs s) [] q4 RD3 KM macs_ids) as (q6 & E6 & U6).
    { intros i Hi. destruct HR3. apply he_used. intros []. }
    unfold macs in EQ. rewrite (mbind_run _ _ _ _ _ E6) in EQ. cbn [app] in EQ.
    destruct U6 as (f & -> & _). 
    apply close_sign_ok with (hm := fun _ => []) in EQ as (EL & EN & EF & EBF & _); [| |reflexivity].
    + split; [|split; [|split]].
      * rewrite EL. reflexivity.
      * intro Z. rewrite (EN Z). exact ES.
      * exact EF.
      * cbn [r_buf set_mach]. rewrite EBF. exact BUF.
    + right. intro x. destruct HR3. cbn. auto.
  - apply close_sign_ok with (hm := fun _ => []) in H as (EL & EN & EF & EBF & _); [|left; exact HR3|reflexivity].
    assert (EM' : set_mac (set_data l (fold_left (p_seal cr kvs (if uses_ad s then assoc_data l else [])) (s_aead s)
        (fold_left (p_cipher cr kvs) (s_ciph s) data))) (l_mac l) = set_data l (fold_left (p_seal cr kvs (if uses_ad s then assoc_data l else [])) (s_aead s)
        (fold_left (p_cipher cr kvs) (s_ciph s) data))) by reflexivity.
    rewrite EM'. split; [rewrite EL; reflexivity|]. split; [intro Z; rewrite (EN Z); exact ES|]. split; [exact EF|].
    rewrite EBF. exact BUF.
Qed.

(** ** Opening, after the key derivation is ready *)
Definition open_tail (l : letter) : M bytes :=
  run _ <- setup cr s;
  deferred (reset s)
    (let body := run d <- foldT (fun d i => aead_open cr (open_ad s l) i d) (l_data l) (rev (s_aead s));
                 decrypt cr s d in
     if nonempty (s_macs s)
     then with_mac_hashers s (l_data l ++ open_ad s l)
            (run m <- macs cr s (l_data l) (open_ad s l);
             run _ <- check (bytes_eqb (l_mac l) m) EIntegrity;
             body)
     else body).

(** What opening computes, as a function of the keys. *)
Definition opened (kvs : list (inst * bytes * bytes)) (l : letter) : outcome bytes :=
  if nonempty (s_macs s) && negb (bytes_eqb (l_mac l) (p_macs cr kvs (l_data l) (open_ad s l) (s_macs s))) then Err EIntegrity
  else match p_opens cr kvs (open_ad s l) (l_data l) (rev (s_aead s)) with
       | Ok d => Ok (fold_left (p_cipher cr kvs) (rev (s_ciph s)) d)
       | x => x
       end.

Lemma keyed_rev kvs l : keyed_iv kvs l -> keyed_iv kvs (rev l).
Proof. intros H i Hi. apply H. now apply in_rev. Qed.

Lemma open_tail_run l nonce secret off r :
  (forall n, ts_used (r_tools r n) = false) -> r_kdf r = Some (mkKdf nonce secret off) ->
  match session_keys nonce secret off with
  | Some kvs => fst (open_tail l r) = opened kvs l
  | None => exists e, fst (open_tail l r) = Err e
  end.
Proof.
  intros HR EK. pose proof (setup_spec nonce secret off r EK) as SP. unfold open_tail.
  destruct (session_keys nonce secret off) as [kvs|]; [|destruct SP as (e & q & SP); unfold mbind at 1; rewrite SP; exists e; reflexivity].
  destruct SP as (q & SP & RD & SB & MP & INJ & KA & KC & KM). rewrite (mbind_run _ _ _ _ _ SP). unfold deferred. cbn zeta.
  match goal with |- context [if nonempty (s_macs s) then _ else ?b] => set (body := b) end.
  assert (B : forall q0, ready kvs q0 -> fst (body q0) = match p_opens cr kvs (open_ad s l) (l_data l) (rev (s_aead s)) with
       | Ok d => Ok (fold_left (p_cipher cr kvs) (rev (s_ciph s)) d) | x => x end).
  { intros q0 R0. unfold body, mbind.
    destruct (aead_opens_run cr kvs INJ (open_ad s l) (l_data l) (rev (s_aead s)) q0 R0 (keyed_rev _ _ KA)) as (q1 & -> & (b & ->)).
    destruct (p_opens _ _ _ _ _) as [d|e|]; [|reflexivity..].
    destruct (decrypt_run cr kvs INJ d (rev (s_ciph s)) (set_buf q0 b) R0 (keyed_rev _ _ KC)) as (q2 & E & _).
    unfold decrypt. rewrite E. reflexivity. }
  unfold opened. destruct (nonempty (s_macs s)) eqn:EM; cbn [andb].
  - unfold with_mac_hashers, modify, deferred. unfold mbind at 1. set (q4 := set_mach q _).
    destruct (macs_run cr kvs INJ (l_data l) (open_ad s l) (s_macs s) [] q4 RD KM macs_ids) as (q6 & E6 & U6).
    { intros i Hi. cbn. rewrite (sk_used _ _ SB). apply HR. }
    pose proof (used_only_ready _ _ _ _ U6 RD) as R6.
    unfold macs. rewrite (mbind_run _ _ _ _ _ E6). cbn [app]. unfold mbind at 1. unfold check.
    destruct (bytes_eqb _ _) eqn:EQ; cbn [negb]; [|reflexivity].
    specialize (B q6 R6). unfold ret. destruct (body q6) as [x q7]. exact B.
  - specialize (B q RD). destruct (body q) as [x q7]. exact B.
Qed.
End Tail.
