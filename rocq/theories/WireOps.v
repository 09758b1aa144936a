(** Wire sessions: one message, as a step of a key chain. *)
From Verif Require Export CoreWire.

Definition fin (b : bool) (w : wstate) : wstate := if b then burn_pairs w else w.

Section Ops.
Variables (c : config) (cr : crypto) (s : session).
Hypothesis sound : sound_session s.

(** The first part of sendHandshakeAndInitKDF and recvHandshakeAndInitKDF: what depends on
    the state of the handshake. *)
Definition send_mat (nonce : bytes) : M bool :=
  run w <- wire_st;
  match w_state w with
  | HInit => run _ <- closing_material c cr s nonce; run _ <- send_idle cr; ret false
  | HIdle => run _ <- send_idle cr; ret false
  | HSendKey =>
      run _ <- gen_local_kx cr; run _ <- make_shared cr; run _ <- gen_local_ke cr; run _ <- encap_new cr s;
      run m <- gets r_mat;
      run _ <- upd_wire (fun w => set_hs (set_new w m) HAwaitApply);
      ret false
  | HSendApply => run _ <- each add_mat (w_new w); ret true
  | HAwaitKey | HAwaitApply => ret false
  end.
Definition recv_mat (l : letter) : M bool :=
  run w <- wire_st;
  match w_state w with
  | HInit => run _ <- opening_material c cr s l; run _ <- recv_idle s l; ret false
  | HIdle => run _ <- recv_idle s l; ret false
  | HAwaitKey =>
      if nonempty (l_keys l) then
        run _ <- check (length (l_keys l) =? length (w_kx w) + length (w_ke w))%nat EOther;
        run _ <- start_index; run _ <- assign_kx l; run _ <- assign_ke_seal l;
        run _ <- make_shared cr; run _ <- unwrap_new cr;
        run m <- gets r_mat;
        run _ <- upd_wire (fun w => set_hs (set_new w m) HSendApply);
        ret false
      else ret false
  | HAwaitApply => if l_apply l then run _ <- each add_mat (w_new w); ret true else ret false
  | HSendKey | HSendApply => ret false
  end.
Lemma send_split nonce r : send_handshake c cr s nonce r =
  (run ab <- send_mat nonce; run _ <- carryover cr s true nonce;
   run _ <- (if ab : bool then upd_wire burn_pairs else ret tt); ret ab) r.
Proof. unfold send_handshake, send_mat. rewrite mbind_assoc. reflexivity. Qed.
Lemma recv_split l r : recv_handshake c cr s l r =
  (run b <- recv_mat l; run _ <- carryover cr s false (l_nonce l);
   if b : bool then upd_wire burn_pairs else ret tt) r.
Proof. unfold recv_handshake, recv_mat. rewrite mbind_assoc. reflexivity. Qed.

(** A letter that carries [data], with the seals [ks], key material [ms] and the apply flag
    [ab], on top of the carryover [prev]; the next carryover is [next]. *)
Record sent (l : letter) (data : bytes) (ks : list seal) (ms : list bytes) (ab : bool) (prev : option bytes) (next : bytes) : Prop := {
  se_link : linked cr s (l_nonce l) ms prev next;
  se_keys : l_keys l = ks;
  se_apply : l_apply l = ab;
  se_body : exists kvs l0, session_keys cr s (l_nonce l) (secret_of ms prev) (carry_size s prev) = Some kvs
              /\ l_mac l0 = [] /\ l = set_sigs (sealed cr s kvs data l0) []
}.

Definition base (r : rt) (data : bytes) : rt := set_buf r data.
Lemma close_unfold full data : forall r k, s_kdf s = Some k ->
  close_session c cr s full data r =
  (run _ <- modify (fun r => set_buf (set_acc r [] [] 0) data);
   run first <- gets (fun r => match r_wire r with None => true | Some w => (w_msgno w =? 0)%N end);
   run nonce <- rand cr (nonce_size s);
   run apply <- establish c cr s nonce;
   run keys <- gets r_keys;
   close_tail cr s full data (mkLetter (if first : bool then e_version (env s) else 0)%N (if first then e_suite_id (env s) else [])
                 nonce keys [] [] [] apply)) r.
Proof. intros r k H. unfold close_session. rewrite H. reflexivity. Qed.

Lemma carry_calm r d w ks ms n x : calm r -> calm (set_kdf (st r d w ks ms n) x).
Proof. intros []. constructor; cbn; auto. Qed.
Lemma st_kdf_burn r d w ks ms n x b : (if b : bool then upd_wire burn_pairs else ret tt) (set_kdf (st r d w ks ms n) x)
  = (Ok tt, set_kdf (st r d (fin b w) ks ms n) x).
Proof. destruct b; reflexivity. Qed.

Lemma send_op (P : bytes -> bool -> wstate -> list seal -> list bytes -> Prop) full data r w l r' k :
  s_kdf s = Some k -> s_signers s = [] -> calm r -> r_wire r = Some w ->
  (forall nonce d ab q, send_mat nonce (st (base r data) d w [] [] 0) = (Ok ab, q) ->
     exists d' w1 ks ms n, P nonce ab w1 ks ms /\ q = st (base r data) d' w1 ks ms n) ->
  close_session c cr s full data r = (Ok l, r') ->
  exists ab w1 ks ms next, P (l_nonce l) ab w1 ks ms /\ sent l data ks ms ab (prev_of true w1) next
    /\ calm r' /\ r_wire r' = Some (fin ab (moved true w1 next)).
Proof.
  intros EK NS C EW HM H. rewrite (close_unfold _ _ _ _ EK) in H.
  apply mbind_ok in H as ([] & r1 & H1 & H). injection H1 as <-.
  apply mbind_ok in H as (first & r1 & H1 & H). injection H1 as _ <-.
  apply mbind_ok in H as (nonce & r1 & H1 & H). unfold rand in H1. injection H1 as ER <-.
  apply mbind_ok in H as (ab & r1 & H1 & H). unfold establish in H1. unfold mbind at 1 in H1. unfold is_wire, gets in H1. rs in H1. rewrite EW in H1. cbn [is_none negb] in H1.
  match type of H1 with context [send_handshake _ _ _ _ ?q] =>
    assert (ES : q = st (base r data) (S (r_draw r)) w [] [] 0) by (unfold st, base; destruct r; cbn in *; subst; reflexivity) end.
  rewrite ES, send_split in H1. apply mbind_ok in H1 as (ab' & r2 & H1 & H2).
  destruct (HM _ _ _ _ H1) as (d' & w1 & ks & ms & n & HP & ->). clear H1 HM.
  apply mbind_ok in H2 as ([] & r3 & H1 & H2). destruct (carryover_run cr s true nonce (base r data) d' w1 ks ms n) as [CR1 CR2].
  destruct (CR1 _ _ H1) as (next & LK). rewrite (CR2 _ LK) in H1. injection H1 as <-. clear CR1 CR2.
  rewrite (mbind_run _ _ _ _ _ (st_kdf_burn _ _ _ _ _ _ _ _)) in H2. injection H2 as <- <-.
  apply mbind_ok in H as (keys & r1 & H1 & H). injection H1 as <- <-. rs in H.
  apply (wire_close_tail cr s sound full data _ nonce (secret_of ms (prev_of true w1)) (carry_size s (prev_of true w1))) in H; auto.
  2: { apply carry_calm. destruct C; constructor; cbn; auto. }
  destruct H as (C' & W' & kvs & SK & EL).
  exists ab', w1, ks, ms, next. rewrite EL at 1. cbn [l_nonce set_sigs sealed set_mac set_data]. split; [exact HP|].
  split; [|split; [exact C'|exact W']].
  constructor; rewrite ?EL; cbn [l_nonce l_keys l_apply set_sigs sealed set_mac set_data]; auto.
  exists kvs. eexists. split; [exact SK|]. split; [|reflexivity]. reflexivity.
Qed.
End Ops.

Lemma linked_twins cr s1 s2 nonce ms prev next : twins s1 s2 -> linked cr s1 nonce ms prev next -> linked cr s2 nonce ms prev next.
Proof.
  intros T [L1 L2 L3]. constructor; auto.
  - rewrite <- (tw_dks _ _ T). exact L1.
  - unfold kdf_name, kdf_hash, carry_size in *. rewrite <- (tw_kdf _ _ T), <- (tw_dks _ _ T). exact L3.
Qed.

Lemma recv_op c cr s1 s2 l r w d' w1 ks' ms n data ks ab prev next b k :
  crypto_laws cr -> twins s1 s2 -> sound_session s2 -> s_kdf s2 = Some k -> s_signers s2 = [] ->
  calm r -> r_wire r = Some w ->
  recv_mat c cr s2 l (st (base r (l_data l)) (r_draw r) w [] [] 0) = (Ok b, st (base r (l_data l)) d' w1 ks' ms n) ->
  sent cr s1 l data ks ms ab prev next -> prev_of false w1 = prev ->
  exists r', open_session c cr s2 l r = (Ok data, r') /\ calm r' /\ r_wire r' = Some (fin b (moved false w1 next)).
Proof.
  intros L T S2 EK NS C EW HM [LK _ _ (kvs & l0 & SK & EM & EB)] EP.
  assert (ER : exists q, open_session c cr s2 l r = open_tail cr s2 l q /\ calm q /\ r_wire q = Some (fin b (moved false w1 next))
     /\ r_kdf q = Some (mkKdf (l_nonce l) (secret_of ms prev) (carry_size s2 prev))).
  { unfold open_session. unfold mbind at 1. rs. unfold mbind at 1. unfold is_wire, gets. rs. rewrite EW. cbn [is_none negb].
    unfold mbind at 1. unfold ret. rewrite NS. cbn [nonempty]. unfold open_payload. rewrite EK. unfold mbind at 1. unfold is_wire, gets. rs. rewrite EW. cbn [is_none negb].
    match goal with |- context [mbind (recv_handshake c cr s2 l) _ ?q] =>
      assert (ES : q = st (base r (l_data l)) (r_draw r) w [] [] 0) by (unfold st, base; destruct r; cbn in *; subst; reflexivity); rewrite ES end.
    match goal with |- context [mbind _ ?f _] => change f with (fun _ : unit => open_tail cr s2 l) end.
    rewrite (mbind_run _ _ _ tt (set_kdf (st (base r (l_data l)) d' (fin b (moved false w1 next)) ks' (ms ++ prev_list prev) n)
       (Some (mkKdf (l_nonce l) (secret_of ms prev) (carry_size s2 prev))))).
    - eexists. split; [reflexivity|]. split; [|split; reflexivity]. apply carry_calm. destruct C; constructor; cbn; auto.
    - rewrite recv_split, (mbind_run _ _ _ _ _ HM).
      destruct (carryover_run cr s2 false (l_nonce l) (base r (l_data l)) d' w1 ks' ms n) as [_ CR]. rewrite EP in CR.
      specialize (CR next (linked_twins _ _ _ _ _ _ _ T LK)).
      rewrite (mbind_run _ _ _ _ _ CR). apply st_kdf_burn. }
  destruct ER as (q & -> & Cq & Wq & Kq).
  pose proof (open_tail_run cr s2 (ss_keyed s2 S2) (ss_ivs s2 S2) (ss_ids s2 S2) (ss_macs_ids s2 S2) l (l_nonce l) (secret_of ms prev) (carry_size s2 prev) q (ca_used _ Cq) Kq) as RT.
  assert (EC : carry_size s2 prev = carry_size s1 prev) by (unfold carry_size; now rewrite (tw_dks _ _ T)). rewrite EC in RT.
  rewrite <- (slots_eq s1 s2 T), SK in RT. rewrite EB in RT at 2. rewrite (opened_sealed cr s1 s2 kvs data l0 [] L T EM) in RT.
  destruct (tail_calm (open_tail cr s2 l) q (wb_open_tail cr s2 l) (keep_open_tail cr s2 S2 l) Cq) as [C' W'].
  destruct (open_tail cr s2 l q) as [x r'] eqn:E. cbn [fst snd] in *. rewrite RT. exists r'. rewrite <- Wq. auto.
Qed.
