(** Two runs of Close from the same state with different data (C74). *)
From Verif Require Import CoreState CoreSession CoreTrip SpecCore SpecLeak.

(** ** Operations that look at nothing in the caller's buffer *)
Definition blind {A} (m : M A) : Prop := forall r b, m (set_buf r b) = (fst (m r), set_buf (snd (m r)) b).
Lemma blind_bind {A B} (m : M A) (f : A -> M B) : blind m -> (forall a, blind (f a)) -> blind (mbind m f).
Proof. intros Hm Hf r d. unfold mbind. rewrite Hm. destruct (m r) as [[a|e|] r1]; cbn [fst snd]; auto. apply Hf. Qed.
Lemma blind_each {A} (f : A -> M unit) l : (forall a, blind (f a)) -> blind (each f l).
Proof. intro H. induction l; cbn [each]; [now intros r d|]. now apply blind_bind. Qed.
Lemma blind_each_last {A} (f : A -> M unit) l : (forall a, blind (f a)) -> blind (each_last f l).
Proof.
  intro H. induction l as [|a [|b l] IH]; [now intros r d|apply H|].
  intros r d. rewrite !each_last_cons, (H a r d). destruct (f a r) as [[?|?|] r1]; cbn [fst snd]; auto.
Qed.
Lemma blind_ret {A} (a : A) : blind (ret a). Proof. now intros r d. Qed.
Lemma blind_fail {A} e : blind (@fail A e). Proof. now intros r d. Qed.
Lemma blind_panic {A} : blind (@panic A). Proof. now intros r d. Qed.
Lemma blind_lift {A} (x : outcome A) : blind (lift x). Proof. now intros r d. Qed.
Lemma blind_check b e : blind (check b e). Proof. now destruct b. Qed.
Lemma blind_upd_wire f : blind (upd_wire f). Proof. intros r d. unfold upd_wire, modify. cbn. now destruct (r_wire r). Qed.
Lemma blind_add_key k : blind (add_key k). Proof. now intros r d. Qed.
Lemma blind_add_mat k : blind (add_mat k). Proof. now intros r d. Qed.
Lemma blind_is_wire : blind is_wire. Proof. now intros r d. Qed.
Lemma blind_wire_st : blind wire_st. Proof. now intros r d. Qed.
Lemma blind_mat : blind (gets r_mat). Proof. now intros r d. Qed.
Lemma blind_keys : blind (gets r_keys). Proof. now intros r d. Qed.
Lemma blind_upd_tool i f : blind (upd_tool i f). Proof. now intros r d. Qed.
Lemma blind_rand cr z : blind (rand cr z). Proof. now intros r d. Qed.
Lemma blind_gen cr t : blind (gen cr t). Proof. now intros r d. Qed.
Lemma blind_kdf_init n m : blind (kdf_init n m). Proof. unfold kdf_init. destruct (_ || _); now intros r d. Qed.
Lemma blind_kdf_read cr s z : blind (kdf_read cr s z).
Proof. intros r d. unfold kdf_read. cbn. destruct (r_kdf r); [destruct (cr_kdf _ _ _ _ _ _ _)|]; reflexivity. Qed.
Lemma blind_encap cr i p k : blind (encap cr i p k). Proof. unfold encap. destruct p; now intros r d. Qed.
#[export] Hint Resolve blind_ret blind_fail blind_panic blind_lift blind_check blind_upd_wire blind_add_key blind_add_mat
  blind_is_wire blind_wire_st blind_mat blind_keys blind_upd_tool blind_rand blind_gen blind_kdf_init blind_kdf_read blind_encap : blind.
Ltac blind_auto := intros; repeat first
  [ solve [auto with blind]
  | apply blind_bind; intros
  | apply blind_each; intros
  | apply blind_each_last; intros
  | match goal with
    | |- blind (match ?x with _ => _ end) => destruct x
    | |- blind (let '(_, _) := ?x in _) => destruct x
    end ].

Section B.
Variables (c : config) (cr : crypto) (s : session).
Lemma blind_derive_pw p w : blind (derive_pw c cr s p w). Proof. unfold derive_pw. blind_auto. Qed.
Lemma blind_shared i p q : blind (shared cr i p q). Proof. unfold shared. blind_auto. Qed.
Hint Resolve blind_derive_pw blind_shared : blind.
Lemma blind_closing nonce : blind (closing_material c cr s nonce).
Proof. unfold closing_material, close_key, close_pw, close_kx, close_ke. blind_auto. Qed.
Hint Resolve blind_closing : blind.
Lemma blind_carryover b n : blind (carryover cr s b n).
Proof. unfold carryover. blind_auto. Qed.
Hint Resolve blind_carryover : blind.
Lemma blind_gen_local_kx : blind (gen_local_kx cr). Proof. unfold gen_local_kx. blind_auto. Qed.
Lemma blind_gen_local_ke : blind (gen_local_ke cr). Proof. unfold gen_local_ke. blind_auto. Qed.
Lemma blind_make_shared : blind (make_shared cr). Proof. unfold make_shared. blind_auto. Qed.
Lemma blind_encap_new : blind (encap_new cr s). Proof. unfold encap_new. blind_auto. Qed.
Hint Resolve blind_gen_local_kx blind_gen_local_ke blind_make_shared blind_encap_new : blind.
Lemma blind_send nonce : blind (send_handshake c cr s nonce).
Proof. unfold send_handshake, send_idle. blind_auto. Qed.
Hint Resolve blind_send : blind.
Lemma blind_establish nonce : blind (establish c cr s nonce).
Proof. unfold establish. blind_auto. Qed.
Lemma blind_setup : blind (setup cr s).
Proof. unfold setup, setup_tool. blind_auto. Qed.
End B.

(** ** Close: a part that knows nothing of the data, then the work on the data *)
Section Split.
Variables (c : config) (cr : crypto) (s : session).
Definition cover : M letter :=
  run _ <- modify (fun r => set_buf (set_acc r [] [] 0) []);
  run first <- gets (fun r => match r_wire r with None => true | Some w => (w_msgno w =? 0)%N end);
  run nonce <- rand cr (nonce_size s);
  match s_kdf s with
  | Some _ =>
      run apply <- establish c cr s nonce;
      run keys <- gets r_keys;
      run _ <- setup cr s;
      ret (mkLetter (if first then e_version (env s) else 0)%N (if first then e_suite_id (env s) else [])
                 nonce keys [] [] [] apply)
  | None => if needs_key s then fail EOther else
      ret (mkLetter (if first then e_version (env s) else 0)%N (if first then e_suite_id (env s) else []) nonce [] [] [] [] false)
  end.
Definition work (full : bool) (data : bytes) (l : letter) : M letter :=
  match s_kdf s with
  | Some _ =>
      deferred (reset s)
        (run d <- encrypt cr s full data;
         let ad := if uses_ad s then assoc_data l else [] in
         run d <- foldT (fun d i => aead_seal cr ad i d) d (s_aead s);
         (if nonempty (s_macs s)
          then with_mac_hashers s (d ++ ad)
                 (run m <- macs cr s d ad; close_sign cr s (set_mac (set_data l d) m) ad)
          else close_sign cr s (set_data l d) ad))
  | None => close_sign cr s (set_data l data) []
  end.
Lemma mbind_blind {A B} (m : M A) (f : A -> M B) r b : blind m ->
  mbind m f (set_buf r b) = match m r with (Ok a, q) => f a (set_buf q b) | (Err e, q) => (Err e, set_buf q b) | (Panic, q) => (Panic, set_buf q b) end.
Proof. intro H. unfold mbind. rewrite H. destruct (m r) as [[a|e|] q]; reflexivity. Qed.
Lemma mbind_eq {A B} (m : M A) (f : A -> M B) r :
  mbind m f r = match m r with (Ok a, q) => f a q | (Err e, q) => (Err e, q) | (Panic, q) => (Panic, q) end.
Proof. reflexivity. Qed.
Lemma close_split full data r : close_session c cr s full data r =
  match cover r with
  | (Ok l, q) => work full data l (set_buf q data)
  | (Err e, q) => (Err e, set_buf q data)
  | (Panic, q) => (Panic, set_buf q data)
  end.
Proof.
  set (r0 := set_buf (set_acc r [] [] 0) []). set (first := match r_wire r with None => true | Some w => (w_msgno w =? 0)%N end).
  unfold close_session, cover, work.
  rewrite (mbind_run (modify (fun r => set_buf (set_acc r [] [] 0) data)) _ r tt (set_buf r0 data) eq_refl).
  rewrite (mbind_run (modify (fun r => set_buf (set_acc r [] [] 0) [])) _ r tt r0 eq_refl).
  rewrite (mbind_run (gets _) _ (set_buf r0 data) first (set_buf r0 data) eq_refl).
  rewrite (mbind_run (gets _) _ r0 first r0 eq_refl).
  rewrite (mbind_blind (rand cr (nonce_size s)) _ r0 data (blind_rand _ _)).
  rewrite (mbind_eq (rand cr (nonce_size s)) _ r0). destruct (rand cr (nonce_size s) r0) as [[nonce|e|] q]; [|reflexivity..].
  destruct (s_kdf s) as [k|]; [|destruct (needs_key s); reflexivity].
  rewrite (mbind_blind (establish c cr s nonce) _ q data (blind_establish _ _ _ _)).
  rewrite (mbind_eq (establish c cr s nonce) _ q). destruct (establish c cr s nonce q) as [[ap|e|] q1]; [|reflexivity..].
  rewrite (mbind_run (gets r_keys) _ (set_buf q1 data) (r_keys q1) (set_buf q1 data) eq_refl).
  rewrite (mbind_run (gets r_keys) _ q1 (r_keys q1) q1 eq_refl). cbn zeta.
  rewrite (mbind_blind (setup cr s) _ q1 data (blind_setup _ _)).
  rewrite (mbind_eq (setup cr s) _ q1). destruct (setup cr s q1) as [[[]|e|] q2]; reflexivity.
Qed.

(** ** The work on the data *)
Definition crypt (tl : nat -> tstate) (d : bytes) (i : inst) : bytes := xor_bytes d (cr_stream cr (i_name i) (ts_key (tl (i_idx i))) (ts_iv (tl (i_idx i))) (length d)).
Definition seal_up (tl : nat -> tstate) (ad d : bytes) (i : inst) : bytes := cr_seal cr (i_name i) (ts_key (tl (i_idx i))) (ts_iv (tl (i_idx i))) ad d.
Lemma encrypt_eq full data r : exists b, encrypt cr s full data r = (Ok (fold_left (crypt (r_tools r)) (s_ciph s) data), set_buf r b).
Proof.
  unfold encrypt. revert data r. induction (s_ciph s) as [|i l IH]; intros data r; cbn [foldT fold_left].
  - exists (r_buf r). destruct r. reflexivity.
  - destruct full.
    + set (d' := crypt (r_tools r) data i). destruct (IH d' (set_buf r d')) as (b & E). exists b.
      erewrite mbind_run; [|unfold mbind, cipher, tool_st; reflexivity]. exact E.
    + erewrite mbind_run; [|unfold mbind, cipher, tool_st; reflexivity]. apply IH.
Qed.
Lemma seal_eq ad d r : foldT (fun d i => aead_seal cr ad i d) d (s_aead s) r = (Ok (fold_left (seal_up (r_tools r) ad) (s_aead s) d), r).
Proof.
  revert d. induction (s_aead s) as [|i l IH]; intro d; cbn [foldT fold_left]; [reflexivity|].
  erewrite mbind_run; [|unfold aead_seal, mbind, tool_st; reflexivity]. apply IH.
Qed.

(** The same but for the caller's buffer and what the hashers hold. *)
Record alike (r1 r2 : rt) : Prop := {
  al_draw : r_draw r1 = r_draw r2; al_kdf : r_kdf r1 = r_kdf r2; al_tools : r_tools r1 = r_tools r2;
  al_wire : r_wire r1 = r_wire r2; al_keys : r_keys r1 = r_keys r2; al_mat : r_mat r1 = r_mat r2; al_idx : r_idx r1 = r_idx r2 }.
Definition both {A} (P : A -> A -> Prop) (o1 o2 : outcome A) : Prop :=
  match o1, o2 with Ok a, Ok b => P a b | Err e, Err f => e = f | Panic, Panic => True | _, _ => False end.

Lemma mac_alike d1 d2 ad i r1 r2 : alike r1 r2 ->
  both (fun a b => d1 = d2 -> a = b) (fst (mac cr d1 ad i r1)) (fst (mac cr d2 ad i r2))
  /\ alike (snd (mac cr d1 ad i r1)) (snd (mac cr d2 ad i r2))
  /\ r_mach (snd (mac cr d1 ad i r1)) = r_mach r1 /\ r_sigh (snd (mac cr d1 ad i r1)) = r_sigh r1.
Proof.
  intros [A1 A2 A3 A4 A5 A6 A7]. unfold mac, mbind, tool_st, gets, check, upd_tool, modify, fail, ret. rewrite A3.
  destruct (is_poly i); [|repeat split; cbn; auto; congruence].
  destruct (ts_set _); [|repeat split; cbn; auto; congruence].
  destruct (ts_used _); cbn [negb]; [repeat split; cbn; auto; congruence|].
  split; [intros ->; reflexivity|]. split; [|split; reflexivity]. constructor; cbn; auto; now rewrite A3.
Qed.
Lemma macs_alike d1 d2 ad r1 r2 : alike r1 r2 ->
  both (fun a b => d1 = d2 -> a = b) (fst (macs cr s d1 ad r1)) (fst (macs cr s d2 ad r2))
  /\ alike (snd (macs cr s d1 ad r1)) (snd (macs cr s d2 ad r2))
  /\ r_mach (snd (macs cr s d1 ad r1)) = r_mach r1 /\ r_sigh (snd (macs cr s d1 ad r1)) = r_sigh r1.
Proof.
  unfold macs. cut (forall l a1 a2 r1 r2, (d1 = d2 -> a1 = a2) -> alike r1 r2 ->
    let f d := foldT (fun acc i => run m <- mac cr d ad i; ret (acc ++ m)) in
    both (fun a b => d1 = d2 -> a = b) (fst (f d1 a1 l r1)) (fst (f d2 a2 l r2))
    /\ alike (snd (f d1 a1 l r1)) (snd (f d2 a2 l r2)) /\ r_mach (snd (f d1 a1 l r1)) = r_mach r1 /\ r_sigh (snd (f d1 a1 l r1)) = r_sigh r1).
  { intro G. apply G. reflexivity. }
  clear r1 r2. intros l a1 a2 r1 r2 E A f. revert a1 a2 r1 r2 E A. induction l as [|i l IH]; intros a1 a2 r1 r2 E A; cbn [foldT].
  - repeat split; auto; apply A.
  - destruct (mac_alike d1 d2 ad i r1 r2 A) as (P & Q & M1 & M2).
    assert (ST : forall d a r, f d a (i :: l) r = match mac cr d ad i r with (Ok m, q) => f d (a ++ m) l q | (Err e, q) => (Err e, q) | (Panic, q) => (Panic, q) end).
    { intros d a r. unfold f. cbn [foldT]. unfold mbind, ret. destruct (mac cr d ad i r) as [[m|e|] q]; reflexivity. }
    rewrite !ST. clear ST. destruct (mac cr d1 ad i r1) as [[x|x|] q1], (mac cr d2 ad i r2) as [[y|y|] q2]; cbn [fst snd both] in *; try contradiction.
    + destruct (IH (a1 ++ x) (a2 ++ y) q1 q2) as (G1 & G2 & G3 & G4); [intro Z; now rewrite (E Z), (P Z)|exact Q|].
      fold f in G1, G2, G3, G4. rewrite G3, G4. auto.
    + auto.
    + auto.
Qed.

(** Signing: the signatures differ at most in their values, and in these only if what is signed differs. *)
Definition labels (l : list seal) := map (fun v => (seal_scheme v, seal_id v)) l.
Lemma sign_alike i sg r1 r2 a1 a2 q1 q2 : alike r1 r2 -> sign cr i sg r1 = (Ok a1, q1) -> sign cr i sg r2 = (Ok a2, q2) ->
  alike q1 q2 /\ r_mach q1 = r_mach r1 /\ r_mach q2 = r_mach r2 /\ r_sigh q1 = r_sigh r1 /\ r_sigh q2 = r_sigh r2 /\ ((forall x, r_sigh r1 x = r_sigh r2 x) -> a1 = a2).
Proof.
  intros [A1 A2 A3 A4 A5 A6 A7]. unfold sign. destruct (sg_priv sg) as [| |k]; [discriminate|destruct (is_pss i); [destruct (no_crypto_hash i)|]; discriminate|].
  destruct (_ && _); [discriminate|]. unfold mbind, digest, gets. rewrite A1.
  destruct (cr_sign _ _ _ _ (cr_hash _ _ (r_sigh r1 _)) _) as [v1|] eqn:E1; [|discriminate].
  destruct (cr_sign _ _ _ _ (cr_hash _ _ (r_sigh r2 _)) _) as [v2|] eqn:E2; [|discriminate]. intros H1 H2. injection H1 as <- <-. injection H2 as <- <-.
  split; [constructor; cbn; congruence|]. repeat (split; [reflexivity|]). intro Z. rewrite Z in E1. congruence.
Qed.
Lemma sign_all_alike l1 l2 r1 r2 a1 a2 q1 q2 : alike r1 r2 -> sign_all cr s l1 r1 = (Ok a1, q1) -> sign_all cr s l2 r2 = (Ok a2, q2) ->
  alike q1 q2 /\ r_mach q1 = r_mach r1 /\ r_mach q2 = r_mach r2 /\ r_sigh q1 = r_sigh r1 /\ r_sigh q2 = r_sigh r2
  /\ labels a1 = labels a2 /\ ((forall x, r_sigh r1 x = r_sigh r2 x) -> a1 = a2).
Proof.
  set (R := fun r1 r2 (b1 b2 : list seal) => alike r1 r2 /\ labels b1 = labels b2 /\ ((forall x, r_sigh r1 x = r_sigh r2 x) -> b1 = b2)).
  cut (forall (steps : list (inst * signet)) b1 b2 r1 r2 a1 a2 q1 q2, R r1 r2 b1 b2 ->
    foldT (fun acc p => run v <- sign cr (fst p) (snd p); ret (acc ++ [mkSeal (i_name (fst p)) (sg_id (snd p)) v])) b1 steps r1 = (Ok a1, q1) ->
    foldT (fun acc p => run v <- sign cr (fst p) (snd p); ret (acc ++ [mkSeal (i_name (fst p)) (sg_id (snd p)) v])) b2 steps r2 = (Ok a2, q2) ->
    R q1 q2 a1 a2 /\ r_mach q1 = r_mach r1 /\ r_mach q2 = r_mach r2 /\ r_sigh q1 = r_sigh r1 /\ r_sigh q2 = r_sigh r2).
  { intros G A H1 H2. unfold sign_all in *.
    destruct (G (flat_map (fun i => map (pair i) (loop (i_name i) (e_senders (env s)))) (s_signers s)) [] [] r1 r2 a1 a2 q1 q2) as ((B1 & B2 & B3) & B4 & B5 & B6 & B7).
    - split; [exact A|]. split; auto.
    - rewrite <- H1. rewrite foldT_flat. apply foldT_ext. intros b i q. now rewrite foldT_map.
    - rewrite <- H2. rewrite foldT_flat. apply foldT_ext. intros b i q. now rewrite foldT_map.
    - rewrite B6, B7 in B3. auto 10. }
  clear. induction steps as [|[i sg] steps IH]; intros b1 b2 r1 r2 a1 a2 q1 q2 HR H1 H2; cbn [foldT fst snd] in *.
  - injection H1 as <- <-. injection H2 as <- <-. auto.
  - apply mbind_ok in H1 as (x1 & p1 & H1 & K1). apply mbind_ok in H2 as (x2 & p2 & H2 & K2).
    apply mbind_ok in H1 as (v1 & o1 & H1 & J1). apply mbind_ok in H2 as (v2 & o2 & H2 & J2). injection J1 as <- <-. injection J2 as <- <-.
    destruct HR as (A & L & Q). destruct (sign_alike _ _ _ _ _ _ _ _ A H1 H2) as (A' & M1 & M2 & S1 & S2 & V).
    assert (HR' : R o1 o2 (b1 ++ [mkSeal (i_name i) (sg_id sg) v1]) (b2 ++ [mkSeal (i_name i) (sg_id sg) v2])).
    { split; [exact A'|]. split; [unfold labels in *; rewrite !map_app, L; reflexivity|]. intro Z. rewrite S1, S2 in Z. now rewrite (Q Z), (V Z). }
    destruct (IH _ _ _ _ _ _ _ _ HR' K1 K2) as (B & C1 & C2 & C3 & C4).
    rewrite C1, C2, C3, C4. auto.
Qed.

Definition no_sigs (l : letter) := set_sigs l [].
Lemma close_sign_alike l1 l2 ad r1 r2 a1 a2 q1 q2 : alike r1 r2 -> (forall x, r_sigh r1 x = r_sigh r2 x) ->
  close_sign cr s l1 ad r1 = (Ok a1, q1) -> close_sign cr s l2 ad r2 = (Ok a2, q2) -> l_sigs l1 = l_sigs l2 ->
  alike q1 q2 /\ r_mach q1 = r_mach r1 /\ r_mach q2 = r_mach r2 /\ (forall x, r_sigh q1 x = r_sigh q2 x)
  /\ no_sigs a1 = no_sigs l1 /\ no_sigs a2 = no_sigs l2 /\ labels (l_sigs a1) = labels (l_sigs a2) /\ (l1 = l2 -> a1 = a2).
Proof.
  intros A G H1 H2 EL. unfold close_sign in *. destruct (nonempty (s_signers s)); [|injection H1 as <- <-; injection H2 as <- <-; rewrite EL; auto 10].
  unfold with_sig_hashers, deferred in *. rewrite mbind_eq in H1, H2. unfold modify in H1, H2.
  match type of H1 with (let (x, r') := ?m ?q in _) = _ => set (p1 := q) in *; destruct (m p1) as [o1 t1] eqn:R1 end.
  match type of H2 with (let (x, r') := ?m ?q in _) = _ => set (p2 := q) in *; destruct (m p2) as [o2 t2] eqn:R2 end.
  injection H1 as -> <-. injection H2 as -> <-. apply mbind_ok in R1 as (g1 & u1 & R1 & E1). apply mbind_ok in R2 as (g2 & u2 & R2 & E2).
  injection E1 as <- <-. injection E2 as <- <-.
  assert (A' : alike p1 p2) by (destruct A; constructor; cbn; assumption).
  destruct (sign_all_alike _ _ _ _ _ _ _ _ A' R1 R2) as (B & M1 & M2 & S1 & S2 & L & V).
  split; [destruct B; constructor; cbn; assumption|]. cbn [r_mach set_sigh r_sigh]. split; [exact M1|]. split; [exact M2|].
  split; [|split; [reflexivity|]; split; [reflexivity|]; split; [exact L|]].
  - intro x. rewrite S1, S2. unfold p1, p2, emptied, fed. cbn [r_sigh set_sigh]. destruct (existsb _ _); [reflexivity|apply G].
  - intros ->. cbn in V. rewrite V; [reflexivity|]. intro x. unfold p1, p2, fed. cbn [r_sigh set_sigh]. now rewrite G.
Qed.
Lemma close_sign_outcome l1 l2 ad r1 r2 : nonempty (s_signers s) = false -> close_sign cr s l1 ad r1 = (Ok l1, r1) /\ close_sign cr s l2 ad r2 = (Ok l2, r2).
Proof. intro N. unfold close_sign. rewrite N. split; reflexivity. Qed.

Lemma reset_alike r1 r2 : alike r1 r2 -> alike (reset s r1) (reset s r2) /\ r_mach (reset s r1) = r_mach r1 /\ r_sigh (reset s r1) = r_sigh r1.
Proof.
  unfold reset. revert r1 r2. induction (s_stateful s) as [|i l IH]; intros r1 r2 A; cbn [fold_left]; [auto|].
  destruct (IH (reset_tool r1 i) (reset_tool r2 i)) as (B & M1 & S1); [|split; [exact B|]; split; [exact M1|exact S1]].
  destruct A as [A1 A2 A3 A4 A5 A6 A7]. constructor; cbn; auto. now rewrite A3.
Qed.
Lemma reset_frame' r : r_mach (reset s r) = r_mach r /\ r_sigh (reset s r) = r_sigh r.
Proof. destruct (reset_alike r r) as (_ & B); [constructor; reflexivity|exact B]. Qed.

(** What [work] makes of the data. *)
Definition ciphertext (q : rt) (l : letter) (data : bytes) : bytes :=
  match s_kdf s with
  | Some _ => fold_left (seal_up (r_tools q) (if uses_ad s then assoc_data l else [])) (s_aead s) (fold_left (crypt (r_tools q)) (s_ciph s) data)
  | None => data
  end.
Lemma work_alike f1 f2 d1 d2 l q a1 a2 q1 q2 : l_sigs l = [] ->
  work f1 d1 l (set_buf q d1) = (Ok a1, q1) -> work f2 d2 l (set_buf q d2) = (Ok a2, q2) ->
  alike q1 q2 /\ (forall x, r_mach q1 x = r_mach q2 x) /\ (forall x, r_sigh q1 x = r_sigh q2 x)
  /\ l_data a1 = ciphertext q l d1 /\ l_data a2 = ciphertext q l d2
  /\ no_sigs (set_mac (set_data a1 []) []) = no_sigs (set_mac (set_data l []) []) /\ no_sigs (set_mac (set_data a2 []) []) = no_sigs (set_mac (set_data l []) [])
  /\ labels (l_sigs a1) = labels (l_sigs a2) /\ (l_data a1 = l_data a2 -> a1 = a2).
Proof.
  intros NS H1 H2. unfold work in *. unfold ciphertext. destruct (s_kdf s) as [k|].
  - unfold deferred in H1, H2.
    match type of H1 with (let (x, r') := ?m in _) = _ => destruct m as [o1 t1] eqn:R1 end.
    match type of H2 with (let (x, r') := ?m in _) = _ => destruct m as [o2 t2] eqn:R2 end.
    injection H1 as -> <-. injection H2 as -> <-. set (ad := if uses_ad s then assoc_data l else []) in *.
    destruct (encrypt_eq f1 d1 (set_buf q d1)) as (b1 & E1). destruct (encrypt_eq f2 d2 (set_buf q d2)) as (b2 & E2).
    rewrite (mbind_run _ _ _ _ _ E1) in R1. rewrite (mbind_run _ _ _ _ _ E2) in R2. cbn zeta in R1, R2.
    rewrite (mbind_run _ _ _ _ _ (seal_eq _ _ _)) in R1. rewrite (mbind_run _ _ _ _ _ (seal_eq _ _ _)) in R2.
    cbn [r_tools set_buf] in R1, R2. set (c1 := fold_left (seal_up _ _) _ _) in R1. set (c2 := fold_left (seal_up _ _) _ _) in R2. fold c1 c2. clear E1 E2.
    change (set_buf (set_buf q d1) b1) with (set_buf q b1) in R1. change (set_buf (set_buf q d2) b2) with (set_buf q b2) in R2.
    assert (A : alike (set_buf q b1) (set_buf q b2)) by (constructor; reflexivity).
    cut (alike t1 t2 /\ (forall x, r_mach t1 x = r_mach t2 x) /\ (forall x, r_sigh t1 x = r_sigh t2 x)
      /\ l_data a1 = c1 /\ l_data a2 = c2 /\ no_sigs (set_mac (set_data a1 []) []) = no_sigs (set_mac (set_data l []) [])
      /\ no_sigs (set_mac (set_data a2 []) []) = no_sigs (set_mac (set_data l []) []) /\ labels (l_sigs a1) = labels (l_sigs a2) /\ (c1 = c2 -> a1 = a2)).
    { intros (B & BM & BS & L1 & L2 & N1 & N2 & LB & V). destruct (reset_alike t1 t2 B) as (B' & _). destruct (reset_frame' t1) as [F1 F2]. destruct (reset_frame' t2) as [F3 F4].
      rewrite F1, F2, F3, F4, L1, L2. auto 10. }
    destruct (nonempty (s_macs s)).
    + unfold with_mac_hashers, deferred in R1, R2. rewrite mbind_eq in R1, R2. unfold modify in R1, R2.
      match type of R1 with (let (x, r') := ?m ?q in _) = _ => set (p1 := q) in *; destruct (m p1) as [o1 u1] eqn:T1 end.
      match type of R2 with (let (x, r') := ?m ?q in _) = _ => set (p2 := q) in *; destruct (m p2) as [o2 u2] eqn:T2 end.
      injection R1 as -> <-. injection R2 as -> <-. apply mbind_ok in T1 as (m1 & v1 & T1 & S1). apply mbind_ok in T2 as (m2 & v2 & T2 & S2).
      assert (A' : alike p1 p2) by (destruct A; constructor; cbn; assumption).
      destruct (macs_alike c1 c2 ad p1 p2 A') as (B1 & B2 & B3 & B4).
      assert (A'' : alike p2 p1) by (destruct A'; constructor; congruence).
      destruct (macs_alike c2 c1 ad p2 p1 A'') as (_ & _ & B5 & B6).
      rewrite T1, T2 in *. cbn [fst snd both] in *.
      destruct (close_sign_alike _ _ _ _ _ _ _ _ _ B2 ltac:(intro x; rewrite B4, B6; reflexivity) S1 S2 eq_refl) as (D & M1 & M2 & G & N1 & N2 & LB & V).
      assert (F1 : a1 = set_sigs (set_mac (set_data l c1) m1) (l_sigs a1)).
      { destruct a1. unfold no_sigs in N1. cbn in N1. injection N1 as -> -> -> -> -> -> ->. reflexivity. }
      assert (F2 : a2 = set_sigs (set_mac (set_data l c2) m2) (l_sigs a2)).
      { destruct a2. unfold no_sigs in N2. cbn in N2. injection N2 as -> -> -> -> -> -> ->. reflexivity. }
      split; [destruct D; constructor; cbn; assumption|]. split.
      * intro x. cbn [r_mach set_mach]. rewrite M1, M2, B3, B5. unfold p1, p2, emptied, fed. cbn [r_mach set_mach set_buf]. now destruct (existsb _ _).
      * split; [exact G|]. rewrite F1, F2. cbn [l_data set_sigs set_mac set_data l_sigs]. repeat (split; [reflexivity|]). split; [exact LB|].
        intro Z. rewrite <- F1, <- F2. apply V. rewrite (B1 Z), Z. reflexivity.
    + destruct (close_sign_alike _ _ _ _ _ _ _ _ _ A ltac:(reflexivity) R1 R2 eq_refl) as (D & M1 & M2 & G & N1 & N2 & LB & V).
      assert (F1 : a1 = set_sigs (set_data l c1) (l_sigs a1)).
      { destruct a1. unfold no_sigs in N1. cbn in N1. injection N1 as -> -> -> -> -> -> ->. reflexivity. }
      assert (F2 : a2 = set_sigs (set_data l c2) (l_sigs a2)).
      { destruct a2. unfold no_sigs in N2. cbn in N2. injection N2 as -> -> -> -> -> -> ->. reflexivity. }
      split; [exact D|]. split; [intro x; now rewrite M1, M2|]. split; [exact G|]. rewrite F1, F2. cbn [l_data set_sigs set_mac set_data l_sigs].
      repeat (split; [reflexivity|]). split; [exact LB|]. intro Z. rewrite <- F1, <- F2. apply V. now rewrite Z.
  - assert (A : alike (set_buf q d1) (set_buf q d2)) by (constructor; reflexivity).
    destruct (close_sign_alike _ _ _ _ _ _ _ _ _ A ltac:(reflexivity) H1 H2 eq_refl) as (D & M1 & M2 & G & N1 & N2 & LB & V).
    assert (F1 : a1 = set_sigs (set_data l d1) (l_sigs a1)).
    { destruct a1. unfold no_sigs in N1. cbn in N1. injection N1 as -> -> -> -> -> -> ->. reflexivity. }
    assert (F2 : a2 = set_sigs (set_data l d2) (l_sigs a2)).
    { destruct a2. unfold no_sigs in N2. cbn in N2. injection N2 as -> -> -> -> -> -> ->. reflexivity. }
    split; [exact D|]. split; [intro x; now rewrite M1, M2|]. split; [exact G|]. rewrite F1, F2. cbn [l_data set_sigs set_mac set_data l_sigs].
    repeat (split; [reflexivity|]). split; [exact LB|]. intro Z. rewrite <- F1, <- F2. apply V. now rewrite Z.
Qed.
(** Without signatures the data has no influence on whether Close works. *)
Lemma work_outcome f1 f2 d1 d2 l q : nonempty (s_signers s) = false ->
  both (fun _ _ => True) (fst (work f1 d1 l (set_buf q d1))) (fst (work f2 d2 l (set_buf q d2)))
  /\ alike (snd (work f1 d1 l (set_buf q d1))) (snd (work f2 d2 l (set_buf q d2)))
  /\ (forall x, r_mach (snd (work f1 d1 l (set_buf q d1))) x = r_mach (snd (work f2 d2 l (set_buf q d2))) x)
  /\ (forall x, r_sigh (snd (work f1 d1 l (set_buf q d1))) x = r_sigh (snd (work f2 d2 l (set_buf q d2))) x).
Proof.
  intro NS. assert (CS : forall l ad r, close_sign cr s l ad r = (Ok l, r)) by (intros; unfold close_sign; now rewrite NS).
  unfold work. destruct (s_kdf s) as [k|].
  - unfold deferred. set (ad := if uses_ad s then assoc_data l else []).
    match goal with |- context [fst (let (x, r') := ?m (set_buf q d1) in _)] => set (W1 := m) end.
    match goal with |- context [fst (let (x, r') := ?m (set_buf q d2) in _)] => set (W2 := m) end.
    cut (both (fun _ _ => True) (fst (W1 (set_buf q d1))) (fst (W2 (set_buf q d2))) /\ alike (snd (W1 (set_buf q d1))) (snd (W2 (set_buf q d2)))
       /\ (forall x, r_mach (snd (W1 (set_buf q d1))) x = r_mach (snd (W2 (set_buf q d2))) x) /\ (forall x, r_sigh (snd (W1 (set_buf q d1))) x = r_sigh (snd (W2 (set_buf q d2))) x)).
    { destruct (W1 (set_buf q d1)) as [o1 t1], (W2 (set_buf q d2)) as [o2 t2]. cbn [fst snd]. intros (B1 & B2 & B3 & B4).
      destruct (reset_frame' t1) as [F1 F2]. destruct (reset_frame' t2) as [F3 F4]. rewrite F1, F2, F3, F4. split; [exact B1|]. split; [now apply reset_alike|]. auto. }
    unfold W1, W2. destruct (encrypt_eq f1 d1 (set_buf q d1)) as (b1 & E1). destruct (encrypt_eq f2 d2 (set_buf q d2)) as (b2 & E2).
    rewrite (mbind_run _ _ _ _ _ E1), (mbind_run _ _ _ _ _ E2). cbn zeta. rewrite (mbind_run _ _ _ _ _ (seal_eq _ _ (set_buf (set_buf q d1) b1))).
    rewrite (mbind_run _ _ _ _ _ (seal_eq _ _ (set_buf (set_buf q d2) b2))).
    set (c1 := fold_left (seal_up _ _) _ (fold_left _ _ d1)). set (c2 := fold_left (seal_up _ _) _ (fold_left _ _ d2)).
    set (p1 := set_buf (set_buf q d1) b1). set (p2 := set_buf (set_buf q d2) b2).
    assert (A : alike p1 p2) by (constructor; reflexivity).
    destruct (nonempty (s_macs s)); [|rewrite !CS; cbn [fst snd both]; repeat split; apply A].
    unfold with_mac_hashers, deferred. rewrite !mbind_eq. unfold modify.
    set (u1 := set_mach p1 _). set (u2 := set_mach p2 _). assert (A' : alike u1 u2) by (destruct A; constructor; cbn; assumption).
    assert (A'' : alike u2 u1) by (destruct A'; constructor; congruence).
    destruct (macs_alike c1 c2 ad u1 u2 A') as (B1 & B2 & B3 & B4). destruct (macs_alike c2 c1 ad u2 u1 A'') as (_ & _ & B5 & B6).
    rewrite !mbind_eq. destruct (macs cr s c1 ad u1) as [[m1|e1|] v1], (macs cr s c2 ad u2) as [[m2|e2|] v2]; cbn [fst snd both] in *; try contradiction; rewrite ?CS; cbn [fst snd both];
      (split; [auto|]; split; [destruct B2; constructor; cbn; assumption|]; split; [|intro x; cbn; now rewrite B4, B6]);
      intro x; cbn [r_mach set_mach]; rewrite B3, B5; unfold u1, u2, emptied, fed; cbn [r_mach set_mach p1 p2 set_buf]; now destruct (existsb _ _).
  - rewrite !CS. cbn [fst snd both]. repeat split.
Qed.
End Split.
