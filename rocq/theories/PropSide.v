(** Property theorems C15, C16 and C17: what Close and Open do to the caller's buffers, and
    who ends up in a letter. *)
From Coq Require Import Init.Byte.
From Verif Require Import CoreOpen LetterFacts SpecOpen SuiteFacts SpecSession SessionFacts SpecCore PropHistory PropTrip PropOpen CoreRound CorePanic Toy.

(** ** Which operations touch the buffer *)

Definition kb {A} (m : M A) : Prop := forall r, r_buf (snd (m r)) = r_buf r.
Lemma kb_bind {A B} (m : M A) (f : A -> M B) : kb m -> (forall a, kb (f a)) -> kb (mbind m f).
Proof. intros H1 H2 r. unfold mbind. specialize (H1 r). destruct (m r) as [[a|e|] r']; cbn in *; [rewrite H2|..]; auto. Qed.
Lemma kb_ret {A} (a : A) : kb (ret a). Proof. intro r; reflexivity. Qed.
Lemma kb_fail {A} e : kb (@fail A e). Proof. intro r; reflexivity. Qed.
Lemma kb_panic {A} : kb (@panic A). Proof. intro r; reflexivity. Qed.
Lemma kb_lift {A} (x : outcome A) : kb (lift x). Proof. intro r; reflexivity. Qed.
Lemma kb_gets {A} (f : rt -> A) : kb (gets f). Proof. intro r; reflexivity. Qed.
Lemma kb_check b e : kb (check b e). Proof. destruct b; intro r; reflexivity. Qed.
Lemma kb_modify f : (forall r, r_buf (f r) = r_buf r) -> kb (modify f). Proof. intros H r. apply H. Qed.
Lemma kb_upd_tool i f : kb (upd_tool i f). Proof. intro r; reflexivity. Qed.
Lemma kb_upd_wire f : kb (upd_wire f). Proof. intro r. unfold upd_wire, modify. destruct (r_wire r); reflexivity. Qed.
Lemma kb_add_key k : kb (add_key k). Proof. intro r; reflexivity. Qed.
Lemma kb_add_mat k : kb (add_mat k). Proof. intro r; reflexivity. Qed.
Lemma kb_next_idx : kb next_idx. Proof. intro r; reflexivity. Qed.
Lemma kb_start_index : kb start_index. Proof. intro r; reflexivity. Qed.
Lemma kb_is_wire : kb is_wire. Proof. intro r; reflexivity. Qed.
Lemma kb_wire_st : kb wire_st. Proof. intro r; reflexivity. Qed.
Lemma kb_key_at l : kb (key_at l). Proof. intro r; reflexivity. Qed.
Lemma kb_draw {A} (g : nat -> outcome A) : kb (fun r => (g (r_draw r), set_draw r (S (r_draw r)))). Proof. intro r; reflexivity. Qed.
Lemma kb_rand cr z : kb (rand cr z). Proof. intro r; reflexivity. Qed.
Lemma kb_gen cr t : kb (gen cr t). Proof. intro r; reflexivity. Qed.
Lemma kb_each {A} (f : A -> M unit) l : (forall a, kb (f a)) -> kb (each f l).
Proof. intro H. induction l; cbn [each]; [apply kb_ret|]. now apply kb_bind. Qed.
Lemma kb_each_last {A} (f : A -> M unit) l : (forall a, kb (f a)) -> kb (each_last f l).
Proof.
  intro H. induction l as [|a [|b l] IH]; [apply kb_ret|apply H|]. intro r. rewrite each_last_cons. specialize (H a r).
  destruct (f a r) as [[?|?|] r1]; cbn [snd] in *; rewrite ?IH; auto.
Qed.
Lemma kb_foldT {A B} (f : B -> A -> M B) l : (forall b a, kb (f b a)) -> forall b, kb (foldT f b l).
Proof. intro H. induction l; intro b; cbn [foldT]; [apply kb_ret|]. now apply kb_bind. Qed.
Lemma kb_deferred {A} f (m : M A) : (forall r, r_buf (f r) = r_buf r) -> kb m -> kb (deferred f m).
Proof. intros H1 H2 r. unfold deferred. specialize (H2 r). destruct (m r). cbn in *. now rewrite H1. Qed.
#[export] Hint Resolve kb_ret kb_fail kb_panic kb_lift kb_gets kb_check kb_upd_tool kb_upd_wire kb_add_key kb_add_mat kb_next_idx
  kb_start_index kb_is_wire kb_wire_st kb_key_at kb_rand kb_gen : kb.
Ltac kb_auto := repeat first
  [ solve [auto with kb]
  | apply kb_bind; [|intro]
  | apply kb_each; intro | apply kb_each_last; intro | apply kb_foldT; intros
  | match goal with |- kb (match ?x with _ => _ end) => destruct x end
  | match goal with |- kb (let '(_, _) := ?x in _) => destruct x end
  | apply kb_modify; intro; reflexivity ].

Section B.
Variables (c : config) (cr : crypto) (s : session).
Lemma kb_encap i p k : kb (encap cr i p k). Proof. unfold encap. destruct p; [intro r; reflexivity|auto with kb]. Qed.
Lemma kb_shared i p q : kb (shared cr i p q). Proof. unfold shared. kb_auto. Qed.
Lemma kb_unwrap i p v : kb (unwrap cr i p v). Proof. unfold unwrap. kb_auto. Qed.
Lemma kb_derive_pw p v : kb (derive_pw c cr s p v). Proof. unfold derive_pw. kb_auto. Qed.
Lemma kb_kdf_init n m : kb (kdf_init n m). Proof. unfold kdf_init. kb_auto. Qed.
Lemma kb_kdf_read z : kb (kdf_read cr s z).
Proof. intro r. unfold kdf_read. destruct (r_kdf r); [destruct (cr_kdf _ _ _ _ _ _ _)|]; reflexivity. Qed.
Hint Resolve kb_encap kb_shared kb_unwrap kb_derive_pw kb_kdf_init kb_kdf_read : kb.
Lemma kb_closing n : kb (closing_material c cr s n).
Proof. unfold closing_material, close_key, close_pw, close_kx, close_ke. kb_auto. Qed.
Lemma kb_opening l : kb (opening_material c cr s l).
Proof. unfold opening_material, open_key, open_pw, open_kx, open_ke. kb_auto. Qed.
Hint Resolve kb_closing kb_opening : kb.
Lemma kb_gen_kx : kb (gen_local_kx cr). Proof. unfold gen_local_kx. kb_auto. Qed.
Lemma kb_gen_ke : kb (gen_local_ke cr). Proof. unfold gen_local_ke. kb_auto. Qed.
Lemma kb_make_shared : kb (make_shared cr). Proof. unfold make_shared. kb_auto. Qed.
Lemma kb_encap_new : kb (encap_new cr s). Proof. unfold encap_new. kb_auto. Qed.
Lemma kb_unwrap_new : kb (unwrap_new cr). Proof. unfold unwrap_new. kb_auto. Qed.
Lemma kb_carryover b n : kb (carryover cr s b n). Proof. unfold carryover. kb_auto. Qed.
Lemma kb_assign_kx l : kb (assign_kx l). Proof. unfold assign_kx. kb_auto. Qed.
Lemma kb_assign_ke_signet l : kb (assign_ke_signet l). Proof. unfold assign_ke_signet. kb_auto. Qed.
Lemma kb_assign_ke_seal l : kb (assign_ke_seal l). Proof. unfold assign_ke_seal. kb_auto. Qed.
Hint Resolve kb_gen_kx kb_gen_ke kb_make_shared kb_encap_new kb_unwrap_new kb_carryover kb_assign_kx kb_assign_ke_signet kb_assign_ke_seal : kb.
Lemma kb_send n : kb (send_handshake c cr s n). Proof. unfold send_handshake, send_idle. kb_auto. Qed.
Lemma kb_recv l : kb (recv_handshake c cr s l). Proof. unfold recv_handshake, recv_idle. kb_auto. Qed.
Hint Resolve kb_send kb_recv : kb.
Lemma kb_setup : kb (setup cr s). Proof. unfold setup, setup_tool. kb_auto. Qed.
Lemma kb_reset r : r_buf (reset s r) = r_buf r.
Proof. unfold reset. revert r. induction (s_stateful s) as [|i l IH]; intro r; [reflexivity|]. cbn. now rewrite IH. Qed.
Lemma kb_mac d ad i : kb (mac cr d ad i). Proof. unfold mac, tool_st. kb_auto. Qed.
Lemma kb_sign i sg : kb (sign cr i sg).
Proof. unfold sign, digest. destruct (sg_priv sg); kb_auto. Qed.
Lemma kb_verify i sg v : kb (verify cr i sg v). Proof. unfold verify, digest. kb_auto. Qed.
Lemma kb_cipher i d : kb (cipher cr i d). Proof. unfold cipher, tool_st. kb_auto. Qed.
Lemma kb_seal ad i d : kb (aead_seal cr ad i d). Proof. unfold aead_seal, tool_st. kb_auto. Qed.
Hint Resolve kb_setup kb_mac kb_sign kb_verify kb_cipher kb_seal : kb.
Lemma kb_with_mac {A} d (m : M A) : kb m -> kb (with_mac_hashers s d m).
Proof. intro H. unfold with_mac_hashers. apply kb_bind; [kb_auto|intros _]. now apply kb_deferred. Qed.
Lemma kb_with_sig {A} d (m : M A) : kb m -> kb (with_sig_hashers s d m).
Proof. intro H. unfold with_sig_hashers. apply kb_bind; [kb_auto|intros _]. now apply kb_deferred. Qed.
Lemma kb_close_sign l ad : kb (close_sign cr s l ad).
Proof. unfold close_sign. destruct (nonempty _); [|auto with kb]. apply kb_with_sig. unfold sign_all. kb_auto. Qed.
Lemma kb_verify_all l : kb (verify_all cr s l). Proof. unfold verify_all, sig_at. kb_auto. Qed.
Hint Resolve kb_close_sign kb_verify_all : kb.
Lemma kb_encrypt full d : full = false \/ s_ciph s = [] -> kb (encrypt cr s full d).
Proof. intros H. unfold encrypt. destruct H as [->| ->]; [kb_auto|apply kb_ret]. Qed.
Lemma kb_with_signatures {A} l (m : M A) : kb m -> kb (with_signatures cr s l m).
Proof. intro H. unfold with_signatures. apply kb_with_sig. kb_auto. Qed.
End B.
#[export] Hint Resolve kb_setup kb_mac kb_sign kb_verify kb_cipher kb_seal kb_close_sign kb_verify_all kb_kdf_init kb_send kb_recv kb_closing kb_opening : kb.

(** ** C16 *)

(** Close leaves the caller's bytes alone - whether it succeeds or fails, in every kind of
    session and in every state - unless a stream cipher is used on a slice without spare
    capacity. *)
Theorem C16_data_untouched : forall c cr s full data r,
  full = false \/ s_ciph s = [] ->
  r_buf (snd (close_session c cr s full data r)) = data.
Proof.
  intros c cr s full data r H. unfold close_session, modify. unfold mbind at 1. cbv beta iota.
  match goal with |- r_buf (snd (?m ?x)) = data => assert (K : kb m); [|rewrite K; reflexivity] end.
  apply kb_bind; [kb_auto|intro first]. apply kb_bind; [kb_auto|intro nonce]. destruct (s_kdf s).
  - apply kb_bind; [unfold establish; kb_auto|intro ap]. apply kb_bind; [kb_auto|intro ks]. cbv zeta. apply kb_bind; [kb_auto|intros _].
    apply kb_deferred; [apply kb_reset|]. apply kb_bind; [now apply kb_encrypt|intro d]. apply kb_bind; [kb_auto|intro d'].
    destruct (nonempty (s_macs s)); [|auto with kb]. apply kb_with_mac. unfold macs. kb_auto.
  - destruct (needs_key s); auto with kb.
Qed.
Print Assumptions C16_data_untouched.

(** No suite of the registry uses a stream cipher. *)
Theorem C16_registered_data_untouched : forall c cr e s su full data r,
  new_session c tool_registry hash_registry cr e = Ok s -> e_suite e = Some su -> In su suite_registry ->
  r_buf (snd (close_session c cr s full data r)) = data.
Proof.
  intros c cr e s su full data r N ES HI. apply C16_data_untouched. right.
  pose proof (registered_insts _ _ _ _ _ N ES HI) as EA. apply new_session_ok in N as (su' & _ & O).
  rewrite (sh_ciph _ _ _ (so_shape _ _ _ _ _ _ _ O)), EA.
  assert (C : forallb (fun su => negb (nonempty (of_purpose PCipher (suite_insts su)))) suite_registry = true) by (vm_compute; reflexivity).
  rewrite forallb_forall in C. specialize (C su HI). destruct (of_purpose PCipher (suite_insts su)); [reflexivity|discriminate].
Qed.
Print Assumptions C16_registered_data_untouched.

(** With a stream cipher and a full slice, the caller's data is overwritten. *)
Definition ctr_suite : suite :=
  mkSuite (lit "ctr") [lit "HKDF(SHA2-256)"; lit "AES256-CTR"; lit "HMAC(SHA2-256)"] newRequirements 128 2.
Definition ctr_session : session :=
  match new_session default_config tool_registry hash_registry toy (toy_env ctr_suite [toy_secret "k"] [] []) with
  | Ok s => s | _ => init_session (toy_env ctr_suite [] [] []) ctr_suite end.
Theorem C16_data_overwritten_refuted :
  new_session default_config tool_registry hash_registry toy (toy_env ctr_suite [toy_secret "k"] [] []) = Ok ctr_session
  /\ let x := close_session default_config toy ctr_session true (lit "hello") (rt_start 0 None) in
     is_ok (fst x) = true /\ r_buf (snd x) <> lit "hello".
Proof. split; [vm_compute; reflexivity|]. split; [vm_compute; reflexivity|vm_compute; discriminate]. Qed.
Print Assumptions C16_data_overwritten_refuted.
Example C16_hypotheses_met :
  r_buf (snd (close_session default_config toy ctr_session false (lit "hello") (rt_start 0 None))) = lit "hello".
Proof. vm_compute. reflexivity. Qed.

(** ** C15 *)

(** Verify never changes the letter, nor does Open when the suite only signs or MACs; and
    whatever the suite, an Open whose signature check fails leaves the letter alone. *)
Theorem C15_verify_leaves_letter : forall cr s l r,
  r_buf (snd (verify_session cr s l r)) = l_data l.
Proof.
  intros cr s l r. unfold verify_session, modify. unfold mbind at 1. cbv beta iota.
  match goal with |- r_buf (snd (?m ?x)) = _ => assert (K : kb m); [|rewrite K; reflexivity] end.
  apply kb_bind; [kb_auto|intro w]. apply kb_bind; [kb_auto|intros _]. destruct (nonempty _); [|auto with kb].
  apply kb_with_signatures. auto with kb.
Qed.
Print Assumptions C15_verify_leaves_letter.

Theorem C15_open_without_ciphers_leaves_letter : forall c cr s l r,
  s_aead s = [] -> s_ciph s = [] ->
  r_buf (snd (open_session c cr s l r)) = l_data l.
Proof.
  intros c cr s l r EA EC. unfold open_session, modify. unfold mbind at 1. cbv beta iota.
  match goal with |- r_buf (snd (?m ?x)) = _ => assert (K : kb m); [|rewrite K; reflexivity] end.
  assert (P : kb (open_payload c cr s l)).
  { unfold open_payload. destruct (s_kdf s); [|destruct (needs_key s); auto with kb]. apply kb_bind; [auto with kb|intro w].
    apply kb_bind; [kb_auto|intros _]. apply kb_bind; [auto with kb|intros _]. apply kb_deferred; [apply kb_reset|]. cbv zeta.
    unfold decrypt. rewrite EA, EC. cbn [rev foldT]. destruct (nonempty (s_macs s)); [|kb_auto]. apply kb_with_mac. unfold macs. kb_auto. }
  apply kb_bind; [kb_auto|intro w]. apply kb_bind; [kb_auto|intros _]. destruct (nonempty _); [|exact P]. now apply kb_with_signatures.
Qed.
Print Assumptions C15_open_without_ciphers_leaves_letter.

(** When the first computation does not succeed then neither does the second, and that one
    leaves the buffer alone. *)
Definition stops {A B} (m : M A) (m' : M B) : Prop :=
  forall r, is_ok (fst (m r)) = false -> is_ok (fst (m' r)) = false /\ r_buf (snd (m' r)) = r_buf r.
Lemma stops_bind {A B C} (m : M A) (f : A -> M B) (g : A -> M C) : kb m -> (forall a, stops (f a) (g a)) -> stops (mbind m f) (mbind m g).
Proof.
  intros K S r. unfold mbind. specialize (K r). destruct (m r) as [[a|e|] r']; cbn [fst snd] in *; [|auto..].
  intro H. destruct (S a r' H) as [H1 H2]. rewrite H2. auto.
Qed.
Lemma stops_deferred {A B} f (m : M A) (m' : M B) : (forall r, r_buf (f r) = r_buf r) -> stops m m' -> stops (deferred f m) (deferred f m').
Proof.
  intros K S r. unfold deferred. specialize (S r). destruct (m r), (m' r). cbn [fst snd] in *. now rewrite K.
Qed.

(** Signatures are checked before anything is decrypted. *)
Theorem C15_bad_signature_leaves_letter : forall c cr s l r,
  s_signers s <> [] ->
  is_ok (fst (verify_session cr s l r)) = false ->
  is_ok (fst (open_session c cr s l r)) = false /\ r_buf (snd (open_session c cr s l r)) = l_data l.
Proof.
  intros c cr s l r NS. unfold verify_session, open_session. destruct (nonempty (s_signers s)) eqn:NE; [|destruct (s_signers s); [congruence|discriminate]].
  unfold modify. set (f := fun r => set_buf (set_acc r [] [] 0) (l_data l)).
  change (l_data l) with (r_buf (f r)). unfold mbind at 1 4 7. cbv beta iota. change (fun r0 => (Ok tt, f r0)) with (modify f).
  match goal with |- is_ok (fst (?m _)) = false -> is_ok (fst (?m' _)) = false /\ _ => assert (S : stops m m'); [|exact (S (f r))] end.
  apply stops_bind; [kb_auto|intro w]. apply stops_bind; [kb_auto|intros _]. unfold with_signatures, with_sig_hashers.
  apply stops_bind; [kb_auto|intros _]. apply stops_deferred; [reflexivity|].
  apply stops_bind; [kb_auto|intros _]. apply stops_bind; [apply kb_verify_all|intros _]. intros q Hq. discriminate.
Qed.
Print Assumptions C15_bad_signature_leaves_letter.

(** Opening any letter a second time with the same session gives the same result if the
    letter still is what it was. *)
Theorem C15_reopen : forall c hreg cr e s l d,
  new_session c tool_registry hreg cr e = Ok s ->
  let x := open_session c cr s l (rt_start d None) in
  r_buf (snd x) = l_data l ->
  fst (open_session c cr s (set_data l (r_buf (snd x))) (snd x)) = fst x.
Proof.
  intros c hreg cr e s l d N x E. rewrite E. assert (EL : set_data l (l_data l) = l) by (destruct l; reflexivity). rewrite EL.
  pose proof (proj1 (C14_open_history_independent c hreg cr e s d d [QOpen l] l N)) as H. cbn [after serve] in H. subst x.
  destruct (open_session c cr s l (rt_start d None)) as [o r'] eqn:EX. cbn [snd fst] in *.
  destruct (open_session c cr s l r') as [o' r''] eqn:EO. cbn [fst snd] in H |- *. congruence.
Qed.
Print Assumptions C15_reopen.

(** Decryption works in place: after a successful Open the letter's data is the plaintext
    followed by what was left of the tag, and the letter cannot be opened again; after a
    failed attempt with a wrong key the data is gone, and the right key does not help. *)
Definition flip (d : bytes) : bytes := map (xor_byte x55) d.
Definition masked : crypto :=
  mkCrypto (cr_rand toy) (cr_hash toy) (cr_kdf toy) (cr_stream toy)
    (fun t k n ad d => cr_seal toy t k n ad (flip d))
    (fun t k n ad d => match cr_open toy t k n ad d with Some d => Some (flip d) | None => None end)
    (cr_mac toy) (cr_pwd toy) (cr_gen toy) (cr_shared toy) (cr_encap toy) (cr_unwrap toy) (cr_sign toy) (cr_verify toy)
    (cr_load toy) (cr_store_pub toy) (cr_rsa_bits toy) (cr_pw_level toy).
Lemma flip_flip d : flip (flip d) = d.
Proof. unfold flip. induction d as [|x d IH]; cbn [map]; [reflexivity|]. rewrite IH. f_equal. destruct x; reflexivity. Qed.
Lemma masked_laws : crypto_laws masked.
Proof.
  destruct toy_laws. split; auto. intros t k n ad d. cbn [masked cr_open cr_seal]. rewrite law_aead. now rewrite flip_flip.
Qed.
Definition key_session (b : byte) : session :=
  let e := toy_env (suite_named (lit "key_v1"))
    [mkSignet 1 (lit "k") scheme_key (repeat x41 31 ++ [b]) false false None None PNil] [] [] in
  match new_session default_config tool_registry hash_registry masked e with Ok s => s | _ => init_session e (suite_named []) end.
Definition key_letter : letter :=
  match fst (close_session default_config masked (key_session x41) false (lit "hello") (rt_start 3 None)) with Ok l => l | _ => l_empty end.
Definition open_twice (b1 b2 : byte) : outcome bytes * outcome bytes :=
  let x := open_session default_config masked (key_session b1) key_letter (rt_start 0 None) in
  (fst x, fst (open_session default_config masked (key_session b2) (set_data key_letter (r_buf (snd x))) (rt_start 0 None))).
Theorem C15_open_destroys_letter_refuted :
  open_twice x41 x41 = (Ok (lit "hello"), Err EIntegrity)
  /\ open_twice x42 x41 = (Err EIntegrity, Err EIntegrity).
Proof. split; vm_compute; reflexivity. Qed.
Print Assumptions C15_open_destroys_letter_refuted.
Example C15_hypotheses_met :
  let s := match new_session default_config tool_registry hash_registry toy
             (toy_env (suite_named (lit "sign_v1")) [] [toy_signet "alice" "Ed25519" 5] []) with Ok s => s | _ => ctr_session end in
  s_signers s <> [] /\ s_aead s = [] /\ s_ciph s = [].
Proof. vm_compute. repeat split; discriminate. Qed.

(** ** C17 *)
From Coq Require Import Permutation.
Definition not_scheme (n : bytes) (l : list signet) := filter (fun s => negb (bytes_eqb (sg_scheme s) n)) l.
Lemma loop_split n l : n <> [] -> Permutation (loop n l ++ not_scheme n l) l.
Proof.
  intro H. unfold loop, not_scheme. destruct n as [|b n]; [congruence|]. induction l as [|a l IH]; cbn [filter app]; [constructor|].
  destruct (bytes_eqb (sg_scheme a) (b :: n)); cbn [negb app].
  - now constructor.
  - etransitivity; [symmetry; apply Permutation_middle|]. now constructor.
Qed.
Lemma loop_other n m l : m <> n -> m <> [] -> loop m (not_scheme n l) = loop m l.
Proof.
  intros H Hm. unfold loop, not_scheme. destruct m as [|b m]; [congruence|]. induction l as [|a l IH]; cbn [filter]; [reflexivity|].
  destruct (bytes_eqb (sg_scheme a) n) eqn:E; cbn [negb filter].
  - apply bytes_eqb_eq in E. destruct (bytes_eqb (sg_scheme a) (b :: m)) eqn:E2; [apply bytes_eqb_eq in E2; congruence|exact IH].
  - destruct (bytes_eqb (sg_scheme a) (b :: m)); [now f_equal|exact IH].
Qed.
Lemma loops_perm ns : NoDup ns -> ~ In [] ns -> forall l, (forall sg, In sg l -> In (sg_scheme sg) ns) ->
  Permutation (concat (map (fun n => loop n l) ns)) l.
Proof.
  induction 1 as [|n ns NI ND IH]; intros NN l HL; cbn [map concat].
  - destruct l as [|a l]; [constructor|]. destruct (HL a (or_introl eq_refl)).
  - etransitivity; [|apply (loop_split n); intros ->; apply NN; now left]. apply Permutation_app_head.
    rewrite <- (IH (fun q => NN (or_intror q)) (not_scheme n l)).
    + assert (E : map (fun n0 => loop n0 (not_scheme n l)) ns = map (fun n0 => loop n0 l) ns); [|now rewrite E].
      apply map_ext_in. intros m Hm. apply loop_other; [intros ->; contradiction|]. intros ->. apply NN. now right.
    + intros sg Hsg. unfold not_scheme in Hsg. apply filter_In in Hsg as [H1 H2]. destruct (HL sg H1) as [E|E]; [|exact E].
      subst n. now rewrite bytes_eqb_refl in H2.
Qed.
Lemma flat_map_perm {A} (g : inst -> signet -> A) (f : A -> signet) is L : (forall i sg, f (g i sg) = sg) ->
  map f (flat_map (fun i => map (g i) (loop (i_name i) L)) is) = concat (map (fun n => loop n L) (map i_name is)).
Proof.
  intro H. induction is as [|i is IH]; cbn; [reflexivity|]. rewrite map_app, map_map, IH. f_equal. rewrite <- (map_id (loop (i_name i) L)) at 2.
  apply map_ext. intro. apply H.
Qed.

Definition step_signet (x : kstep) : signet := match x with SKey a | SPw a | SKx _ a | SKe _ a => a end.
Lemma two_perm {A} (f : inst -> list A) l :
  Permutation (concat (map f (of_purpose PKeyExchange l)) ++ concat (map f (of_purpose PKeyEncapsulation l))) (concat (map f (filter is_rcpt l))).
Proof.
  unfold of_purpose, is_rcpt. induction l as [|i l IH]; cbn [filter]; [constructor|].
  destruct (i_purpose i); cbn [purpose_eqb orb map concat]; auto.
  - rewrite <- app_assoc. now apply Permutation_app_head.
  - rewrite Permutation_app_comm, <- app_assoc. apply Permutation_app_head. now rewrite Permutation_app_comm.
Qed.

Lemma steps_perm c hreg cr e s su : new_session c tool_registry hreg cr e = Ok s -> e_suite e = Some su -> distinct_tools su ->
  Permutation (map step_signet (steps s)) (e_secrets e ++ e_recipients e).
Proof.
  intros H ES D. pose proof (session_env _ _ _ _ _ _ H) as EE. pose proof (session_distinct _ _ _ _ _ _ H ES D) as ND.
  pose proof (fun i => session_names _ _ _ _ _ i H) as NM.
  pose proof H as H0. apply new_session_acceptable in H0 as (su' & E & A). rewrite ES in E. injection E as <-.
  pose proof (acceptable_served _ _ _ _ _ _ _ A registry_names D) as (SS & _ & SV).
  pose proof (ac_res _ _ _ _ _ _ _ A) as Hres.
  apply new_session_ok in H as (su' & E & O). rewrite ES in E. injection E as <-.
  unfold steps, steps_of. rewrite EE, !map_app, !map_map. rewrite app_assoc. apply Permutation_app.
  - rewrite !map_id. pose proof (loops_perm [scheme_key; scheme_pw]) as P. cbn [map concat] in P. setoid_rewrite app_nil_r in P. apply P.
    + repeat constructor; cbn; [intros [E|[]]; discriminate|easy].
    + intros [E|[E|[]]]; discriminate.
    + intros sg Hsg. destruct (SS sg Hsg) as [->|[-> _]]; cbn; auto.
  - rewrite !flat_map_perm by reflexivity.
    rewrite (sh_kx _ _ _ (so_shape _ _ _ _ _ _ _ O)), (sh_ke _ _ _ (so_shape _ _ _ _ _ _ _ O)).
    rewrite !map_map. rewrite two_perm. rewrite <- (map_map i_name (fun n => loop n (e_recipients e))). apply loops_perm.
    + now apply NoDup_map_filter.
    + intro Hn. apply in_map_iff in Hn as (i & E & Hi). apply filter_In in Hi as [Hi _]. exact (NM i Hi E).
    + intros sg Hsg. destruct (SV sg Hsg) as (t & Ht & Hp & EN). apply (suite_tool_iff _ _ _ _ _ Hres) in Ht as (i & Hi & <-).
      apply in_map_iff. exists i. split; [exact EN|]. apply filter_In. split; [exact Hi|]. unfold is_rcpt, i_purpose. destruct Hp as [-> | ->]; reflexivity.
Qed.

Lemma sig_steps_perm c hreg cr e s su : new_session c tool_registry hreg cr e = Ok s -> e_suite e = Some su -> distinct_tools su ->
  Permutation (map snd (sig_steps s)) (e_senders e).
Proof.
  intros H ES D. pose proof (session_env _ _ _ _ _ _ H) as EE. pose proof (session_distinct _ _ _ _ _ _ H ES D) as ND.
  pose proof (fun i => session_names _ _ _ _ _ i H) as NM. destruct (senders_served _ _ _ _ _ _ H ES D) as [SV _].
  apply new_session_ok in H as (su' & E & O). rewrite ES in E. injection E as <-.
  unfold sig_steps. rewrite EE, flat_map_perm by reflexivity.
  rewrite (sh_signers _ _ _ (so_shape _ _ _ _ _ _ _ O)) in *. apply loops_perm.
  - now apply NoDup_map_filter.
  - intro Hn. apply in_map_iff in Hn as (i & E & Hi). apply filter_In in Hi as [Hi _]. exact (NM i Hi E).
  - intros sg Hsg. destruct (SV sg Hsg) as (i & Hi & EN). apply in_map_iff. eauto.
Qed.

Lemma step_in s x : In x (steps s) -> match x with
  | SKey a => sg_scheme a = scheme_key | SPw a => sg_scheme a = scheme_pw
  | SKx i a => In i (s_kx s) /\ (i_name i <> [] -> sg_scheme a = i_name i)
  | SKe i a => In i (s_ke s) /\ (i_name i <> [] -> sg_scheme a = i_name i) end.
Proof.
  assert (LI : forall n l a, In a (loop n l) -> n <> [] -> sg_scheme a = n).
  { intros n l a H N. unfold loop in H. apply filter_In in H as [_ H]. destruct n; [congruence|]. now apply bytes_eqb_eq. }
  unfold steps, steps_of. rewrite !in_app_iff, !in_map_iff, !in_flat_map.
  intros [(a & <- & H)|[(a & <- & H)|[(i & Hi & H)|(i & Hi & H)]]].
  - eapply LI; [exact H|discriminate].
  - eapply LI; [exact H|discriminate].
  - apply in_map_iff in H as (a & <- & H). split; [exact Hi|]. intro. eapply LI; eassumption.
  - apply in_map_iff in H as (a & <- & H). split; [exact Hi|]. intro. eapply LI; eassumption.
Qed.
Lemma sig_step_in s x : In x (sig_steps s) -> In (fst x) (s_signers s) /\ (i_name (fst x) <> [] -> sg_scheme (snd x) = i_name (fst x)).
Proof.
  unfold sig_steps. intro H. apply in_flat_map in H as (i & Hi & H). apply in_map_iff in H as (a & <- & H). cbn [fst snd].
  split; [exact Hi|]. intro N. unfold loop in H. apply filter_In in H as [_ H]. destruct (i_name i); [congruence|]. now apply bytes_eqb_eq.
Qed.

Lemma no_kdf_no_keys c hreg cr e s su : new_session c tool_registry hreg cr e = Ok s -> e_suite e = Some su -> distinct_tools su ->
  s_kdf s = None -> steps s = [] /\ s_stateful s = [] /\ forall i, In i (s_all s) -> i_purpose i = PSigning.
Proof.
  intros H ES D EK. pose proof (session_env _ _ _ _ _ _ H) as EE.
  pose proof H as H0. apply new_session_acceptable in H0 as (su' & E & A). rewrite ES in E. injection E as <-.
  pose proof (acceptable_served _ _ _ _ _ _ _ A registry_names D) as (SS & _ & _).
  pose proof (ac_res _ _ _ _ _ _ _ A) as Hres.
  apply new_session_ok in H as (su' & E & O). rewrite ES in E. injection E as <-.
  pose proof (so_shape _ _ _ _ _ _ _ O) as Sh.
  assert (AS : forall i, In i (s_all s) -> i_purpose i = PSigning).
  { assert (G : forall l : list inst, length (of_purpose PSigning l) = length l -> forall i, In i l -> i_purpose i = PSigning).
    { induction l as [|j l IH]; [easy|]. unfold of_purpose. cbn [filter]. fold (of_purpose PSigning l). intros HL k Hk.
      assert (length (of_purpose PSigning l) <= length l).
      { clear. unfold of_purpose. induction l as [|b l IH]; cbn [filter length]; [lia|]. destruct (purpose_eqb (i_purpose b) PSigning); cbn [length]; lia. }
      destruct (purpose_eqb (i_purpose j) PSigning) eqn:EP; cbn [length] in HL; [|lia].
      destruct Hk as [<-|Hk]; [destruct (i_purpose j); try discriminate; reflexivity|]. apply IH; [lia|exact Hk]. }
    apply G. apply (ac_kdf_missing _ _ _ _ _ _ _ A). pose proof (sh_kdf _ _ _ Sh) as EKD. rewrite EK in EKD. exact EKD. }
  assert (NP : forall p, p <> PSigning -> of_purpose p (s_all s) = []).
  { intros p Hp. destruct (of_purpose p (s_all s)) as [|i l] eqn:EO; [reflexivity|]. exfalso.
    assert (Hi : In i (of_purpose p (s_all s))) by (rewrite EO; now left). apply of_purpose_In in Hi as [Hi EP]. rewrite (AS i Hi) in EP. congruence. }
  assert (LK : loop scheme_key (e_secrets e) = []).
  { destruct (loop scheme_key (e_secrets e)) as [|a l] eqn:EL; [reflexivity|]. exfalso.
    assert (DC : dlv e (s_all s) Confidentiality).
    { apply (ac_rc _ _ _ _ _ _ _ A). right. rewrite EL. split; [discriminate|]. now right. }
    destruct DC as [(i & Hi & G)|[_ [G|G]]]; [|discriminate..]. rewrite (AS i Hi) in G. discriminate. }
  assert (LP : loop scheme_pw (e_secrets e) = []).
  { destruct (loop scheme_pw (e_secrets e)) as [|a l] eqn:EL; [reflexivity|]. exfalso.
    assert (Ha : In a (loop scheme_pw (e_secrets e))) by (rewrite EL; now left). unfold loop in Ha. apply filter_In in Ha as [Ha Hs].
    apply bytes_eqb_eq in Hs. destruct (SS a Ha) as [Z|[_ (t & Ht & Hp)]]; [rewrite Hs in Z; discriminate|].
    apply (suite_tool_iff _ _ _ _ _ Hres) in Ht as (i & Hi & <-). pose proof (AS i Hi) as Z. unfold i_purpose in Z. congruence. }
  split; [|split; [|exact AS]].
  - unfold steps, steps_of. rewrite EE, LK, LP, (sh_kx _ _ _ Sh), (sh_ke _ _ _ Sh), !NP by discriminate. reflexivity.
  - rewrite (sh_stateful _ _ _ Sh). destruct (filter _ (s_all s)) as [|i l] eqn:EF; [reflexivity|]. exfalso.
    assert (Hi : In i (filter (fun i => has_option (i_tool i) OHasState) (s_all s))) by (rewrite EF; now left).
    apply filter_In in Hi as [Hi HO]. pose proof (AS i Hi) as HP.
    destruct (Forall2_In_r _ _ _ _ (so_res _ _ _ _ _ _ _ O) Hi) as (x & _ & _ & HG & _).
    unfold tools_get, of_option in HG. destruct (find _ tool_registry) as [t|] eqn:EFi; [|discriminate]. injection HG as ->.
    apply find_some in EFi as [EFi _]. unfold i_purpose in HP.
    assert (C : forallb (fun t => match t_purpose t with PSigning => negb (has_option t OHasState) | _ => true end) tool_registry = true) by reflexivity.
    rewrite forallb_forall in C. specialize (C _ EFi). now rewrite HP, HO in C.
Qed.

(** If Close succeeds - and the suite has at most one key exchange and one key encapsulation
    tool - then each secret and each recipient of the envelope contributed its own key
    material to the letter and has its own seal there, the keys that protect the letter are
    derived from all of that material, and each sender of the envelope has signed the
    letter. *)
Theorem C17_nobody_left_out : forall c hreg cr e s su full data d l r,
  crypto_laws cr ->
  new_session c tool_registry hreg cr e = Ok s -> e_suite e = Some su -> distinct_tools su ->
  length (s_kx s) <= 1 -> length (s_ke s) <= 1 ->
  close_session c cr s full data (rt_start d None) = (Ok l, r) ->
  (exists (parts : list (signet * (seal * bytes))) kv,
     Permutation (map fst parts) (e_secrets e ++ e_recipients e)
     /\ l_keys l = map (fun x => fst (snd x)) parts
     /\ Forall (fun x => contributes c cr s (l_nonce l) (fst x) (fst (snd x)) (snd (snd x))) parts
     /\ key_schedule cr s (l_nonce l) (concat (map (fun x => snd (snd x)) parts)) 0 kv
     /\ accepted cr s kv l data)
  /\ exists who, Permutation who (e_senders e) /\ Forall2 (signs cr s l) who (l_sigs l).
Proof.
  intros c hreg cr e s su full data d l r L N ES DT K1 K2 HC. pose proof (session_sound _ _ _ _ _ N) as S1.
  pose proof (session_twins _ _ _ _ _ _ _ _ N N eq_refl) as T.
  pose proof (steps_perm _ _ _ _ _ _ N ES DT) as P1. pose proof (sig_steps_perm _ _ _ _ _ _ N ES DT) as P2.
  assert (SG : forall l0, l = set_sigs l0 (l_sigs l) ->
     (nonempty (s_signers s) = false -> l_sigs l = []) ->
     (nonempty (s_signers s) = true -> Forall2 (signed cr (sig_fed s l0)) (sig_steps s) (l_sigs l)) ->
     exists who, Permutation who (e_senders e) /\ Forall2 (signs cr s l) who (l_sigs l)).
  { intros l0 EL NS SS. exists (map snd (sig_steps s)). split; [exact P2|]. destruct (nonempty (s_signers s)) eqn:NE.
    - assert (FI : forall x, In x (sig_steps s) -> In (fst x) (s_signers s) /\ sg_scheme (snd x) = i_name (fst x)).
      { intros x Hx. apply sig_step_in in Hx as [Hx Hx2]. split; [exact Hx|]. apply Hx2. apply (ss_names _ S1). tauto. }
      assert (EM : forall i, In i (s_signers s) -> sig_fed s l0 (i_arg i) = signed_message l).
      { intros i Hi. rewrite sig_fed_message; [now rewrite EL|exact Hi|eapply signers_hash; eassumption]. }
      specialize (SS eq_refl). revert FI SS. generalize (sig_steps s) as xs, (l_sigs l) as vs. intros xs vs FI SS.
      induction SS as [|x v xs vs (k & dd & Q1 & Q2 & Q3 & Q4 & Q5) SS IH]; cbn [map]; [constructor|].
      constructor; [|apply IH; intros; apply FI; now right]. destruct (FI x (or_introl eq_refl)) as [F1 F2].
      exists (fst x), k, dd. rewrite <- (EM _ F1), F2. auto 8.
    - rewrite (NS eq_refl). unfold sig_steps. destruct (s_signers s); [constructor|discriminate]. }
  destruct (s_kdf s) as [k|] eqn:EK.
  - destruct (close_plain_ok c cr s S1 _ _ _ _ _ _ (rest_start d) EK HC)
      as (nonce & q0 & q1 & kvs & ER & Eq0 & CM & EN & SK & EL & NS & SS & _).
    set (l0 := mkLetter _ _ _ _ _ _ _ _) in *. split; [|eapply SG; eassumption].
    assert (EKS : l_keys l = r_keys q1) by (rewrite EL; reflexivity).
    assert (ENC : l_nonce l = nonce) by (rewrite EL; reflexivity).
    rewrite closing_material_small in CM by assumption. apply close_steps_ok in CM as (cs & FM & G).
    assert (EM : r_mat q1 = map co_mat cs) by (rewrite (gr_mat _ _ _ _ _ _ _ G), Eq0; reflexivity).
    assert (EQ : r_keys q1 = map co_seal cs) by (rewrite (gr_keys _ _ _ _ _ _ _ G), Eq0; reflexivity).
    exists (combine (map step_signet (steps s)) (map (fun co => (co_seal co, co_mat co)) cs)), (keys kvs).
    assert (C1 : forall A B (a : list A) (b : list B), length a = length b -> map fst (combine a b) = a /\ map snd (combine a b) = b).
    { clear. induction a as [|x a IH]; intros [|y b] E; cbn in *; try discriminate; [auto|]. injection E as E. destruct (IH b E). split; congruence. }
    destruct (C1 _ _ (map step_signet (steps s)) (map (fun co => (co_seal co, co_mat co)) cs)) as [D1 D2].
    { rewrite !map_length. eapply F2_length; exact FM. }
    assert (D3 : forall A (g : seal * bytes -> A), map (fun x => g (snd x)) (combine (map step_signet (steps s)) (map (fun co => (co_seal co, co_mat co)) cs))
       = map (fun co => g (co_seal co, co_mat co)) cs).
    { intros A g. rewrite <- (map_map snd g), D2, map_map. reflexivity. }
    split; [now rewrite D1|]. split; [rewrite D3; cbn [fst]; now rewrite EKS|]. split.
    { rewrite ENC. clear D1 D2 D3 EM EQ G SG P1.
      assert (FI : forall x co, made c cr s nonce x co -> In x (steps s) -> contributes c cr s nonce (step_signet x) (co_seal co) (co_mat co)).
      { intros x co HM Hx. apply step_in in Hx.
        destruct HM; cbn [step_signet co_seal co_mat].
        - now constructor.
        - econstructor; eassumption.
        - destruct Hx as [Y1 Y2]. eapply con_kx; [exact Y1|apply Y2; apply (ss_names _ S1); tauto|eassumption|eassumption].
        - destruct Hx as [Y1 Y2]. eapply con_ke; [exact Y1|apply Y2; apply (ss_names _ S1); tauto|eassumption..]. }
      revert FI. induction FM as [|x co xs cs' HM FM IH]; intro FI; cbn [map combine]; [constructor|].
      constructor; [apply FI; [exact HM|now left]|]. apply IH. intros; apply FI; [assumption|now right]. }
    split.
    + rewrite ENC, (D3 _ snd). cbn [snd]. change (fun co => co_mat co) with co_mat. rewrite <- EM. unfold key_schedule. apply derived_schedule; [exact (ss_ids s S1)|exact SK].
    + apply opened_accepted. rewrite EL. now apply opened_sealed.
  - destruct (close_signonly_ok c cr s _ _ _ _ _ (rest_start d) EK HC) as (nonce & _ & NK & EL & NS & SS & _).
    split; [|eapply SG; eassumption]. destruct (no_kdf_no_keys _ _ _ _ _ _ N ES DT EK) as (Z1 & Z2 & Z3).
    exists [], (fun _ => ([], [])). rewrite Z1 in P1. cbn [map] in *. split; [exact P1|].
    split; [rewrite EL; reflexivity|]. split; [constructor|]. unfold key_schedule. rewrite Z2. split; [constructor|].
    unfold needs_key in NK. apply orb_false_iff in NK as [NK NK3]. apply orb_false_iff in NK as [NK1 NK2].
    unfold accepted. destruct (s_macs s), (s_aead s), (s_ciph s); try discriminate. split; [congruence|].
    exists data. split; [rewrite EL; constructor|reflexivity].
Qed.
Print Assumptions C17_nobody_left_out.

(** Every registered suite qualifies. *)
Corollary C17_registered_nobody_left_out : forall c cr e s su full data d l r,
  crypto_laws cr ->
  new_session c tool_registry hash_registry cr e = Ok s -> e_suite e = Some su -> In su suite_registry ->
  close_session c cr s full data (rt_start d None) = (Ok l, r) ->
  (exists (parts : list (signet * (seal * bytes))) kv,
     Permutation (map fst parts) (e_secrets e ++ e_recipients e)
     /\ l_keys l = map (fun x => fst (snd x)) parts
     /\ Forall (fun x => contributes c cr s (l_nonce l) (fst x) (fst (snd x)) (snd (snd x))) parts
     /\ key_schedule cr s (l_nonce l) (concat (map (fun x => snd (snd x)) parts)) 0 kv
     /\ accepted cr s kv l data)
  /\ exists who, Permutation who (e_senders e) /\ Forall2 (signs cr s l) who (l_sigs l).
Proof.
  intros c cr e s su full data d l r L N ES HI HC. destruct (registered_few su HI) as (F1 & F2 & DT).
  pose proof (registered_insts _ _ _ _ _ N ES HI) as EA. pose proof N as N'. apply new_session_ok in N' as (su' & _ & O).
  pose proof (so_shape _ _ _ _ _ _ _ O) as Sh.
  eapply C17_nobody_left_out; try eassumption; [rewrite (sh_kx _ _ _ Sh), EA; exact F1|rewrite (sh_ke _ _ _ Sh), EA; exact F2].
Qed.
Print Assumptions C17_registered_nobody_left_out.

(** With two key exchange tools an error of the first is lost: key generation of the first
    tool fails, Close succeeds, and the first recipient has no seal in the letter. *)
Definition half_broken : crypto :=
  mkCrypto (cr_rand toy) (cr_hash toy) (cr_kdf toy) (cr_stream toy) (cr_seal toy) (cr_open toy) (cr_mac toy) (cr_pwd toy)
    (fun t i => if bytes_eqb t (lit "ECDH-X25519") then None else cr_gen toy t i)
    (cr_shared toy) (cr_encap toy) (cr_unwrap toy) (cr_sign toy) (cr_verify toy)
    (cr_load toy) (cr_store_pub toy) (cr_rsa_bits toy) (cr_pw_level toy).
Lemma half_broken_laws : crypto_laws half_broken.
Proof.
  destruct toy_laws. assert (PO : forall t p s, pair_ok half_broken t p s -> pair_ok toy t p s).
  { intros t p s (i & E). exists i. cbn in *. destruct (bytes_eqb _ _); [discriminate|exact E]. }
  split; auto.
  - intros t p1 s1 p2 s2 H1 H2. exact (law_dh t p1 s1 p2 s2 (PO _ _ _ H1) (PO _ _ _ H2)).
  - intros t h p s k i w H. exact (law_encap t h p s k i w (PO _ _ _ H)).
  - intros t h p s m i sg H. exact (law_sign t h p s m i sg (PO _ _ _ H)).
  - intros t p s H. exact (law_store t p s (PO _ _ _ H)).
Qed.
Definition two_kx_suite : suite :=
  mkSuite (lit "two") [lit "ECDH-X25519"; lit "ECDH-P256"; lit "HKDF(SHA2-256)"; lit "CHACHA20-POLY1305"]
    [Confidentiality; Integrity; RecipientAuthentication] 128 2.
Definition two_kx_env : envelope :=
  toy_env two_kx_suite [] [] [toy_recipient "alice" "ECDH-X25519" 5; toy_recipient "bob" "ECDH-P256" 6].
Theorem C17_error_lost_refuted :
  exists s l r, new_session default_config tool_registry hash_registry half_broken two_kx_env = Ok s
    /\ close_session default_config half_broken s false (lit "hello") (rt_start 3 None) = (Ok l, r)
    /\ map seal_id (l_keys l) = [lit "bob"].
Proof. eexists _, _, _. split; [vm_compute; reflexivity|]. split; [vm_compute; reflexivity|]. vm_compute. reflexivity. Qed.
Print Assumptions C17_error_lost_refuted.

(** The positive theorem's hypotheses are those of C09_hypotheses_met, for every registered
    suite; here with a secret, a password, a sender and two recipients at once. *)
Definition crowd_suite : suite :=
  mkSuite (lit "crowd") [lit "PBKDF2-SHA2-256"; lit "ECDH-X25519"; lit "Ed25519(SHA2-256)"; lit "HKDF(SHA2-256)"; lit "CHACHA20-POLY1305"]
    newRequirements 128 2.
Definition crowd_env : envelope :=
  toy_env crowd_suite [toy_secret "k"; toy_password "pw"] [toy_signet "sender" "Ed25519" 7]
    [toy_recipient "alice" "ECDH-X25519" 5; toy_recipient "bob" "ECDH-X25519" 6].
Example C17_hypotheses_met :
  distinct_tools crowd_suite /\
  exists s l r, new_session default_config tool_registry hash_registry toy crowd_env = Ok s
    /\ close_session default_config toy s false (lit "hello") (rt_start 3 None) = (Ok l, r)
    /\ length (s_kx s) <= 1 /\ length (s_ke s) <= 1 /\ s_kdf s <> None
    /\ map seal_id (l_keys l) = [lit "k"; lit "pw"; lit "alice"; lit "bob"].
Proof.
  split; [apply nodupb_ok; vm_compute; reflexivity|].
  eexists _, _, _. split; [vm_compute; reflexivity|]. split; [vm_compute; reflexivity|]. vm_compute. repeat split; try lia; discriminate.
Qed.
