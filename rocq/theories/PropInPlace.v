(** C15, the general part: what a letter's data is after an attempt to open it. *)
From Coq Require Import Init.Byte.
From Verif Require Import CoreOpen LetterFacts SpecOpen SuiteFacts SpecSession SessionFacts SpecCore PropHistory PropTrip PropOpen CoreRound CorePanic Toy PropSide.

(** What is left of data whose authentication failed: zeros, and the tag. *)
Definition wiped (d d' : bytes) : Prop :=
  exists sealed tag, d = sealed ++ tag /\ length tag = 16 /\ d' = repeat (n2b 0) (length sealed) ++ tag.

(** The computation leaves a buffer that started as [d] as [Q] says, whatever the outcome. *)
Definition leaves (Q : outcome bytes -> bytes -> Prop) (d : bytes) (m : M bytes) : Prop :=
  forall r, r_buf r = d -> Q (fst (m r)) (r_buf (snd (m r))).
Section Leaves.
Variables (Q : outcome bytes -> bytes -> Prop) (d : bytes).
Hypothesis (QE : forall e, Q (Err e) d) (QP : Q Panic d).
Lemma leaves_bind {A} (m : M A) f : kb m -> (forall a, leaves Q d (f a)) -> leaves Q d (mbind m f).
Proof using QE QP.
  intros K S r E. unfold mbind. specialize (K r). destruct (m r) as [[a|e|] r']; cbn [fst snd] in *.
  - apply S. congruence.
  - rewrite K, E. apply QE.
  - rewrite K, E. apply QP.
Qed.
Lemma leaves_deferred f (m : M bytes) : (forall r, r_buf (f r) = r_buf r) -> leaves Q d m -> leaves Q d (deferred f m).
Proof using. clear QE QP. intros K S r E. unfold deferred. specialize (S r E). destruct (m r). cbn [fst snd] in *. now rewrite K. Qed.
Lemma leaves_fail e : leaves Q d (fail e).
Proof using QE. clear QP. intros r E. cbn. rewrite E. apply QE. Qed.

Lemma leaves_open c cr s l r :
  l_data l = d -> (forall p, needs_key s = false -> p = d -> Q (Ok p) d) ->
  leaves Q d (run x <- foldT (fun d i => aead_open cr (open_ad s l) i d) (l_data l) (rev (s_aead s)); decrypt cr s x) ->
  Q (fst (open_session c cr s l r)) (r_buf (snd (open_session c cr s l r))).
Proof using QE QP.
  intros ED QK L. unfold open_session, modify. unfold mbind at 1 4. cbv beta iota.
  match goal with |- Q (fst (?m ?x)) _ => assert (K : leaves Q d m); [|exact (K x ED)] end.
  assert (P : leaves Q d (open_payload c cr s l)).
  { unfold open_payload. destruct (s_kdf s).
    - apply leaves_bind; [auto with kb|intro w]. apply leaves_bind; [kb_auto|intros _]. apply leaves_bind; [auto with kb|intros _].
      apply leaves_deferred; [apply kb_reset|]. cbv zeta. destruct (nonempty (s_macs s)); [|exact L].
      unfold with_mac_hashers. apply leaves_bind; [kb_auto|intros _]. apply leaves_deferred; [reflexivity|].
      apply leaves_bind; [unfold macs; kb_auto|intro m]. apply leaves_bind; [kb_auto|intros _]. exact L.
    - destruct (needs_key s) eqn:NK; [apply leaves_fail|]. intros q Eq. cbn. rewrite Eq, ED. now apply QK. }
  apply leaves_bind; [kb_auto|intro w]. apply leaves_bind; [kb_auto|intros _]. destruct (nonempty _); [|exact P].
  unfold with_signatures, with_sig_hashers. apply leaves_bind; [kb_auto|intros _]. apply leaves_deferred; [reflexivity|].
  apply leaves_bind; [kb_auto|intros _]. apply leaves_bind; [auto with kb|intros _]. exact P.
Qed.
End Leaves.

(** Whatever the suite: after a successful Open the letter's data begins with the plaintext. *)
Theorem C15_opened_in_place : forall c cr s l r data r',
  open_session c cr s l r = (Ok data, r') -> exists rest, r_buf r' = data ++ rest.
Proof.
  intros c cr s l r data r' E.
  pose (Q := fun (o : outcome bytes) (b : bytes) => match o with Ok p => exists rest, b = p ++ rest | _ => True end).
  assert (H : Q (fst (open_session c cr s l r)) (r_buf (snd (open_session c cr s l r)))).
  { apply (leaves_open Q (l_data l)); [intro; exact I|exact I|reflexivity|intros p _ ->; exists []; now rewrite app_nil_r|].
    clear E.
    assert (FA : forall is d q, (exists rest, r_buf q = d ++ rest) ->
                  match foldT (fun d i => aead_open cr (open_ad s l) i d) d is q with (Ok p, q') => exists rest, r_buf q' = p ++ rest | _ => True end).
    { induction is as [|i is IH]; intros d q Hq; cbn [foldT]; [exact Hq|]. unfold mbind, aead_open at 1. cbv zeta.
      destruct (cr_open _ _ _ _ _ _) as [p|]; [|exact I]. apply IH. cbn. eauto. }
    assert (FC : forall is d q, (exists rest, r_buf q = d ++ rest) ->
                  match foldT (fun d i => run d' <- cipher cr i d; run _ <- modify (fun r => set_buf r (d' ++ skipn (length d') (r_buf r))); ret d') d is q
                  with (Ok p, q') => exists rest, r_buf q' = p ++ rest | _ => True end).
    { induction is as [|i is IH]; intros d q Hq; cbn [foldT]; [exact Hq|]. unfold mbind at 1.
      unfold mbind at 1, cipher at 1, tool_st, gets. unfold mbind at 1, ret, modify. unfold mbind at 1. apply IH. cbn. eauto. }
    intros q Eq. unfold mbind. assert (B : exists rest, r_buf q = l_data l ++ rest) by (exists []; now rewrite app_nil_r). specialize (FA (rev (s_aead s)) (l_data l) q B).
    destruct (foldT _ (l_data l) _ q) as [[p|e|] q']; [|exact I|exact I]. cbn [fst snd].
    unfold decrypt. specialize (FC (rev (s_ciph s)) p q' FA). destruct (foldT _ p _ q') as [[p'|e|] q'']; cbn [fst snd]; [exact FC|exact I|exact I]. }
  rewrite E in H. exact H.
Qed.
Print Assumptions C15_opened_in_place.

(** The registered suites: at most one AEAD, no other cipher. *)
Lemma registered_ciphers c cr e s su :
  new_session c tool_registry hash_registry cr e = Ok s -> e_suite e = Some su -> In su suite_registry ->
  s_ciph s = [] /\ length (s_aead s) <= 1 /\ (In Confidentiality (su_provides su) <-> s_aead s <> []) /\ (s_aead s <> [] -> needs_key s = true).
Proof.
  intros N ES HI. pose proof (registered_insts _ _ _ _ _ N ES HI) as EA. apply new_session_ok in N as (su' & _ & O).
  pose proof (so_shape _ _ _ _ _ _ _ O) as SH.
  rewrite (sh_ciph _ _ _ SH). unfold needs_key. rewrite (sh_ciph _ _ _ SH), (sh_aead _ _ _ SH), EA.
  assert (C : forallb (fun su => negb (nonempty (of_purpose PCipher (suite_insts su))) && (length (of_purpose PIntegratedCipher (suite_insts su)) <=? 1)%nat
            && Bool.eqb (existsb (N.eqb Confidentiality) (su_provides su)) (nonempty (of_purpose PIntegratedCipher (suite_insts su)))) suite_registry = true) by (vm_compute; reflexivity).
  rewrite forallb_forall in C. specialize (C su HI). apply andb_prop in C as [C C3]. apply andb_prop in C as [C1 C2].
  destruct (of_purpose PCipher (suite_insts su)); [|discriminate]. apply Nat.leb_le in C2. apply Bool.eqb_prop in C3.
  split; [reflexivity|]. split; [exact C2|]. split.
  - destruct (of_purpose PIntegratedCipher (suite_insts su)) as [|i is]; cbn in C3.
    + split; [intro H|congruence]. exfalso. assert (X : existsb (N.eqb Confidentiality) (su_provides su) = true) by (apply existsb_exists; exists Confidentiality; split; [exact H|apply N.eqb_refl]). congruence.
    + split; [discriminate|intros _]. apply existsb_exists in C3 as (a & Ha & Ea). apply N.eqb_eq in Ea. now subst.
  - destruct (of_purpose PIntegratedCipher (suite_insts su)); [congruence|reflexivity].
Qed.

(** The registered suites, exactly: the data is overwritten with the plaintext on success; a
    failed attempt leaves it alone or wipes all of it but the tag. *)
Theorem C15_registered_after_open : forall c cr e s su l r o r',
  new_session c tool_registry hash_registry cr e = Ok s -> e_suite e = Some su -> In su suite_registry ->
  open_session c cr s l r = (o, r') ->
  match o with
  | Ok data => r_buf r' = data ++ skipn (length data) (l_data l)
  | _ => r_buf r' = l_data l \/ (In Confidentiality (su_provides su) /\ o = Err EIntegrity /\ wiped (l_data l) (r_buf r'))
  end.
Proof.
  intros c cr e s su l r o r' N ES HI E. destruct (registered_ciphers _ _ _ _ _ N ES HI) as (C1 & C2 & C3 & C4).
  pose (Q := fun (o : outcome bytes) (b : bytes) => match o with
    | Ok p => b = p ++ skipn (length p) (l_data l)
    | _ => b = l_data l \/ (In Confidentiality (su_provides su) /\ o = Err EIntegrity /\ wiped (l_data l) b) end).
  assert (H : Q (fst (open_session c cr s l r)) (r_buf (snd (open_session c cr s l r)))).
  { assert (Q0 : Q (Ok (l_data l)) (l_data l)) by (cbn; now rewrite skipn_all, app_nil_r).
    apply (leaves_open Q (l_data l)); [intro; cbn; auto|cbn; auto|reflexivity|intros p _ ->; exact Q0|].
    intros q Eq. unfold decrypt. rewrite C1. cbn [rev foldT].
    destruct (s_aead s) as [|i [|j js]] eqn:EA; [| |cbn in C2; exfalso; apply (Nat.nle_succ_0 (length js)); exact (le_S_n _ _ C2)].
    - cbn [rev foldT]. unfold mbind, ret. cbn [fst snd]. rewrite Eq. exact Q0.
    - cbn [rev app foldT]. unfold mbind, aead_open, ret. cbv zeta. destruct (cr_open _ _ _ _ _ _) as [p|]; cbn [fst snd].
      + cbn. now rewrite Eq.
      + unfold tag_size. destruct (length (l_data l) <? 16) eqn:LT; [cbn; auto|]. apply Nat.ltb_ge in LT. unfold Q. right.
        split; [apply C3; discriminate|]. split; [reflexivity|]. cbn [set_buf r_buf]. rewrite Eq.
        exists (firstn (length (l_data l) - 16) (l_data l)), (skipn (length (l_data l) - 16) (l_data l)).
        split; [symmetry; apply firstn_skipn|]. rewrite skipn_length, firstn_length. split; [lia|]. rewrite Nat.min_l by lia. reflexivity. }
  rewrite E in H. exact H.
Qed.
Print Assumptions C15_registered_after_open.

(** All three outcomes occur: opened, wiped by a wrong key, untouched for want of a version. *)
Example C15_after_open_met :
  let s b := key_session b in
  new_session default_config tool_registry hash_registry masked (s_env (s x41)) = Ok (s x41)
  /\ (exists r, open_session default_config masked (s x41) key_letter (rt_start 0 None) = (Ok (lit "hello"), r))
  /\ (let x := open_session default_config masked (s x42) key_letter (rt_start 0 None) in
      fst x = Err EIntegrity /\ r_buf (snd x) <> l_data key_letter).
Proof.
  cbv zeta. split; [vm_compute; reflexivity|]. split; [eexists; vm_compute; reflexivity|]. split; [vm_compute; reflexivity|vm_compute; discriminate].
Qed.
