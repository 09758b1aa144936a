(** C26: stored keys load again. *)
From Verif Require Import Prelude PreludeFacts Container ContainerFacts Encodings EncodingsFacts Tools KeyStore SpecKeyStore.

Lemma version_ok r : get_version (version1 ++ r) = Ok r.
Proof. unfold get_version, version1. rewrite get_n8_small by lia. reflexivity. Qed.
Lemma version_inv key c : get_version key = Ok c -> key = version1 ++ c.
Proof.
  unfold get_version, get_n8. destruct key as [|b c']; [discriminate|]. destruct (b2n b <? 128)%N eqn:L.
  - destruct (N.eqb_spec (b2n b) 1) as [E|E]; [|discriminate]. injection 1 as <-. assert (B : b = n2b 1) by (rewrite <- E; symmetry; apply n2b_b2n). now rewrite B.
  - destruct c' as [|b1 c']; [discriminate|]. destruct (b2n b1 =? 1)%N; [|discriminate]. destruct (N.eqb_spec (b2n b) 1) as [E|E]; [rewrite E in L; discriminate L|discriminate].
Qed.
Lemma version_safe key : get_version key <> Panic.
Proof. unfold get_version. destruct (get_n8 2 key) as [[v c]| |]; [destruct (v =? 1)%N|..]; discriminate. Qed.
Lemma get32 p r : length p = 32 -> get_bytes 32 (p ++ r) = Ok (p, r).
Proof. intro L. replace 32%N with (blen p) by (unfold blen; rewrite L; reflexivity). apply get_bytes_app. unfold fits, blen. rewrite L. lia. Qed.
Lemma get32_inv c p r : get_bytes 32 c = Ok (p, r) -> c = p ++ r /\ length p = 32.
Proof.
  unfold get_bytes. destruct (2 ^ 63 <=? 32)%N eqn:X; [apply N.leb_le in X; lia|]. destruct (N.ltb_spec (blen c) 32) as [H|H]; [discriminate|]. intro E.
  assert (A : p = firstn (N.to_nat 32) c /\ r = skipn (N.to_nat 32) c) by (split; congruence). destruct A as [-> ->]. clear E.
  split; [symmetry; apply firstn_skipn|]. unfold blen in H. rewrite firstn_length. lia.
Qed.
Lemma big_round n : big_of (big_bytes n) = n.
Proof.
  unfold big_of, big_bytes. destruct (digits_spec 256 n ltac:(lia)) as (V & F & _). rewrite map_map. rewrite (map_ext_in _ (fun x => x)); [now rewrite map_id|].
  intros d I. rewrite b2n_n2b. apply N.mod_small. rewrite Forall_forall in F. now apply F.
Qed.
Lemma get_block_safe c : get_block c <> Panic.
Proof.
  unfold get_block. assert (A : forall f c, get_n64_aux f c <> Panic).
  { induction f as [|f IH]; intro c0; destruct c0 as [|b c1]; cbn; try discriminate; repeat (destruct (_ <? _)%N; try discriminate); repeat (destruct (_ =? _)%N; try discriminate);
    specialize (IH c1); destruct (get_n64_aux f c1) as [[v r]| |]; cbn; congruence. }
  unfold get_n64. specialize (A 9 c). destruct (get_n64_aux 9 c) as [[v r]| |]; cbn; try congruence. unfold get_bytes. destruct (_ <=? _)%N; [discriminate|]. destruct (_ <? _)%N; discriminate.
Qed.

Section C26.
Variable e : ext.
(** A generated key pair: what is stored loads again, privately ... *)
Theorem C26_round_trip : forall name l pub prv, logic_of name = Some l -> generated e l pub prv ->
  exists key, store_keys name pub prv = Ok (key, false) /\ load_keys name key false = Ok (pub, prv).
Proof.
  intros name l pub prv L G. unfold store_keys, load_keys. rewrite L. destruct G as [p s Lp Ls C|curve x y s Fx Fy C|seed p Ls Lp|k Pk V Pp].
  - eexists. split; [reflexivity|]. unfold load_x. rewrite version_ok. cbn [bind]. rewrite get32 by exact Lp. rewrite C. rewrite <- (app_nil_r s), get32 by exact Ls. now rewrite app_nil_r.
  - eexists. split; [reflexivity|]. unfold load_n. rewrite <- !app_assoc, version_ok. cbn [bind]. rewrite get_block_block by exact Fx. cbn [bind]. rewrite get_block_block by exact Fy. cbn [bind].
    now rewrite !big_round, C.
  - eexists. split; [reflexivity|]. unfold load_e. rewrite version_ok. cbn [bind]. rewrite app_length, Ls, Lp. cbn [Nat.eqb Nat.add]. repeat f_equal. rewrite <- Ls. apply skipn_app_exact.
  - eexists. split; [reflexivity|]. unfold load_r. rewrite version_ok. cbn [bind]. now rewrite Pk, V.
Qed.
(** ... and as the public part alone, with the same public key and nothing usable as a private key. *)
Theorem C26_public : forall name l pub prv, logic_of name = Some l -> generated e l pub prv ->
  exists key none, store_keys name pub SNil = Ok (key, true) /\ load_keys name key true = Ok (pub, none) /\ usable none = false.
Proof.
  intros name l pub prv L G. unfold store_keys, load_keys. rewrite L. destruct G as [p s Lp Ls C|curve x y s Fx Fy C|seed p Ls Lp|k Pk V Pp].
  - exists (version1 ++ p), SNil. split; [reflexivity|]. split; [|reflexivity]. unfold load_x. rewrite version_ok. cbn [bind]. rewrite <- (app_nil_r p), get32 by exact Lp. now rewrite app_nil_r, C.
  - eexists. exists SNil. split; [reflexivity|]. split; [|reflexivity]. unfold load_n. rewrite version_ok. cbn [bind]. rewrite get_block_block by exact Fx. cbn [bind].
    rewrite <- (app_nil_r (block (big_bytes y))), get_block_block by exact Fy. cbn [bind]. now rewrite !big_round, C.
  - eexists. exists SNilE. split; [reflexivity|]. split; [|reflexivity]. unfold load_e. rewrite version_ok. cbn [bind]. now rewrite Lp.
  - eexists. exists SNilR. split; [reflexivity|]. split; [|reflexivity]. unfold load_r. rewrite version_ok. cbn [bind]. now rewrite Pp.
Qed.
(** No byte string makes loading crash. *)
Theorem C26_no_crash : forall name key public, load_keys (e := e) name key public <> Panic.
Proof.
  intros name key public. unfold load_keys. destruct (logic_of name) as [[|curve| |]|]; [..|discriminate]; pose proof (version_safe key) as S;
    unfold load_x, load_n, load_e, load_r; destruct (get_version key) as [c|x|]; cbn [bind]; try discriminate; try congruence.
  - destruct (get_bytes 32 c) as [[p c1]| |]; try discriminate. destruct (x_check e p); [|discriminate]. destruct public; [discriminate|]. destruct (get_bytes 32 c1) as [[s c2]| |]; discriminate.
  - pose proof (get_block_safe c) as B. destruct (get_block c) as [[xb c1]| |]; cbn [bind]; try congruence. pose proof (get_block_safe c1) as B1. destruct (get_block c1) as [[yb c2]| |]; cbn [bind]; try congruence.
    destruct (n_check e curve _ _); discriminate.
  - destruct public; destruct (length c =? _); discriminate.
  - destruct public; [destruct (r_parse_pub e c); discriminate|]. destruct (r_parse_priv e c) as [k|]; [destruct (r_validate e k)|]; discriminate.
Qed.
(** Exactly which bytes are an X25519 or Ed25519 key. *)
Theorem C26_x25519_exact : forall key public pub prv, load_keys (e := e) (lit "ECDH-X25519") key public = Ok (pub, prv) <->
  exists p rest, pub = PubX p /\ length p = 32 /\ x_check e p = true
    /\ if public then prv = SNil /\ key = version1 ++ p ++ rest
       else exists s, prv = SX s /\ length s = 32 /\ key = version1 ++ p ++ s ++ rest.
Proof.
  intros key public pub prv. change (load_keys (lit "ECDH-X25519") key public) with (@load_x e key public). unfold load_x. split.
  - destruct (get_version key) as [c| |] eqn:V; cbn [bind]; try discriminate. apply version_inv in V. destruct (get_bytes 32 c) as [[p c1]| |] eqn:B; try discriminate. apply get32_inv in B. destruct B as [-> Lp].
    destruct (x_check e p) eqn:C; [|discriminate]. destruct public.
    + injection 1 as <- <-. exists p, c1. auto 6.
    + destruct (get_bytes 32 c1) as [[s c2]| |] eqn:B2; try discriminate. apply get32_inv in B2. destruct B2 as [-> Ls]. injection 1 as <- <-. exists p, c2. repeat split; auto. exists s. auto.
  - intros (p & rest & -> & Lp & C & H). destruct public.
    + destruct H as [-> ->]. rewrite version_ok. cbn [bind]. now rewrite get32, C by exact Lp.
    + destruct H as (s & -> & Ls & ->). rewrite version_ok. cbn [bind]. rewrite get32, C by exact Lp. now rewrite get32 by exact Ls.
Qed.
Theorem C26_ed25519_exact : forall key public pub prv, load_keys (e := e) (lit "Ed25519") key public = Ok (pub, prv) <->
  exists p, pub = PubE p /\ length p = 32
    /\ if public then prv = SNilE /\ key = version1 ++ p
       else exists seed, prv = SE (seed ++ p) /\ length seed = 32 /\ key = version1 ++ seed ++ p.
Proof.
  intros key public pub prv. change (load_keys (lit "Ed25519") key public) with (@load_e e key public). unfold load_e. split.
  - destruct (get_version key) as [c| |] eqn:V; cbn [bind]; try discriminate. apply version_inv in V. destruct public.
    + destruct (length c =? 32) eqn:L; [|discriminate]. apply Nat.eqb_eq in L. injection 1 as <- <-. exists c. auto.
    + destruct (length c =? 64) eqn:L; [|discriminate]. apply Nat.eqb_eq in L. injection 1 as <- <-. exists (skipn 32 c). split; [reflexivity|]. split; [rewrite skipn_length, L; reflexivity|].
      exists (firstn 32 c). rewrite firstn_skipn. repeat split; [|exact V]. rewrite firstn_length, L. reflexivity.
  - intros (p & -> & Lp & H). destruct public.
    + destruct H as [-> ->]. rewrite version_ok. cbn [bind]. now rewrite Lp.
    + destruct H as (seed & -> & Ls & ->). rewrite version_ok. cbn [bind]. rewrite app_length, Ls, Lp. cbn [Nat.add Nat.eqb]. repeat f_equal. rewrite <- Ls. apply skipn_app_exact.
Qed.
(** Two different key pairs are stored differently. *)
Theorem C26_injective : forall name l pub prv pub' prv' key, logic_of name = Some l -> generated e l pub prv -> generated e l pub' prv' ->
  store_keys name pub prv = Ok (key, false) -> store_keys name pub' prv' = Ok (key, false) -> pub = pub' /\ prv = prv'.
Proof.
  intros name l pub prv pub' prv' key L G G' S S'. destruct (C26_round_trip _ _ _ _ L G) as (k & E & LD). destruct (C26_round_trip _ _ _ _ L G') as (k' & E' & LD').
  rewrite S in E. rewrite S' in E'. injection E as <-. injection E' as <-. rewrite LD in LD'. injection LD' as -> ->. auto.
Qed.
End C26.

(** A concrete case of each scheme. *)
Definition demo_ext : ext := mkExt bytes (bytes * bytes) (fun _ => true) (fun _ x y => (x <? y)%N)
  (fun p => p) (fun b => Some b) (fun k => block (fst k) ++ snd k)
  (fun b => match get_block b with Ok (a, r) => Some (a, r) | _ => None end) (fun _ => true) fst.
Example C26_hypotheses_met : exists p s seed,
  generated demo_ext LX (PubX p) (SX s) /\ generated demo_ext (LN (lit "ECDH-P256")) (PubN 5 70000) (SN s) /\ generated demo_ext LE (PubE p) (SE (seed ++ p))
  /\ generated demo_ext LR (@PubR demo_ext (lit "pub")) (@SR demo_ext (lit "pub", lit "priv")).
Proof.
  exists (repeat (n2b 7) 32), (repeat (n2b 8) 32), (repeat (n2b 9) 32). split; [|split; [|split]].
  - constructor; reflexivity.
  - constructor; [vm_compute; reflexivity|vm_compute; reflexivity|reflexivity].
  - constructor; reflexivity.
  - apply (gen_rsa demo_ext (lit "pub", lit "priv")); vm_compute; reflexivity.
Qed.
