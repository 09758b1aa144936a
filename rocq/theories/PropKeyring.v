(** C61: the keyring trust store. *)
From Verif Require Import Prelude PreludeFacts Container Encodings EncodingsFacts Tools Session KeyStore SpecKeyStore PropKeyStore Signets SpecExport PropExport TrustStore SpecStore PropStore Keyring SpecKeyring.

Lemma slot_eqb_eq a b : slot_eqb a b = true <-> a = b.
Proof. destruct a, b. unfold slot_eqb. cbn [fst snd]. rewrite Bool.andb_true_iff, !bytes_eqb_eq. split; [intros [-> ->]; reflexivity|now intros [= -> ->]]. Qed.

Section Ring.
Context {e : ext}.
Variables (dump : sdata -> option bytes) (undump : bytes -> option sdata).
Variables (edump : edata -> option bytes) (eundump : bytes -> option edata).

(** The store and the keyring run an event. *)
Definition kstep (name : bytes) (c : kcall e) (r : ring) : kanswer e * ring :=
  match c with
  | KNew l1 l2 => let (ok, r') := kr_new l1 l2 name r in (KDone ok, r')
  | KGet l id rc => (KGot (kr_get tool_registry undump l name r id rc), r)
  | KStore l s => let (x, r') := kr_store tool_registry dump l name r s in (KStored x, r')
  | KDelete l id rc => let (ok, r') := kr_delete l name r id rc in (KDone ok, r')
  | KGetEnv l n => (KGotEnv (kr_get_envelope eundump l name r n), r)
  | KStoreEnv l v => let '(ok, v', r') := kr_store_envelope edump l name r v in (KEnvStored ok v', r')
  | KDeleteEnv l n => let (ok, r') := kr_delete_envelope l name r n in (KDone ok, r')
  | KSelect => (KSelected kr_select, r)
  | KAllEnv => (KListed kr_all_envelopes, r)
  end.
Definition kstep_event (ev : kevent e) (r : ring) : kanswer e * ring :=
  match ev with
  | Call n c => kstep n c r
  | Foreign s u (Some v) => (KNothing, a_set slot_eqb (s, u) v r)
  | Foreign s u None => (KNothing, a_del slot_eqb (s, u) r)
  end.
Fixpoint run_ring (evs : list (kevent e)) (r : ring) : list (kanswer e) :=
  match evs with [] => [] | ev :: t => let (a, r') := kstep_event ev r in a :: run_ring t r' end.

(** What is kept of a signet: its data with the key in it, if they can be encoded. *)
Definition serialise (s : fsignet e) : outcome sdata :=
  do s' <- store_signet tool_registry s; match dump (f_data s') with Some _ => Ok (f_data s') | None => Err EOther end.
Definition load (d : sdata) : outcome (fsignet e) := load_signet tool_registry (mkF d None SNil).
Definition can_dump (v : edata) : bool := match edump v with Some _ => true | None => false end.
(** The CBOR codec gives back what it encoded, and other programs keep to their own services. *)
Definition fair (ev : kevent e) : Prop :=
  match ev with
  | Call _ (KStore _ s) => forall d, serialise s = Ok d -> codec_ok dump undump d
  | Call _ (KStoreEnv _ v) => can_dump (clean v) = true -> codec_ok edump eundump (clean v)
  | Foreign s _ _ => forall n, s <> lit "jess:" ++ n
  | _ => True
  end.

Notation lookup r n u := (@a_get (bytes * bytes) bytes slot_eqb (@pair bytes bytes (service n) u) r).
Record abs (r : ring) (st : stores) : Prop := {
  ab_sig : forall n id rc, match lookup r n (storage_id id rc), m_sig (st n) id rc with
           | Some t, Some d => exists b, t = b58_encode b /\ b <> [] /\ undump b = Some d
           | None, None => True | _, _ => False end;
  ab_env : forall n m, match lookup r n (m ++ lit ".envelope"), m_env (st n) m with
           | Some t, Some v => exists b, t = b58_encode b /\ b <> [] /\ eundump b = Some v
           | None, None => True | _, _ => False end }.

Lemma service_inj a b : service a = service b -> a = b.
Proof. unfold service. intro H. injection H. auto. Qed.
Lemma self_storage id rc : storage_id id rc <> self_key.
Proof.
  unfold storage_id, self_key. intro H. apply (f_equal (@rev byte)) in H. rewrite rev_app_distr in H.
  destruct rc; vm_compute (rev (lit _)) in H; cbn in H; discriminate H.
Qed.
Lemma self_env n : n ++ lit ".envelope" <> self_key.
Proof.
  unfold self_key. intro H. apply (f_equal (@rev byte)) in H. rewrite rev_app_distr in H. vm_compute (rev (lit _)) in H. cbn in H. discriminate H.
Qed.
Lemma env_inj (a b : bytes) : a ++ lit ".envelope" = b ++ lit ".envelope" -> a = b.
Proof. intro H. now apply suffix_cut in H as [H _]. Qed.

Lemma bytes_dec (a b : bytes) : {a = b} + {a <> b}.
Proof. destruct (bytes_eqb a b) eqn:E; [left; now apply bytes_eqb_eq|right; intro H; apply bytes_eqb_eq in H; congruence]. Qed.

Lemma get_set (r : ring) s u v s' u' : a_get slot_eqb (s', u') (a_set slot_eqb (s, u) v r) = if slot_eqb (s', u') (s, u) then Some v else a_get slot_eqb (s', u') r.
Proof.
  destruct (slot_eqb (s', u') (s, u)) eqn:E.
  - apply slot_eqb_eq in E. rewrite E. apply (get_set_same slot_eqb slot_eqb_eq).
  - apply (get_set_other slot_eqb slot_eqb_eq). intro X. symmetry in X. apply slot_eqb_eq in X. congruence.
Qed.
Lemma get_del (r : ring) s u s' u' : a_get slot_eqb (s', u') (a_del slot_eqb (s, u) r) = if slot_eqb (s', u') (s, u) then None else a_get slot_eqb (s', u') r.
Proof.
  destruct (slot_eqb (s', u') (s, u)) eqn:E.
  - apply slot_eqb_eq in E. rewrite E. apply (get_del_same slot_eqb).
  - apply (get_del_other slot_eqb slot_eqb_eq). intro X. symmetry in X. apply slot_eqb_eq in X. congruence.
Qed.
Lemma slot_storage n id rc n' id' rc' : slot_eqb (service n', storage_id id' rc') (service n, storage_id id rc) = bytes_eqb n' n && (bytes_eqb id' id && Bool.eqb rc' rc).
Proof.
  destruct (slot_eqb _ _) eqn:E; symmetry.
  - apply slot_eqb_eq in E. injection E as E1 E2. apply storage_id_inj in E2 as [-> ->]. assert (n' = n) as -> by exact E1. now rewrite !bytes_eqb_refl, Bool.eqb_reflx.
  - apply Bool.not_true_iff_false. intro H. rewrite !Bool.andb_true_iff, !bytes_eqb_eq, Bool.eqb_true_iff in H. destruct H as (-> & -> & ->). rewrite (proj2 (slot_eqb_eq _ _) eq_refl) in E. discriminate.
Qed.
Lemma slot_env n m n' m' : slot_eqb (service n', m' ++ lit ".envelope") (service n, m ++ lit ".envelope") = bytes_eqb n' n && bytes_eqb m' m.
Proof.
  destruct (slot_eqb _ _) eqn:E; symmetry.
  - apply slot_eqb_eq in E. injection E as E1 E2. apply env_inj in E2 as ->. assert (n' = n) as -> by exact E1. now rewrite !bytes_eqb_refl.
  - apply Bool.not_true_iff_false. intro H. rewrite !Bool.andb_true_iff, !bytes_eqb_eq in H. destruct H as (-> & ->). rewrite (proj2 (slot_eqb_eq _ _) eq_refl) in E. discriminate.
Qed.
Lemma slot_diff s u s' u' : (s' <> s \/ u' <> u) -> slot_eqb (s', u') (s, u) = false.
Proof. intro H. apply Bool.not_true_iff_false. intro E. apply slot_eqb_eq in E. injection E as -> ->. destruct H; congruence. Qed.

(** Changes of the keyring and of the maps. *)
Lemma abs_ext r r' st st' : abs r st ->
  (forall n id rc, lookup r' n (storage_id id rc) = lookup r n (storage_id id rc)) ->
  (forall n m, lookup r' n (m ++ lit ".envelope") = lookup r n (m ++ lit ".envelope")) ->
  (forall n id rc, m_sig (st' n) id rc = m_sig (st n) id rc) -> (forall n m, m_env (st' n) m = m_env (st n) m) -> abs r' st'.
Proof. intros [A B] H1 H2 H3 H4. constructor; intros; [rewrite H1, H3; apply A|rewrite H2, H4; apply B]. Qed.
Lemma set_store_same st n x id rc : m_sig (set_store st n (st n) x) id rc = m_sig (st x) id rc.
Proof. unfold set_store. destruct (bytes_eqb x n) eqn:E; [apply bytes_eqb_eq in E as ->|]; reflexivity. Qed.
Lemma set_store_same_env st n x m : m_env (set_store st n (st n) x) m = m_env (st x) m.
Proof. unfold set_store. destruct (bytes_eqb x n) eqn:E; [apply bytes_eqb_eq in E as ->|]; reflexivity. Qed.
Lemma set_store_put st n id rc x n' id' rc' : m_sig (set_store st n (put (st n) id rc x) n') id' rc'
  = if bytes_eqb n' n && (bytes_eqb id' id && Bool.eqb rc' rc) then x else m_sig (st n') id' rc'.
Proof. unfold set_store. destruct (bytes_eqb n' n) eqn:E; [apply bytes_eqb_eq in E as ->|reflexivity]. reflexivity. Qed.
Lemma set_store_put_e st n id rc x n' m : m_env (set_store st n (put (st n) id rc x) n') m = m_env (st n') m.
Proof. unfold set_store. destruct (bytes_eqb n' n) eqn:E; [apply bytes_eqb_eq in E as ->|reflexivity]. reflexivity. Qed.
Lemma set_store_env st n m x n' m' : m_env (set_store st n (put_env (st n) m x) n') m' = if bytes_eqb n' n && bytes_eqb m' m then x else m_env (st n') m'.
Proof. unfold set_store. destruct (bytes_eqb n' n) eqn:E; [apply bytes_eqb_eq in E as ->|reflexivity]. reflexivity. Qed.
Lemma set_store_env_s st n m x n' id rc : m_sig (set_store st n (put_env (st n) m x) n') id rc = m_sig (st n') id rc.
Proof. unfold set_store. destruct (bytes_eqb n' n) eqn:E; [apply bytes_eqb_eq in E as ->|reflexivity]. reflexivity. Qed.

Lemma same_abs r st n : abs r st -> abs r (set_store st n (st n)).
Proof. intro A. apply (abs_ext r r st); auto using set_store_same, set_store_same_env. Qed.
Lemma abs_put r st n id rc x t r' : abs r st ->
  match x, t with Some d, Some t => exists b, t = b58_encode b /\ b <> [] /\ undump b = Some d | None, None => True | _, _ => False end ->
  (forall n' u, lookup r' n' u = if slot_eqb (service n', u) (service n, storage_id id rc) then t else lookup r n' u) ->
  abs r' (set_store st n (put (st n) id rc x)).
Proof.
  intros [A B] X G. constructor.
  - intros n' id' rc'. rewrite G, slot_storage, set_store_put. destruct (_ && _); [destruct t, x; auto|apply A].
  - intros n' m. rewrite G, slot_diff, set_store_put_e; [apply B|right]. intro H. symmetry in H. now apply storage_env in H.
Qed.
Lemma abs_put_env r st n m x t r' : abs r st ->
  match x, t with Some d, Some t => exists b, t = b58_encode b /\ b <> [] /\ eundump b = Some d | None, None => True | _, _ => False end ->
  (forall n' u, lookup r' n' u = if slot_eqb (service n', u) (service n, m ++ lit ".envelope") then t else lookup r n' u) ->
  abs r' (set_store st n (put_env (st n) m x)).
Proof.
  intros [A B] X G. constructor.
  - intros n' id' rc'. rewrite G, slot_diff, set_store_env_s; [apply A|right]. apply storage_env.
  - intros n' m'. rewrite G, slot_env, set_store_env. destruct (_ && _); [destruct t, x; auto|apply B].
Qed.

Lemma serialise_run (s : fsignet e) : to_base58 tool_registry dump s = match store_signet tool_registry s with
  | Ok s' => match dump (f_data s') with Some b => Ok (b58_encode b, s') | None => Err EOther end | Err x => Err x | Panic => Panic end.
Proof. unfold to_base58. now destruct (store_signet _ s). Qed.

Lemma step_abs n c r st : abs r st -> fair (Call n c) ->
  fst (kstep n c r) = fst (kspec serialise load can_dump n c (st n)) /\ abs (snd (kstep n c r)) (set_store st n (snd (kspec serialise load can_dump n c (st n)))).
Proof.
  intros A F. pose proof (same_abs r st n A) as AS. destruct c as [l1 l2|l id rc|l s|l id rc|l m|l v|l m| |]; cbn [kstep kspec].
  - unfold kr_new, ring_set, ring_get. assert (AL : forall r', (forall n' u, lookup r' n' u = if slot_eqb (service n', u) (service n, self_key) then Some self_value else lookup r n' u) -> abs r' (set_store st n (st n))).
    { intros r' G. apply (abs_ext r r' st); auto using set_store_same, set_store_same_env; intros; rewrite G, slot_diff; auto using self_storage, self_env. }
    assert (G : abs (a_set slot_eqb (service n, self_key) self_value r) (set_store st n (st n))) by (apply AL; intros; apply get_set).
    destruct l1; cbn [reported happens andb]; [|split; [reflexivity|exact AS]|split; [reflexivity|exact G]].
    destruct l2; cbn [reported]; try (split; [reflexivity|exact G]).
    rewrite get_set, (proj2 (slot_eqb_eq _ _) eq_refl), bytes_eqb_refl. split; [reflexivity|exact G].
  - split; [|exact AS]. cbn [fst]. unfold kr_get, ring_get. destruct (reported l); [|reflexivity]. pose proof (ab_sig _ _ A n id rc) as H.
    destruct (lookup r n _) as [t|], (m_sig (st n) id rc) as [d|]; try easy. destruct H as (b & -> & NE & U).
    unfold from_base58. rewrite b58_round_trip by exact NE. cbn [bind]. rewrite U. reflexivity.
  - unfold kr_store. rewrite serialise_run. cbn [fair] in F. unfold serialise in *. destruct (store_signet tool_registry s) as [s'|x|]; cbn [bind] in *; [|split; [reflexivity|exact AS]..].
    destruct (dump (f_data s')) as [b|] eqn:D; [|split; [reflexivity|exact AS]].
    destruct (F _ eq_refl) as (b' & D' & NE & U). rewrite D in D'. injection D' as <-. unfold ring_set.
    assert (G : abs (a_set slot_eqb (service n, storage_id (d_id (f_data s)) (d_public (f_data s))) (b58_encode b) r)
      (set_store st n (put (st n) (d_id (f_data s)) (d_public (f_data s)) (Some (f_data s'))))).
    { eapply abs_put; [exact A| |intros; apply get_set]. cbn. eauto. }
    destruct l; cbn [reported happens fst snd]; auto.
  - unfold kr_delete, ring_del. pose proof (ab_sig _ _ A n id rc) as H.
    destruct (lookup r n _) as [t|] eqn:E, (m_sig (st n) id rc) as [d|]; try easy.
    assert (G : abs (a_del slot_eqb (service n, storage_id id rc) r) (set_store st n (put (st n) id rc None))).
    { apply (abs_put r st n id rc None None); [exact A|exact I|]. intros. apply get_del. }
    destruct l; cbn [reported happens fst snd]; auto.
  - split; [|exact AS]. cbn [fst]. unfold kr_get_envelope, ring_get. destruct (reported l); [|reflexivity]. pose proof (ab_env _ _ A n m) as H.
    destruct (lookup r n _) as [t|], (m_env (st n) m) as [d|]; try easy. destruct H as (b & -> & NE & U).
    rewrite b58_round_trip by exact NE. cbn [bind]. rewrite U. reflexivity.
  - unfold kr_store_envelope. cbn [fair] in F. unfold can_dump in *. destruct (edump (clean v)) as [b|] eqn:D; [|split; [reflexivity|exact AS]].
    destruct (F eq_refl) as (b' & D' & NE & U). rewrite D in D'. injection D' as <-. unfold ring_set.
    assert (G : abs (a_set slot_eqb (service n, ev_name v ++ lit ".envelope") (b58_encode b) r) (set_store st n (put_env (st n) (ev_name v) (Some (clean v))))).
    { eapply abs_put_env; [exact A| |intros; apply get_set]. cbn. eauto. }
    destruct l; cbn [reported happens fst snd]; auto.
  - unfold kr_delete_envelope, ring_del. pose proof (ab_env _ _ A n m) as H.
    destruct (lookup r n _) as [t|] eqn:E, (m_env (st n) m) as [d|]; try easy.
    assert (G : abs (a_del slot_eqb (service n, m ++ lit ".envelope") r) (set_store st n (put_env (st n) m None))).
    { apply (abs_put_env r st n m None None); [exact A|exact I|]. intros. apply get_del. }
    destruct l; cbn [reported happens fst snd]; auto.
  - split; [reflexivity|exact AS].
  - split; [reflexivity|exact AS].
Qed.

(** ** C61 *)

(** Every history of any number of keyring stores, with failing accesses and other programs in between, answers as
    separate maps do: one for every store name. *)
Theorem C61_maps : forall evs (r : ring), Forall fair evs -> (forall n u v, a_get slot_eqb (lit "jess:" ++ n, u) r <> Some v) ->
  run_ring evs r = run_kspec serialise load can_dump evs (fun _ => no_maps).
Proof.
  intros evs r F E.
  assert (A : abs r (fun _ => no_maps)).
  { constructor; intros; unfold service; cbn; [destruct (a_get _ _ r) eqn:X; [eapply E; exact X|exact I]..]. }
  clear E. revert r A F. generalize (fun _ : bytes => no_maps). induction evs as [|ev evs IH]; intros st r A F; [reflexivity|].
  inversion F as [|? ? F1 F2]; subst. cbn [run_ring run_kspec]. destruct ev as [n c|s u v]; cbn [kstep_event kspec_event].
  - destruct (step_abs n c r st A F1) as [X Y]. destruct (kstep n c r) as [a r']. destruct (kspec _ _ _ n c (st n)) as [a' m]. cbn [fst snd] in *. subst a'. f_equal. now apply IH.
  - assert (A' : forall r', (forall s' u', s' <> s -> a_get slot_eqb (s', u') r' = a_get slot_eqb (s', u') r) -> abs r' st).
    { intros r' G. cbn [fair] in F1. apply (abs_ext r r' st); auto; intros; apply G; intro X; symmetry in X; revert X; apply F1. }
    destruct v as [v|]; (f_equal; apply IH; [apply A'|exact F2]); intros; [rewrite get_set|rewrite get_del]; now rewrite slot_diff by auto.
Qed.

(** The stores only touch entries of their own service. *)
Theorem C61_others_untouched : forall n c r s u, s <> lit "jess:" ++ n -> a_get slot_eqb (s, u) (snd (kstep n c r) : ring) = a_get slot_eqb (s, u) r.
Proof.
  intros n c r s u N. assert (G : forall u' v, a_get slot_eqb (s, u) (a_set slot_eqb (service n, u') v r) = a_get slot_eqb (s, u) r) by (intros; rewrite get_set, slot_diff; auto).
  assert (D : forall u', a_get slot_eqb (s, u) (a_del slot_eqb (service n, u') r) = a_get slot_eqb (s, u) r) by (intros; rewrite get_del, slot_diff; auto).
  assert (RD : forall l u', a_get slot_eqb (s, u) (snd (ring_del l r (service n) u')) = a_get slot_eqb (s, u) r).
  { intros. unfold ring_del. destruct (a_get slot_eqb (service n, u') r); [|reflexivity]. cbn [snd]. destruct (happens l); auto. }
  destruct c as [l1 l2|l id rc|l x|l id rc|l m|l v|l m| |]; cbn [kstep]; try reflexivity.
  - unfold kr_new, ring_set. destruct l1; cbn [reported happens snd]; try apply G; try reflexivity. destruct (ring_get _ _ _ _); apply G.
  - unfold kr_store. destruct (to_base58 _ _ x) as [[t x']| |]; try reflexivity. unfold ring_set. destruct l; cbn [reported happens snd]; try apply G; reflexivity.
  - specialize (RD l (storage_id id rc)). unfold kr_delete. destruct (ring_del _ _ _ _). exact RD.
  - unfold kr_store_envelope. destruct (edump _) as [b|]; [|reflexivity]. unfold ring_set. destruct l; cbn [reported happens snd]; try apply G; reflexivity.
  - specialize (RD l (m ++ lit ".envelope")). unfold kr_delete_envelope. destruct (ring_del _ _ _ _). exact RD.
Qed.

(** What comes back of a stored signet: private signets and recipients of the asymmetric schemes with their keys ... *)
Theorem C61_private_back : forall (s : fsignet e) pub prv, private_signet s pub prv ->
  (forall key, store_keys (d_scheme (f_data s)) pub prv = Ok (key, false) -> codec_ok dump undump (set_key (f_data s) key false)) ->
  exists d i, serialise s = Ok d /\ load d = Ok i /\ f_data i = d /\ f_pub i = Some pub /\ f_prv i = prv
    /\ d_id d = d_id (f_data s) /\ d_scheme d = d_scheme (f_data s) /\ d_public d = false /\ d_info d = d_info (f_data s).
Proof.
  intros s pub prv P CO. pose proof P as [[l [L G]] (PU & PR & C)]. destruct (private_store e s pub prv P) as (key & s' & S & LD & SS & FD). destruct (CO key S) as (b & D & NE & UD).
  destruct (logic_tool _ _ L) as ((t0 & T & TN) & N1 & N2).
  exists (set_key (f_data s) key false), (mkF (set_key (f_data s) key false) (Some pub) prv). unfold serialise. rewrite SS. cbn [bind]. rewrite FD, D. split; [reflexivity|].
  split; [|cbn; auto 9]. unfold load, load_signet. cbn [f_pub f_data set_key d_prot d_scheme d_key d_public]. rewrite PR, T. cbn [bind]. rewrite TN, LD. reflexivity.
Qed.
Theorem C61_recipient_back : forall (r : fsignet e) pub, public_signet r pub ->
  (forall key, store_keys (d_scheme (f_data r)) pub (@SNil e) = Ok (key, true) -> codec_ok dump undump (set_key (f_data r) key true)) ->
  exists d i, serialise r = Ok d /\ load d = Ok i /\ f_data i = d /\ f_pub i = Some pub /\ usable (f_prv i) = false
    /\ d_id d = d_id (f_data r) /\ d_scheme d = d_scheme (f_data r) /\ d_public d = true /\ d_info d = d_info (f_data r).
Proof.
  intros r pub P CO. pose proof P as [[l [prv [L G]]] (PU & PR & C)]. destruct (public_store e r pub P) as (key & none & S & LD & U & r' & SS & FD). destruct (CO key S) as (b & D & NE & UD).
  destruct (logic_tool _ _ L) as ((t0 & T & TN) & N1 & N2).
  exists (set_key (f_data r) key true), (mkF (set_key (f_data r) key true) (Some pub) none). unfold serialise. rewrite SS. cbn [bind]. rewrite FD, D. split; [reflexivity|].
  split; [|cbn; auto 9]. unfold load, load_signet. cbn [f_pub f_data set_key d_prot d_scheme d_key d_public]. rewrite PR, T. cbn [bind]. rewrite TN, LD. reflexivity.
Qed.
(** ... but not symmetric keys and passwords: they can be stored and then never be read again, and neither can
    protected signets. *)
Theorem C61_secrets_refuted : forall (s : fsignet e) l, d_key (f_data s) <> [] -> codec_ok dump undump (f_data s) ->
  d_scheme (f_data s) = scheme_key \/ d_scheme (f_data s) = scheme_pw \/ d_prot (f_data s) <> None ->
  forall n r, exists r', kr_store tool_registry dump Fine n r s = (Ok tt, r')
    /\ forall i, @kr_get e tool_registry undump l n r' (d_id (f_data s)) (d_public (f_data s)) <> Ok i.
Proof.
  intros s l K (b & D & NE & U) X n r. unfold kr_store. rewrite serialise_run. unfold store_signet. destruct (d_key (f_data s)) as [|k0 ks] eqn:EK; [congruence|]. cbn [bind]. rewrite D.
  unfold ring_set. cbn [reported happens]. eexists. split; [reflexivity|]. intros i H. unfold kr_get, ring_get in H. destruct (reported l); [|discriminate].
  rewrite get_set, (proj2 (slot_eqb_eq _ _) eq_refl) in H. unfold from_base58 in H. rewrite b58_round_trip in H by exact NE. cbn [bind] in H. rewrite U in H. unfold load_signet in H. cbn [f_pub f_data] in H.
  destruct (d_prot (f_data s)) as [p|]; [discriminate H|]. destruct X as [X|[X|X]]; [| |congruence]; rewrite X in H.
  - replace (tools_get tool_registry scheme_key) with (@Err tool ENotFound) in H by (vm_compute; reflexivity). discriminate H.
  - replace (tools_get tool_registry scheme_pw) with (@Err tool ENotFound) in H by (vm_compute; reflexivity). discriminate H.
Qed.
(** A password that is not known yet cannot be stored, unlike in the other stores. *)
Theorem C61_no_key_refuted : forall (s : fsignet e) l n r, d_key (f_data s) = [] -> d_scheme (f_data s) = scheme_key \/ d_scheme (f_data s) = scheme_pw ->
  exists x, kr_store tool_registry dump l n r s = (Err x, r).
Proof.
  intros s l n r K X. unfold kr_store. rewrite serialise_run. unfold store_signet. rewrite K. destruct X as [-> | ->].
  - replace (tools_get tool_registry scheme_key) with (@Err tool ENotFound) by (vm_compute; reflexivity). cbn. eauto.
  - replace (tools_get tool_registry scheme_pw) with (@Err tool ENotFound) by (vm_compute; reflexivity). cbn. eauto.
Qed.
(** No key of an envelope gets into the keyring; the envelope of the caller loses its keys, even if it is not stored. *)
Theorem C61_envelope_no_keys : forall l n r v, exists ok r' v', kr_store_envelope edump l n r v = (ok, v', r')
  /\ Forall bare (ev_secrets v') /\ Forall bare (ev_senders v') /\ Forall bare (ev_recipients v') /\ references v' = references v
  /\ (r' = r \/ exists b, edump v' = Some b /\ r' = a_set slot_eqb (lit "jess:" ++ n, ev_name v ++ lit ".envelope") (b58_encode b) r).
Proof.
  intros l n r v. unfold kr_store_envelope. destruct (clean_bare v) as (B1 & B2 & B3). destruct (edump (clean v)) as [b|] eqn:D.
  - unfold ring_set. exists (reported l), (if happens l then a_set slot_eqb (service n, ev_name v ++ lit ".envelope") (b58_encode b) r else r), (clean v).
    repeat split; auto using clean_references. destruct (happens l); [right|now left]. exists b. auto.
  - exists false, r, (clean v). repeat split; auto using clean_references.
Qed.
End Ring.
Print Assumptions C61_maps.
Print Assumptions C61_others_untouched.
Print Assumptions C61_private_back.
Print Assumptions C61_recipient_back.
Print Assumptions C61_secrets_refuted.
Print Assumptions C61_no_key_refuted.
Print Assumptions C61_envelope_no_keys.

(** A concrete history: two stores, failing accesses, another program in between. *)
Definition ring_edump (v : edata) : option bytes := match ev_secrets v, ev_senders v, ev_recipients v with [], [], [] => Some (block (ev_name v) ++ block (ev_suite v)) | _, _, _ => None end.
Definition ring_eundump (b : bytes) : option edata :=
  match (do (n, r1) <- get_block b; do (s, _) <- get_block r1; Ok (n, s)) with Ok (n, s) => Some (mkEnv 0 n s [] [] [] 0) | _ => None end.
Definition ring_env (s : bytes) : edata := mkEnv 0 (lit "e") s [] [] [] 0.
Definition ring_history : list (kevent demo_ext) :=
  [Call (lit "a") (KNew Fine Fine); Call (lit "a") (KStore Fine demo_private); Call (lit "b") (KGet Fine (lit "alice") false);
   Foreign (lit "browser") (lit "alice.signet") (Some (lit "x")); Call (lit "a") (KGet Fine (lit "alice") false); Call (lit "a") (KGet Refused (lit "alice") false);
   Call (lit "a") (KDelete Refused (lit "alice") false); Call (lit "a") (KDelete Unsure (lit "alice") false); Call (lit "a") (KGet Fine (lit "alice") false);
   Call (lit "b") (KStoreEnv Fine (ring_env (lit "v1"))); Call (lit "b") (KGetEnv Fine (lit "e")); Call (lit "b") (KStoreEnv Refused (ring_env (lit "v2"))); Call (lit "b") (KGetEnv Fine (lit "e"));
   Call (lit "b") KSelect; Call (lit "b") (KNew Fine Refused)].
Definition summary (a : kanswer demo_ext) : bytes :=
  match a with
  | KGot (Ok i) => d_id (f_data i) | KGot (Err ESignetNotFound) => lit "none" | KGotEnv (Ok v) => ev_suite v
  | KStored (Ok _) => lit "stored" | KEnvStored true _ | KDone true => lit "done" | KEnvStored false _ | KDone false => lit "failed" | KSelected _ | KListed _ => lit "unsupported" | _ => [] end.
Example C61_hypotheses_met : Forall (fair demo_dump demo_undump ring_edump ring_eundump) ring_history
  /\ map summary (run_ring demo_dump demo_undump ring_edump ring_eundump ring_history [])
     = [lit "done"; lit "stored"; lit "none"; []; lit "alice"; lit "none"; lit "failed"; lit "failed"; lit "none"; lit "done"; lit "v1"; lit "failed"; lit "v1"; lit "unsupported"; lit "failed"].
Proof.
  split; [|vm_compute; reflexivity]. unfold ring_history. repeat (apply Forall_cons || apply Forall_nil); cbn [fair]; try exact I.
  - intros d E. vm_compute in E. injection E as <-. eexists. split; [vm_compute; reflexivity|]. split; [discriminate|]. vm_compute. reflexivity.
  - intros n H. discriminate H.
  - intros _. eexists. split; [vm_compute; reflexivity|]. split; [discriminate|]. vm_compute. reflexivity.
  - intros _. eexists. split; [vm_compute; reflexivity|]. split; [discriminate|]. vm_compute. reflexivity.
Qed.
Example C61_secrets_refuted_met : exists (s : fsignet demo_ext), d_key (f_data s) <> [] /\ codec_ok demo_dump demo_undump (f_data s) /\ d_scheme (f_data s) = scheme_key.
Proof.
  exists (mkF (mkData 1 (lit "k") scheme_key (lit "secret key") false None None None) None SNil). split; [discriminate|]. split; [|reflexivity].
  eexists. split; [vm_compute; reflexivity|]. split; [discriminate|]. vm_compute. reflexivity.
Qed.
