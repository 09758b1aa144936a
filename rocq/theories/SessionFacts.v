(** Lemmas about session creation. *)
From Verif Require Export PreludeFacts RequirementsFacts Letter Tools Crypto Session SpecSession.

Lemma foldM_ind {A S} (f : S -> A -> outcome S) (P : list A -> S -> Prop) s0 l s :
  P [] s0 -> (forall pre a s s', P pre s -> f s a = Ok s' -> P (pre ++ [a]) s') ->
  foldM f s0 l = Ok s -> P l s.
Proof.
  intros H0 Hs. change (P [] s0) in H0. rewrite <- (app_nil_l l) at 2.
  generalize dependent s0. generalize (@nil A) as pre.
  induction l as [|a l IH]; cbn [foldM]; intros pre s0 H0 H.
  - rewrite app_nil_r. injection H as <-. exact H0.
  - apply bind_ok in H as (s1 & H1 & H). specialize (IH (pre ++ [a]) s1).
    rewrite <- app_assoc in IH. apply IH; [|exact H]. now apply (Hs _ _ _ _ H0 H1).
Qed.

Lemma other_ok {A} (x : outcome A) a : other x = Ok a -> x = Ok a.
Proof. destruct x; cbn; congruence. Qed.

(** ** Levels *)

Lemma check_level_ok c e l u : check_level c e l = Ok u <-> (level_floor c e <= l)%Z.
Proof.
  destruct u. unfold check_level, level_floor, guard.
  destruct (Z.ltb_spec 0 (c_min_level c)); [|destruct (Z.ltb_spec 0 (e_level e))];
    match goal with |- context [(l <? ?y)%Z] => destruct (Z.ltb_spec l y) end; cbn; split; intro; try easy; lia.
Qed.

Definition zmin_list (l : list Z) : Z :=
  match l with [] => 0%Z | x :: r => fold_left Z.min r x end.
Definition zmax_list (l : list Z) : Z := fold_left Z.max l 0%Z.

Lemma zmin_list_snoc l x : l <> [] -> zmin_list (l ++ [x]) = Z.min (zmin_list l) x.
Proof. destruct l as [|y l]; [easy|]. intros _. cbn [zmin_list app]. now rewrite fold_left_app. Qed.
Lemma zmax_list_snoc l x : zmax_list (l ++ [x]) = Z.max (zmax_list l) x.
Proof. unfold zmax_list. now rewrite fold_left_app. Qed.

Lemma fold_min_spec r x : In (fold_left Z.min r x) (x :: r) /\ forall y, In y (x :: r) -> (fold_left Z.min r x <= y)%Z.
Proof.
  revert x; induction r as [|a r IH]; intro x; cbn [fold_left].
  - split; [now left|]. intros y [->|[]]. lia.
  - destruct (IH (Z.min x a)) as [H1 H2]. split.
    + destruct H1 as [H1|H1]; [|now right; right].
      rewrite <- H1. destruct (Z.min_dec x a) as [E|E]; rewrite E; [now left|now right; left].
    + intros y [<-|[<-|Hy]].
      * specialize (H2 (Z.min x a) (or_introl eq_refl)). lia.
      * specialize (H2 (Z.min x a) (or_introl eq_refl)). lia.
      * apply H2. now right.
Qed.
Lemma zmin_list_spec l : l <> [] -> In (zmin_list l) l /\ forall y, In y l -> (zmin_list l <= y)%Z.
Proof. destruct l as [|x r]; [easy|]. intros _. apply fold_min_spec. Qed.

Lemma fold_max_spec r x : In (fold_left Z.max r x) (x :: r) /\ forall y, In y (x :: r) -> (y <= fold_left Z.max r x)%Z.
Proof.
  revert x; induction r as [|a r IH]; intro x; cbn [fold_left].
  - split; [now left|]. intros y [->|[]]. lia.
  - destruct (IH (Z.max x a)) as [H1 H2]. split.
    + destruct H1 as [H1|H1]; [|now right; right].
      rewrite <- H1. destruct (Z.max_dec x a) as [E|E]; rewrite E; [now left|now right; left].
    + intros y [<-|[<-|Hy]].
      * specialize (H2 (Z.max x a) (or_introl eq_refl)). lia.
      * specialize (H2 (Z.max x a) (or_introl eq_refl)). lia.
      * apply H2. now right.
Qed.

Record lv_inv (c : config) (e : envelope) (s : session) (ls : list Z) : Prop := {
  lv_pos : Forall (fun l => (0 < l)%Z /\ (level_floor c e <= l)%Z) ls;
  lv_min : s_level s = zmin_list ls;
  lv_max : s_maxlevel s = zmax_list ls
}.

Lemma lv_level_pos c e s ls : lv_inv c e s ls -> ls <> [] -> (0 < s_level s)%Z.
Proof.
  intros [Hp Hm _] Hne. rewrite Hm. destruct (zmin_list_spec ls Hne) as [H _].
  rewrite Forall_forall in Hp. now apply Hp in H.
Qed.

(** The items whose level is checked: tools, tools with their signets, key secrets. *)
Definition item : Type := option inst * option signet.

Definition item_checked (c : config) (e : envelope) (cr : crypto) (ls : list Z) (it : item) : Prop :=
  exists l, calc_level cr (fst it) (snd it) = Ok l /\
    (l = 0%Z \/ ((0 < l)%Z /\ (level_floor c e <= l)%Z /\ In l ls)).

Lemma calc_and_check_ok c cr s i sg s' ls :
  lv_inv c (s_env s) s ls ->
  calc_and_check c cr s i sg = Ok s' ->
  exists ls' l m, s' = set_levels s l m /\ lv_inv c (s_env s) s' ls' /\ incl ls ls'
    /\ item_checked c (s_env s) cr ls' (i, sg)
    /\ (forall x, In x ls' -> In x ls \/ calc_level cr i sg = Ok x).
Proof.
  intros Hlv H. unfold calc_and_check in H. apply bind_ok in H as (l & Hl & H).
  destruct (Z.eqb_spec l 0) as [->|Hn].
  - injection H as <-. exists ls, (s_level s), (s_maxlevel s). destruct s; cbn in *.
    split; [reflexivity|]. split; [exact Hlv|]. split; [apply incl_refl|].
    split; [exists 0%Z; cbn; auto|]. auto.
  - destruct (Z.ltb_spec l 0); [discriminate|].
    apply bind_ok in H as (u & Hc & H). apply check_level_ok in Hc.
    exists (ls ++ [l]). eexists; eexists. injection H as <-.
    split; [reflexivity|]. split.
    { destruct Hlv as [Hp Hm Hx] eqn:E. split; cbn [s_level s_maxlevel set_levels].
      - apply Forall_app; split; [exact Hp|]. constructor; [split; [lia|assumption]|constructor].
      - destruct ls as [|y ls].
        + cbn in *. rewrite Hm. reflexivity.
        + rewrite zmin_list_snoc by easy. rewrite <- Hm.
          assert (0 < s_level s)%Z by (eapply lv_level_pos; eauto; easy).
          destruct (Z.eqb_spec (s_level s) 0); [lia|]. cbn [orb].
          destruct (Z.ltb_spec l (s_level s)); lia.
      - rewrite zmax_list_snoc, <- Hx. destruct (Z.ltb_spec (s_maxlevel s) l); lia. }
    split; [apply incl_appl, incl_refl|]. split.
    + exists l; cbn [fst snd]; split; [assumption|]. right. split; [lia|]. split; [assumption|].
      apply in_or_app; right; now left.
    + intros x Hx. apply in_app_or in Hx as [Hx|[<-|[]]]; auto.
Qed.

Lemma item_checked_incl c e cr ls ls' it : incl ls ls' -> item_checked c e cr ls it -> item_checked c e cr ls' it.
Proof. intros Hi (l & H & [H0|(H1 & H2 & H3)]); exists l; split; auto; right; auto. Qed.

(** ** Shape of a session *)

Definition purpose_eqb (a b : purpose) : bool :=
  match a, b with
  | PKeyDerivation, PKeyDerivation | PPassDerivation, PPassDerivation | PKeyExchange, PKeyExchange
  | PKeyEncapsulation, PKeyEncapsulation | PSigning, PSigning | PIntegratedCipher, PIntegratedCipher
  | PCipher, PCipher | PMAC, PMAC => true
  | _, _ => false
  end.
Lemma purpose_eqb_eq a b : purpose_eqb a b = true <-> a = b.
Proof. destruct a, b; cbn; split; congruence. Qed.

Definition i_purpose (i : inst) : purpose := t_purpose (i_tool i).
Definition of_purpose (p : purpose) (l : list inst) : list inst :=
  filter (fun i => purpose_eqb (i_purpose i) p) l.

Lemma of_purpose_app p a b : of_purpose p (a ++ b) = of_purpose p a ++ of_purpose p b.
Proof. apply filter_app. Qed.
Lemma of_purpose_In p l i : In i (of_purpose p l) <-> In i l /\ i_purpose i = p.
Proof. unfold of_purpose. rewrite filter_In, purpose_eqb_eq. reflexivity. Qed.

Lemma of_purpose_single p i : of_purpose p [i] = if purpose_eqb (t_purpose (i_tool i)) p then [i] else [].
Proof. reflexivity. Qed.

(** A tool ID of a suite denotes a tool instance. *)
Definition resolves (reg : list tool) (hreg : list hashtool) (x : nat * bytes) (i : inst) : Prop :=
  i_idx i = fst x /\ tools_get reg (fst (parse_tool_id (snd x))) = Ok (i_tool i)
  /\ i_arg i = snd (parse_tool_id (snd x))
  /\ tool_hash hreg (i_purpose i) (i_arg i) (t_options (i_tool i)) None = Ok (i_hash i).

Definition opt_list {A} (o : option A) : list A := match o with Some a => [a] | None => [] end.

Record shape (e : envelope) (su : suite) (s : session) : Prop := {
  sh_env : s_env s = e;
  sh_suite : s_suite s = su;
  sh_stateful : s_stateful s = filter (fun i => has_option (i_tool i) OHasState) (s_all s);
  sh_kdf : of_purpose PKeyDerivation (s_all s) = opt_list (s_kdf s);
  sh_pass : of_purpose PPassDerivation (s_all s) = opt_list (s_pass s);
  sh_kx : s_kx s = of_purpose PKeyExchange (s_all s);
  sh_ke : s_ke s = of_purpose PKeyEncapsulation (s_all s);
  sh_aead : s_aead s = of_purpose PIntegratedCipher (s_all s);
  sh_ciph : s_ciph s = of_purpose PCipher (s_all s);
  sh_macs : s_macs s = of_purpose PMAC (s_all s);
  sh_signers : s_signers s = of_purpose PSigning (s_all s);
  sh_mac_h : forall a, In a (s_mac_hashers s) <->
     exists i, In i (s_macs s) /\ has_option (i_tool i) OManagedHasher = true /\ i_arg i = a;
  sh_sig_h : forall a, In a (s_sig_hashers s) <->
     exists i, In i (s_signers s) /\ has_option (i_tool i) OManagedHasher = true /\ i_arg i = a
}.

Lemma shape_set_levels e su s l m : shape e su s -> shape e su (set_levels s l m).
Proof. intros []; split; assumption. Qed.
Lemma shape_set_dks e su s k : shape e su s -> shape e su (set_dks s k).
Proof. intros []; split; assumption. Qed.
Lemma shape_set_req e su s r : shape e su s -> shape e su (set_req s r).
Proof. intros []; split; assumption. Qed.

Lemma add_hasher_In a l x : In x (add_hasher a l) <-> x = a \/ In x l.
Proof.
  unfold add_hasher. destruct (existsb (bytes_eqb a) l) eqn:E.
  - apply existsb_exists in E as (y & Hy & E). apply bytes_eqb_eq in E. subst y.
    split; [auto|]. intros [->|]; auto.
  - rewrite in_app_iff; cbn. split; [intros [?|[<-|[]]]; auto|intros [->|?]; auto].
Qed.

Lemma assign_shape e su s i s' :
  shape e su s -> assign s i = Ok s' ->
  shape e su (assign_hasher s' i) /\ s_all (assign_hasher s' i) = s_all s ++ [i]
  /\ s_level (assign_hasher s' i) = s_level s /\ s_maxlevel (assign_hasher s' i) = s_maxlevel s
  /\ s_dks (assign_hasher s' i) = s_dks s
  /\ (forall a, In a (s_req (assign_hasher s' i)) <-> gives (i_purpose i) a = true \/ In a (s_req s)).
Proof.
  intros [He Hsu Hst Hkdf Hpass Hkx Hke Hae Hci Hma Hsi Hmh Hsh] H.
  unfold assign, i_purpose in *.
  assert (Hg : forall b c : N, (b =? c)%N = true <-> b = c) by (intros; apply N.eqb_eq).
  destruct (t_purpose (i_tool i)) eqn:EP;
    [destruct (s_kdf s) eqn:EK; [discriminate|]|destruct (s_pass s) eqn:EK; [discriminate|]| | | | | |];
    injection H as <-;
    unfold assign_hasher; rewrite EP; destruct (has_option (i_tool i) OManagedHasher) eqn:EM;
    (split; [split; cbn [s_env s_suite s_stateful s_all s_kdf s_pass s_kx s_ke s_aead s_ciph s_macs s_signers
                          s_mac_hashers s_sig_hashers];
      rewrite ?filter_app, ?of_purpose_app, ?of_purpose_single, ?EP; cbn [filter purpose_eqb];
      rewrite ?app_nil_r; try assumption;
      try (rewrite Hst; destruct (has_option (i_tool i) OHasState); rewrite ?app_nil_r; reflexivity);
      try (rewrite Hkdf; reflexivity); try (rewrite Hpass; reflexivity);
      try congruence
     |]).
  all: try (repeat split; cbn [s_all s_level s_maxlevel s_dks s_req]; auto; rewrite ?req_add_In; cbn [gives];
            rewrite ?orb_true_iff, ?Hg; try (intuition congruence); fail).
  all: intro a; try rewrite add_hasher_In; try rewrite Hmh; try rewrite Hsh; split.
  all: try (intros (j & Hj & Hm & Ha); exists j; rewrite in_app_iff; auto; fail).
  all: try (intros (j & Hj & Hm & Ha); apply in_app_or in Hj as [Hj|[<-|[]]]; [exists j; auto|congruence]; fail).
  all: try (intros [->|(j & Hj & Hm & Ha)]; [exists i|exists j]; rewrite in_app_iff; cbn; auto; fail).
  all: try (intros (j & Hj & Hm & Ha); apply in_app_or in Hj as [Hj|[<-|[]]]; [right; exists j; auto|left; auto]; fail).
Qed.

(** ** The loops of newSession *)

Definition tool_items (l : list inst) : list item := map (fun i => (Some i, None)) l.
Definition signet_items (e : envelope) (l : list inst) : list item :=
  concat (map (fun i => match signets_for e i with
                        | Some sgs => map (fun sg => (Some i, Some sg)) sgs
                        | None => [] end) l).
Definition key_items (l : list signet) : list item := map (fun sg => (None, Some sg)) l.

Definition from_items (cr : crypto) (its : list item) (x : Z) : Prop :=
  exists it, In it its /\ calc_level cr (fst it) (snd it) = Ok x.

(** [its]: the items looked at so far. *)
Record items_inv (c : config) (cr : crypto) (e : envelope) (s : session) (its : list item) (ls : list Z) : Prop := {
  ii_lv : lv_inv c e s ls;
  ii_all : Forall (item_checked c e cr ls) its;
  ii_from : Forall (from_items cr its) ls
}.

Lemma items_step c cr e s i sg s' its ls :
  s_env s = e -> items_inv c cr e s its ls -> calc_and_check c cr s i sg = Ok s' ->
  exists l m ls', s' = set_levels s l m /\ items_inv c cr e s' (its ++ [(i, sg)]) ls'.
Proof.
  intros <- [Hlv Ha Hf] H. destruct (calc_and_check_ok _ _ _ _ _ _ _ Hlv H) as (ls' & l & m & -> & Hlv' & Hi & Hc & Hfr).
  exists l, m, ls'. split; [reflexivity|]. split; [assumption| |].
  - apply Forall_app; split; [|constructor; auto].
    eapply Forall_impl; [|exact Ha]. intros it Hit. eapply item_checked_incl; eauto.
  - rewrite Forall_forall in Hf |- *. intros x Hx. destruct (Hfr x Hx) as [Hx'|Hx'].
    + destruct (Hf x Hx') as (it & H1 & H2). exists it; split; auto. apply in_or_app; auto.
    + exists (i, sg). split; auto. apply in_or_app; right; now left.
Qed.

Definition max_ks (l : list inst) : Z := fold_left (fun m i => Z.max m (t_keysize (i_tool i))) l 0%Z.

Record tl_inv (c : config) (reg : list tool) (hreg : list hashtool) (cr : crypto) (ids : list bytes)
  (e : envelope) (su : suite) (pre : list (nat * bytes)) (s : session) : Prop := {
  tl_shape : shape e su s;
  tl_res : Forall2 (resolves reg hreg) pre (s_all s);
  tl_items : exists ls, items_inv c cr e s (tool_items (s_all s)) ls;
  tl_req : forall a, In a (s_req s) <-> exists i, In i (s_all s) /\ gives (i_purpose i) a = true;
  tl_dks : s_dks s = max_ks (s_all s);
  tl_cnt : Forall (fun x => count_id (snd x) ids = 1) pre
}.

Lemma tool_items_app a b : tool_items (a ++ b) = tool_items a ++ tool_items b.
Proof. apply map_app. Qed.

Lemma init_tool_ok c reg hreg cr ids e su pre s x s' :
  tl_inv c reg hreg cr ids e su pre s ->
  init_tool c reg hreg cr ids s x = Ok s' ->
  tl_inv c reg hreg cr ids e su (pre ++ [x]) s'.
Proof.
  intros [Hsh Hres (ls & Hit) Hreq Hdks Hcnt] H. destruct x as [idx id]. unfold init_tool in H.
  apply bind_ok in H as (u & Hg & H). apply guard_ok, Nat.eqb_eq in Hg.
  destruct (parse_tool_id id) as [name arg] eqn:EPT.
  apply bind_ok in H as (t & Ht & H). apply other_ok in Ht.
  apply bind_ok in H as (h & Hh & H). apply other_ok in Hh.
  apply bind_ok in H as (s1 & Has & H). apply bind_ok in H as (s2 & Hck & H).
  set (i := mkInst idx t arg h) in *.
  destruct (assign_shape _ _ _ _ _ Hsh Has) as (Hsh1 & Hall & Hl & Hm & Hd & Hr).
  set (s3 := assign_hasher s1 i) in *.
  assert (Hit1 : items_inv c cr e s3 (tool_items (s_all s)) ls).
  { destruct Hit as [[Hp H1 H2] Ha Hf]. split; auto. split; congruence. }
  destruct (items_step _ _ _ _ _ _ _ _ _ (sh_env _ _ _ Hsh1) Hit1 Hck) as (l & m & ls' & -> & Hit2).
  assert (Hs' : exists k, s' = set_dks (set_levels s3 l m) k /\ k = max_ks (s_all s3)).
  { rewrite Hall. unfold max_ks. rewrite fold_left_app. cbn [fold_left].
    fold (max_ks (s_all s)). rewrite <- Hdks.
    cbn [s_dks set_levels] in H. rewrite Hd in H. cbn [i_tool i].
    destruct (Z.ltb_spec (s_dks s) (t_keysize t)); injection H as <-.
    - exists (t_keysize t). split; [reflexivity|]. lia.
    - exists (s_dks s). split; [|lia]. rewrite <- Hd. destruct s3; reflexivity. }
  destruct Hs' as (k & -> & Hk).
  assert (HA : s_all (set_dks (set_levels s3 l m) k) = s_all s ++ [i]) by (cbn [s_all set_dks set_levels]; exact Hall).
  split.
  - apply shape_set_dks, shape_set_levels, Hsh1.
  - rewrite HA. apply Forall2_app; [exact Hres|]. constructor; [|constructor].
    unfold resolves; cbn [fst snd i_idx i_tool i_arg i_hash i]. rewrite EPT. auto.
  - exists ls'. rewrite HA, tool_items_app. cbn [tool_items map].
    destruct Hit2 as [[Hp H1 H2] Ha Hf]. split; [split|..]; assumption.
  - intro a. rewrite HA. cbn [s_req set_dks set_levels]. rewrite Hr, Hreq. split.
    + intros [Hg'|(j & Hj & Hg')]; [exists i|exists j]; rewrite in_app_iff; cbn; auto.
    + intros (j & Hj & Hg'). apply in_app_or in Hj as [Hj|[<-|[]]]; eauto.
  - cbn [s_dks set_dks s_all set_levels]. exact Hk.
  - apply Forall_app; split; auto.
Qed.

Lemma tool_loop_ok c reg hreg cr ids e su l s :
  foldM (init_tool c reg hreg cr ids) (init_session e su) l = Ok s ->
  tl_inv c reg hreg cr ids e su l s.
Proof.
  apply (foldM_ind _ (fun pre s => tl_inv c reg hreg cr ids e su pre s)).
  - split; cbn; try (repeat constructor; fail).
    + split; cbn; auto; intro a; split; [easy|intros (i & [] & _)|easy|intros (i & [] & _)].
    + exists []. split; [split; cbn; auto|constructor|constructor].
    + intro a; split; [easy|intros (i & [] & _)].
  - intros pre a s1 s2 H1 H2. eapply init_tool_ok; eauto.
Qed.

(** The sessions of the following loops differ from the first only in the levels. *)
Definition same_but_levels (s0 s : session) : Prop := exists l m, s = set_levels s0 l m.
Lemma sbl_refl s : same_but_levels s s.
Proof. exists (s_level s), (s_maxlevel s). destruct s; reflexivity. Qed.
Lemma sbl_set s0 s l m : same_but_levels s0 s -> same_but_levels s0 (set_levels s l m).
Proof. intros (l0 & m0 & ->). exists l, m. reflexivity. Qed.
Lemma sbl_env s0 s : same_but_levels s0 s -> s_env s = s_env s0.
Proof. intros (l & m & ->). reflexivity. Qed.

Lemma signets_loop_ok c cr s0 i sgs s s' its ls :
  same_but_levels s0 s -> items_inv c cr (s_env s0) s its ls ->
  foldM (fun s sg => calc_and_check c cr s (Some i) (Some sg)) s sgs = Ok s' ->
  same_but_levels s0 s' /\
  exists ls', items_inv c cr (s_env s0) s' (its ++ map (fun sg => (Some i, Some sg)) sgs) ls'.
Proof.
  intros Hs Hit.
  apply (foldM_ind _ (fun pre s => same_but_levels s0 s /\
    exists ls', items_inv c cr (s_env s0) s (its ++ map (fun sg => (Some i, Some sg)) pre) ls')).
  - cbn. rewrite app_nil_r. eauto.
  - intros pre a s1 s2 (H1 & ls1 & H2) H.
    destruct (items_step _ _ _ _ _ _ _ _ _ (sbl_env _ _ H1) H2 H) as (l & m & ls' & -> & H3).
    split; [now apply sbl_set|]. exists ls'. rewrite map_app, app_assoc. exact H3.
Qed.

Definition signets_of (e : envelope) (i : inst) : list signet :=
  match signets_for e i with Some l => l | None => [] end.

Record sl_inv (c : config) (cr : crypto) (s0 : session) (pre : list inst) (st : session * nat * bool) : Prop := {
  sl_same : same_but_levels s0 (fst (fst st));
  sl_items : exists ls, items_inv c cr (s_env s0) (fst (fst st))
               (tool_items (s_all s0) ++ signet_items (s_env s0) pre) ls;
  sl_seen : snd (fst st) = length (concat (map (signets_of (s_env s0)) pre));
  sl_ne : forall i, In i pre -> signets_for (s_env s0) i <> Some [];
  sl_src : snd st = existsb (fun i => match signets_for (s_env s0) i with Some _ => true | None => false end) pre
}.

Lemma signet_items_app e a b : signet_items e (a ++ b) = signet_items e a ++ signet_items e b.
Proof. unfold signet_items. now rewrite map_app, concat_app. Qed.

Lemma check_signets_ok c cr s0 pre st i st' :
  sl_inv c cr s0 pre st -> check_signets c cr st i = Ok st' -> sl_inv c cr s0 (pre ++ [i]) st'.
Proof.
  intros [Hs (ls & Hit) Hseen Hne Hsrc] H. destruct st as [[s seen] src]. cbn [fst snd] in *.
  unfold check_signets in H. rewrite (sbl_env _ _ Hs) in H.
  destruct (signets_for (s_env s0) i) as [sgs|] eqn:E.
  - apply bind_ok in H as (s' & H1 & H). apply bind_ok in H as (u & H2 & H). apply guard_ok in H2.
    injection H as <-. destruct (signets_loop_ok _ _ _ _ _ _ _ _ _ Hs Hit H1) as (Hs' & ls' & Hit').
    split; cbn [fst snd].
    + exact Hs'.
    + exists ls'. rewrite signet_items_app. unfold signet_items at 2. cbn [map concat]. rewrite E, app_nil_r.
      rewrite app_assoc. exact Hit'.
    + rewrite map_app, concat_app, app_length. unfold signets_of at 2. cbn [map concat]. rewrite E, app_nil_r. lia.
    + intros j Hj. apply in_app_or in Hj as [Hj|[<-|[]]]; auto. rewrite E. destruct sgs; easy.
    + rewrite existsb_app. cbn. rewrite E. cbn. now rewrite orb_true_r.
  - injection H as <-. split; cbn [fst snd].
    + exact Hs.
    + exists ls. rewrite signet_items_app. unfold signet_items at 2. cbn [map concat]. rewrite E, !app_nil_r. exact Hit.
    + rewrite map_app, concat_app, app_length. unfold signets_of at 2. cbn [map concat]. rewrite E. cbn. lia.
    + intros j Hj. apply in_app_or in Hj as [Hj|[<-|[]]]; auto. rewrite E. easy.
    + rewrite existsb_app. cbn. rewrite E. cbn. now rewrite orb_false_r.
Qed.

Lemma signet_loop_ok c cr s0 ls st :
  items_inv c cr (s_env s0) s0 (tool_items (s_all s0)) ls ->
  foldM (check_signets c cr) (s0, 0, false) (s_all s0) = Ok st ->
  sl_inv c cr s0 (s_all s0) st.
Proof.
  intro Hit. apply (foldM_ind _ (sl_inv c cr s0)).
  - split; cbn; auto using sbl_refl. exists ls. now rewrite app_nil_r.
  - intros. eapply check_signets_ok; eauto.
Qed.

Record kl_inv (c : config) (cr : crypto) (s0 : session) (st0 : session * nat * bool)
  (pre : list signet) (st : session * nat * bool) : Prop := {
  kl_same : exists l m r, fst (fst st) = set_req (set_levels s0 l m) r
       /\ (forall a, In a r <-> In a (s_req s0) \/
               (pre <> [] /\ (a = SenderAuthentication \/ a = RecipientAuthentication)));
  kl_items : exists ls, items_inv c cr (s_env s0) (fst (fst st))
               ((tool_items (s_all s0) ++ signet_items (s_env s0) (s_all s0)) ++ key_items pre) ls;
  kl_seen : snd (fst st) = snd (fst st0) + length pre;
  kl_src : snd st = snd st0 || nonempty pre
}.

Lemma check_key_secret_ok c cr s0 st0 pre st sg st' :
  kl_inv c cr s0 st0 pre st -> check_key_secret c cr st sg = Ok st' -> kl_inv c cr s0 st0 (pre ++ [sg]) st'.
Proof.
  intros [(l & m & r & Hs & Hr) (ls & Hit) Hseen Hsrc] H. destruct st as [[s seen] src]. cbn [fst snd] in *.
  unfold check_key_secret in H. apply bind_ok in H as (s' & H1 & H). injection H as <-.
  set (s1 := set_req s (req_add (req_add (s_req s) SenderAuthentication) RecipientAuthentication)) in *.
  assert (Hit1 : items_inv c cr (s_env s0) s1
            ((tool_items (s_all s0) ++ signet_items (s_env s0) (s_all s0)) ++ key_items pre) ls).
  { destruct Hit as [[Hp H2 H3] Ha Hf]. split; [split|..]; assumption. }
  assert (He : s_env s1 = s_env s0) by (unfold s1; rewrite Hs; reflexivity).
  destruct (items_step _ _ _ _ _ _ _ _ _ He Hit1 H1) as (l' & m' & ls' & -> & Hit2).
  split; cbn [fst snd].
  - exists l', m', (s_req s1). split; [unfold s1; rewrite Hs; reflexivity|].
    intro a. unfold s1. cbn [s_req set_req]. rewrite !req_add_In. rewrite Hs. cbn [s_req set_req].
    rewrite Hr. assert (pre ++ [sg] <> []) by (destruct pre; easy). tauto.
  - exists ls'. unfold key_items. rewrite map_app, app_assoc. exact Hit2.
  - rewrite app_length; cbn. lia.
  - destruct pre; cbn; now rewrite orb_true_r.
Qed.

Lemma key_loop_ok c cr s0 st0 st sgs :
  sl_inv c cr s0 (s_all s0) st0 ->
  foldM (check_key_secret c cr) st0 sgs = Ok st -> kl_inv c cr s0 st0 sgs st.
Proof.
  intros [(l & m & Hs) Hit Hseen Hne Hsrc]. apply (foldM_ind _ (kl_inv c cr s0 st0)).
  - split.
    + exists l, m, (s_req s0). split; [rewrite Hs; reflexivity|]. intro a. intuition congruence.
    + cbn. rewrite app_nil_r. exact Hit.
    + cbn. lia.
    + cbn. now rewrite orb_false_r.
  - intros. eapply check_key_secret_ok; eauto.
Qed.

Lemma count_id_NoDup ids : (forall id, In id ids -> count_id id ids = 1) -> NoDup ids.
Proof.
  unfold count_id. intro H. induction ids as [|a ids IH]; constructor.
  - intro Hin. specialize (H a (or_introl eq_refl)). cbn [filter] in H.
    rewrite bytes_eqb_refl in H. cbn [length] in H.
    assert (Hf : In a (filter (bytes_eqb a) ids)) by (apply filter_In; split; [assumption|apply bytes_eqb_refl]).
    destruct (filter (bytes_eqb a) ids); [easy|cbn in H; lia].
  - apply IH. intros id Hid. specialize (H id (or_intror Hid)). cbn [filter] in H.
    destruct (bytes_eqb id a) eqn:E; [|assumption]. cbn [length] in H.
    assert (Hf : In id (filter (bytes_eqb id) ids)) by (apply filter_In; split; [assumption|apply bytes_eqb_refl]).
    destruct (filter (bytes_eqb id) ids); [easy|cbn in H; lia].
Qed.

Lemma index_from_snd {A} n (l : list A) : map snd (index_from n l) = l.
Proof. revert n; induction l as [|a l IH]; intro n; cbn; [easy|]. now rewrite IH. Qed.
Lemma index_from_length {A} n (l : list A) : length (index_from n l) = length l.
Proof. revert n; induction l as [|a l IH]; intro n; cbn; auto. Qed.

Definition all_items (s : session) : list item :=
  (tool_items (s_all s) ++ signet_items (s_env s) (s_all s)) ++ key_items (loop scheme_key (e_secrets (s_env s))).

Record session_ok (c : config) (reg : list tool) (hreg : list hashtool) (cr : crypto) (e : envelope)
  (su : suite) (s : session) : Prop := {
  so_shape : shape e su s;
  so_res : Forall2 (resolves reg hreg) (index_from 0 (su_tools su)) (s_all s);
  so_nodup : NoDup (su_tools su);
  so_env_level : (0 < e_level e)%Z -> (level_floor c e <= e_level e)%Z;
  so_suite_level : (level_floor c e <= su_level su)%Z;
  so_items : exists ls,
     Forall (item_checked c e cr ls) (all_items s) /\ Forall (from_items cr (all_items s)) ls
     /\ Forall (fun l => (0 < l)%Z /\ (level_floor c e <= l)%Z) ls
     /\ s_level s = (match ls with [] => if (0 <? c_min_level c)%Z then c_min_level c else 0%Z
                     | _ => zmin_list ls end)
     /\ s_maxlevel s = zmax_list ls;
  so_level : (level_floor c e <= s_level s)%Z;
  so_dks : s_dks s = if (0 <? c_min_ks c)%Z then Z.max (c_min_ks c) (max_ks (s_all s)) else max_ks (s_all s);
  so_req : forall a, In a (s_req s) <->
     (exists i, In i (s_all s) /\ gives (i_purpose i) a = true)
     \/ (loop scheme_key (e_secrets e) <> [] /\ (a = SenderAuthentication \/ a = RecipientAuthentication));
  so_provides : incl (su_provides su) (s_req s);
  so_nonempty : s_req s <> [];
  so_rc : In RecipientAuthentication (s_req s) -> In Confidentiality (s_req s);
  so_ci : In Confidentiality (s_req s) -> In Integrity (s_req s);
  so_kdf_missing : s_kdf s = None -> length (s_signers s) = length (s_all s);
  so_kdf_needed : s_kdf s <> None -> s_aead s <> [] \/ s_ciph s <> [] \/ s_macs s <> [];
  so_ne : forall i, In i (s_all s) -> signets_for e i <> Some [];
  so_src : (exists i, In i (s_all s) /\ signets_for e i <> None) \/ loop scheme_key (e_secrets e) <> []
           \/ (~ In Integrity (s_req s) /\ ~ In Confidentiality (s_req s));
  so_used : length (e_secrets e) + length (e_senders e) + length (e_recipients e)
            <= length (concat (map (signets_of e) (s_all s))) + length (loop scheme_key (e_secrets e));
  so_need_dks : existsb (fun i => has_option (i_tool i) ONeedsDefaultKeySize) (s_all s) = true -> s_dks s <> 0%Z
}.

Lemma new_session_ok c reg hreg cr e s :
  new_session c reg hreg cr e = Ok s ->
  exists su, e_suite e = Some su /\ session_ok c reg hreg cr e su s.
Proof.
  intro H. unfold new_session in H. destruct (e_suite e) as [su|] eqn:ESU; [|discriminate].
  exists su; split; [reflexivity|].
  apply bind_ok in H as (u1 & HE & H). apply bind_ok in H as (u2 & HS & H). apply check_level_ok in HS.
  apply bind_ok in H as (s0 & HT & H). apply bind_ok in H as (st0 & HL & H).
  apply bind_ok in H as (((s1 & seen) & src) & HK & H). apply bind_ok in H as (u3 & HF & H). injection H as <-.
  apply tool_loop_ok in HT as [Tsh Tres (tls & Tit) Treq Tdks Tcnt].
  assert (Henv0 : s_env s0 = e) by apply Tsh.
  rewrite <- Henv0 in Tit. apply (signet_loop_ok _ _ _ _ _ Tit) in HL.
  apply (key_loop_ok _ _ _ _ _ _ HL) in HK.
  destruct HL as [_ _ Lseen Lne Lsrc]. destruct HK as [(l & m & r & Ks & Kreq) (ls & Kit) Kseen Ksrc].
  cbn [fst snd] in *. rewrite Henv0 in *.
  (* the final session *)
  set (s := apply_minimums c s1) in *.
  assert (Hs : exists l' k', s = set_dks (set_req (set_levels s0 l' m) r) k'
            /\ l' = (if (0 <? c_min_level c)%Z && (l <? c_min_level c)%Z then c_min_level c else l)
            /\ k' = (if (0 <? c_min_ks c)%Z && (s_dks s0 <? c_min_ks c)%Z then c_min_ks c else s_dks s0)).
  { unfold s, apply_minimums. rewrite Ks. cbn [s_level set_req set_levels s_dks s_maxlevel].
    destruct ((0 <? c_min_level c)%Z && (l <? c_min_level c)%Z);
      cbn [s_level set_req set_levels s_dks s_maxlevel];
      destruct ((0 <? c_min_ks c)%Z && (s_dks s0 <? c_min_ks c)%Z); eexists; eexists; (split; [|split; reflexivity]);
      destruct s0; reflexivity. }
  destruct Hs as (l' & k' & Hs & Hl' & Hk').
  assert (HA : s_all s = s_all s0) by (rewrite Hs; reflexivity).
  assert (HEnv : s_env s = e) by (rewrite Hs; exact Henv0).
  assert (Hshape : shape e su s) by (rewrite Hs; now apply shape_set_dks, shape_set_req, shape_set_levels).
  assert (Hreq : s_req s = r) by (rewrite Hs; reflexivity).
  unfold final_checks in HF. rewrite HEnv in HF. rewrite (sh_suite _ _ _ Hshape) in HF.
  repeat match type of HF with
  | bind _ _ = Ok _ => let u := fresh "u" in let G := fresh "G" in
      apply bind_ok in HF as (u & G & HF)
  end.
  match goal with
  | G1 : guard _ _ = Ok _ |- _ => idtac
  end.
  apply guard_ok in G. apply guard_ok in G0. apply guard_ok in G1.
  apply req_check_ok in G2.
  apply guard_ok in G3. apply guard_ok in G4. apply guard_ok in G5. apply guard_ok in G6.
  apply guard_ok in G7. apply guard_ok in G8. apply check_level_ok in HF.
  assert (Hsnd : forall a, In a (s_req s) <-> (exists i, In i (s_all s) /\ gives (i_purpose i) a = true)
     \/ (loop scheme_key (e_secrets e) <> [] /\ (a = SenderAuthentication \/ a = RecipientAuthentication))).
  { intro a. rewrite Hreq, Kreq, Treq, HA. reflexivity. }
  split; auto.
  - now rewrite HA.
  - apply count_id_NoDup. intros id Hid.
    rewrite <- (index_from_snd 0 (su_tools su)) in Hid. apply in_map_iff in Hid as ((n & id') & E & Hid).
    cbn in E; subst id'. rewrite Forall_forall in Tcnt. now apply Tcnt in Hid.
  - intro Hp. apply Z.ltb_lt in Hp. rewrite Hp in HE. now apply check_level_ok in HE.
  - exists ls. unfold all_items. rewrite HA, HEnv. destruct Kit as [[Kp Km Kx] Ka Kf].
    split; [exact Ka|]. split; [exact Kf|]. split; [exact Kp|].
    rewrite Ks in Km, Kx. cbn [s_level s_maxlevel set_req set_levels] in Km, Kx. subst l m.
    rewrite Hs. cbn [s_level s_maxlevel set_req set_levels set_dks]. split; [|reflexivity].
    rewrite Hl'. destruct ls as [|x ls].
    + cbn [zmin_list]. destruct (Z.ltb_spec 0 (c_min_level c)); cbn [andb]; [|reflexivity].
      destruct (Z.ltb_spec 0 (c_min_level c)); lia.
    + destruct (zmin_list_spec (x :: ls)) as [Hin _]; [easy|].
      rewrite Forall_forall in Kp. apply Kp in Hin as [_ Hin]. unfold level_floor in Hin.
      destruct (Z.ltb_spec 0 (c_min_level c)); cbn [andb]; [|reflexivity].
      destruct (Z.ltb_spec (zmin_list (x :: ls)) (c_min_level c)); lia.
  - rewrite HA. rewrite Hs. cbn [s_dks set_dks]. rewrite Hk', Tdks.
    destruct (Z.ltb_spec 0 (c_min_ks c)); cbn [andb]; [|reflexivity].
    destruct (Z.ltb_spec (max_ks (s_all s0)) (c_min_ks c)); lia.
  - intro Hn. rewrite Hn in G1. discriminate.
  - intro Hi. apply req_has_In in Hi. rewrite Hi in G3. cbn [andb] in G3. apply req_has_In.
    now destruct (req_has (s_req s) Confidentiality).
  - intro Hi. apply req_has_In in Hi. rewrite Hi in G4. cbn [andb] in G4. apply req_has_In.
    now destruct (req_has (s_req s) Integrity).
  - intro Hn. rewrite Hn in G5. cbn [is_none andb] in G5. rewrite negb_involutive in G5.
    apply Nat.eqb_eq in G5. rewrite G5. apply Forall2_len in Tres. rewrite index_from_length in Tres.
    rewrite HA. congruence.
  - intro Hn. destruct (s_kdf s) eqn:EK; [|now destruct Hn]. cbn [is_none negb] in G6. rewrite andb_true_r in G6.
    destruct (s_aead s); [|now left]. destruct (s_ciph s); [|now right; left]. destruct (s_macs s); [discriminate|].
    now right; right.
  - intros i Hi. apply Lne. now rewrite <- HA.
  - destruct src eqn:Esrc.
    + symmetry in Ksrc. apply orb_true_iff in Ksrc as [Ks'|Ks'].
      * left. rewrite Lsrc in Ks'. apply existsb_exists in Ks' as (i & Hi & Hx). exists i. rewrite HA. split; [assumption|].
        destruct (signets_for e i); easy.
      * right; left. now destruct (loop scheme_key (e_secrets e)).
    + right; right. cbn [negb andb] in G7. rewrite negb_orb in G7. apply andb_true_iff in G7 as [G7a G7b].
      split; intro Hi; apply req_has_In in Hi; rewrite Hi in *; discriminate.
  - rewrite HA. apply negb_true_iff, Nat.ltb_ge in G8. lia.
  - intros Hex. rewrite Hex in G0. cbn [andb] in G0. intro Hz. rewrite Hz in G0. discriminate.
Qed.
