(** C73: a trust store used by several goroutines at the same time. *)
From Coq Require Import Permutation.
From Verif Require Import Prelude PreludeFacts Tools Signets TrustStore SpecStore PropExport PropStore Mutex SpecLinear LinearFacts.

(** ** Any object whose methods hold one mutex *)
(** A mutex excludes: no two goroutines are between Lock and Unlock of the same store (so Go's "concurrent map read and map
    write" cannot occur). *)
Theorem C73_exclusive : forall {Sh Op Re} (code : Op -> method Sh Re) L lock_of s y t t' n n' o o' b b', (forall t, lock_of t = L) ->
  reachable code lock_of s y -> threads y t = Inside n o b -> threads y t' = Inside n' o' b' -> t = t'.
Proof. intros Sh Op Re code L lk s y t t' n n' o o' b b' E. exact (exclusive code L lk E s y t t' n n' o o' b b'). Qed.
Print Assumptions C73_exclusive.
(** Nobody gets stuck: as long as a call has not returned, some step other than a new call is possible, and there is no
    infinite run without new calls. *)
Theorem C73_calls_return : forall {Sh Op Re} (code : Op -> method Sh Re) L lock_of s y, (forall t, lock_of t = L) -> reachable code lock_of s y ->
  (forall t, threads y t <> Idle -> exists y', not_call code lock_of y y') /\ Acc (fun y2 y1 => not_call code lock_of y1 y2) y.
Proof. intros Sh Op Re code L lk s y E R. split; [intros t; exact (no_deadlock code L lk E s y t R)|exact (all_end code L lk E s y R)]. Qed.
Print Assumptions C73_calls_return.

(** ** MemTrustStore *)
Lemma a_get_in {K V} (eqb : K -> K -> bool) (eqb_eq : forall a b, eqb a b = true <-> a = b) k (v : V) l : a_get eqb k l = Some v -> In (k, v) l.
Proof. induction l as [|[k' v'] l IH]; cbn; [discriminate|]. destruct (eqb k' k) eqn:E; intro H; [apply eqb_eq in E; injection H as <-; subst; now left|right; auto]. Qed.
Lemma in_a_get {K V} (eqb : K -> K -> bool) (eqb_eq : forall a b, eqb a b = true <-> a = b) k (v : V) l : NoDup (map fst l) -> In (k, v) l -> a_get eqb k l = Some v.
Proof.
  induction l as [|[k' v'] l IH]; cbn; [easy|]. intros N [E|I]; inversion N as [|? ? X N']; subst.
  - injection E as -> ->. assert (R : eqb k k = true) by now apply eqb_eq. now rewrite R.
  - destruct (eqb k' k) eqn:E; [|auto]. apply eqb_eq in E. subst. exfalso. apply X. apply in_map_iff. now exists (k, v).
Qed.
Lemma a_set_keys {K V} (eqb : K -> K -> bool) (eqb_eq : forall a b, eqb a b = true <-> a = b) k (v : V) l x : In x (map fst (a_set eqb k v l)) <-> x = k \/ In x (map fst l).
Proof.
  induction l as [|[k' v'] l IH]; cbn; [intuition|]. destruct (eqb k' k) eqn:E; cbn.
  - apply eqb_eq in E. subst. intuition.
  - rewrite IH. intuition.
Qed.
Lemma a_set_in {K V} (eqb : K -> K -> bool) k (v : V) l x : In x (a_set eqb k v l) -> x = (k, v) \/ In x l.
Proof. induction l as [|[k' v'] l IH]; cbn; [intuition|]. destruct (eqb k' k); cbn; intuition. Qed.
Lemma a_set_nodup {K V} (eqb : K -> K -> bool) (eqb_eq : forall a b, eqb a b = true <-> a = b) k (v : V) l : NoDup (map fst l) -> NoDup (map fst (a_set eqb k v l)).
Proof.
  induction l as [|[k' v'] l IH]; cbn; intro N; [constructor; [easy|constructor]|]. inversion N as [|? ? X N']; subst. destruct (eqb k' k) eqn:E; cbn.
  - apply eqb_eq in E. subst. now constructor.
  - constructor; [|auto]. rewrite (a_set_keys eqb eqb_eq). intros [->|I]; [|now apply X]. assert (R : eqb k k = true) by now apply eqb_eq. congruence.
Qed.
Lemma a_del_in {K V} (eqb : K -> K -> bool) k (l : list (K * V)) x : In x (a_del eqb k l) -> In x l.
Proof. induction l as [|[k' v'] l IH]; cbn; [easy|]. destruct (eqb k' k); cbn; intuition. Qed.
Lemma a_del_nodup {K V} (eqb : K -> K -> bool) k (l : list (K * V)) : NoDup (map fst l) -> NoDup (map fst (a_del eqb k l)).
Proof.
  induction l as [|[k' v'] l IH]; cbn; intro N; [constructor|]. inversion N as [|? ? X N']; subst. destruct (eqb k' k); [auto|]. cbn. constructor; [|auto].
  intro I. apply X. apply in_map_iff in I as (e & <- & I). apply a_del_in in I. apply in_map_iff. eauto.
Qed.

Record mem_ok (m : mem) (s : maps) : Prop := { mo_abs : mem_abs m s; mo_nodup : NoDup (map fst m); mo_key : forall k d, In (k, d) m -> k = storage_id (d_id d) (d_public d) }.

Lemma mem_call_alone c m : alone mem_code (MCall c) m = (MAnswer (fst (mem_step c m)), snd (mem_step c m)).
Proof. destruct c as [id r|d|id r|n|v|n]; cbn; try reflexivity. unfold mem_store, alone. cbn. destruct (d_id d) eqn:E; reflexivity. Qed.

Definition found (m : mem) (keys : list bytes) : list sdata := flat_map (fun k => match a_get bytes_eqb k m with Some d => [d] | None => [] end) keys.
Lemma iterate_alone f schemes m keys : forall sel, exec (mem_iterate f schemes keys sel) m = (MSelected (mem_select f schemes (found m keys) sel), m).
Proof.
  induction keys as [|k keys IH]; intro sel; cbn [mem_iterate exec found flat_map]; [reflexivity|]. fold (found m keys). destruct (a_get bytes_eqb k m) as [d|]; [|apply IH]. cbn [app mem_select].
  destruct (scheme_ok schemes d); cbn [negb]; [|reflexivity]. destruct (kind_ok f d); apply IH.
Qed.
Lemma found_in m keys d : In d (found m keys) <-> exists k, In k keys /\ a_get bytes_eqb k m = Some d.
Proof.
  unfold found. rewrite in_flat_map. split; intros (k & I & H); exists k; (split; [exact I|]); destruct (a_get bytes_eqb k m) as [d'|]; try (now destruct H); try discriminate.
  - destruct H as [->|[]]. reflexivity.
  - injection H as ->. now left.
Qed.
Lemma found_entries m s keys : mem_ok m s -> Permutation keys (map fst m) -> entries s (found m keys).
Proof.
  intros [AB ND KEY] P. exists (map (fun d => (d_id d, d_public d)) (found m keys)).
  assert (F : forall d, In d (found m keys) -> m_sig s (d_id d) (d_public d) = Some d /\ exists k, In k keys /\ k = storage_id (d_id d) (d_public d)).
  { intros d I. apply found_in in I as (k & I & G). pose proof (a_get_in bytes_eqb bytes_eqb_eq _ _ _ G) as J. apply KEY in J. subst k. rewrite <- AB. eauto. }
  split; [|split].
  - assert (NK : NoDup keys) by (eapply Permutation_NoDup; [symmetry; exact P|exact ND]). clear - NK KEY. induction keys as [|k keys IH]; [constructor|]. inversion NK as [|? ? X NK']; subst. cbn [found flat_map]. fold (found m keys).
    destruct (a_get bytes_eqb k m) as [d|] eqn:G; [|auto]. cbn. constructor; [|auto]. intro I. apply in_map_iff in I as (d' & E & I). apply found_in in I as (k' & I & G'). apply (a_get_in bytes_eqb bytes_eqb_eq) in G, G'. apply KEY in G, G'. injection E as E1 E2. rewrite E1, E2 in G'. congruence.
  - intros id r. split.
    + intro I. apply in_map_iff in I as (d & E & I). injection E as <- <-. destruct (F d I) as [-> _]. discriminate.
    + intro N. destruct (m_sig s id r) as [d|] eqn:G; [|congruence]. rewrite <- AB in G. pose proof (a_get_in bytes_eqb bytes_eqb_eq _ _ _ G) as J. pose proof (KEY _ _ J) as K. apply storage_id_inj in K as [-> ->].
      apply in_map_iff. exists d. split; [reflexivity|]. apply found_in. eexists. split; [|exact G]. eapply Permutation_in; [symmetry; exact P|]. apply in_map_iff. now exists (storage_id (d_id d) (d_public d), d).
  - assert (FA : Forall (fun d => m_sig s (d_id d) (d_public d) = Some d) (found m keys)) by (apply Forall_forall; intros d I; now apply F). clear F. induction FA; cbn; constructor; auto.
Qed.
Lemma mem_refines o m s r m' : iterates o -> mem_ok m s -> alone mem_code o m = (r, m') -> exists s', mem_map o s r s' /\ mem_ok m' s'.
Proof.
  intros IT MO A. destruct o as [c|f schemes order].
  - rewrite mem_call_alone in A. injection A as <- <-. destruct MO as [AB ND KEY]. destruct (mem_abs_step c m s AB) as [E AB']. exists (snd (mem_spec c s)). split; [cbn; now rewrite E|]. split; [exact AB'| |].
    + destruct c; cbn; try assumption; [|now apply a_del_nodup]. unfold mem_store. destruct (d_id d) eqn:I; cbn; [exact ND|]. now apply a_set_nodup; [exact bytes_eqb_eq|].
    + intros k d. destruct c as [id r|x|id r|n|v|n]; cbn; try apply KEY.
      * unfold mem_store. destruct (d_id x) eqn:I; cbn; [apply KEY|]. intro J. apply a_set_in in J as [J|J]; [injection J as -> ->; now rewrite I|now apply KEY].
      * intro J. apply a_del_in in J. now apply KEY.
  - cbn in A. rewrite iterate_alone in A. injection A as <- <-. exists s. split; [|exact MO]. cbn. split; [reflexivity|]. exists (found m (order m)), (mem_select f schemes (found m (order m)) []).
    split; [apply found_entries; [exact MO|apply IT]|]. split; [reflexivity|]. destruct (forallb (scheme_ok schemes) (found m (order m))) eqn:E.
    + left. split; [|rewrite mem_select_all by exact E; apply chosen_selected]. apply Forall_forall. intros d I. apply scheme_ok_iff. now apply (proj1 (forallb_forall _ _) E).
    + right. split; [|now apply mem_select_bad]. intro F. rewrite Forall_forall in F. assert (T : forallb (scheme_ok schemes) (found m (order m)) = true) by (apply forallb_forall; intros d I; apply scheme_ok_iff; auto). congruence.
Qed.

(** Whatever goroutines call on one MemTrustStore, and however their steps interleave: what they see is what they would
    see had they called one after the other on a map, in an order that respects who was done before whom began. *)
Theorem C73_mem_linearizable : forall (lock : nat) y, reachable mem_code (fun _ => lock) [] y ->
  (forall n t o, In (Inv n t o) (past y) -> iterates o) -> linearizable mem_map no_maps (past y).
Proof.
  intros L y R OK. eapply (linear_mutex mem_code L (fun _ => L) (fun _ => eq_refl) mem_map mem_ok iterates); [exact mem_refines| |exact R|exact OK].
  split; [intros id r; reflexivity|constructor|easy].
Qed.
Print Assumptions C73_mem_linearizable.

(** ** DirTrustStore *)
Section DirLinear.
Variables (dump : sdata -> option bytes) (undump : bytes -> option sdata).
Variables (edump : edata -> option bytes) (eundump : bytes -> option edata).
Variables (suites : list suite) (dir : bytes) (walk : fs -> list path).

(** The files of the walk and what is in them. *)
Definition files_of (w : fs) : list (path * bytes) := flat_map (fun p => match read w p with Some b => [(p, b)] | None => [] end) (walk w).
(** One caller alone: the calls of C33 and C52, and the listings of C50. *)
Definition dir_alone (o : dir_op) (w : fs) (r : dir_re) (w' : fs) : Prop :=
  match o with
  | DCall c => (r, w') = (DAnswer (fst (dir_step dump undump edump eundump suites dir c w)), snd (dir_step dump undump edump eundump suites dir c w))
  | DSelect f schemes => w' = w /\ r = DSelected (dir_select undump f schemes (files_of w) [])
  | DEnvelopes => w' = w /\ r = DListed (dir_envelopes eundump suites (files_of w) [])
  end.
(** The same over the maps of C52. *)
Definition dir_map (o : dir_op) (m : maps) (r : dir_re) (m' : maps) : Prop :=
  match o with
  | DCall c => (r, m') = (DAnswer (fst (dir_spec (dumps dump) (dumps edump) suites c m)), snd (dir_spec (dumps dump) (dumps edump) suites c m))
  | _ => False
  end.
Definition dir_call_ok (o : dir_op) : Prop := match o with DCall c => codec_for dump undump edump eundump c | _ => False end.
Notation code := (dir_code dump undump edump eundump suites dir walk).

Lemma a_set_set {V} (p : path) (x y : V) l : a_set path_eqb p x (a_set path_eqb p y l) = a_set path_eqb p x l.
Proof.
  induction l as [|[k v] l IH]; cbn.
  - assert (R : path_eqb p p = true) by now apply path_eqb_eq. now rewrite R.
  - destruct (path_eqb k p) eqn:E; cbn; [assert (R : path_eqb p p = true) by (now apply path_eqb_eq); now rewrite R|]. now rewrite E, IH.
Qed.
Lemma write_rest_exec p k rest : forall c w, exec (write_rest p (length c) rest k) (write w p c) = exec k (write w p (c ++ rest)).
Proof.
  induction rest as [|x rest IH]; intros c w; cbn [write_rest exec]; [now rewrite app_nil_r|]. unfold put_at. rewrite read_write_same.
  replace (length c - length c) with 0 by lia. cbn [repeat]. rewrite app_nil_r, firstn_all, skipn_all2 by lia. unfold write at 1. unfold write at 1. rewrite a_set_set. fold (write w p (c ++ [x])).
  replace (S (length c)) with (length (c ++ [x])) by (rewrite app_length; cbn; lia). rewrite IH, <- app_assoc. reflexivity.
Qed.
Lemma write_file_exec p b k w : exec (write_file p b k) w = exec k (write w p b).
Proof. unfold write_file. cbn [exec]. exact (write_rest_exec p k b [] w). Qed.

Hypothesis walk_ok : forall w p, In p (walk w) -> read w p <> None.
Lemma visit_signets_exec f schemes w ps : (forall p, In p ps -> read w p <> None) -> forall sel,
  exec (visit_signets undump f schemes ps sel) w = (DSelected (dir_select undump f schemes (flat_map (fun p => match read w p with Some b => [(p, b)] | None => [] end) ps) sel), w).
Proof using.
  clear walk_ok. induction ps as [|p ps IH]; intros OK sel; cbn [visit_signets flat_map]; [reflexivity|]. assert (RP : read w p <> None) by (apply OK; now left). assert (OK' : forall p, In p ps -> read w p <> None) by (intros q Q; apply OK; now right).
  destruct (read w p) as [b|] eqn:R; [|congruence]. cbn [app dir_select]. destruct (path_suffix p (lit ".signet") || path_suffix p (lit ".recipient")); [|now apply IH].
  cbn [exec]. unfold load_signet_file. rewrite R. destruct (undump b) as [d|]; [|reflexivity]. cbn [of_option]. destruct (scheme_ok schemes d && kind_ok f d); now apply IH.
Qed.
Lemma visit_envelopes_exec w ps : (forall p, In p ps -> read w p <> None) -> forall all,
  exec (visit_envelopes eundump suites ps all) w = (DListed (dir_envelopes eundump suites (flat_map (fun p => match read w p with Some b => [(p, b)] | None => [] end) ps) all), w).
Proof using.
  clear walk_ok. induction ps as [|p ps IH]; intros OK sel; cbn [visit_envelopes flat_map]; [reflexivity|]. assert (RP : read w p <> None) by (apply OK; now left). assert (OK' : forall p, In p ps -> read w p <> None) by (intros q Q; apply OK; now right).
  destruct (read w p) as [b|] eqn:R; [|congruence]. cbn [app dir_envelopes]. destruct (path_suffix p (lit ".envelope")); [|now apply IH].
  cbn [exec]. rewrite R. cbn [of_option bind]. unfold load_envelope. destruct (eundump b) as [v|]; [|reflexivity]. cbn [of_option bind]. destruct (get_suite suites (ev_suite v)); cbn [bind]; [now apply IH|reflexivity].
Qed.
Lemma dir_call_alone c w : alone code (DCall c) w = (DAnswer (fst (dir_step dump undump edump eundump suites dir c w)), snd (dir_step dump undump edump eundump suites dir c w)).
Proof using.
  clear walk_ok. destruct c as [id r|d|id r|n|v|n]; unfold alone; cbn [dir_code dir_step].
  - unfold dir_get. destruct (nice id); reflexivity.
  - unfold dir_store. destruct (d_id d) eqn:I; [reflexivity|]. rewrite <- I. destruct (nice (d_id d)); [|reflexivity]. destruct (dump d); [|reflexivity]. rewrite write_file_exec. reflexivity.
  - unfold dir_delete. destruct (nice id); [|reflexivity]. cbn. destruct (read w _); reflexivity.
  - unfold dir_get_envelope. destruct (nice n); reflexivity.
  - unfold dir_store_envelope. destruct (ev_name v) eqn:I; [reflexivity|]. rewrite <- I. destruct (nice (ev_name v)); [|reflexivity]. destruct (edump v); [|reflexivity]. rewrite write_file_exec. reflexivity.
  - unfold dir_delete_envelope. destruct (nice n); [|reflexivity]. cbn. destruct (read w _); reflexivity.
Qed.

(** The same for one DirTrustStore, whose files nobody else touches. *)
Theorem C73_dir_linearizable : forall (lock : nat) w y, reachable code (fun _ => lock) w y -> linearizable dir_alone w (past y).
Proof using walk_ok.
  intros L w y R. eapply (linear_mutex code L (fun _ => L) (fun _ => eq_refl) dir_alone eq (fun _ => True)); [|reflexivity|exact R|easy].
  intros o s a r s' _ <- A. exists s'. split; [|reflexivity]. destruct o as [c|f schemes|]; cbn [dir_alone].
  - rewrite dir_call_alone in A. now rewrite A.
  - unfold alone in A. cbn [dir_code exec] in A. rewrite visit_signets_exec in A by (intros p; apply walk_ok). injection A as <- <-. auto.
  - unfold alone in A. cbn [dir_code exec] in A. rewrite visit_envelopes_exec in A by (intros p; apply walk_ok). injection A as <- <-. auto.
Qed.
(** Without listings, and over the two maps. *)
Theorem C73_dir_map : forall (lock : nat) w y, empty_store dir w -> reachable code (fun _ => lock) w y ->
  (forall n t o, In (Inv n t o) (past y) -> dir_call_ok o) -> linearizable dir_map no_maps (past y).
Proof using.
  clear walk_ok. intros L w y EM R OK. eapply (linear_mutex code L (fun _ => L) (fun _ => eq_refl) dir_map (dir_abs undump eundump dir) dir_call_ok); [| |exact R|exact OK].
  - intros o s a r s' OK1 AB A. destruct o as [c|f schemes|]; [|easy..]. rewrite dir_call_alone in A. destruct (dir_abs_step dump undump edump eundump suites dir c s a AB OK1) as [E AB']. injection A as <- <-.
    eexists. split; [|exact AB']. cbn [dir_map]. now rewrite E.
  - split; cbn; [intros id r N; apply (EM id r [] N eq_refl)|intros n N; apply (EM [] false n eq_refl N)].
Qed.
End DirLinear.
Print Assumptions C73_dir_linearizable.
Print Assumptions C73_dir_map.

(** ** Concrete runs *)
(** Goroutine 1 stores, deletes and lists while goroutine 2 gets, stores and is made to wait. *)
Definition run_m := [Call 1 (MCall (CStore (st_a (lit "1")))); Call 2 (MCall (CGet (lit "a") false)); Go 1; Go 1; Go 1; Go 2; Go 2; Call 3 (MSelect FilterAny [] (fun m => rev (map fst m)));
  Go 2; Go 1; Go 2; Go 3; Go 3; Go 3; Go 3; Go 3; Call 1 (MCall (CDelete (lit "a") false))].
Example C73_mem_met : exists y, reachable mem_code (fun _ => 0) [] y
  /\ past y = [Inv 0 1 (MCall (CStore (st_a (lit "1")))); Inv 1 2 (MCall (CGet (lit "a") false)); Inv 2 3 (MSelect FilterAny [] (fun m => rev (map fst m)));
               Res 0 1 (MAnswer (ADone true)); Res 1 2 (MAnswer (AGot (Ok (st_a (lit "1"))))); Res 2 3 (MSelected [st_a (lit "1")]); Inv 6 1 (MCall (CDelete (lit "a") false))]
  /\ (forall n t o, In (Inv n t o) (past y) -> iterates o) /\ linearizable mem_map no_maps (past y).
Proof.
  assert (H : match play mem_code (fun _ => 0) run_m (sys_start []) with Some y => past y = [Inv 0 1 (MCall (CStore (st_a (lit "1")))); Inv 1 2 (MCall (CGet (lit "a") false)); Inv 2 3 (MSelect FilterAny [] (fun m => rev (map fst m)));
               Res 0 1 (MAnswer (ADone true)); Res 1 2 (MAnswer (AGot (Ok (st_a (lit "1"))))); Res 2 3 (MSelected [st_a (lit "1")]); Inv 6 1 (MCall (CDelete (lit "a") false))] | None => False end) by (vm_compute; reflexivity).
  destruct (play mem_code (fun _ => 0) run_m (sys_start [])) as [y|] eqn:P; [|easy]. exists y. assert (R : reachable mem_code (fun _ => 0) [] y) by (eapply play_reachable; [apply reach_start|exact P]).
  assert (OK : forall n t o, In (Inv n t o) (past y) -> iterates o).
  { intros n t o I. rewrite H in I. repeat (destruct I as [I|I]; [try discriminate I; injection I as <- <- <-; cbn; try exact I; try (intro m; symmetry; apply Permutation_rev)|]); easy. }
  split; [exact R|]. split; [exact H|]. split; [exact OK|]. now apply (C73_mem_linearizable 0).
Qed.

(** Two DirTrustStores for one directory (or two processes) do not share a mutex, and then the calls are not linearizable: while
    one overwrites a signet, the other cannot read it, although it is there before and after. *)
Definition lin_new : bytes := match demo_dump (st_a (lit "new")) with Some b => b | None => [] end.
Definition lin_w0 : fs := write [] (join_path st_dir (storage_id (lit "a") false)) (match demo_dump (st_a (lit "old")) with Some b => b | None => [] end).
Definition lin_walk (w : fs) : list path := map fst w.
Definition no_edump (v : edata) : option bytes := None.
Definition no_eundump (b : bytes) : option edata := None.
Notation demo_code := (dir_code demo_dump demo_undump no_edump no_eundump suite_registry st_dir lin_walk).
Notation demo_alone := (dir_alone demo_dump demo_undump no_edump no_eundump suite_registry st_dir lin_walk).
Definition lin_store : dir_op := DCall (CStore (st_a (lit "new"))).
Definition lin_get : dir_op := DCall (CGet (lit "a") false).
Theorem C73_two_stores_refuted : exists y, reachable demo_code (fun t => t) lin_w0 y
  /\ past y = [Inv 0 1 lin_store; Inv 1 2 lin_get; Res 1 2 (DAnswer (AGot (Err EOther))); Res 0 1 (DAnswer (ADone true))]
  /\ ~ linearizable demo_alone lin_w0 (past y).
Proof.
  set (moves := [Call 1 lin_store; Go 1; Go 1; Call 2 lin_get; Go 2; Go 2; Go 2; Go 2] ++ repeat (Go 1) (length lin_new) ++ [Go 1; Go 1]).
  assert (H : match play demo_code (fun t => t) moves (sys_start lin_w0) with
              | Some y => past y = [Inv 0 1 lin_store; Inv 1 2 lin_get; Res 1 2 (DAnswer (AGot (Err EOther))); Res 0 1 (DAnswer (ADone true))]
              | None => False end) by (vm_compute; reflexivity).
  destruct (play demo_code (fun t => t) moves (sys_start lin_w0)) as [y|] eqn:P; [|easy]. exists y. split; [eapply play_reachable; [apply reach_start|exact P]|]. split; [exact H|]. rewrite H.
  intros (order & s' & Q & ND & IV & RE & RT).
  destruct (RE 1 2 (DAnswer (AGot (Err EOther)))) as (o & I & _); [cbn; auto|].
  assert (OPS : forall n o r, In (n, o, r) order -> o = lin_store \/ o = lin_get).
  { intros n' o' r' I'. apply IV in I' as [t I']. cbn in I'. destruct I' as [E|[E|[E|[E|[]]]]]; try discriminate E; injection E as <- <- <-; auto. }
  set (w1 := write lin_w0 (join_path st_dir (storage_id (lit "a") false)) lin_new).
  assert (J : forall s l s', one_by_one demo_alone s l s' -> (s = lin_w0 \/ s = w1) -> (forall n o r, In (n, o, r) l -> o = lin_store \/ o = lin_get) -> ~ In (1, o, DAnswer (AGot (Err EOther))) l).
  { clear. intros s l s' Q. induction Q as [s|s n o1 r s1 l s2 E Q IH]; intros W OPS; [easy|].
    assert (A1 : (exists x, r = DAnswer (ADone x)) \/ (exists d, r = DAnswer (AGot (Ok d)))).
    { destruct (OPS n o1 r (or_introl eq_refl)) as [->| ->]; destruct W as [->| ->]; cbn [dir_alone lin_store lin_get] in E; injection E as -> ->.
      - left. eexists. vm_compute. reflexivity.
      - left. eexists. vm_compute. reflexivity.
      - right. eexists. vm_compute. reflexivity.
      - right. eexists. vm_compute. reflexivity. }
    assert (W1 : s1 = lin_w0 \/ s1 = w1).
    { destruct (OPS n o1 r (or_introl eq_refl)) as [->| ->]; destruct W as [->| ->]; cbn [dir_alone lin_store lin_get] in E; injection E as _ ->.
      - right. vm_compute. reflexivity.
      - right. vm_compute. reflexivity.
      - left. reflexivity.
      - right. reflexivity. }
    intros [X|X]; [injection X as _ _ X; destruct A1 as [[x A1]|[d A1]]; congruence|]. revert X. apply IH; [exact W1|]. intros n' o' r' I'. apply (OPS n' o' r'). now right. }
  exact (J _ _ _ Q (or_introl eq_refl) OPS I).
Qed.
Print Assumptions C73_two_stores_refuted.

(** The hypotheses of the theorems about one DirTrustStore are met, by a run in which the second goroutine has to wait. *)
Example C73_dir_met : (forall w p, In p (lin_walk w) -> read w p <> None)
  /\ exists y, reachable demo_code (fun _ => 0) lin_w0 y /\ past y = [Inv 0 1 lin_store; Inv 1 2 lin_get; Res 1 2 (DAnswer (AGot (Ok (st_a (lit "new"))))); Res 0 1 (DAnswer (ADone true)); Inv 4 2 DEnvelopes].
Proof.
  split.
  - unfold lin_walk. intros w p I. apply in_map_iff in I as ((k & b) & E & I). cbn in E. subst k. unfold read. induction w as [|[k v] w IH]; [easy|]. cbn. destruct (path_eqb k p) eqn:E; [discriminate|]. destruct I as [I|I]; [injection I as -> ->|auto].
    assert (R : path_eqb p p = true) by now apply path_eqb_eq. congruence.
  - set (moves := [Call 1 lin_store; Go 1; Go 1; Call 2 lin_get] ++ repeat (Go 1) (length lin_new) ++ [Go 1; Go 2; Go 2; Go 2; Go 2; Go 1; Call 2 DEnvelopes; Go 2]).
    assert (H : match play demo_code (fun _ => 0) moves (sys_start lin_w0) with
                | Some y => past y = [Inv 0 1 lin_store; Inv 1 2 lin_get; Res 1 2 (DAnswer (AGot (Ok (st_a (lit "new"))))); Res 0 1 (DAnswer (ADone true)); Inv 4 2 DEnvelopes]
                | None => False end) by (vm_compute; reflexivity).
    destruct (play demo_code (fun _ => 0) moves (sys_start lin_w0)) as [y|] eqn:P; [|easy]. exists y. split; [eapply play_reachable; [apply reach_start|exact P]|exact H].
Qed.
