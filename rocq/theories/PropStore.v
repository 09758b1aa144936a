(** C31-C33, C50, C52, C53: the trust stores. *)
From Coq Require Import Permutation.
From Verif Require Import Prelude PreludeFacts Tools Session Signets TrustStore SpecStore SpecExport PropExport.

(** ** Association lists *)
Section Assoc.
Context {K V : Type} (eqb : K -> K -> bool).
Hypothesis eqb_eq : forall a b, eqb a b = true <-> a = b.
Lemma eqb_refl a : eqb a a = true. Proof. now apply eqb_eq. Qed.
Lemma get_set_same k (v : V) l : a_get eqb k (a_set eqb k v l) = Some v.
Proof. induction l as [|[k' v'] l IH]; cbn; [now rewrite eqb_refl|]. destruct (eqb k' k) eqn:E; cbn; [now rewrite eqb_refl|]. now rewrite E. Qed.
Lemma get_set_other k k' (v : V) l : k <> k' -> a_get eqb k' (a_set eqb k v l) = a_get eqb k' l.
Proof.
  intro N. assert (F : eqb k k' = false) by (destruct (eqb k k') eqn:E; [apply eqb_eq in E; congruence|reflexivity]).
  induction l as [|[a v'] l IH]; cbn; [now rewrite F|]. destruct (eqb a k) eqn:E; cbn.
  - apply eqb_eq in E. subst a. now rewrite F.
  - now rewrite IH.
Qed.
Lemma get_del_same k (l : list (K * V)) : a_get eqb k (a_del eqb k l) = None.
Proof. induction l as [|[a v] l IH]; cbn; [reflexivity|]. destruct (eqb a k) eqn:E; cbn; [exact IH|]. now rewrite E. Qed.
Lemma get_del_other k k' (l : list (K * V)) : k <> k' -> a_get eqb k' (a_del eqb k l) = a_get eqb k' l.
Proof.
  intro N. assert (F : eqb k k' = false) by (destruct (eqb k k') eqn:E; [apply eqb_eq in E; congruence|reflexivity]).
  induction l as [|[a v] l IH]; cbn; [reflexivity|]. destruct (eqb a k) eqn:E; cbn.
  - apply eqb_eq in E. subst a. now rewrite F.
  - now rewrite IH.
Qed.
End Assoc.
Lemma elems_eqb_eq a : forall b, elems_eqb a b = true <-> a = b.
Proof.
  induction a as [|x a IH]; intros [|y b]; cbn; try (split; [discriminate|discriminate]); [tauto|]. rewrite andb_true_iff, bytes_eqb_eq, IH. split; [intros [-> ->]; reflexivity|]. injection 1 as -> ->. auto.
Qed.
Lemma path_eqb_eq a b : path_eqb a b = true <-> a = b.
Proof.
  destruct a as [r l], b as [r' l']. unfold path_eqb. cbn. rewrite andb_true_iff, elems_eqb_eq, Bool.eqb_true_iff. split; [intros [-> ->]; reflexivity|]. injection 1 as -> ->. auto.
Qed.
(** IDs and kinds have their own names. *)
Lemma suffix_cut (a b s t : bytes) : length s = length t -> a ++ s = b ++ t -> a = b /\ s = t.
Proof.
  intros L E. assert (LA : length a = length b) by (apply (f_equal (@length byte)) in E; rewrite !app_length in E; lia).
  revert b LA E. induction a as [|x a IH]; intros [|y b] LA E; try discriminate LA; [auto|]. cbn in E. injection E as -> E. destruct (IH b) as [-> ->]; auto.
Qed.
Lemma storage_id_inj id r id' r' : storage_id id r = storage_id id' r' -> id = id' /\ r = r'.
Proof.
  unfold storage_id. destruct r, r'; intro E.
  - now apply suffix_cut in E.
  - exfalso. change (lit ".recipient") with (lit ".re" ++ lit "cipient") in E. rewrite app_assoc in E. apply suffix_cut in E; [|reflexivity]. destruct E as [_ E]. discriminate E.
  - exfalso. change (lit ".recipient") with (lit ".re" ++ lit "cipient") in E. rewrite (app_assoc id') in E. apply suffix_cut in E; [|reflexivity]. destruct E as [_ E]. discriminate E.
  - now apply suffix_cut in E.
Qed.
Lemma storage_env id r n : storage_id id r <> n ++ lit ".envelope".
Proof.
  unfold storage_id. intro E. destruct r.
  - change (lit ".recipient") with (lit ".re" ++ lit "cipient") in E. change (lit ".envelope") with (lit ".e" ++ lit "nvelope") in E. rewrite !app_assoc in E. apply suffix_cut in E; [|reflexivity]. destruct E as [_ E]. discriminate E.
  - change (lit ".envelope") with (lit ".e" ++ lit "nvelope") in E. rewrite (app_assoc n) in E. apply suffix_cut in E; [|reflexivity]. destruct E as [_ E]. discriminate E.
Qed.

(** ** C31 *)
Definition mem_step (c : call) (m : mem) : answer * mem :=
  match c with
  | CGet id r => (AGot (mem_get m id r), m)
  | CStore d => match mem_store m d with Ok m' => (ADone true, m') | _ => (ADone false, m) end
  | CDelete id r => (ADone true, mem_delete m id r)
  | _ => (ADone false, m)                                            (* not offered *)
  end.
Fixpoint run_mem (cs : list call) (m : mem) : list answer * mem :=
  match cs with [] => ([], m) | c :: r => let (a, m1) := mem_step c m in let (l, m2) := run_mem r m1 in (a :: l, m2) end.
Definition mem_abs (m : mem) (s : maps) : Prop := forall id r, a_get bytes_eqb (storage_id id r) m = m_sig s id r.
Lemma put_get s id r x id' r' : m_sig (put s id r x) id' r' = if bytes_eqb id' id && Bool.eqb r' r then x else m_sig s id' r'.
Proof. reflexivity. Qed.
Lemma mem_abs_step c m s : mem_abs m s -> fst (mem_step c m) = fst (mem_spec c s) /\ mem_abs (snd (mem_step c m)) (snd (mem_spec c s)).
Proof.
  intro A. destruct c as [id r|d|id r|n|v|n]; cbn [mem_step mem_spec]; try (split; [reflexivity|exact A]).
  - unfold mem_get. rewrite A. split; [reflexivity|exact A].
  - unfold mem_store. destruct (d_id d) as [|b i] eqn:I; [split; [reflexivity|exact A]|]. rewrite <- I. cbn [fst snd]. split; [reflexivity|]. intros id' r'. rewrite put_get. destruct (bytes_eqb id' (d_id d) && Bool.eqb r' (d_public d)) eqn:E.
    + apply andb_true_iff in E. destruct E as [E1 E2]. apply bytes_eqb_eq in E1. apply Bool.eqb_prop in E2. subst. apply get_set_same. exact bytes_eqb_eq.
    + rewrite get_set_other; [apply A|exact bytes_eqb_eq|]. intro X. apply storage_id_inj in X. destruct X as [<- <-]. rewrite bytes_eqb_refl, Bool.eqb_reflx in E. discriminate E.
  - split; [reflexivity|]. cbn [snd]. intros id' r'. rewrite put_get. unfold mem_delete. destruct (bytes_eqb id' id && Bool.eqb r' r) eqn:E.
    + apply andb_true_iff in E. destruct E as [E1 E2]. apply bytes_eqb_eq in E1. apply Bool.eqb_prop in E2. subst. apply get_del_same.
    + rewrite get_del_other; [apply A|exact bytes_eqb_eq|]. intro X. apply storage_id_inj in X. destruct X as [<- <-]. rewrite bytes_eqb_refl, Bool.eqb_reflx in E. discriminate E.
Qed.
Theorem C31_map : forall cs, fst (run_mem cs []) = fst (run_spec mem_spec cs no_maps).
Proof.
  intro cs. assert (A : mem_abs [] no_maps) by (intros id r; reflexivity). revert A. generalize (@nil (bytes * sdata)) no_maps. induction cs as [|c cs IH]; intros m s A; [reflexivity|]. cbn.
  destruct (mem_abs_step c m s A) as [E A']. destruct (mem_step c m) as [a m1], (mem_spec c s) as [a' s1]. cbn in E, A'. subst a'. specialize (IH m1 s1 A').
  destruct (run_mem cs m1), (run_spec mem_spec cs s1). cbn in *. now rewrite IH.
Qed.
Example C31_hypotheses_met : let d p k := mkData 1 (lit "a") (lit "Ed25519") k p None None None in
  fst (run_mem [CStore (d false (lit "1")); CStore (d true (lit "2")); CStore (d false (lit "3")); CGet (lit "a") false; CDelete (lit "a") false; CGet (lit "a") false; CGet (lit "a") true] [])
  = [ADone true; ADone true; ADone true; AGot (Ok (d false (lit "3"))); ADone true; AGot (Err ESignetNotFound); AGot (Ok (d true (lit "2")))].
Proof. vm_compute. reflexivity. Qed.

(** ** C32 *)
Definition chosen (f : filter_kind) (schemes : list bytes) (l : list sdata) : list sdata := filter (fun d => scheme_ok schemes d && kind_ok f d) l.
Lemma scheme_ok_iff schemes d : scheme_ok schemes d = true <-> of_scheme schemes d.
Proof.
  unfold scheme_ok, of_scheme. destruct schemes as [|s r]; [split; auto|]. rewrite existsb_exists. split.
  - intros (x & I & E). apply bytes_eqb_eq in E. subst. now right.
  - intros [X|I]; [discriminate|]. exists (d_scheme d). split; [exact I|apply bytes_eqb_refl].
Qed.
Lemma kind_ok_iff f d : kind_ok f d = true <-> of_kind f d.
Proof. unfold kind_ok, of_kind. destruct f, (d_public d); cbn; split; try reflexivity; try discriminate; trivial. Qed.
Lemma chosen_selected f schemes l : selected f schemes l (chosen f schemes l).
Proof. exists (fun d => scheme_ok schemes d && kind_ok f d). split; [|reflexivity]. intro d. now rewrite andb_true_iff, scheme_ok_iff, kind_ok_iff. Qed.
Lemma selected_chosen f schemes l sel : selected f schemes l sel -> sel = chosen f schemes l.
Proof.
  intros (k & K & ->). unfold chosen. apply filter_ext. intro d. specialize (K d). rewrite <- scheme_ok_iff, <- kind_ok_iff, <- andb_true_iff in K.
  destruct (k d), (scheme_ok schemes d && kind_ok f d); try reflexivity; destruct K as [K1 K2]; [symmetry; now apply K1|now apply K2].
Qed.
Lemma mem_select_all f schemes l : forall sel, forallb (scheme_ok schemes) l = true -> mem_select f schemes l sel = sel ++ chosen f schemes l.
Proof.
  induction l as [|d l IH]; intros sel A; cbn; [now rewrite app_nil_r|]. cbn in A. apply andb_true_iff in A. destruct A as [A1 A2]. rewrite A1. cbn [negb andb]. destruct (kind_ok f d); rewrite IH by exact A2; [rewrite <- app_assoc|]; reflexivity.
Qed.
Lemma mem_select_bad f schemes l : forall sel, forallb (scheme_ok schemes) l = false -> mem_select f schemes l sel = [].
Proof.
  induction l as [|d l IH]; intros sel A; cbn; [discriminate A|]. cbn in A. destruct (scheme_ok schemes d); cbn in *; [|reflexivity]. destruct (kind_ok f d); now apply IH.
Qed.
(** The in-memory store: for any order of iteration, the selection is right if all signets have one of the schemes, and else empty. *)
Theorem C32_mem_exact : forall f schemes (m : mem) order, Permutation order (map snd m) ->
  ((forall d, In d (map snd m) -> of_scheme schemes d) -> forall sel, selected f schemes (map snd m) sel -> Permutation (mem_select f schemes order []) sel)
  /\ (forall d, In d (map snd m) -> ~ of_scheme schemes d -> mem_select f schemes order [] = []).
Proof.
  intros f schemes m order P.
  assert (G : (forallb (scheme_ok schemes) (map snd m) = true -> Permutation (mem_select f schemes order []) (chosen f schemes (map snd m)))
    /\ (forallb (scheme_ok schemes) (map snd m) = false -> mem_select f schemes order [] = [])).
  2:{ destruct G as [G1 G2]. split.
    - intros A sel S. apply selected_chosen in S as ->. apply G1. apply forallb_forall. intros d I. apply scheme_ok_iff, A, I.
    - intros d I N. apply G2. apply not_true_iff_false. intro F. rewrite forallb_forall in F. apply N, scheme_ok_iff, F, I. }
  assert (B : forallb (scheme_ok schemes) order = forallb (scheme_ok schemes) (map snd m)).
  { destruct (forallb (scheme_ok schemes) (map snd m)) eqn:E.
    - rewrite forallb_forall in E |- *. intros x I. apply E. eapply Permutation_in; eassumption.
    - apply not_true_iff_false in E. apply not_true_iff_false. intro F. apply E. rewrite forallb_forall in F |- *. intros x I. apply F. eapply Permutation_in; [symmetry; exact P|exact I]. }
  rewrite <- B. split; intro E.
  - rewrite mem_select_all by exact E. cbn. clear - P. induction P; cbn; [reflexivity|destruct (_ && _); [now apply perm_skip|exact IHP]| |etransitivity; eassumption].
    destruct (scheme_ok schemes y && kind_ok f y), (scheme_ok schemes x && kind_ok f x); try reflexivity. apply perm_swap.
  - now apply mem_select_bad.
Qed.
(** So a stored signet of another scheme hides all that were asked for. *)
Theorem C32_mem_refuted : exists (m : mem) sel, selected FilterAny [lit "Ed25519"] (map snd m) sel /\ length sel = 1 /\ forall order, Permutation order (map snd m) -> mem_select FilterAny [lit "Ed25519"] order [] = [].
Proof.
  set (a := mkData 1 (lit "a") (lit "Ed25519") (lit "k") false None None None). set (b := mkData 1 (lit "b") (lit "ECDH-X25519") (lit "k") false None None None).
  exists [(lit "a.signet", a); (lit "b.signet", b)], [a]. split; [exact (chosen_selected FilterAny [lit "Ed25519"] [a; b])|]. split; [reflexivity|]. intros order P. apply (proj2 (C32_mem_exact FilterAny [lit "Ed25519"] [(lit "a.signet", a); (lit "b.signet", b)] order P) b).
  - right. left. reflexivity.
  - intros [X|[X|[]]]; discriminate X.
Qed.
(** ** C50 and the selection of the directory store *)
Section Dir.
Variables (dump : sdata -> option bytes) (undump : bytes -> option sdata).
Variables (edump : edata -> option bytes) (eundump : bytes -> option edata).
Variables (suites : list suite) (dir : bytes).
Lemma dir_select_acc f schemes files : forall sel, dir_select undump f schemes files sel =
  match decode_all undump (signet_files files) with Some l => Ok (sel ++ chosen f schemes l) | None => Err EOther end.
Proof using.
  induction files as [|[p b] files IH]; intro sel; cbn [dir_select]; [cbn; now rewrite app_nil_r|]. unfold signet_files. cbn [filter fst].
  destruct (_ || _); cbn [map snd]; [|apply IH]. unfold decode_all. cbn [fold_right]. fold (decode_all undump (signet_files files)). unfold decode_all, signet_files in IH.
  destruct (undump b) as [d|]; [|reflexivity]. destruct (scheme_ok schemes d && kind_ok f d) eqn:E; rewrite IH; unfold decode_all, signet_files; destruct (fold_right _ _ _) as [l|]; try reflexivity; cbn [chosen filter]; rewrite E; [|reflexivity].
  now rewrite <- app_assoc.
Qed.
(** The directory store: the selection is right if every signet file decodes; one file that does not, and nothing is returned. *)
Lemma dir_select_eq : forall f schemes files, dir_select undump f schemes files [] =
  match decode_all undump (signet_files files) with Some l => Ok (chosen f schemes l) | None => Err EOther end.
Proof using. intros. apply dir_select_acc. Qed.
Theorem C50_select_exact : forall f schemes files,
  match decode_all undump (signet_files files) with
  | Some l => exists sel, dir_select undump f schemes files [] = Ok sel /\ selected f schemes l sel
  | None => dir_select undump f schemes files [] = Err EOther
  end.
Proof using. intros. rewrite dir_select_eq. destruct (decode_all undump (signet_files files)) as [l|]; [|reflexivity]. eexists. split; [reflexivity|apply chosen_selected]. Qed.
Lemma dir_envelopes_acc files : forall all, dir_envelopes eundump suites files all =
  match decode_all (fun b => match load_envelope eundump suites b with Ok v => Some v | _ => None end) (envelope_files files) with Some l => Ok (all ++ l) | None => Err EOther end.
Proof using.
  induction files as [|[p b] files IH]; intro all; cbn [dir_envelopes]; [cbn; now rewrite app_nil_r|]. unfold envelope_files. cbn [filter fst].
  destruct (path_suffix p _); cbn [map snd]; [|apply IH]. unfold decode_all in *. cbn [fold_right]. unfold envelope_files in IH. destruct (load_envelope eundump suites b) as [v|x|] eqn:E; cbn [bind].
  - rewrite IH. destruct (fold_right _ _ _) as [l|]; [|reflexivity]. now rewrite <- app_assoc.
  - unfold load_envelope in E. destruct (eundump b) as [v|]; cbn in E; [|now injection E as <-]. destruct (get_suite suites (ev_suite v)); [discriminate|now injection E as <-].
  - unfold load_envelope in E. destruct (eundump b) as [v|]; cbn in E; [|discriminate]. destruct (get_suite suites (ev_suite v)); discriminate.
Qed.
Theorem C50_envelopes_exact : forall files, dir_envelopes eundump suites files [] =
  match decode_all (fun b => match eundump b with Some v => match get_suite suites (ev_suite v) with Some _ => Some v | None => None end | None => None end) (envelope_files files) with
  | Some l => Ok l | None => Err EOther end.
Proof using.
  intro files. rewrite dir_envelopes_acc. cbn [app].
  replace (decode_all (fun b => match load_envelope eundump suites b with Ok v => Some v | _ => None end) (envelope_files files))
    with (decode_all (fun b => match eundump b with Some v => match get_suite suites (ev_suite v) with Some _ => Some v | None => None end | None => None end) (envelope_files files)); [reflexivity|].
  unfold decode_all. induction (envelope_files files) as [|b l IH]; [reflexivity|]. cbn. rewrite IH. unfold load_envelope. destruct (eundump b) as [v|]; cbn; [|reflexivity]. now destruct (get_suite suites (ev_suite v)).
Qed.
(** So one damaged file takes down the listing, wherever it is in the order. *)
Theorem C50_refuted : forall f schemes before p b after,
  path_suffix p (lit ".signet") = true \/ path_suffix p (lit ".recipient") = true -> undump b = None -> dir_select undump f schemes (before ++ (p, b) :: after) [] = Err EOther.
Proof using.
  intros f schemes before p b after S U. rewrite dir_select_eq. replace (decode_all undump (signet_files (before ++ (p, b) :: after))) with (@None (list sdata)); [reflexivity|].
  unfold signet_files, decode_all. rewrite filter_app, map_app, fold_right_app. cbn [filter fst]. replace (path_suffix p (lit ".signet") || path_suffix p (lit ".recipient")) with true by (destruct S as [-> | ->]; [reflexivity|now rewrite orb_true_r]).
  cbn [map snd fold_right]. rewrite U. clear. induction (map snd _) as [|x l IH]; [reflexivity|]. cbn. rewrite <- IH. now destruct (undump x).
Qed.

End Dir.

(** ** Paths *)
Lemma split_slash_app a : forall acc b, split_slash acc (a ++ slash :: b) = split_slash acc a ++ split_slash [] b.
Proof. induction a as [|x a IH]; intros acc b; cbn [app split_slash]; [reflexivity|]. destruct (byte_eqb x slash); cbn; [now rewrite IH|apply IH]. Qed.
Lemma split_slash_plain s : ~ In slash s -> forall acc, split_slash acc s = [rev acc ++ s].
Proof.
  induction s as [|x s IH]; intros N acc; cbn [split_slash]; [now rewrite app_nil_r|]. destruct (byte_eqb x slash) eqn:E; [apply byte_eqb_eq in E; exfalso; apply N; now left|].
  rewrite IH by (intro I; apply N; now right). cbn. now rewrite <- app_assoc.
Qed.
Lemma clean_step_plain r st x : plain x -> clean_step r st x = x :: st.
Proof.
  intros (_ & N1 & N2 & N3). unfold clean_step. assert (E : forall y, x <> y -> bytes_eqb x y = false) by (intros y N; destruct (bytes_eqb x y) eqn:E; [apply bytes_eqb_eq in E; congruence|reflexivity]).
  now rewrite !E by assumption.
Qed.
Lemma join_child d name : plain name -> join_path d name = child d name.
Proof.
  intro P. pose proof P as (NS & NE & _). unfold join_path, child, clean_path. destruct d as [|b d].
  - cbn [p_rooted p_elems rooted]. assert (R : rooted name = false).
    { destruct name as [|x name]; [congruence|]. cbn. destruct (byte_eqb x slash) eqn:E; [apply byte_eqb_eq in E; exfalso; apply NS; now left|reflexivity]. }
    rewrite R, split_slash_plain by exact NS. cbn [rev app fold_left]. rewrite clean_step_plain by exact P. reflexivity.
  - cbn [p_rooted p_elems]. change (rooted ((b :: d) ++ [slash] ++ name)) with (rooted (b :: d)). cbn [app]. change (b :: d ++ slash :: name) with ((b :: d) ++ slash :: name).
    rewrite split_slash_app, fold_left_app, split_slash_plain by exact NS. cbn [rev app fold_left]. rewrite clean_step_plain by exact P. reflexivity.
Qed.
Lemma child_inj d a b : child d a = child d b -> a = b.
Proof. unfold child. intro E. injection E as E. apply app_inv_head in E. congruence. Qed.
Lemma nice_plain id sfx : nice id = true -> ~ In slash sfx -> 2 < length sfx -> plain (id ++ sfx).
Proof.
  intros N S L. split; [|repeat split; intro E; apply (f_equal (@length byte)) in E; rewrite app_length in E; cbn in E; lia].
  rewrite in_app_iff. intros [I|I]; [|exact (S I)]. unfold nice in N. rewrite forallb_forall in N. apply N in I. vm_compute in I. discriminate I.
Qed.
Lemma no_slash s : forallb (fun b => negb (byte_eqb b slash)) s = true -> ~ In slash s.
Proof. intros F I. rewrite forallb_forall in F. apply F in I. now rewrite byte_eqb_refl in I. Qed.
Lemma storage_plain id r : nice id = true -> plain (storage_id id r).
Proof. intro N. unfold storage_id. apply nice_plain; [exact N|apply no_slash; destruct r; reflexivity|destruct r; cbn; lia]. Qed.
Lemma envelope_plain n : nice n = true -> plain (n ++ lit ".envelope").
Proof. intro N. apply nice_plain; [exact N|apply no_slash; reflexivity|cbn; lia]. Qed.
Lemma read_write_same w p b : read (write w p b) p = Some b.
Proof. apply get_set_same. exact path_eqb_eq. Qed.
Lemma read_write_other w p q b : p <> q -> read (write w p b) q = read w q.
Proof. apply get_set_other. exact path_eqb_eq. Qed.
Lemma read_del_same w p : read (a_del path_eqb p w) p = None.
Proof. apply get_del_same. Qed.
Lemma read_del_other w p q : p <> q -> read (a_del path_eqb p w) q = read w q.
Proof. apply get_del_other. exact path_eqb_eq. Qed.

Section Dir2.
Variables (dump : sdata -> option bytes) (undump : bytes -> option sdata).
Variables (edump : edata -> option bytes) (eundump : bytes -> option edata).
Variables (suites : list suite) (dir : bytes).
(** C33: what a call reads and writes is directly inside the directory. *)
Theorem C33_reads_inside : forall w w', same_children dir w w' ->
  (forall id r, dir_get undump dir w id r = dir_get undump dir w' id r)
  /\ (forall name, dir_get_envelope eundump suites dir w name = dir_get_envelope eundump suites dir w' name).
Proof using.
  intros w w' S. split.
  - intros id r. unfold dir_get, load_signet_file. destruct (nice id) eqn:N; [|reflexivity]. rewrite join_child by now apply storage_plain. rewrite S by now apply storage_plain. reflexivity.
  - intro n. unfold dir_get_envelope, envelope_path. destruct (nice n) eqn:N; [|reflexivity]. rewrite join_child by now apply envelope_plain. rewrite S by now apply envelope_plain. reflexivity.
Qed.
Theorem C33_writes_inside : forall w w', (exists d, dir_store dump dir w d = Ok w') \/ (exists id r, dir_delete dir w id r = Ok w')
    \/ (exists v, dir_store_envelope edump dir w v = Ok w') \/ (exists n, dir_delete_envelope dir w n = Ok w') ->
  exists name, plain name /\ forall q, q <> child dir name -> read w' q = read w q.
Proof using.
  intros w w' [[d H]|[[id [r H]]|[[v H]|[n H]]]].
  - unfold dir_store in H. destruct (d_id d) eqn:I; [discriminate|]. destruct (nice _) eqn:N; [|discriminate]. destruct (dump d); [|discriminate]. injection H as <-. eexists. split; [apply (storage_plain _ (d_public d) N)|].
    intros q Q. rewrite join_child by now apply storage_plain. apply read_write_other. congruence.
  - unfold dir_delete in H. destruct (nice id) eqn:N; [|discriminate]. destruct (read w _); [|discriminate]. injection H as <-. eexists. split; [apply (storage_plain _ r N)|].
    intros q Q. rewrite join_child by now apply storage_plain. apply read_del_other. congruence.
  - unfold dir_store_envelope in H. destruct (ev_name v) eqn:I; [discriminate|]. destruct (nice _) eqn:N; [|discriminate]. destruct (edump v); [|discriminate]. injection H as <-. eexists. split; [apply (envelope_plain _ N)|].
    intros q Q. unfold envelope_path. rewrite join_child by now apply envelope_plain. apply read_write_other. congruence.
  - unfold dir_delete_envelope in H. destruct (nice n) eqn:N; [|discriminate]. destruct (read w _); [|discriminate]. injection H as <-. eexists. split; [apply (envelope_plain _ N)|].
    intros q Q. unfold envelope_path. rewrite join_child by now apply envelope_plain. apply read_del_other. congruence.
Qed.
(** Different IDs, kinds and names: different files. *)
Theorem C33_distinct_files : forall id r id' r' n n', nice id = true -> nice id' = true -> nice n = true -> nice n' = true ->
  (join_path dir (storage_id id r) = join_path dir (storage_id id' r') -> id = id' /\ r = r')
  /\ (envelope_path dir n = envelope_path dir n' -> n = n') /\ join_path dir (storage_id id r) <> envelope_path dir n.
Proof using.
  intros id r id' r' n n' N1 N2 N3 N4. unfold envelope_path. rewrite !join_child by (first [now apply storage_plain|now apply envelope_plain]). repeat split.
  - apply child_inj in H. apply storage_id_inj in H. exact (proj1 H).
  - apply child_inj in H. apply storage_id_inj in H. exact (proj2 H).
  - intro H. apply child_inj in H. now apply suffix_cut in H.
  - intro H. apply child_inj in H. now apply storage_env in H.
Qed.
(** Every other ID or name is refused before any file is touched. *)
Theorem C33_refused : forall w id, nice id = false ->
  (forall r, dir_get undump dir w id r = Err EOther) /\ (forall r, dir_delete dir w id r = Err EOther) /\ (forall d, d_id d = id -> dir_store dump dir w d = Err EOther)
  /\ dir_get_envelope eundump suites dir w id = Err EOther /\ dir_delete_envelope dir w id = Err EOther /\ (forall v, ev_name v = id -> dir_store_envelope edump dir w v = Err EOther).
Proof using.
  intros w id N. unfold dir_get, dir_delete, dir_store, dir_get_envelope, dir_delete_envelope, dir_store_envelope. rewrite N. repeat split; try reflexivity.
  - intros d <-. rewrite N. now destruct (d_id d).
  - intros v <-. rewrite N. now destruct (ev_name v).
Qed.

(** ** C52: the directory store is a map *)
Definition dir_step (c : call) (w : fs) : answer * fs :=
  match c with
  | CGet id r => (AGot (dir_get undump dir w id r), w)
  | CStore d => match dir_store dump dir w d with Ok w' => (ADone true, w') | _ => (ADone false, w) end
  | CDelete id r => match dir_delete dir w id r with Ok w' => (ADone true, w') | _ => (ADone false, w) end
  | CGetEnv n => (AGotEnv (dir_get_envelope eundump suites dir w n), w)
  | CStoreEnv v => match dir_store_envelope edump dir w v with Ok w' => (ADone true, w') | _ => (ADone false, w) end
  | CDeleteEnv n => match dir_delete_envelope dir w n with Ok w' => (ADone true, w') | _ => (ADone false, w) end
  end.
Fixpoint run_dir (cs : list call) (w : fs) : list answer * fs :=
  match cs with [] => ([], w) | c :: r => let (a, w1) := dir_step c w in let (l, w2) := run_dir r w1 in (a :: l, w2) end.
Definition dumps {A} (f : A -> option bytes) (a : A) : bool := match f a with Some _ => true | None => false end.
(** The codecs give back what is stored in this history. *)
Definition codec_for (c : call) : Prop :=
  match c with
  | CStore d => forall b, dump d = Some b -> undump b = Some d
  | CStoreEnv v => forall b, edump v = Some b -> eundump b = Some v
  | _ => True
  end.
Definition empty_store (w : fs) : Prop := forall id r n, nice id = true -> nice n = true -> read w (child dir (storage_id id r)) = None /\ read w (child dir (n ++ lit ".envelope")) = None.
Record dir_abs (w : fs) (m : maps) : Prop := {
  da_sig : forall id r, nice id = true -> match m_sig m id r with Some d => exists b, read w (child dir (storage_id id r)) = Some b /\ undump b = Some d | None => read w (child dir (storage_id id r)) = None end;
  da_env : forall n, nice n = true -> match m_env m n with Some v => exists b, read w (child dir (n ++ lit ".envelope")) = Some b /\ eundump b = Some v | None => read w (child dir (n ++ lit ".envelope")) = None end }.
Lemma dir_put w m id r x w' : dir_abs w m -> (forall q, q <> child dir (storage_id id r) -> read w' q = read w q) ->
  match x with Some d => exists b, read w' (child dir (storage_id id r)) = Some b /\ undump b = Some d | None => read w' (child dir (storage_id id r)) = None end -> dir_abs w' (put m id r x).
Proof using.
  intros [A B] F X. split.
  - intros id' r' N. rewrite put_get. destruct (bytes_eqb id' id && Bool.eqb r' r) eqn:E.
    + apply andb_true_iff in E. destruct E as [E1 E2]. apply bytes_eqb_eq in E1. apply Bool.eqb_prop in E2. subst. exact X.
    + specialize (A id' r' N). rewrite F; [exact A|]. intro Y. apply child_inj, storage_id_inj in Y. destruct Y as [-> ->]. rewrite bytes_eqb_refl, Bool.eqb_reflx in E. discriminate E.
  - intros n N. cbn [put m_env]. specialize (B n N). rewrite F; [exact B|]. intro Y. apply child_inj in Y. symmetry in Y. now apply storage_env in Y.
Qed.
Lemma dir_put_env w m n x w' : dir_abs w m -> (forall q, q <> child dir (n ++ lit ".envelope") -> read w' q = read w q) ->
  match x with Some v => exists b, read w' (child dir (n ++ lit ".envelope")) = Some b /\ eundump b = Some v | None => read w' (child dir (n ++ lit ".envelope")) = None end -> dir_abs w' (put_env m n x).
Proof using.
  intros [A B] F X. split.
  - intros id' r' N. cbn [put_env m_sig]. specialize (A id' r' N). rewrite F; [exact A|]. intro Y. apply child_inj in Y. now apply storage_env in Y.
  - intros n' N. cbn [put_env m_env]. destruct (bytes_eqb n' n) eqn:E.
    + apply bytes_eqb_eq in E. subst. exact X.
    + specialize (B n' N). rewrite F; [exact B|]. intro Y. apply child_inj in Y. apply suffix_cut in Y; [|reflexivity]. destruct Y as [-> _]. rewrite bytes_eqb_refl in E. discriminate E.
Qed.
Lemma dir_abs_step c w m : dir_abs w m -> codec_for c ->
  let spec := dir_spec (dumps dump) (dumps edump) suites in fst (dir_step c w) = fst (spec c m) /\ dir_abs (snd (dir_step c w)) (snd (spec c m)).
Proof using.
  intros AB C. pose proof AB as [A B]. cbv zeta. destruct c as [id r|d|id r|n|v|n]; cbn [dir_step dir_spec].
  - split; [|exact AB]. cbn [fst]. f_equal. unfold dir_get, load_signet_file. destruct (nice id) eqn:N; [|reflexivity]. rewrite join_child by now apply storage_plain. specialize (A id r N).
    destruct (m_sig m id r) as [d|]; [destruct A as (b & -> & ->)|rewrite A]; reflexivity.
  - unfold dir_store. destruct (d_id d) as [|x i] eqn:I; [split; [reflexivity|exact AB]|]. rewrite <- I. assert (NE : bytes_eqb (d_id d) [] = false) by now rewrite I. rewrite NE. cbn [negb andb]. unfold dumps.
    destruct (nice (d_id d)) eqn:N; [|split; [reflexivity|exact AB]]. destruct (dump d) as [b|] eqn:D; [|split; [reflexivity|exact AB]]. cbn [andb fst snd]. split; [reflexivity|]. rewrite join_child by now apply storage_plain.
    apply (dir_put w); [exact AB|intros q Q; apply read_write_other; congruence|]. exists b. split; [apply read_write_same|exact (C b D)].
  - unfold dir_delete. destruct (nice id) eqn:N; [|split; [reflexivity|exact AB]]. rewrite join_child by now apply storage_plain. pose proof (A id r N) as AI. destruct (m_sig m id r) as [d|]; [destruct AI as (b & -> & _)|rewrite AI; split; [reflexivity|exact AB]].
    split; [reflexivity|]. apply (dir_put w); [exact AB|intros q Q; apply read_del_other; congruence|apply read_del_same].
  - split; [|exact AB]. cbn [fst]. f_equal. unfold dir_get_envelope, envelope_path. destruct (nice n) eqn:N; [|reflexivity]. rewrite join_child by now apply envelope_plain. specialize (B n N).
    destruct (m_env m n) as [v|]; [destruct B as (b & -> & U); unfold load_envelope; rewrite U; reflexivity|rewrite B; reflexivity].
  - unfold dir_store_envelope. destruct (ev_name v) as [|x i] eqn:I; [split; [reflexivity|exact AB]|]. rewrite <- I. assert (NE : bytes_eqb (ev_name v) [] = false) by now rewrite I. rewrite NE. cbn [negb andb]. unfold dumps.
    destruct (nice (ev_name v)) eqn:N; [|split; [reflexivity|exact AB]]. destruct (edump v) as [b|] eqn:D; [|split; [reflexivity|exact AB]]. cbn [andb fst snd]. split; [reflexivity|]. unfold envelope_path. rewrite join_child by now apply envelope_plain.
    apply (dir_put_env w); [exact AB|intros q Q; apply read_write_other; congruence|]. exists b. split; [apply read_write_same|exact (C b D)].
  - unfold dir_delete_envelope, envelope_path. destruct (nice n) eqn:N; [|split; [reflexivity|exact AB]]. rewrite join_child by now apply envelope_plain. pose proof (B n N) as BI. destruct (m_env m n) as [v|]; [destruct BI as (b & -> & _)|rewrite BI; split; [reflexivity|exact AB]].
    split; [reflexivity|]. apply (dir_put_env w); [exact AB|intros q Q; apply read_del_other; congruence|apply read_del_same].
Qed.
Theorem C52_dir_map : forall cs w, empty_store w -> Forall codec_for cs -> fst (run_dir cs w) = fst (run_spec (dir_spec (dumps dump) (dumps edump) suites) cs no_maps).
Proof using.
  intros cs w E F. assert (A : dir_abs w no_maps) by (split; cbn; [intros id r N; apply (E id r [] N eq_refl)|intros n N; apply (E [] false n eq_refl N)]). revert A F. clear E. generalize no_maps. revert w.
  induction cs as [|c cs IH]; intros w m A F; [reflexivity|]. inversion F as [|? ? F1 F2]; subst. destruct (dir_abs_step c w m A F1) as [E A']. cbn [run_dir run_spec]. cbv zeta in E, A'.
  destruct (dir_step c w) as [a w1], (dir_spec _ _ _ c m) as [a' m1]. cbn in E, A'. subst a'. specialize (IH w1 m1 A' F2). destruct (run_dir cs w1), (run_spec _ cs m1). cbn in *. now rewrite IH.
Qed.

(** ** C53: a crash while a signet is written.  os.WriteFile truncates the file and then writes. *)
Definition crash_state (w : fs) (p : path) (data : bytes) (w' : fs) : Prop := w' = w \/ exists n, w' = write w p (firstn n data).
Theorem C53_others_unharmed : forall w d b w' id r n, nice (d_id d) = true -> dump d = Some b -> crash_state w (join_path dir (storage_id (d_id d) (d_public d))) b w' ->
  (id <> d_id d \/ r <> d_public d -> dir_get undump dir w' id r = dir_get undump dir w id r) /\ dir_get_envelope eundump suites dir w' n = dir_get_envelope eundump suites dir w n.
Proof using.
  intros w d b w' id r n N D [->|[k ->]]; [auto|]. rewrite (join_child dir (storage_id (d_id d) (d_public d))) by now apply storage_plain. split.
  - intro X. unfold dir_get, load_signet_file. destruct (nice id) eqn:NI; [|reflexivity]. rewrite join_child by now apply storage_plain. rewrite read_write_other; [reflexivity|].
    intro Y. apply child_inj, storage_id_inj in Y. destruct Y as [Y1 Y2]. destruct X; congruence.
  - unfold dir_get_envelope, envelope_path. destruct (nice n) eqn:NI; [|reflexivity]. rewrite join_child by now apply envelope_plain. rewrite read_write_other; [reflexivity|]. intro Y. apply child_inj in Y. now apply storage_env in Y.
Qed.
End Dir2.

(** ** Concrete cases *)
Definition st_dir : bytes := lit "/home/x/../y//store/".
Definition st_a k : sdata := mkData 1 (lit "a") (lit "Ed25519") k false None None None.
Example C33_hypotheses_met : join_path st_dir (storage_id (lit "..") false) = mkPath true [lit "home"; lit "y"; lit "store"; lit "...signet"]
  /\ nice (lit "../../etc/passwd") = false /\ nice (lit "me@home.org 2") = true.
Proof. repeat split; vm_compute; reflexivity. Qed.
Definition e_dump (v : edata) : option bytes := if elems_eqb (map d_key (ev_secrets v)) [lit "hunter2"] then Some (lit "E" ++ ev_name v) else None.
Definition e_undump (b : bytes) : option edata := match b with _ :: n => Some (mkEnv 1 n (lit "v1") [mkData 1 (lit "pw") scheme_pw (lit "hunter2") false None None None] [] [] 128) | [] => None end.
Definition st_env : edata := mkEnv 1 (lit "env") (lit "v1") [mkData 1 (lit "pw") scheme_pw (lit "hunter2") false None None None] [] [] 128.
Example C52_hypotheses_met : let cs := [CStore (st_a (lit "1")); CStoreEnv st_env; CStore (st_a (lit "2")); CGet (lit "a") false; CGet (lit "a") true; CGetEnv (lit "env"); CDelete (lit "a") false; CDelete (lit "a") false; CGet (lit "a/b") false] in
  empty_store st_dir [] /\ Forall (codec_for demo_dump demo_undump e_dump e_undump) cs
  /\ fst (run_dir demo_dump demo_undump e_dump e_undump suite_registry st_dir cs []) =
     [ADone true; ADone true; ADone true; AGot (Ok (st_a (lit "2"))); AGot (Err ESignetNotFound); AGotEnv (Ok st_env); ADone true; ADone false; AGot (Err EOther)].
Proof using.
  cbv zeta. split; [split; reflexivity|]. split; [|vm_compute; reflexivity]. repeat constructor; cbn [codec_for]; intros b E; vm_compute in E; injection E as <-; vm_compute; reflexivity.
Qed.
(** C29: the directory store writes the passwords of an envelope, and they can be read back. *)
Theorem C29_dir_store_refuted : exists edump eundump v w v', codec_ok edump eundump v
  /\ dir_store_envelope edump st_dir [] v = Ok w /\ dir_get_envelope eundump suite_registry st_dir w (ev_name v) = Ok v' /\ map d_key (ev_secrets v') = [lit "hunter2"].
Proof using.
  exists e_dump, e_undump, st_env. eexists. eexists. split; [eexists; split; [vm_compute; reflexivity|split; [discriminate|vm_compute; reflexivity]]|]. split; [vm_compute; reflexivity|]. split; [vm_compute; reflexivity|reflexivity].
Qed.
(** In general: what StoreEnvelope writes is the serialised envelope as it is, with all keys. *)
Theorem C29_dir_store_exact : forall edump dir w v w', dir_store_envelope edump dir w v = Ok w' -> exists b, edump v = Some b /\ read w' (child dir (ev_name v ++ lit ".envelope")) = Some b.
Proof using.
  intros edump dir w v w' H. unfold dir_store_envelope in H. assert (NE : ev_name v <> []) by (intro I; rewrite I in H; discriminate H). replace (match ev_name v with [] => Err EOther | _ => if nice (ev_name v) then match edump v with None => Err EOther | Some b => Ok (write w (envelope_path dir (ev_name v)) b) end else Err EOther end) with (if nice (ev_name v) then match edump v with None => Err EOther | Some b => Ok (write w (envelope_path dir (ev_name v)) b) end else Err EOther) in H by (now destruct (ev_name v)). destruct (nice _) eqn:N; [|discriminate]. destruct (edump v) as [x|]; [|discriminate]. injection H as <-. exists x. split; [reflexivity|].
  unfold envelope_path. rewrite join_child by now apply envelope_plain. apply read_write_same.
Qed.
(** C50 with a file that does not decode, and an envelope of a suite that is not known: storing it succeeds, and no envelope can be listed any more. *)
Theorem C50_unknown_suite_refuted : exists (v : edata) edump eundump w, codec_ok edump eundump v /\ dir_store_envelope edump st_dir [] v = Ok w /\ dir_envelopes eundump suite_registry w [] = Err EOther.
Proof using.
  set (v := mkEnv 1 (lit "env") (lit "v9") [] [] [] 128). exists v, (fun _ => Some (lit "doc")), (fun _ => Some v). eexists. split; [eexists; repeat split; discriminate|]. split; vm_compute; reflexivity.
Qed.
Example C50_hypotheses_met : path_suffix (mkPath true [lit "store"; lit "a.signet"]) (lit ".signet") = true /\ demo_undump (lit "garbage") = None
  /\ dir_select demo_undump FilterAny [] [(mkPath true [lit "s"; lit "x.signet"], match demo_dump (st_a (lit "k")) with Some b => b | None => [] end)] [] = Ok [st_a (lit "k")].
Proof. repeat split; vm_compute; reflexivity. Qed.
(** C52: a signet whose key was generated but not stored (Signet.StoreKey) is written without its key. *)
Theorem C52_unstored_key_lost : exists w d, dir_store demo_dump st_dir [] (f_data demo_x) = Ok w /\ f_pub demo_x <> None
  /\ dir_get demo_undump st_dir w (lit "bob") false = Ok d /\ d_key d = [] /\ exists x, load_signet tool_registry (mkF d None (@KeyStore.SNil PropKeyStore.demo_ext)) = Err x.
Proof using.
  eexists. eexists. split; [vm_compute; reflexivity|]. split; [discriminate|]. split; [vm_compute; reflexivity|]. split; [reflexivity|]. eexists. vm_compute. reflexivity.
Qed.
(** C53: the entry itself is not safe: a crash can lose the old signet and the new one, and then no signet can be listed. *)
Theorem C53_entry_lost_refuted : exists w w' b, demo_dump (st_a (lit "new")) = Some b /\ dir_get demo_undump st_dir w (lit "a") false = Ok (st_a (lit "old"))
  /\ crash_state w (join_path st_dir (storage_id (lit "a") false)) b w' /\ dir_get demo_undump st_dir w' (lit "a") false = Err EOther /\ dir_select demo_undump FilterAny [] w' [] = Err EOther.
Proof using.
  exists (write [] (join_path st_dir (storage_id (lit "a") false)) (match demo_dump (st_a (lit "old")) with Some b => b | None => [] end)). eexists. eexists. split; [vm_compute; reflexivity|]. split; [vm_compute; reflexivity|].
  split; [right; exists 0; reflexivity|]. split; vm_compute; reflexivity.
Qed.
Example C32_hypotheses_met : let a := mkData 1 (lit "a") (lit "Ed25519") (lit "k") false None None None in let b := mkData 1 (lit "b") (lit "Ed25519") (lit "k") false None None None in
  let m : mem := [(lit "a", a); (lit "b", b)] in
  Permutation [b; a] (map snd m) /\ (forall d, In d (map snd m) -> of_scheme [lit "Ed25519"] d) /\ mem_select FilterAny [lit "Ed25519"] [b; a] [] = [b; a].
Proof. cbn zeta. split; [constructor|]. split; [|reflexivity]. cbn. intros d [<-|[<-|[]]]; right; left; reflexivity. Qed.
