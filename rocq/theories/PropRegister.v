(** C77: what is registered is found, listed once and in order. *)
From Coq Require Import Sorting.Permutation Sorting.Sorted.
From Verif Require Import Prelude PreludeFacts Tools Report SpecReport PropReport SpecLinear Registry SpecRegistry.

Lemma in_cut {A} (l : list A) x : In x l -> exists a b, l = a ++ x :: b.
Proof. apply in_split. Qed.

Section R.
Variable X : Type.
Variable name : X -> bytes.

Lemma less_before x y : less X name x y = true <-> SpecReport.before (name x) (name y).
Proof. apply key_ltb_iff. Qed.
Lemma less_not x y : less X name x y = false <-> ~ SpecReport.before (name x) (name y).
Proof. rewrite <- less_before. destruct (less X name x y); split; congruence. Qed.

(** *** sort.Sort has a result, and with distinct names only one. *)
Fixpoint put (x : X) (l : list X) : list X := match l with [] => [x] | y :: r => if less X name y x then y :: put x r else x :: y :: r end.
Lemma put_perm x l : Permutation (x :: l) (put x l).
Proof. induction l as [|y l IH]; [reflexivity|]. cbn [put]. destruct (less X name y x); [|reflexivity]. rewrite perm_swap. now rewrite IH. Qed.
Lemma not_less_trans x y z : less X name y x = false -> less X name z y = false -> less X name z x = false.
Proof.
  rewrite !less_not. intros A B C. destruct (before_total (name y) (name x)) as [E|[E|E]]; [rewrite E in B; now apply B|now apply A|]. apply B. now apply (before_trans _ _ C).
Qed.
Lemma put_sorted x l : StronglySorted (fun x y => less X name y x = false) l -> StronglySorted (fun x y => less X name y x = false) (put x l).
Proof.
  induction 1 as [|y l S IH F]; cbn [put]; [repeat constructor|]. destruct (less X name y x) eqn:E.
  - constructor; [exact IH|]. rewrite Forall_forall in *. intros z I. apply (Permutation_in z (Permutation_sym (put_perm x l))) in I. destruct I as [<-|I]; [|now apply F].
    apply less_not. apply less_before in E. intro Q. apply (before_irrefl (name y)). now apply (before_trans _ _ E).
  - constructor; [now constructor|]. constructor; [exact E|]. rewrite Forall_forall in *. intros z I. apply (not_less_trans x y z); [exact E|now apply F].
Qed.
Lemma sort_exists l : exists l', sort_result name l l'.
Proof.
  induction l as [|x l (l' & P & S)]; [exists []; split; [reflexivity|constructor]|]. exists (put x l'). split; [rewrite P; apply put_perm|now apply put_sorted].
Qed.
(** Every program can register whatever it wants. *)
Theorem C77_registers_total : forall h, exists s, registers name h s.
Proof.
  intro h. induction h as [|x h (s & R)] using rev_ind; [eexists; constructor|]. destruct (sort_exists (r_list s ++ [x])) as (l & S). eexists. econstructor; [exact R|]. constructor. exact S.
Qed.

Lemma registers_inv h s : registers name h s -> h = [] /\ s = empty_registry X \/ exists h' s' x, h = h' ++ [x] /\ registers name h' s' /\ register name x s' s.
Proof. intros [|h' s' x s2 R S]; [now left|right; eauto 8]. Qed.

Lemma latest_snoc h x n y : latest name (h ++ [x]) n y <-> (name x = n /\ y = x) \/ (name x <> n /\ latest name h n y).
Proof.
  split.
  - intros (a & b & E & N & B). destruct b as [|z b] using rev_ind.
    + apply app_inj_tail in E as [-> ->]. now left.
    + clear IHb. rewrite app_comm_cons, app_assoc in E. apply app_inj_tail in E as [-> ->]. right. split; [apply B, in_or_app; right; now left|].
      exists a, b. split; [reflexivity|]. split; [exact N|]. intros w I. apply B, in_or_app. now left.
  - intros [[N ->]|[N (a & b & -> & M & B)]].
    + exists h, []. split; [reflexivity|]. split; [exact N|]. intros w [].
    + exists a, (b ++ [x]). split; [now rewrite <- app_assoc|]. split; [exact M|]. intros w I. apply in_app_or in I as [I|[<-|[]]]; [now apply B|exact N].
Qed.
Lemma map_latest h s : registers name h s -> forall n y, r_map s n = Some y <-> latest name h n y.
Proof.
  induction 1 as [|h s x s' R IH [l S]]; intros n y; cbn [empty_registry r_map].
  - split; [discriminate|]. intros (a & b & E & _). destruct a; discriminate.
  - unfold map_put. rewrite latest_snoc. destruct (bytes_eqb (name x) n) eqn:E.
    + apply bytes_eqb_eq in E. split; [intros [= <-]; now left|]. intros [[_ ->]|[Q _]]; [reflexivity|contradiction].
    + apply bytes_eqb_neq in E. rewrite IH. split; [now right|]. intros [[Q _]|[_ Q]]; [contradiction|exact Q].
Qed.
Lemma latest_exists h n x : In x h -> name x = n -> exists y, latest name h n y.
Proof.
  induction h as [|z h IH] using rev_ind; intros I E; [destruct I|]. destruct (bytes_eqb (name z) n) eqn:Q.
  - apply bytes_eqb_eq in Q. exists z. apply latest_snoc. now left.
  - apply bytes_eqb_neq in Q. apply in_app_or in I as [I|[<-|[]]]; [|contradiction]. destruct (IH I E) as (y & L). exists y. apply latest_snoc. now right.
Qed.

(** Get gives what was registered under the name last, and only that. *)
Theorem C77_get_is_latest : forall h s, registers name h s -> forall n,
  (forall x, registry_get s n = Ok x <-> latest name h n x) /\ (registry_get s n = Err ENotFound <-> forall x, In x h -> name x <> n).
Proof.
  intros h s R n. pose proof (map_latest h s R n) as L. unfold registry_get. destruct (r_map s n) as [y|] eqn:E.
  - split.
    + intro x. rewrite <- L. split; congruence.
    + split; [discriminate|]. intro N. exfalso. destruct (proj1 (L y) eq_refl) as (a & b & -> & M & _). apply (N y); [apply in_or_app; right; now left|exact M].
  - split.
    + intro x. rewrite <- L. split; discriminate.
    + split; [|reflexivity]. intros _ x I M. destruct (latest_exists h n x I M) as (y & Y). apply L in Y. discriminate.
Qed.

(** AsList has every registration once, in the order of the names. *)
Theorem C77_list_in_order : forall h s, registers name h s ->
  Permutation h (r_list s) /\ forall i j x y, i < j -> nth_error (r_list s) i = Some x -> nth_error (r_list s) j = Some y -> ~ SpecReport.before (name y) (name x).
Proof.
  intros h s R. assert (G : Permutation h (r_list s) /\ StronglySorted (fun x y => less X name y x = false) (r_list s)).
  { induction R as [|h s x s' R [IH _] [l [P S]]]; [split; [reflexivity|constructor]|]. cbn [r_list]. split; [now rewrite <- P, IH|exact S]. }
  destruct G as [G S]. split; [exact G|]. clear R G. induction S as [|z l S IH F]; intros i j x y L I J; [destruct i; discriminate|].
  destruct j as [|j]; [lia|]. cbn in J. destruct i as [|i].
  - cbn in I. injection I as <-. rewrite Forall_forall in F. apply less_not, F. eapply nth_error_In; eassumption.
  - apply (IH i j x y); [lia|exact I|exact J].
Qed.

Lemma distinct_sorted l : distinct name l -> (forall i j x y, i < j -> nth_error l i = Some x -> nth_error l j = Some y -> ~ SpecReport.before (name y) (name x)) ->
  StronglySorted (fun x y => SpecReport.before (name x) (name y)) l.
Proof.
  induction l as [|x l IH]; intros D H; [constructor|]. inversion D as [|? ? N D']; subst. constructor.
  - apply IH; [exact D'|]. intros i j a b L I J. apply (H (S i) (S j)); [lia|exact I|exact J].
  - apply Forall_forall. intros y I. apply In_nth_error in I as (j & J). destruct (before_total (name x) (name y)) as [E|[E|E]]; [|exact E|].
    + exfalso. apply N. rewrite E. apply in_map. eapply nth_error_In; eassumption.
    + exfalso. apply (H 0 (S j) x y); [lia|reflexivity|exact J|exact E].
Qed.
Lemma sorted_unique l : forall l', Permutation l l' -> StronglySorted (fun x y => SpecReport.before (name x) (name y)) l ->
  StronglySorted (fun x y => SpecReport.before (name x) (name y)) l' -> l = l'.
Proof.
  induction l as [|x l IH]; intros l' P A B; [apply Permutation_nil in P; now subst|].
  destruct l' as [|y l']; [apply Permutation_sym, Permutation_nil in P; discriminate|]. inversion A as [|? ? A1 A2]; inversion B as [|? ? B1 B2]; subst.
  assert (E : x = y).
  { pose proof (Permutation_in x P (or_introl eq_refl)) as [->|I]; [reflexivity|]. pose proof (Permutation_in y (Permutation_sym P) (or_introl eq_refl)) as [->|J]; [reflexivity|].
    rewrite Forall_forall in A2, B2. exfalso. apply (before_irrefl (name x)). apply (before_trans _ _ (A2 y J)), (B2 x I). }
  subst. f_equal. apply IH; [now apply Permutation_cons_inv in P|exact A1|exact B1].
Qed.

(** With distinct names Get and AsList agree, and neither depends on the order of the registrations. *)
Theorem C77_get_agrees_with_list : forall h s, distinct name h -> registers name h s ->
  (forall n x, registry_get s n = Ok x <-> In x (r_list s) /\ name x = n) /\ StronglySorted (fun x y => SpecReport.before (name x) (name y)) (r_list s).
Proof.
  intros h s D R. destruct (C77_list_in_order h s R) as [P O]. split.
  - intros n x. destruct (C77_get_is_latest h s R n) as [G _]. rewrite G. split.
    + intros (a & b & -> & M & _). split; [|exact M]. apply (Permutation_in x P), in_or_app. right. now left.
    + intros [I M]. apply (Permutation_in x (Permutation_sym P)) in I. apply in_cut in I as (a & b & ->). exists a, b. split; [reflexivity|]. split; [exact M|].
      intros y I E. unfold distinct in D. rewrite map_app in D. cbn in D. apply NoDup_remove_2 in D. apply D, in_or_app. right. rewrite M, <- E. now apply in_map.
  - apply distinct_sorted; [|exact O]. unfold distinct in *. apply (Permutation_NoDup (Permutation_map name P) D).
Qed.
Theorem C77_order_of_registration : forall h h' s s', distinct name h -> Permutation h h' -> registers name h s -> registers name h' s' ->
  r_list s = r_list s' /\ forall n, registry_get s n = registry_get s' n.
Proof.
  intros h h' s s' D P R R'. assert (D' : distinct name h') by (unfold distinct in *; apply (Permutation_NoDup (Permutation_map name P) D)).
  destruct (C77_get_agrees_with_list h s D R) as [A S], (C77_get_agrees_with_list h' s' D' R') as [A' S'].
  assert (E : r_list s = r_list s').
  { apply sorted_unique; [|exact S|exact S']. destruct (C77_list_in_order h s R) as [P1 _], (C77_list_in_order h' s' R') as [P2 _]. now rewrite <- P1, P, P2. }
  split; [exact E|]. intro n. destruct (registry_get s n) as [x|e|] eqn:G.
  - apply A in G. rewrite E in G. symmetry. now apply A'.
  - destruct (registry_get s' n) as [x|e'|] eqn:G'.
    + apply A' in G'. rewrite <- E in G'. apply A in G'. congruence.
    + unfold registry_get in *. destruct (r_map s n); [discriminate|]. destruct (r_map s' n); [discriminate|]. congruence.
    + unfold registry_get in G'. destruct (r_map s' n); discriminate.
  - unfold registry_get in G. destruct (r_map s n); discriminate.
Qed.
End R.
Print Assumptions C77_get_is_latest.
Print Assumptions C77_list_in_order.
Print Assumptions C77_get_agrees_with_list.
Print Assumptions C77_order_of_registration.

(** *** Registering a name again: the tool that was replaced is still listed. *)
Theorem C77_replaced_is_listed_refuted : forall (t u : tool), t_name t = t_name u -> t <> u ->
  exists s, registers t_name [t; u] s /\ registry_get s (t_name t) = Ok u /\ In t (r_list s) /\ registry_get s (t_name t) <> Ok t.
Proof.
  intros t u E N. destruct (C77_registers_total tool t_name [t; u]) as (s & R). exists s. split; [exact R|].
  assert (G : registry_get s (t_name t) = Ok u).
  { apply (C77_get_is_latest tool t_name _ s R). exists [t], []. split; [reflexivity|]. split; [now symmetry|]. intros y []. }
  split; [exact G|]. split; [|congruence]. destruct (C77_list_in_order tool t_name _ s R) as [P _]. apply (Permutation_in t P). now left.
Qed.
Print Assumptions C77_replaced_is_listed_refuted.

(** *** Suites: the first registration of an ID stays. *)
Lemma register_suites_snoc h s : register_suites (h ++ [s]) = fst (register_suite s (register_suites h)).
Proof. unfold register_suites. now rewrite fold_left_app. Qed.
Lemma earliest_snoc h x n y : earliest su_id (h ++ [x]) n y <-> earliest su_id h n y \/ ((forall z, In z h -> su_id z <> n) /\ su_id x = n /\ y = x).
Proof.
  split.
  - intros (a & b & E & N & B). destruct b as [|z b] using rev_ind.
    + apply app_inj_tail in E as [-> ->]. right. auto.
    + clear IHb. rewrite app_comm_cons, app_assoc in E. apply app_inj_tail in E as [-> ->]. left. exists a, b. auto.
  - intros [(a & b & -> & M & B)|[N [M ->]]].
    + exists a, (b ++ [x]). split; [now rewrite <- app_assoc|auto].
    + exists h, []. auto.
Qed.
Lemma earliest_exists h n x : In x h -> su_id x = n -> exists y, earliest su_id h n y.
Proof.
  induction h as [|z h IH]; intros I E; [destruct I|]. destruct (bytes_eqb (su_id z) n) eqn:Q.
  - apply bytes_eqb_eq in Q. exists z, [], h. split; [reflexivity|]. split; [exact Q|]. intros y [].
  - apply bytes_eqb_neq in Q. destruct I as [->|I]; [contradiction|]. destruct (IH I E) as (y & a & b & -> & M & B). exists y, (z :: a), b.
    split; [reflexivity|]. split; [exact M|]. intros w [<-|W]; [exact Q|now apply B].
Qed.
Lemma earliest_in h n x : earliest su_id h n x -> In x h /\ su_id x = n.
Proof. intros (a & b & -> & M & _). split; [apply in_or_app; right; now left|exact M]. Qed.

Definition suites_inv (h : list suite) (st : suites_state) : Prop :=
  (forall n s, ss_map st n = Some s <-> earliest su_id h n s) /\ (forall s, In s (ss_list st) <-> earliest su_id h (su_id s) s)
  /\ NoDup (map su_id (ss_list st)) /\ (forall a b, SpecLinear.before a b (ss_list st) -> SpecLinear.before a b h).
Lemma suites_inv_holds h : suites_inv h (register_suites h).
Proof.
  induction h as [|x h (M & L & D & O)] using rev_ind.
  - split; [|split; [|split]].
    + intros n s. split; [discriminate|]. intros (a & b & E & _). destruct a; discriminate.
    + intro s. split; [intros []|]. intros (a & b & E & _). destruct a; discriminate.
    + constructor.
    + intros a b (l1 & l2 & l3 & E). destruct l1; discriminate.
  - rewrite register_suites_snoc. unfold register_suite. destruct (ss_map (register_suites h) (su_id x)) as [y|] eqn:E; cbn [fst].
    + assert (G : forall n s, earliest su_id (h ++ [x]) n s <-> earliest su_id h n s).
      { intros n s. rewrite earliest_snoc. split; [intros [Q|[Q [R ->]]]; [exact Q|]|now left]. apply M in E. apply earliest_in in E as [I J]. exfalso. apply (Q y I). congruence. }
      split; [intros n s; rewrite G; apply M|]. split; [intro s; rewrite G; apply L|]. split; [exact D|].
      intros a b Q. apply O in Q as (l1 & l2 & l3 & ->). exists l1, l2, (l3 ++ [x]). rewrite <- app_assoc. cbn [app]. now rewrite <- app_assoc.
    + assert (N : forall z, In z h -> su_id z <> su_id x).
      { intros z I Q. destruct (earliest_exists h _ z I Q) as (y & Y). apply M in Y. congruence. }
      cbn [ss_map ss_list]. split; [|split; [|split]].
      * intros n s. cbn [ss_map]. rewrite earliest_snoc. destruct (bytes_eqb (su_id x) n) eqn:Q.
        -- apply bytes_eqb_eq in Q. subst n. split; [intros [= <-]; right; auto|]. intros [R|[_ [_ ->]]]; [|reflexivity]. apply earliest_in in R as [I J]. exfalso. now apply (N s).
        -- apply bytes_eqb_neq in Q. rewrite M. split; [now left|]. intros [R|[_ [R _]]]; [exact R|contradiction].
      * intro s. cbn [ss_list]. rewrite earliest_snoc, in_app_iff, L. split.
        -- intros [R|[<-|[]]]; [now left|right; auto].
        -- intros [R|[_ [_ ->]]]; [now left|right; now left].
      * cbn [ss_list]. rewrite map_app. cbn [map].
        assert (P : Permutation (su_id x :: map su_id (ss_list (register_suites h))) (map su_id (ss_list (register_suites h)) ++ [su_id x])) by apply Permutation_cons_append.
        apply (Permutation_NoDup P). constructor; [|exact D]. intro I. apply in_map_iff in I as (z & Z & I). apply L in I. apply earliest_in in I as [I _]. now apply (N z).
      * intros a b (l1 & l2 & l3 & Q). cbn [ss_list] in Q. destruct l3 as [|z l3] using rev_ind.
        -- assert (Q' : ss_list (register_suites h) ++ [x] = (l1 ++ a :: l2) ++ [b]) by (rewrite Q, <- app_assoc; reflexivity).
           apply app_inj_tail in Q' as [Q' ->]. assert (I : In a h) by (apply (earliest_in h (su_id a)), L; rewrite Q'; apply in_or_app; right; now left).
           apply in_cut in I as (u & v & ->). exists u, v, []. now rewrite <- app_assoc.
        -- clear IHl3. assert (Q' : ss_list (register_suites h) ++ [x] = (l1 ++ a :: l2 ++ b :: l3) ++ [z]) by (rewrite Q; rewrite <- !app_assoc; cbn [app]; rewrite <- !app_assoc; reflexivity).
           apply app_inj_tail in Q' as [Q' ->]. destruct (O a b) as (u & v & w & ->); [now exists l1, l2, l3|]. exists u, v, (w ++ [z]).
           rewrite <- app_assoc. cbn [app]. now rewrite <- app_assoc.
Qed.
Theorem C77_suites : forall h,
  (forall n s, find_suite (register_suites h) n = Some s <-> earliest su_id h n s)
  /\ (forall s, In s (ss_list (register_suites h)) <-> find_suite (register_suites h) (su_id s) = Some s)
  /\ NoDup (map su_id (ss_list (register_suites h)))
  /\ (forall a b, SpecLinear.before a b (ss_list (register_suites h)) -> SpecLinear.before a b h)
  /\ forall s, snd (register_suite s (register_suites h)) = su_id s.
Proof.
  intro h. destruct (suites_inv_holds h) as (M & L & D & O). split; [exact M|]. split; [intro s; unfold find_suite; rewrite M; apply L|]. split; [exact D|]. split; [exact O|].
  intro s. unfold register_suite. destruct (ss_map _ _); reflexivity.
Qed.
Print Assumptions C77_suites.

(** *** The registries of this program: in whatever order the init functions run, they are those the rest of the model uses. *)
Lemma find_by_name {X} (name : X -> bytes) l n x : distinct name l -> (find (fun t => bytes_eqb (name t) n) l = Some x <-> In x l /\ name x = n).
Proof.
  unfold distinct. induction l as [|y l IH]; cbn [find map]; intro D; [split; [discriminate|intros [[] _]]|]. inversion D as [|? ? N D']; subst. destruct (bytes_eqb (name y) n) eqn:E.
  - apply bytes_eqb_eq in E. split; [intros [= <-]; split; [now left|exact E]|]. intros [[->|I] M]; [reflexivity|]. exfalso. apply N. rewrite E, <- M. now apply in_map.
  - apply bytes_eqb_neq in E. rewrite (IH D'). split; [intros [I M]; split; [now right|exact M]|]. intros [[->|I] M]; [contradiction|now split].
Qed.
Lemma registry_is_find {X} (name : X -> bytes) reg h s : distinct name reg -> Permutation h reg -> registers name h s ->
  forall n, registry_get s n = of_option ENotFound (find (fun t => bytes_eqb (name t) n) reg).
Proof.
  intros D P R n. assert (Dh : distinct name h) by (unfold distinct in *; apply (Permutation_NoDup (Permutation_map name (Permutation_sym P)) D)).
  destruct (C77_get_agrees_with_list X name h s Dh R) as [A _]. destruct (C77_list_in_order X name h s R) as [Q _].
  destruct (find _ reg) as [x|] eqn:F.
  - apply (find_by_name name reg n x D) in F as [I M]. cbn [of_option]. apply A. split; [|exact M]. apply (Permutation_in x Q), (Permutation_in x (Permutation_sym P)), I.
  - cbn [of_option]. unfold registry_get in *. destruct (r_map s n) as [x|] eqn:G; [|reflexivity]. exfalso. specialize (A n x). rewrite G in A.
    destruct (proj1 A eq_refl) as [I M]. apply (Permutation_in x (Permutation_sym Q)), (Permutation_in x P) in I.
    assert (Z : find (fun t => bytes_eqb (name t) n) reg = Some x) by (apply find_by_name; auto). congruence.
Qed.
Fixpoint no_dup_b (l : list bytes) : bool := match l with [] => true | x :: r => negb (existsb (bytes_eqb x) r) && no_dup_b r end.
Lemma no_dup_b_ok l : no_dup_b l = true -> NoDup l.
Proof.
  induction l as [|x l IH]; intro H; [constructor|]. cbn in H. apply andb_true_iff in H as [A B]. constructor; [|now apply IH]. intro I. apply negb_true_iff in A.
  assert (Z : existsb (bytes_eqb x) l = true) by (apply existsb_exists; exists x; split; [exact I|now apply bytes_eqb_eq]). congruence.
Qed.
Theorem C77_registries : 
  (forall h s, Permutation h tool_registry -> registers t_name h s -> forall n, registry_get s n = tools_get tool_registry n)
  /\ (forall h s, Permutation h hash_registry -> registers h_name h s -> forall n, registry_get s n = hash_get hash_registry n)
  /\ (forall h, Permutation h suite_registry -> (forall n, find_suite (register_suites h) n = get_suite suite_registry n) /\ ss_list (register_suites h) = h).
Proof.
  split; [|split].
  - intros h s P R n. refine (registry_is_find t_name tool_registry h s _ P R n). apply no_dup_b_ok. vm_compute. reflexivity.
  - intros h s P R n. refine (registry_is_find h_name hash_registry h s _ P R n). apply no_dup_b_ok. vm_compute. reflexivity.
  - intros h P. assert (D : distinct su_id suite_registry) by (apply no_dup_b_ok; vm_compute; reflexivity).
    assert (Dh : NoDup (map su_id h)) by apply (Permutation_NoDup (Permutation_map su_id (Permutation_sym P)) D). split.
    + intro n. destruct (C77_suites h) as (F & _). unfold get_suite. destruct (find _ suite_registry) as [x|] eqn:E.
      * apply (find_by_name su_id suite_registry n x D) in E as [I M]. apply F. apply (Permutation_in x (Permutation_sym P)) in I. apply in_cut in I as (a & b & ->).
        exists a, b. split; [reflexivity|]. split; [exact M|]. intros y I Q. rewrite map_app in Dh. cbn in Dh. apply NoDup_remove_2 in Dh. apply Dh, in_or_app. left. rewrite M, <- Q. now apply in_map.
      * destruct (find_suite (register_suites h) n) as [x|] eqn:G; [|reflexivity]. apply F in G. apply earliest_in in G as [I M]. apply (Permutation_in x P) in I.
        assert (Z : find (fun t => bytes_eqb (su_id t) n) suite_registry = Some x) by (apply (find_by_name su_id); auto). congruence.
    + clear P D. induction h as [|x h IH] using rev_ind; [reflexivity|]. rewrite register_suites_snoc. unfold register_suite. rewrite map_app in Dh. cbn in Dh.
      destruct (ss_map (register_suites h) (su_id x)) as [y|] eqn:E; cbn [fst ss_list].
      * exfalso. destruct (suites_inv_holds h) as (M & _). apply M in E. apply earliest_in in E as [I J]. apply NoDup_remove_2 in Dh. rewrite app_nil_r in Dh. apply Dh. rewrite <- J. now apply in_map.
      * f_equal. apply IH. apply NoDup_remove_1 in Dh. now rewrite app_nil_r in Dh.
Qed.
Print Assumptions C77_registries.

Example C77_hypotheses_met :
  (exists s, registers t_name (rev tool_registry) s /\ Permutation (rev tool_registry) tool_registry /\ distinct t_name (rev tool_registry) /\ length (r_list s) = length tool_registry)
  /\ length tool_registry <> 0 /\ ss_list (register_suites (rev suite_registry)) = rev suite_registry
  /\ (exists t u : tool, t_name t = t_name u /\ t <> u).
Proof.
  split; [|split; [|split]].
  - destruct (C77_registers_total tool t_name (rev tool_registry)) as (s & R). exists s. split; [exact R|]. split; [symmetry; apply Permutation_rev|].
    split; [apply no_dup_b_ok; vm_compute; reflexivity|]. destruct (C77_list_in_order tool t_name _ s R) as [P _]. apply Permutation_length in P. now rewrite <- P, rev_length.
  - vm_compute. intro E. discriminate E.
  - vm_compute. reflexivity.
  - exists (mkTool (lit "HKDF") PKeyDerivation [] 0 0 0), (mkTool (lit "HKDF") PKeyDerivation [] 0 0 1). split; [reflexivity|]. intro E. apply (f_equal t_level) in E. discriminate E.
Qed.
