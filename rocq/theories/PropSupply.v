(** C42, C43: the signet supply. *)
From Coq Require Import ZArith Permutation.
From Verif Require Import Prelude Supply SpecSupply.

(** ** The ring buffer is a queue *)
Fixpoint run_cache (g : nat -> bool) (ops : list op) (c : cache) (next : nat) : cache * nat * list response :=
  match ops with
  | [] => (c, next, [])
  | OGet :: r =>
      let (x, c1) := cache_get c in
      let '(c2, n2, rs) := run_cache g r c1 next in (c2, n2, RGet x :: rs)
  | OFill amount :: r =>
      let '(full, failed, c1, n1) := cache_fill g amount next c in
      let '(c2, n2, rs) := run_cache g r c1 n1 in (c2, n2, RFill full failed :: rs)
  end.
Lemma mod_ring n i k : i < n -> k <= n -> (i + k) mod n = if i + k <? n then i + k else i + k - n.
Proof.
  intros I K. destruct (i + k <? n) eqn:E; [apply Nat.ltb_lt in E; now apply Nat.mod_small|apply Nat.ltb_ge in E].
  replace (i + k) with (i + k - n + 1 * n) at 1 by lia. rewrite Nat.mod_add by lia. apply Nat.mod_small. lia.
Qed.
Lemma set_slot_length st i v : length (set_slot st i v) = length st.
Proof. revert i. induction st as [|x st IH]; intro i; [reflexivity|]. destruct i; cbn; auto. Qed.
Lemma set_slot_same st i v : i < length st -> slot (set_slot st i v) i = v.
Proof. revert i. induction st as [|x st IH]; intros i L; cbn in L; [lia|]. destruct i; cbn; [reflexivity|]. apply IH. lia. Qed.
Lemma set_slot_other st i j v : i <> j -> slot (set_slot st i v) j = slot st j.
Proof. revert i j. induction st as [|x st IH]; intros i j N; [reflexivity|]. destruct i, j; cbn; try reflexivity; try lia. apply IH. lia. Qed.
(** The cache [c] holds the queue [q]. *)
Record ring (n : nat) (c : cache) (q : list nat) : Prop := {
  r_size : length (sc_stock c) = n; r_iter : sc_iter c < n; r_level : sc_level c = length q; r_cap : length q <= n;
  r_slots : forall k, k < n -> slot (sc_stock c) ((sc_iter c + k) mod n) = nth_error q k }.
Lemma ring_new cs : ring (stock_size cs) (new_cache cs) [].
Proof.
  assert (P : 1 <= stock_size cs) by (unfold stock_size; destruct (cs <? 1)%Z eqn:E; [cbn; lia|apply Z.ltb_ge in E; lia]).
  split; cbn; [apply repeat_length|lia|reflexivity|lia|]. intros k K. unfold slot. rewrite nth_repeat. now destruct k.
Qed.
Lemma ring_get n c q : ring n c q -> match q with
  | [] => cache_get c = (None, c)
  | x :: r => exists c', cache_get c = (Some x, c') /\ ring n c' r end.
Proof.
  intros [SZ IT LV CP SL]. pose proof (SL 0 ltac:(lia)) as S0. rewrite mod_ring in S0 by lia. replace (sc_iter c + 0 <? n) with true in S0 by (symmetry; apply Nat.ltb_lt; lia).
  rewrite Nat.add_0_r in S0. unfold cache_get. rewrite S0. destruct q as [|x r]; [reflexivity|]. cbn [nth_error]. eexists. split; [reflexivity|]. cbn in LV, CP.
  split; cbn [sc_stock sc_iter sc_level]; [now rewrite set_slot_length|rewrite SZ; apply Nat.mod_upper_bound; lia|lia|lia|].
  intros k K. rewrite SZ. rewrite (mod_ring n (sc_iter c) 1) by lia. set (i := sc_iter c) in *.
  destruct (Nat.eq_dec (S k) n) as [E|E].
  - replace (((if i + 1 <? n then i + 1 else i + 1 - n) + k) mod n) with i.
    + rewrite set_slot_same by (rewrite SZ; exact IT). symmetry. apply nth_error_None. lia.
    + destruct (i + 1 <? n) eqn:L; [apply Nat.ltb_lt in L|apply Nat.ltb_ge in L]; rewrite mod_ring by lia; destruct (_ <? n) eqn:L2; try (apply Nat.ltb_lt in L2); try (apply Nat.ltb_ge in L2); lia.
  - specialize (SL (S k) ltac:(lia)). replace (((if i + 1 <? n then i + 1 else i + 1 - n) + k) mod n) with ((i + S k) mod n).
    + rewrite set_slot_other; [exact SL|]. rewrite mod_ring by lia. destruct (_ <? n) eqn:L2; try (apply Nat.ltb_lt in L2); try (apply Nat.ltb_ge in L2); lia.
    + destruct (i + 1 <? n) eqn:L; [apply Nat.ltb_lt in L|apply Nat.ltb_ge in L]; rewrite !mod_ring by lia;
        repeat (match goal with |- context [?a <? n] => let X := fresh in destruct (a <? n) eqn:X; [apply Nat.ltb_lt in X|apply Nat.ltb_ge in X] end); lia.
Qed.
Lemma ring_push n c q x : ring n c q -> length q < n ->
  slot (sc_stock c) ((sc_iter c + length q) mod n) = None
  /\ ring n (mkCache (set_slot (sc_stock c) ((sc_iter c + length q) mod n) (Some x)) (sc_iter c) (S (sc_level c))) (q ++ [x]).
Proof.
  intros [SZ IT LV CP SL] L. split; [rewrite SL by exact L; now apply nth_error_None|].
  split; cbn [sc_stock sc_iter sc_level]; [now rewrite set_slot_length|exact IT|rewrite app_length; cbn; lia|rewrite app_length; cbn; lia|].
  intros k K. destruct (Nat.eq_dec k (length q)) as [->|N].
  - rewrite set_slot_same by (rewrite SZ; apply Nat.mod_upper_bound; lia). rewrite nth_error_app2, Nat.sub_diag by lia. reflexivity.
  - rewrite set_slot_other.
    + rewrite SL by exact K. destruct (Nat.lt_ge_cases k (length q)) as [B|B]; [now rewrite nth_error_app1|].
      rewrite (proj2 (nth_error_None q k)) by lia. symmetry. apply nth_error_None. rewrite app_length. cbn. lia.
    + rewrite !mod_ring by lia. repeat (match goal with |- context [?a <? n] => let X := fresh in destruct (a <? n) eqn:X; [apply Nat.ltb_lt in X|apply Nat.ltb_ge in X] end); lia.
Qed.
Lemma fill_loop_ring g n todo : forall c q next, ring n c q -> length q + todo <= n ->
  exists c', fill_loop g todo ((sc_iter c + length q) mod n) next c =
    (if length (made g next todo) =? todo then (length (q ++ made g next todo) =? n, false, c', next + todo) else (false, true, c', S (next + length (made g next todo))))
  /\ ring n c' (q ++ made g next todo).
Proof.
  induction todo as [|k IH]; intros c q next R L; cbn [fill_loop made].
  - cbn. rewrite app_nil_r, Nat.add_0_r. exists c. split; [|exact R]. now rewrite (r_level _ _ _ R), (r_size _ _ _ R).
  - destruct (ring_push n c q next R ltac:(lia)) as [E R']. rewrite E. destruct (g next) eqn:G.
    + destruct (IH _ _ (S next) R') as (c' & E' & RR); [rewrite app_length; cbn; lia|]. exists c'. cbn [sc_iter sc_stock] in E'. rewrite app_length in E'. cbn [length] in E'.
      replace ((sc_iter c + (length q + 1)) mod n) with (((sc_iter c + length q) mod n + 1) mod length (sc_stock c)) in E'.
      2:{ rewrite (r_size _ _ _ R), Nat.add_mod_idemp_l by (pose proof (r_iter _ _ _ R); lia). f_equal. lia. }
      rewrite <- app_assoc in RR, E'. cbn [app] in RR, E'. split; [|exact RR]. rewrite E'. cbn [length Nat.eqb].
      destruct (length (made g (S next) k) =? k); rewrite ?Nat.add_succ_r, ?Nat.add_succ_l; reflexivity.
    + exists c. cbn. rewrite app_nil_r, Nat.add_0_r. split; [reflexivity|exact R].
Qed.
Lemma go_add_small a b : (- 2 ^ 63 <= a + b < 2 ^ 63)%Z -> go_add a b = (a + b)%Z.
Proof. intro B. unfold go_add. rewrite Z.mod_small; [lia|]. change (2 ^ 64)%Z with (2 ^ 63 + 2 ^ 63)%Z. lia. Qed.
Lemma cache_fill_ring g n c q amount next : ring n c q -> fits n (OFill amount) ->
  exists q' n' full failed c', queue_op g n (OFill amount) q next = (q', n', RFill full failed) /\ cache_fill g amount next c = (full, failed, c', n') /\ ring n c' q'.
Proof.
  intros R F. cbn [fits] in F. pose proof (r_cap _ _ _ R) as CP. unfold cache_fill. rewrite (r_level _ _ _ R), (r_size _ _ _ R). rewrite go_add_small by lia.
  set (want := Nat.min (Z.to_nat amount) (n - length q)).
  replace (Z.to_nat ((if (Z.of_nat (length q) + amount >? Z.of_nat n)%Z then Z.of_nat n else (Z.of_nat (length q) + amount)%Z) - Z.of_nat (length q))) with want.
  2:{ unfold want. rewrite Z.gtb_ltb. destruct (_ <? _)%Z eqn:X; [apply Z.ltb_lt in X|apply Z.ltb_ge in X]; lia. }
  destruct (fill_loop_ring g n want c q next R) as (c' & E & R'); [lia|]. rewrite E. unfold queue_op. fold want.
  destruct (length (made g next want) =? want); repeat eexists; eauto; apply R'.
Qed.

(** C42: any sequence of calls has the responses of a bounded queue. *)
Theorem C42_bounded_queue : forall g cacheSize ops, Forall (fits (stock_size cacheSize)) ops ->
  let '(_, next, rs) := run_cache g ops (new_cache cacheSize) 0 in
  let '(_, next', rs') := queue_run g (stock_size cacheSize) ops [] 0 in
  rs = rs' /\ next = next'.
Proof.
  intros g cacheSize ops. set (n := stock_size cacheSize). generalize (ring_new cacheSize). fold n. generalize (new_cache cacheSize) (@nil nat) 0.
  induction ops as [|o ops IH]; intros c q next R F; [cbn; auto|]. inversion F as [|? ? F1 F2]; subst. destruct o as [|amount].
  - pose proof (ring_get n c q R) as G. cbn [run_cache queue_run queue_op]. destruct q as [|x r].
    + rewrite G. specialize (IH c [] next R F2). destruct (run_cache g ops c next) as [[c2 n2] rs], (queue_run g n ops [] next) as [[q2 n2'] rs']. destruct IH as [-> ->]. auto.
    + destruct G as (c' & E & R'). rewrite E. specialize (IH c' r next R' F2). destruct (run_cache g ops c' next) as [[c2 n2] rs], (queue_run g n ops r next) as [[q2 n2'] rs']. destruct IH as [-> ->]. auto.
  - destruct (cache_fill_ring g n c q amount next R F1) as (q' & n' & full & failed & c' & E1 & E2 & R'). cbn [run_cache queue_run]. rewrite E1, E2.
    specialize (IH c' q' n' R' F2). destruct (run_cache g ops c' n') as [[c2 n2] rs], (queue_run g n ops q' n') as [[q2 n2'] rs']. destruct IH as [-> ->]. auto.
Qed.
(** Every generated signet is handed out once and in order of generation, or still in the queue. *)
Lemma made_all g next want : length (made g next want) = want -> made g next want = filter g (seq next want).
Proof.
  revert next. induction want as [|k IH]; intros next E; [reflexivity|]. cbn in *. destruct (g next); [|discriminate]. cbn in E. f_equal. apply IH. congruence.
Qed.
Lemma made_some g want : forall next, length (made g next want) <> want -> made g next want = filter g (seq next (S (length (made g next want)))).
Proof.
  induction want as [|k IH]; intros next E; [cbn in E; congruence|]. cbn [made] in *. destruct (g next) eqn:G.
  - cbn [length] in *. rewrite (IH (S next)) at 1 by congruence. change (seq next (S (S (length (made g (S next) k))))) with (next :: seq (S next) (S (length (made g (S next) k)))).
    cbn [filter]. now rewrite G.
  - cbn. now rewrite G.
Qed.
Lemma queue_run_order g cap ops : forall q next, let '(q', next', rs) := queue_run g cap ops q next in
  next <= next' /\ handed_out rs ++ q' = q ++ filter g (seq next (next' - next)).
Proof.
  induction ops as [|o ops IH]; intros q next; cbn [queue_run].
  - rewrite Nat.sub_diag. cbn. rewrite app_nil_r. auto.
  - destruct (queue_op g cap o q next) as [[q1 n1] a] eqn:E. specialize (IH q1 n1). destruct (queue_run g cap ops q1 n1) as [[q2 n2] rs]. destruct IH as [L EQ].
    assert (A : next <= n1 /\ handed_out [a] ++ q1 = q ++ filter g (seq next (n1 - next))).
    { destruct o as [|amount]; cbn [queue_op] in E.
      - destruct q as [|x r]; injection E as <- <- <-; rewrite Nat.sub_diag; cbn; rewrite ?app_nil_r; auto.
      - destruct (length _ =? _) eqn:X; injection E as <- <- <-.
        + apply Nat.eqb_eq in X. split; [lia|]. cbn [handed_out flat_map app]. f_equal. rewrite made_all at 1 by exact X. do 2 f_equal. lia.
        + apply Nat.eqb_neq in X. split; [lia|]. cbn [handed_out flat_map app]. f_equal. rewrite made_some at 1 by exact X. do 2 f_equal. lia. }
    destruct A as [A1 A2]. split; [lia|]. change (handed_out (a :: rs)) with (handed_out ([a] ++ rs)). unfold handed_out in *. rewrite flat_map_app, <- app_assoc, EQ, app_assoc, A2, <- app_assoc, <- filter_app. do 2 f_equal.
    rewrite <- (seq_app (n1 - next) (n2 - n1) next) || idtac. replace (n2 - next) with ((n1 - next) + (n2 - n1)) by lia. rewrite seq_app. do 2 f_equal. lia.
Qed.
Lemma made_le g want : forall next, length (made g next want) <= want.
Proof. induction want as [|k IH]; intro next; cbn; [lia|]. destruct (g next); cbn; [specialize (IH (S next))|]; lia. Qed.
Lemma queue_run_cap g cap ops : forall q next, length q <= cap -> length (fst (fst (queue_run g cap ops q next))) <= cap.
Proof.
  induction ops as [|o ops IH]; intros q next L; cbn [queue_run]; [exact L|].
  destruct (queue_op g cap o q next) as [[q1 n1] a] eqn:E. specialize (IH q1 n1). destruct (queue_run g cap ops q1 n1) as [[q2 n2] rs]. apply IH.
  destruct o as [|amount]; cbn [queue_op] in E.
  - destruct q; injection E as <- <- <-; cbn in *; lia.
  - pose proof (made_le g (Nat.min (Z.to_nat amount) (cap - length q)) next) as M. destruct (length _ =? _); injection E as <- <- <-; rewrite app_length; lia.
Qed.
Theorem C42_once_in_order : forall g cacheSize ops, Forall (fits (stock_size cacheSize)) ops ->
  let '(_, next, rs) := run_cache g ops (new_cache cacheSize) 0 in
  exists left, length left <= stock_size cacheSize /\ handed_out rs ++ left = filter g (seq 0 next).
Proof.
  intros g cacheSize ops F. pose proof (C42_bounded_queue g cacheSize ops F) as E. pose proof (queue_run_order g (stock_size cacheSize) ops [] 0) as O.
  pose proof (queue_run_cap g (stock_size cacheSize) ops [] 0 ltac:(cbn; lia)) as L.
  destruct (run_cache g ops (new_cache cacheSize) 0) as [[c next] rs], (queue_run g (stock_size cacheSize) ops [] 0) as [[q next'] rs'].
  destruct E as [-> ->]. exists q. split; [exact L|]. destruct O as [_ O]. rewrite Nat.sub_0_r in O. exact O.
Qed.
(** The hypothesis is needed: an amount near the largest Go int overflows and nothing is filled. *)
Theorem C42_overflow_refuted :
  let '(_, _, rs) := run_cache (fun _ => true) [OFill 1; OFill (2 ^ 63 - 1); OGet; OGet] (new_cache 3) 0 in
  rs = [RFill false false; RFill false false; RGet (Some 0); RGet None].
Proof. vm_compute. reflexivity. Qed.
Example C42_hypotheses_met :
  let ops := [OFill 2; OGet; OFill 5; OFill (-3); OGet; OGet; OGet; OGet] in
  Forall (fits (stock_size 3)) ops
  /\ snd (run_cache (fun i => negb (i =? 3)) ops (new_cache 3) 0)
     = [RFill false false; RGet (Some 0); RFill false true; RFill false false; RGet (Some 1); RGet (Some 2); RGet None; RGet None].
Proof. split; [|vm_compute; reflexivity]. repeat constructor; cbn; lia. Qed.

(** ** C43: concurrent use *)
Definition held (st : list (option nat)) : list nat := flat_map (fun o => match o with Some x => [x] | None => [] end) st.
Definition stocked (s : supply) : list nat := flat_map (fun c => held (sc_stock c)) (su_heap s).
Definition result_of (t : thread) : list nat := match t with TGot (Some x) => [x] | _ => [] end.
(** The signets that GetSignet calls returned, in order of the calls. *)
Definition returned (s : supply) : list nat := flat_map result_of (su_threads s).

Lemma held_none n : held (repeat None n) = [].
Proof. induction n; auto. Qed.
Lemma held_take st : forall i x, slot st i = Some x -> Permutation (held st) (x :: held (set_slot st i None)).
Proof.
  induction st as [|o st IH]; intros i x E; [destruct i; discriminate E|]. destruct i as [|i]; cbn in E |- *.
  - subst o. reflexivity.
  - specialize (IH i x E). destruct o as [y|]; cbn; [|exact IH]. rewrite IH. apply perm_swap.
Qed.
Lemma held_put st : forall i x, slot st i = None -> Permutation (held (set_slot st i (Some x))) ((if i <? length st then [x] else []) ++ held st).
Proof.
  induction st as [|o st IH]; intros i x E; [reflexivity|]. destruct i as [|i]; cbn in E |- *.
  - subst o. reflexivity.
  - specialize (IH i x E). change (S i <? S (length st)) with (i <? length st). destruct o as [y|]; cbn; [|exact IH]. rewrite IH. apply Permutation_middle.
Qed.
Lemma fill_loop_new g todo : forall i next c full failed c' next', fill_loop g todo i next c = (full, failed, c', next') ->
  exists new, Permutation (held (sc_stock c')) (new ++ held (sc_stock c)) /\ NoDup new /\ Forall (fun x => next <= x < next') new /\ next <= next'.
Proof.
  induction todo as [|k IH]; intros i next c full failed c' next' E; cbn [fill_loop] in E.
  - injection E as <- <- <- <-. exists []. repeat split; auto; try constructor.
  - destruct (slot (sc_stock c) i) eqn:S; [injection E as <- <- <- <-; exists []; repeat split; auto; constructor|].
    destruct (g next).
    + apply IH in E. destruct E as (new & P & ND & F & L). cbn [sc_stock] in P. rewrite (held_put _ _ _ S) in P. rewrite app_assoc in P.
      exists (new ++ (if i <? length (sc_stock c) then [next] else [])). split; [exact P|]. destruct (i <? _).
      * repeat split; [|apply Forall_app; split; [|repeat constructor; lia]|lia].
        -- apply (Permutation_NoDup (Permutation_cons_append new next)). constructor; [|exact ND]. intro I. rewrite Forall_forall in F. apply F in I. lia.
        -- eapply Forall_impl; [|exact F]. cbn. intros. lia.
      * rewrite app_nil_r. repeat split; [exact ND| |lia]. eapply Forall_impl; [|exact F]. cbn. intros. lia.
    + injection E as <- <- <- <-. exists []. repeat split; auto; constructor.
Qed.
Lemma heap_split (h : list cache) i c : nth_error h i = Some c -> exists a b, h = a ++ c :: b /\ forall c', set_cache h i c' = a ++ c' :: b.
Proof.
  revert i. induction h as [|x h IH]; intros i E; [destruct i; discriminate E|]. destruct i as [|i]; cbn in E.
  - injection E as ->. exists [], h. auto.
  - destruct (IH i E) as (a & b & -> & S). exists (x :: a), b. split; [reflexivity|]. intro c'. cbn. now rewrite S.
Qed.
Lemma Permutation_mid {A} (a x y b : list A) : Permutation x y -> Permutation (a ++ x ++ b) (a ++ y ++ b).
Proof. intro P. apply Permutation_app_head. now apply Permutation_app_tail. Qed.

Lemma NoDup_left {A} (a b : list A) : NoDup (a ++ b) -> NoDup a.
Proof. induction a as [|x a IH]; intro N; [constructor|]. inversion N as [|? ? NI N']; subst. constructor; [|auto]. intro I. apply NI. rewrite in_app_iff. auto. Qed.

Section C43.
Variables (cacheSize : Z) (known : bytes -> bool).
Definition once (s : supply) : Prop := NoDup (returned s ++ stocked s) /\ Forall (fun x => x < su_next s) (returned s ++ stocked s).
Lemma once_perm s s' : Permutation (returned s ++ stocked s) (returned s' ++ stocked s') -> su_next s = su_next s' -> once s -> once s'.
Proof.
  intros P N [ND F]. split; [eapply Permutation_NoDup; eassumption|]. rewrite <- N. eapply Permutation_Forall; eassumption.
Qed.
Lemma once_new s s' new : Permutation (new ++ returned s ++ stocked s) (returned s' ++ stocked s') ->
  NoDup new -> Forall (fun x => su_next s <= x < su_next s') new -> su_next s <= su_next s' -> once s -> once s'.
Proof.
  intros P NN NF L [ND F]. split.
  - apply (Permutation_NoDup P). clear P. induction new as [|x new IH]; [exact ND|]. inversion NN; subst. inversion NF; subst. cbn. constructor; [|auto].
    rewrite in_app_iff. intros [I|I]; [auto|]. rewrite Forall_forall in F. apply F in I. lia.
  - apply (Permutation_Forall P). apply Forall_app. split; [eapply Forall_impl; [|exact NF]|eapply Forall_impl; [|exact F]]; cbn; intros; lia.
Qed.
Lemma returned_mid s a t b : su_threads s = a ++ t :: b -> returned s = flat_map result_of a ++ result_of t ++ flat_map result_of b.
Proof. intro E. unfold returned. rewrite E. now rewrite flat_map_app. Qed.
Lemma step_once s s' : step cacheSize known s s' -> once s -> once s'.
Proof.
  intros T O. destruct T as [s t H|s a k b cid H F|s a k b H F K|s a k b H F K|s a k b H R|s a k cid b c H F|s a k b ok H|s a n b todo H P|s a n cid todo b c g H F|s a n b H].
  - revert O. apply once_perm; [|reflexivity]. unfold returned, stocked. cbn. rewrite flat_map_app. destruct H as [[k ->]|[k ->]]; cbn; now rewrite app_nil_r.
  - revert O. apply once_perm; [|reflexivity]. rewrite (returned_mid _ _ _ _ H). unfold returned, stocked. cbn. now rewrite flat_map_app.
  - revert O. apply once_perm; [|reflexivity]. rewrite (returned_mid _ _ _ _ H). unfold returned, stocked. cbn. now rewrite flat_map_app.
  - revert O. apply once_perm; [|reflexivity]. rewrite (returned_mid _ _ _ _ H). unfold returned, stocked. cbn. now rewrite flat_map_app.
  - revert O. apply once_perm; [|reflexivity]. rewrite (returned_mid _ _ _ _ H). unfold returned, stocked. cbn [su_threads su_heap]. rewrite !flat_map_app. cbn [flat_map result_of new_cache sc_stock].
    rewrite held_none. cbn [app]. rewrite ?app_nil_r. reflexivity.
  - revert O. apply once_perm; [|reflexivity]. destruct (heap_split _ _ _ F) as (h1 & h2 & EH & ES). rewrite (returned_mid _ _ _ _ H). unfold returned, stocked. cbn [su_threads su_heap].
    rewrite ES, EH, !flat_map_app. cbn [flat_map result_of]. unfold cache_get. destruct (slot (sc_stock c) (sc_iter c)) as [x|] eqn:S; cbn [fst snd sc_stock result_of app]; [|reflexivity].
    rewrite (held_take _ _ _ S). cbn [app]. rewrite <- !app_assoc. apply Permutation_app_head. cbn [app].
    rewrite !app_assoc. rewrite <- Permutation_middle. rewrite <- !app_assoc. reflexivity.
  - destruct ok.
    + apply (once_new s _ [su_next s]); [|repeat constructor; intros []|repeat constructor; cbn; lia|cbn; lia|exact O].
      rewrite (returned_mid _ _ _ _ H). unfold returned, stocked. cbn. rewrite flat_map_app. cbn. rewrite <- !app_assoc. cbn. apply Permutation_middle.
    + apply (once_new s _ []); [|constructor|constructor|cbn; lia|exact O]. rewrite (returned_mid _ _ _ _ H). unfold returned, stocked. cbn. now rewrite flat_map_app.
  - revert O. apply once_perm; [|reflexivity]. rewrite (returned_mid _ _ _ _ H). unfold returned, stocked. cbn. now rewrite flat_map_app.
  - destruct (cache_fill g n (su_next s) c) as [[[full failed] c'] next'] eqn:E. pose proof (fill_loop_new _ _ _ _ _ _ _ _ _ E) as (new & PN & ND & FN & L).
    apply (once_new s _ new); [|exact ND|exact FN|exact L|exact O]. destruct (heap_split _ _ _ F) as (h1 & h2 & EH & ES).
    rewrite (returned_mid _ _ _ _ H). unfold returned, stocked. cbn [su_threads su_heap]. rewrite ES, EH, !flat_map_app. cbn [flat_map result_of app]. rewrite PN.
    rewrite <- !app_assoc. rewrite Permutation_app_comm. rewrite <- !app_assoc. do 2 apply Permutation_app_head.
    rewrite !app_assoc. apply Permutation_app_comm with (l' := new) || idtac. rewrite (Permutation_app_comm _ new). rewrite <- !app_assoc.
    rewrite (app_assoc new), (Permutation_app_comm new), <- app_assoc. reflexivity.
  - revert O. apply once_perm; [|reflexivity]. rewrite (returned_mid _ _ _ _ H). unfold returned, stocked. cbn. now rewrite flat_map_app.
Qed.
Lemma reachable_once s : reachable cacheSize known s -> once s.
Proof. induction 1 as [|s s' R IH T]; [split; constructor|]. eapply step_once; eassumption. Qed.
(** C43: no two GetSignet calls return the same signet; and none still stocked has been returned. *)
Theorem C43_no_double : forall s, reachable cacheSize known s -> NoDup (returned s) /\ forall x, In x (returned s) -> ~ In x (stocked s).
Proof.
  intros s R. apply reachable_once in R. destruct R as [ND _]. split; [now apply NoDup_left in ND|].
  intros x I J. apply in_split in I. destruct I as (a & b & E). rewrite E, <- app_assoc in ND. cbn in ND. apply NoDup_remove_2 in ND. apply ND. rewrite !in_app_iff. auto.
Qed.

(** ** Deadlock freedom (C51) *)
Definition finished (t : thread) : bool := match t with TGot _ | TFilled => true | _ => false end.
(** A step of a call already made. *)
Definition internal (s s' : supply) : Prop := step cacheSize known s s' /\ length (su_threads s') = length (su_threads s).
Definition filling (t : thread) : nat := match t with TFilling _ _ => 1 | _ => 0 end.
Definition tsum (f : thread -> nat) (l : list thread) : nat := fold_right Nat.add 0 (map f l).
Lemma tsum_mid f a t b : tsum f (a ++ t :: b) = tsum f a + f t + tsum f b.
Proof. unfold tsum. induction a as [|x a IH]; cbn in *; lia. Qed.
Definition cids (t : thread) : list nat := match t with THave _ c => [c] | TFilling _ l => l | _ => [] end.
Record sane (s : supply) : Prop := {
  sa_readers : su_readers s = tsum filling (su_threads s);
  sa_index : Forall (fun kv => snd kv < length (su_heap s)) (su_caches s);
  sa_cids : Forall (fun t => Forall (fun i => i < length (su_heap s)) (cids t)) (su_threads s) }.
Lemma set_cache_length h i c : length (set_cache h i c) = length h.
Proof. revert i. induction h as [|x h IH]; intro i; [reflexivity|]. destruct i; cbn; auto. Qed.
Lemma find_cache_index k l v (P : nat -> Prop) : Forall (fun kv => P (snd kv)) l -> find_cache k l = Some v -> P v.
Proof.
  induction 1 as [|[k' v'] l H F IH]; cbn; [discriminate|]. destruct (bytes_eqb k' k); [injection 1 as <-; exact H|exact IH].
Qed.
Lemma index_cache_all k v l (P : nat -> Prop) : P v -> Forall (fun kv => P (snd kv)) l -> Forall (fun kv => P (snd kv)) (index_cache k v l).
Proof.
  intros Pv. induction 1 as [|[k' v'] l H F IH]; cbn; [repeat constructor; exact Pv|]. destruct (bytes_eqb k' k); constructor; auto.
Qed.
Lemma index_cache_length k v l : length (index_cache k v l) <= S (length l).
Proof. induction l as [|[k' v'] l IH]; cbn; [lia|]. destruct (bytes_eqb k' k); cbn; lia. Qed.
Lemma Forall_mid {A} (P : A -> Prop) a x b : Forall P (a ++ x :: b) <-> Forall P a /\ P x /\ Forall P b.
Proof. rewrite Forall_app, Forall_cons_iff. tauto. Qed.
Lemma step_sane s s' : step cacheSize known s s' -> sane s -> sane s'.
Proof.
  intros T [SR SI SC]. destruct T as [s t H|s a k b cid H F|s a k b H F K|s a k b H F K|s a k b H R|s a k cid b c H F|s a k b ok H|s a n b todo H P|s a n cid todo b c g H F|s a n b H];
    try (rewrite H in SR, SC; rewrite tsum_mid in SR; cbn [filling] in SR; apply Forall_mid in SC; destruct SC as (SA & ST & SB); cbn [cids] in ST).
  - split; cbn [su_readers su_threads su_heap su_caches]; [|exact SI|].
    + unfold tsum in *. rewrite SR. change (fold_right Nat.add 0 (map filling (su_threads s))) with (tsum filling (su_threads s)). change (tsum filling (su_threads s) = tsum filling (su_threads s ++ t :: nil)). rewrite tsum_mid. destruct H as [[k ->]|[k ->]]; cbn; lia.
    + apply Forall_app. split; [exact SC|]. destruct H as [[k ->]|[k ->]]; repeat constructor.
  - split; cbn [su_readers su_threads su_heap su_caches]; [rewrite tsum_mid; cbn [filling]; lia|exact SI|]. apply Forall_mid. repeat split; auto. repeat constructor. exact (find_cache_index k _ cid (fun i => i < _) SI F).
  - split; cbn [su_readers su_threads su_heap su_caches]; [rewrite tsum_mid; cbn [filling]; lia|exact SI|]. apply Forall_mid. repeat split; auto.
  - split; cbn [su_readers su_threads su_heap su_caches]; [rewrite tsum_mid; cbn [filling]; lia|exact SI|]. apply Forall_mid. repeat split; auto.
  - assert (W : forall i, i < length (su_heap s) -> i < length (su_heap s ++ [new_cache cacheSize])) by (intros i I; rewrite app_length; lia).
    assert (WT : forall l, Forall (fun t => Forall (fun i => i < length (su_heap s)) (cids t)) l -> Forall (fun t => Forall (fun i => i < length (su_heap s ++ [new_cache cacheSize])) (cids t)) l).
    { intros l Hl. eapply Forall_impl; [|exact Hl]. intros t Ht. eapply Forall_impl; [|exact Ht]. exact W. }
    split; cbn [su_readers su_threads su_heap su_caches].
    + rewrite tsum_mid. cbn [filling]. lia.
    + apply (index_cache_all _ _ _ (fun i => i < length (su_heap s ++ [new_cache cacheSize]))); [rewrite app_length; cbn; lia|]. eapply Forall_impl; [|exact SI]. intros kv I. now apply W.
    + apply Forall_mid. repeat split; [now apply WT| |now apply WT]. repeat constructor. rewrite app_length. cbn. lia.
  - split; cbn [su_readers su_threads su_heap su_caches]; rewrite ?set_cache_length; [rewrite tsum_mid; destruct (fst (cache_get c)); cbn [filling]; lia|exact SI|]. apply Forall_mid. repeat split; auto. destruct (fst (cache_get c)); constructor.
  - split; cbn [su_readers su_threads su_heap su_caches]; [rewrite tsum_mid; cbn [filling]; lia|exact SI|]. apply Forall_mid. repeat split; auto.
  - split; cbn [su_readers su_threads su_heap su_caches]; [rewrite tsum_mid; cbn [filling]; lia|exact SI|]. apply Forall_mid. repeat split; auto. cbn [cids].
    eapply Permutation_Forall; [symmetry; exact P|]. rewrite Forall_map. exact SI.
  - destruct (cache_fill g n (su_next s) c) as [[[full failed] c'] next']. inversion ST; subst.
    split; cbn [su_readers su_threads su_heap su_caches]; rewrite ?set_cache_length; [rewrite tsum_mid; cbn [filling]; lia|exact SI|]. apply Forall_mid. repeat split; auto.
  - split; cbn [su_readers su_threads su_heap su_caches]; [rewrite tsum_mid; cbn [filling]; lia|exact SI|]. apply Forall_mid. repeat split; auto.
Qed.
Lemma reachable_sane s : reachable cacheSize known s -> sane s.
Proof. induction 1 as [|s s' R IH T]; [split; cbn; constructor|]. eapply step_sane; eassumption. Qed.

(** As long as a call has not returned, some call can go on ... *)
Lemma unfinished_split (l : list thread) (p : thread -> bool) : existsb p l = true -> exists a t b, l = a ++ t :: b /\ p t = true.
Proof. intro E. apply existsb_exists in E. destruct E as (t & I & Pt). apply in_split in I. destruct I as (a & b & ->). eauto. Qed.
Lemma internal_mid s a t t' b s' : su_threads s = a ++ t :: b -> su_threads s' = a ++ t' :: b -> step cacheSize known s s' -> internal s s'.
Proof. intros E E' T. split; [exact T|]. rewrite E, E', !app_length. reflexivity. Qed.
Lemma filling_steps s a n todo b : sane s -> su_threads s = a ++ TFilling n todo :: b -> exists s', internal s s'.
Proof.
  intros [_ _ SC] E. destruct todo as [|cid todo].
  - eexists. eapply (internal_mid s a _ _ b); [exact E| |apply (step_filled cacheSize known s a n b E)]. reflexivity.
  - rewrite E in SC. apply Forall_mid in SC. destruct SC as (_ & SC & _). cbn in SC. inversion SC as [|? ? L _]; subst.
    destruct (nth_error (su_heap s) cid) as [c|] eqn:N; [|apply nth_error_None in N; lia].
    pose proof (step_fill1 cacheSize known s a n cid todo b c (fun _ => true) E N) as T. destruct (cache_fill _ _ _ _) as [[[full failed] c'] next'].
    eexists. eapply (internal_mid s a _ _ b); [exact E| |exact T]. reflexivity.
Qed.
Theorem C51_never_stuck : forall s, reachable cacheSize known s ->
  existsb (fun t => negb (finished t)) (su_threads s) = true -> exists s', internal s s'.
Proof.
  intros s R U. pose proof (reachable_sane s R) as SA. pose proof SA as [SR SI SC]. destruct (unfinished_split _ _ U) as (a & t & b & E & NF). destruct t as [k|k|k cid|k|r|n|n todo|]; try discriminate NF.
  - destruct (find_cache k (su_caches s)) as [cid|] eqn:F.
    + eexists. eapply (internal_mid s a _ _ b); [exact E| |apply (step_found cacheSize known s a k b cid E F)]. reflexivity.
    + destruct (known k) eqn:K; eexists; (eapply (internal_mid s a _ _ b); [exact E| |first [apply (step_miss cacheSize known s a k b E F K)|apply (step_unknown cacheSize known s a k b E F K)]]); reflexivity.
  - destruct (existsb (fun t => filling t =? 1) (su_threads s)) eqn:X.
    + destruct (unfinished_split _ _ X) as (a' & t & b' & E' & FL). destruct t; try discriminate FL. eapply filling_steps; eassumption.
    + assert (Z0 : tsum filling (su_threads s) = 0).
      { clear - X. induction (su_threads s) as [|t l IH]; [reflexivity|]. cbn in X. apply orb_false_iff in X. destruct X as [X1 X2]. unfold tsum in *. cbn. rewrite (IH X2). destruct t; try reflexivity. discriminate X1. }
      eexists. eapply (internal_mid s a _ _ b); [exact E| |apply (step_save cacheSize known s a k b E)]; [reflexivity|lia].
  - rewrite E in SC. apply Forall_mid in SC. destruct SC as (_ & SC & _). cbn in SC. inversion SC as [|? ? L _]; subst.
    destruct (nth_error (su_heap s) cid) as [c|] eqn:N; [|apply nth_error_None in N; lia].
    eexists. eapply (internal_mid s a _ _ b); [exact E| |apply (step_get cacheSize known s a k cid b c E N)]. reflexivity.
  - eexists. eapply (internal_mid s a _ _ b); [exact E| |apply (step_make cacheSize known s a k b true E)]. reflexivity.
  - eexists. eapply (internal_mid s a _ _ b); [exact E| |apply (step_fill cacheSize known s a n b _ E (Permutation_refl _))]. reflexivity.
  - eapply filling_steps; eassumption.
Qed.
(** ... and without new calls they all return: no infinite sequence of steps. *)
Definition opening (t : thread) : nat := match t with TGet _ | TMiss _ => 1 | _ => 0 end.
Definition potential (s : supply) : nat := length (su_caches s) + tsum opening (su_threads s).
Definition work (C : nat) (t : thread) : nat :=
  match t with TGet _ => 4 | TMiss _ => 3 | THave _ _ => 2 | TEmpty _ => 1 | TFill _ => C + 3 | TFilling _ l => length l + 1 | TGot _ | TFilled => 0 end.
Definition remaining (s : supply) : nat := tsum (work (potential s)) (su_threads s).
Lemma work_mono C C' l : C <= C' -> tsum (work C) l <= tsum (work C') l.
Proof. intro L. unfold tsum. induction l as [|t l IH]; [reflexivity|]. cbn. enough (work C t <= work C' t) by lia. destruct t; cbn; lia. Qed.
Lemma remaining_mid s s' a t t' b : su_threads s = a ++ t :: b -> su_threads s' = a ++ t' :: b ->
  potential s' <= potential s -> work (potential s') t' < work (potential s) t -> remaining s' < remaining s.
Proof.
  intros E E' P W. unfold remaining. rewrite E, E', !tsum_mid. pose proof (work_mono _ _ a P). pose proof (work_mono _ _ b P). lia.
Qed.
Lemma internal_remaining s s' : internal s s' -> remaining s' < remaining s.
Proof.
  intros [T L]. destruct T as [s t H|s a k b cid H F|s a k b H F K|s a k b H F K|s a k b H R|s a k cid b c H F|s a k b ok H|s a n b todo H P|s a n cid todo b c g H F|s a n b H].
  - cbn in L. rewrite app_length in L. cbn in L. lia.
  - eapply (remaining_mid s _ a _ _ b H); [reflexivity| |cbn; lia]. unfold potential. rewrite H. cbn [su_caches su_threads]. rewrite !tsum_mid. cbn. lia.
  - eapply (remaining_mid s _ a _ _ b H); [reflexivity| |cbn; lia]. unfold potential. rewrite H. cbn [su_caches su_threads]. rewrite !tsum_mid. cbn. lia.
  - eapply (remaining_mid s _ a _ _ b H); [reflexivity| |cbn; lia]. unfold potential. rewrite H. cbn [su_caches su_threads]. rewrite !tsum_mid. cbn. lia.
  - eapply (remaining_mid s _ a _ _ b H); [reflexivity| |cbn; lia]. unfold potential. rewrite H. cbn [su_caches su_threads]. rewrite !tsum_mid. cbn. pose proof (index_cache_length k (length (su_heap s)) (su_caches s)). lia.
  - eapply (remaining_mid s _ a _ _ b H); [reflexivity| |destruct (fst (cache_get c)); cbn; lia]. unfold potential. rewrite H. cbn [su_caches su_threads]. rewrite !tsum_mid. destruct (fst (cache_get c)); cbn; lia.
  - eapply (remaining_mid s _ a _ _ b H); [reflexivity| |cbn; lia]. unfold potential. rewrite H. cbn [su_caches su_threads]. rewrite !tsum_mid. cbn. lia.
  - eapply (remaining_mid s _ a _ _ b H); [reflexivity| |]; unfold potential.
    + rewrite H. cbn [su_caches su_threads]. rewrite !tsum_mid. cbn. lia.
    + cbn. rewrite (Permutation_length P), map_length. lia.
  - destruct (cache_fill g n (su_next s) c) as [[[full failed] c'] next']. eapply (remaining_mid s _ a _ _ b H); [reflexivity| |cbn; lia]. unfold potential. rewrite H. cbn [su_caches su_threads]. rewrite !tsum_mid. cbn. lia.
  - eapply (remaining_mid s _ a _ _ b H); [reflexivity| |cbn; lia]. unfold potential. rewrite H. cbn [su_caches su_threads]. rewrite !tsum_mid. cbn. lia.
Qed.
Theorem C51_all_return : forall s, Acc (fun s2 s1 => internal s1 s2) s.
Proof.
  intro s. assert (G : forall m s, remaining s < m -> Acc (fun s2 s1 => internal s1 s2) s); [|exact (G _ s (Nat.lt_succ_diag_r _))].
  induction m as [|m IH]; intros x L; [lia|]. constructor. intros y I. apply IH. apply internal_remaining in I. lia.
Qed.
End C43.

(** ** Concurrent first calls lose signets *)
Inductive steps (cs : Z) (kn : bytes -> bool) : supply -> supply -> Prop :=
| steps_refl s : steps cs kn s s
| steps_one s s1 s2 : step cs kn s s1 -> steps cs kn s1 s2 -> steps cs kn s s2.
Lemma steps_reachable cs kn s s' : steps cs kn s s' -> reachable cs kn s -> reachable cs kn s'.
Proof. induction 1; [auto|]. intro R. apply IHsteps. eapply reach_step; eassumption. Qed.
Definition sch : bytes := lit "ECDH-X25519".
(** Two first calls for a scheme; the cache the first call saves is filled before the second call replaces it:
    its signets (numbers 1 and 2) are in no cache that a later call can find, and nobody has got them. *)
Definition orphaned (s : supply) (x : nat) : Prop :=
  In x (stocked s) /\ ~ In x (returned s) /\ forallb finished (su_threads s) = true
  /\ forall k cid c, find_cache k (su_caches s) = Some cid -> nth_error (su_heap s) cid = Some c -> ~ In x (held (sc_stock c)).
Definition at_end : supply :=
  mkSupply [(sch, 1)] [mkCache [Some 1; Some 2] 0 2; mkCache [None; None] 0 0] 4 0 [TGot (Some 0); TGot (Some 3); TFilled].
Lemma reach_end : reachable 2 (fun _ => true) at_end.
Proof.
  set (kn := fun _ : bytes => true).
  pose proof (reach_start 2 kn) as R. unfold empty_supply in R.
  eapply reach_step in R; [|apply (step_call 2 kn _ (TGet sch)); left; eauto]. cbn in R.
  eapply reach_step in R; [|apply (step_call 2 kn _ (TGet sch)); left; eauto]. cbn in R.
  eapply reach_step in R; [|apply (step_call 2 kn _ (TFill 2)); right; eauto]. cbn in R.
  eapply reach_step in R; [|apply (step_miss 2 kn _ [] sch [TGet sch; TFill 2]); reflexivity]. cbn in R.
  eapply reach_step in R; [|apply (step_miss 2 kn _ [TMiss sch] sch [TFill 2]); reflexivity]. cbn in R.
  eapply reach_step in R; [|apply (step_save 2 kn _ [] sch [TMiss sch; TFill 2]); reflexivity]. cbn in R.
  eapply reach_step in R; [|apply (step_get 2 kn _ [] sch 0 [TMiss sch; TFill 2] (new_cache 2)); reflexivity]. cbn in R.
  eapply reach_step in R; [|apply (step_make 2 kn _ [] sch [TMiss sch; TFill 2] true); reflexivity]. cbn in R.
  eapply reach_step in R; [|apply (step_fill 2 kn _ [TGot (Some 0); TMiss sch] 2%Z [] [0]); reflexivity]. cbn in R.
  eapply reach_step in R; [|apply (step_fill1 2 kn _ [TGot (Some 0); TMiss sch] 2%Z 0 [] [] (new_cache 2) (fun _ => true)); reflexivity]. vm_compute in R.
  eapply reach_step in R; [|apply (step_filled 2 kn _ [TGot (Some 0); TMiss sch] 2%Z []); reflexivity]. cbn in R.
  eapply reach_step in R; [|apply (step_save 2 kn _ [TGot (Some 0)] sch [TFilled]); reflexivity]. cbn in R.
  eapply reach_step in R; [|apply (step_get 2 kn _ [TGot (Some 0)] sch 1 [TFilled] (new_cache 2)); reflexivity]. cbn in R.
  eapply reach_step in R; [|apply (step_make 2 kn _ [TGot (Some 0)] sch [TFilled] true); reflexivity]. exact R.
Qed.
Theorem C43_orphan_refuted : exists cacheSize known s, reachable cacheSize known s /\ orphaned s 1 /\ orphaned s 2.
Proof.
  exists 2%Z, (fun _ => true), at_end. split; [exact reach_end|].
  assert (L : forall k cid c, find_cache k (su_caches at_end) = Some cid -> nth_error (su_heap at_end) cid = Some c -> held (sc_stock c) = []).
  { intros k cid c F N. unfold at_end, find_cache, su_caches in F. destruct (bytes_eqb sch k); [|discriminate F]. injection F as <-. cbn in N. injection N as <-. reflexivity. }
  split; (split; [vm_compute; auto|split; [cbn; intros [X|[X|[]]]; discriminate X|split; [reflexivity|]]]);
    intros k cid c F N; rewrite (L k cid c F N); intros [].
Qed.
Example C43_hypotheses_met : exists s, reachable 2 (fun _ => true) s /\ length (returned s) = 2 /\ length (stocked s) = 2.
Proof. exists at_end. split; [exact reach_end|]. vm_compute. auto. Qed.
(** A reachable state in which three calls have not returned. *)
Example C51_hypotheses_met : exists s, reachable 2 (fun _ => true) s /\ existsb (fun t => negb (finished t)) (su_threads s) = true /\ length (su_threads s) = 3.
Proof.
  set (kn := fun _ : bytes => true). pose proof (reach_start 2 kn) as R. unfold empty_supply in R.
  eapply reach_step in R; [|apply (step_call 2 kn _ (TGet sch)); left; eauto]. cbn in R.
  eapply reach_step in R; [|apply (step_call 2 kn _ (TGet sch)); left; eauto]. cbn in R.
  eapply reach_step in R; [|apply (step_call 2 kn _ (TFill 2)); right; eauto]. cbn in R. eexists. split; [exact R|]. auto.
Qed.
