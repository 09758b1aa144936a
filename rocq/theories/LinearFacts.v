(** Objects guarded by one mutex are linearizable (for C73). *)
From Verif Require Import Prelude Mutex SpecLinear.

Section Facts.
Context {Sh Op Re : Type}.
Variable code : Op -> method Sh Re.

(** A method by itself. *)
Fixpoint exec (b : body Sh Re) (s : Sh) : Re * Sh := match b with Return r => (r, s) | Access u k => exec (k s) (u s) end.
Definition alone (o : Op) (s : Sh) : Re * Sh := match code o with Early r => (r, s) | Locked b => exec b s end.
Definition alone_rel (o : Op) (s : Sh) (r : Re) (s' : Sh) : Prop := alone o s = (r, s').

Lemma one_by_one_app s l s1 n o r s2 : one_by_one alone_rel s l s1 -> alone_rel o s1 r s2 -> one_by_one alone_rel s (l ++ [(n, o, r)]) s2.
Proof. induction 1; intro H1; cbn; [econstructor; [exact H1|constructor]|econstructor; [eassumption|auto]]. Qed.

Lemma before_snoc {A} (a b z : A) l : before a b (l ++ [z]) <-> before a b l \/ (b = z /\ In a l).
Proof.
  split.
  - intros (l1 & l2 & l3 & E). destruct l3 as [|x l3] using rev_ind.
    + right. replace (l1 ++ a :: l2 ++ [b]) with ((l1 ++ a :: l2) ++ [b]) in E by now rewrite <- app_assoc. apply app_inj_tail in E as [-> ->]. split; [reflexivity|]. apply in_or_app. right. now left.
    + clear IHl3. left. replace (l1 ++ a :: l2 ++ b :: l3 ++ [x]) with ((l1 ++ a :: l2 ++ b :: l3) ++ [x]) in E by (rewrite <- app_assoc; cbn; now rewrite <- app_assoc). apply app_inj_tail in E as [-> ->]. now exists l1, l2, l3.
  - intros [(l1 & l2 & l3 & ->)|[-> I]].
    + exists l1, l2, (l3 ++ [z]). rewrite <- app_assoc. cbn. now rewrite <- app_assoc.
    + apply in_split in I as (l1 & l2 & ->). exists l1, l2, []. rewrite <- app_assoc. reflexivity.
Qed.
Lemma before_in {A} (a b : A) l : before a b l -> In a l /\ In b l.
Proof. intros (l1 & l2 & l3 & ->). split; rewrite in_app_iff; right; cbn; [now left|right; rewrite in_app_iff; right; now left]. Qed.

Notation ids l := (map (fun x : nat * Op * Re => fst (fst x)) l).
Variables (L : nat) (lock_of : nat -> nat).
Hypothesis one_lock : forall t, lock_of t = L.

Definition active (st : status Sh Op Re) : option (nat * Op) :=
  match st with Idle => None | Called n o | Inside n o _ | Left n o _ => Some (n, o) end.
Record good (s0 : Sh) (y : sys Sh Op Re) (lin : list (nat * Op * Re)) (sN : Sh) : Prop := {
  g_hold : forall t, locks y L = Some t <-> exists n o b, threads y t = Inside n o b;
  g_seq : one_by_one alone_rel s0 lin sN;
  g_free : locks y L = None -> shared y = sN;
  g_in : forall t n o b, threads y t = Inside n o b -> exec b (shared y) = alone o sN;
  g_nodup : NoDup (ids lin);
  g_inv : forall n o r, In (n, o, r) lin -> exists t, In (Inv n t o) (past y);
  g_pos : forall n t o, In (Inv n t o) (past y) -> nth_error (past y) n = Some (Inv n t o);
  g_act : forall t n o, active (threads y t) = Some (n, o) -> In (Inv n t o) (past y);
  g_wait : forall t n o, (threads y t = Called n o \/ exists b, threads y t = Inside n o b) -> ~ In n (ids lin);
  g_left : forall t n o r, threads y t = Left n o r -> In (n, o, r) lin;
  g_res : forall n t r, In (Res n t r) (past y) -> exists o, In (n, o, r) lin /\ In (Inv n t o) (past y);
  g_rt : forall a b t t' r o, before (Res a t r) (Inv b t' o) (past y) -> In b (ids lin) -> before a b (ids lin) }.

Lemma upd_same {A} (f : nat -> A) k v : upd f k v k = v.
Proof. unfold upd. now rewrite Nat.eqb_refl. Qed.
Lemma upd_other {A} (f : nat -> A) k v x : x <> k -> upd f k v x = f x.
Proof. intro N. unfold upd. apply Nat.eqb_neq in N. now rewrite N. Qed.
Lemma same_id y n t o t' o' : (forall n t o, In (Inv n t o) (past y) -> nth_error (past y) n = Some (Inv n t o)) ->
  In (Inv n t o) (past y) -> In (@Inv Op Re n t' o') (@past Sh Op Re y) -> t = t' /\ o = o'.
Proof using. clear one_lock. intros P A B. apply P in A, B. rewrite A in B. now injection B. Qed.
Lemma in_ids (lin : list (nat * Op * Re)) n o r : In (n, o, r) lin -> In n (ids lin).
Proof. intro I. apply in_map_iff. now exists (n, o, r). Qed.
Lemma ids_in (lin : list (nat * Op * Re)) n : In n (ids lin) -> exists o r, In (n, o, r) lin.
Proof. intro I. apply in_map_iff in I as (((n' & o) & r) & E & I). cbn in E. subst. eauto. Qed.
Lemma nodup_snoc {A} (l : list A) a : NoDup l -> ~ In a l -> NoDup (l ++ [a]).
Proof.
  intros N I. induction N as [|x l X N IH]; cbn; [constructor; [easy|constructor]|]. constructor.
  - rewrite in_app_iff. intros [?|[<-|[]]]; [now apply X|]. apply I. now left.
  - apply IH. intro. apply I. now right.
Qed.

Ltac case_t t t' := destruct (Nat.eq_dec t' t) as [->|?]; [rewrite ?upd_same in *|rewrite ?upd_other in * by assumption].

Lemma good_start s0 : good s0 (sys_start s0) [] s0.
Proof using.
  clear one_lock.
  constructor; cbn.
  - intro t. split; [discriminate|intros (? & ? & ? & ?); discriminate].
  - constructor.
  - reflexivity.
  - discriminate.
  - constructor.
  - easy.
  - easy.
  - discriminate.
  - intros t n o [H|[b H]]; discriminate.
  - discriminate.
  - easy.
  - easy.
Qed.

Lemma good_step s0 y lin sN y' : good s0 y lin sN -> step code lock_of y y' -> exists lin' sN', good s0 y' lin' sN'.
Proof using one_lock.
  intros G ST. destruct G as [HO SQ FR IN ND IV PO AC WA LE RE RT]. destruct ST as [y t o TI|y t n o r TC CE|y t n o b TC CE LK|y t n o change next TI|y t n o r TI|y t n o r TL].
  - (* a call *)
    exists lin, sN.
    assert (FRESH : forall t' o', ~ In (Inv (length (past y)) t' o') (past y)).
    { intros t' o' I. apply PO in I. assert (X : nth_error (past y) (length (past y)) <> None) by (rewrite I; discriminate). apply nth_error_Some in X. lia. }
    constructor; cbn [shared threads locks past].
    + intro t'. rewrite HO. case_t t t'; [|reflexivity]. rewrite TI. split; intros (? & ? & ? & ?); discriminate.
    + exact SQ.
    + exact FR.
    + intros t' n' o' b'. case_t t t'; [discriminate|]. apply IN.
    + exact ND.
    + intros n' o' r' I. apply IV in I as [t' I]. exists t'. apply in_or_app. now left.
    + intros n' t' o' I. apply in_app_or in I as [I|[I|[]]].
      * apply PO in I. rewrite nth_error_app1; [exact I|]. apply nth_error_Some. rewrite I. discriminate.
      * injection I as <- <- <-. rewrite nth_error_app2 by lia. now rewrite Nat.sub_diag.
    + intros t' n' o'. case_t t t'; intro A; apply in_or_app; [injection A as <- <-; right; now left|left; now apply AC].
    + intros t' n' o'. case_t t t'; [|apply WA]. intros [A|[b A]]; [|discriminate]. injection A as <- <-. intro I. apply ids_in in I as (o1 & r1 & I). apply IV in I as [t1 I]. now apply FRESH in I.
    + intros t' n' o' r'. case_t t t'; [discriminate|]. apply LE.
    + intros n' t' r' I. apply in_app_or in I as [I|[I|[]]]; [|discriminate]. apply RE in I as (o' & I & J). exists o'. split; [exact I|]. apply in_or_app. now left.
    + intros a b t1 t2 r' o' B I. apply before_snoc in B as [B|[E _]]; [eapply RT; eassumption|]. injection E as -> -> ->. apply ids_in in I as (o1 & r1 & I). apply IV in I as [t3 I]. now apply FRESH in I.
  - (* an early return *)
    assert (AN : alone_rel o sN r sN) by (unfold alone_rel, alone; now rewrite CE).
    assert (NI : ~ In n (ids lin)) by (eapply WA; left; exact TC).
    assert (AT : In (Inv n t o) (past y)) by (apply AC; now rewrite TC).
    exists (lin ++ [(n, o, r)]), sN. constructor; cbn [shared threads locks past].
    + intro t'. rewrite HO. case_t t t'; [|reflexivity]. rewrite TC. split; intros (? & ? & ? & ?); discriminate.
    + eapply one_by_one_app; eassumption.
    + exact FR.
    + intros t' n' o' b'. case_t t t'; [discriminate|]. apply IN.
    + rewrite map_app. now apply nodup_snoc.
    + intros n' o' r' I. apply in_app_or in I as [I|[I|[]]]; [now apply IV in I|]. injection I as <- <- <-. now exists t.
    + exact PO.
    + intros t' n' o'. case_t t t'; [|apply AC]. intro A. injection A as <- <-. exact AT.
    + intros t' n' o'. case_t t t'; [intros [?|[? ?]]; discriminate|]. intros A I. rewrite map_app in I. apply in_app_or in I as [I|[I|[]]]; [eapply WA; eassumption|]. cbn in I. subst n'.
      assert (A' : active (threads y t') = Some (n, o')) by (destruct A as [A|[b A]]; now rewrite A). apply AC in A'. destruct (same_id _ _ _ _ _ _ PO AT A'). congruence.
    + intros t' n' o' r'. case_t t t'; intro A; apply in_or_app; [injection A as <- <- <-; right; now left|left; eapply LE; eassumption].
    + intros n' t' r' I. apply RE in I as (o' & I & J). exists o'. split; [|exact J]. apply in_or_app. now left.
    + intros a b t1 t2 r' o' B I. rewrite map_app in *. cbn [map fst] in *. apply before_snoc. apply in_app_or in I as [I|[I|[]]]; [left; eapply RT; eassumption|]. right. split; [auto|]. apply before_in in B as [B _]. apply RE in B as (o1 & B & _). now apply in_ids in B.
  - (* Lock *)
    rewrite one_lock in LK. exists lin, sN. constructor; cbn [shared threads locks past]; rewrite ?one_lock.
    + intro t'. rewrite upd_same. case_t t t'; [split; [eauto|reflexivity]|]. split; [intro E; injection E as E; congruence|]. intro E. apply HO in E. congruence.
    + exact SQ.
    + rewrite upd_same. discriminate.
    + intros t' n' o' b'. case_t t t'; [|intro E; exfalso; assert (X : locks y L = Some t') by (apply HO; eauto); congruence]. intro E. injection E as <- <- <-. rewrite (FR LK). unfold alone. now rewrite CE.
    + exact ND.
    + exact IV.
    + exact PO.
    + intros t' n' o'. case_t t t'; [|apply AC]. intro A. injection A as <- <-. apply AC. now rewrite TC.
    + intros t' n' o'. case_t t t'; [|apply WA]. intros [A|[b' A]]; [discriminate|]. injection A as <- <- <-. eapply WA. left. exact TC.
    + intros t' n' o' r'. case_t t t'; [discriminate|]. apply LE.
    + exact RE.
    + exact RT.
  - (* an access *)
    assert (HT : locks y L = Some t) by (apply HO; eauto).
    exists lin, sN. constructor; cbn [shared threads locks past].
    + intro t'. rewrite HO. case_t t t'; [|reflexivity]. split; intros _; eauto.
    + exact SQ.
    + congruence.
    + intros t' n' o' b'. case_t t t'; [|intro E; assert (X : locks y L = Some t') by (apply HO; eauto); congruence]. intro E. injection E as <- <- <-. rewrite <- (IN _ _ _ _ TI). reflexivity.
    + exact ND.
    + exact IV.
    + exact PO.
    + intros t' n' o'. case_t t t'; [|apply AC]. intro A. injection A as <- <-. apply AC. now rewrite TI.
    + intros t' n' o'. case_t t t'; [|apply WA]. intros [A|[b' A]]; [discriminate|]. injection A as <- <- <-. eapply WA. right. eauto.
    + intros t' n' o' r'. case_t t t'; [discriminate|]. apply LE.
    + exact RE.
    + exact RT.
  - (* Unlock *)
    assert (HT : locks y L = Some t) by (apply HO; eauto).
    assert (AN : alone_rel o sN r (shared y)) by (unfold alone_rel; rewrite <- (IN _ _ _ _ TI); reflexivity).
    assert (NI : ~ In n (ids lin)) by (eapply WA; right; eauto).
    assert (AT : In (Inv n t o) (past y)) by (apply AC; now rewrite TI).
    exists (lin ++ [(n, o, r)]), (shared y). constructor; cbn [shared threads locks past]; rewrite ?one_lock.
    + intro t'. rewrite upd_same. case_t t t'; [split; [discriminate|intros (? & ? & ? & ?); discriminate]|]. split; [discriminate|]. intro E. apply HO in E. congruence.
    + eapply one_by_one_app; eassumption.
    + reflexivity.
    + intros t' n' o' b'. case_t t t'; [discriminate|]. intro E. assert (X : locks y L = Some t') by (apply HO; eauto). congruence.
    + rewrite map_app. now apply nodup_snoc.
    + intros n' o' r' I. apply in_app_or in I as [I|[I|[]]]; [now apply IV in I|]. injection I as <- <- <-. now exists t.
    + exact PO.
    + intros t' n' o'. case_t t t'; [|apply AC]. intro A. injection A as <- <-. exact AT.
    + intros t' n' o'. case_t t t'; [intros [?|[? ?]]; discriminate|]. intros A I. rewrite map_app in I. apply in_app_or in I as [I|[I|[]]]; [eapply WA; eassumption|]. cbn in I. subst n'.
      assert (A' : active (threads y t') = Some (n, o')) by (destruct A as [A|[b A]]; now rewrite A). apply AC in A'. destruct (same_id _ _ _ _ _ _ PO AT A'). congruence.
    + intros t' n' o' r'. case_t t t'; intro A; apply in_or_app; [injection A as <- <- <-; right; now left|left; eapply LE; eassumption].
    + intros n' t' r' I. apply RE in I as (o' & I & J). exists o'. split; [|exact J]. apply in_or_app. now left.
    + intros a b t1 t2 r' o' B I. rewrite map_app in *. cbn [map fst] in *. apply before_snoc. apply in_app_or in I as [I|[I|[]]]; [left; eapply RT; eassumption|]. right. split; [auto|]. apply before_in in B as [B _]. apply RE in B as (o1 & B & _). now apply in_ids in B.
  - (* return *)
    exists lin, sN. constructor; cbn [shared threads locks past].
    + intro t'. rewrite HO. case_t t t'; [|reflexivity]. rewrite TL. split; intros (? & ? & ? & ?); discriminate.
    + exact SQ.
    + exact FR.
    + intros t' n' o' b'. case_t t t'; [discriminate|]. apply IN.
    + exact ND.
    + intros n' o' r' I. apply IV in I as [t' I]. exists t'. apply in_or_app. now left.
    + intros n' t' o' I. apply in_app_or in I as [I|[I|[]]]; [|discriminate]. apply PO in I. rewrite nth_error_app1; [exact I|]. apply nth_error_Some. rewrite I. discriminate.
    + intros t' n' o'. case_t t t'; [discriminate|]. intro A. apply in_or_app. left. now apply AC.
    + intros t' n' o'. case_t t t'; [intros [?|[? ?]]; discriminate|]. apply WA.
    + intros t' n' o' r'. case_t t t'; [discriminate|]. apply LE.
    + intros n' t' r' I. apply in_app_or in I as [I|[I|[]]].
      * apply RE in I as (o' & I & J). exists o'. split; [exact I|]. apply in_or_app. now left.
      * injection I as <- <- <-. exists o. split; [eapply LE; exact TL|]. apply in_or_app. left. apply AC. now rewrite TL.
    + intros a b t1 t2 r' o' B I. apply before_snoc in B as [B|[E _]]; [eapply RT; eassumption|discriminate].
Qed.

Lemma good_reachable s0 y : reachable code lock_of s0 y -> exists lin sN, good s0 y lin sN.
Proof using one_lock.
  induction 1 as [|y y' R (lin & sN & G) ST]; [exists [], s0; apply good_start|]. eapply good_step; eassumption.
Qed.

(** Linearizable with respect to any specification that the methods, run alone, refine. *)
Lemma linear_mutex {A} (spec : Op -> A -> Re -> A -> Prop) (abs : Sh -> A -> Prop) (ok : Op -> Prop) s0 a0 y :
  (forall o s a r s', ok o -> abs s a -> alone o s = (r, s') -> exists a', spec o a r a' /\ abs s' a') ->
  abs s0 a0 -> reachable code lock_of s0 y -> (forall n t o, In (Inv n t o) (past y) -> ok o) -> linearizable spec a0 (past y).
Proof using one_lock.
  intros REF A0 R OK. apply good_reachable in R as (lin & sN & [HO SQ FR IN ND IV PO AC WA LE RE RT]).
  assert (T : exists a', one_by_one spec a0 lin a').
  { assert (K : forall n o r, In (n, o, r) lin -> ok o) by (intros n o r I; apply IV in I as [t I]; eapply OK; exact I). clear - SQ REF A0 K. revert a0 A0. induction SQ as [s|s n o r s1 l s2 E Q IH]; intros a0 A0; [eexists; constructor|].
    destruct (REF o s a0 r s1 (K n o r (or_introl eq_refl)) A0 E) as (a1 & S1 & A1). destruct (IH (fun n o r I => K n o r (or_intror I)) a1 A1) as (a2 & S2). exists a2. econstructor; eassumption. }
  destruct T as [a' T]. exists lin, a'. split; [exact T|]. split; [exact ND|]. split; [exact IV|]. split.
  - intros n t r I. apply RE in I as (o & I & J). exists o. split; [exact I|]. intros t' o' I'. destruct (same_id _ _ _ _ _ _ PO I' J). auto.
  - exact RT.
Qed.

(** At most one goroutine is inside at a time. *)
Lemma exclusive s0 y t t' n n' o o' b b' : reachable code lock_of s0 y -> threads y t = Inside n o b -> threads y t' = Inside n' o' b' -> t = t'.
Proof using one_lock.
  intros R A B. apply good_reachable in R as (lin & sN & G). assert (X : locks y L = Some t) by (apply (g_hold _ _ _ _ G); eauto). assert (Y : locks y L = Some t') by (apply (g_hold _ _ _ _ G); eauto). congruence.
Qed.

(** ** Progress *)
Definition not_call (y y' : sys Sh Op Re) : Prop := step code lock_of y y' /\ (length (filter (fun e => match e with Inv _ _ _ => true | _ => false end) (past y')) = length (filter (fun e => match e with Inv _ _ _ => true | _ => false end) (past y)))%nat.

Lemma no_deadlock s0 y t : reachable code lock_of s0 y -> threads y t <> Idle -> exists y', not_call y y'.
Proof using one_lock.
  intros R N. apply good_reachable in R as (lin & sN & G). destruct (locks y L) as [t0|] eqn:LK.
  - destruct (proj1 (g_hold _ _ _ _ G t0) LK) as (n & o & b & T). destruct b as [r|u k]; eexists; (split; [|]); [eapply st_unlock; exact T|reflexivity|eapply st_access; exact T|reflexivity].
  - destruct (threads y t) as [|n o|n o b|n o r] eqn:T.
    + congruence.
    + destruct (code o) as [r|b] eqn:CE; eexists; (split; [|]); [eapply st_early; eassumption|reflexivity|eapply st_lock; try eassumption; now rewrite one_lock|reflexivity].
    + assert (X : locks y L = Some t) by (apply (g_hold _ _ _ _ G); eauto). congruence.
    + eexists. split; [eapply st_return; exact T|]. cbn. now rewrite filter_app, app_nil_r.
Qed.

(** Without new calls, every run ends. *)
Definition weight (st : status Sh Op Re) : nat := match st with Idle => 0 | Called _ _ => 3 | Inside _ _ _ => 2 | Left _ _ _ => 1 end.
Definition total (ts : list nat) (y : sys Sh Op Re) : nat := list_sum (map (fun t => weight (threads y t)) ts).
Definition only (ts : list nat) (y : sys Sh Op Re) : Prop := NoDup ts /\ forall t, threads y t <> Idle -> In t ts.
Lemma total_upd ts s f lk h t v : NoDup ts -> In t ts -> (total ts (mkSys s (upd f t v) lk h) + weight (f t) = total ts (mkSys s f lk h) + weight v)%nat.
Proof using lock_of.
  clear one_lock.
  unfold total, list_sum; cbn [threads]. induction ts as [|x ts IH]; [easy|]. intros N I. inversion N as [|? ? X N']; subst. cbn [map fold_right]. destruct I as [->|I].
  - rewrite upd_same. assert (E : map (fun t0 => weight (upd f t v t0)) ts = map (fun t0 => weight (f t0)) ts) by (apply map_ext_in; intros a Ha; rewrite upd_other; [reflexivity|congruence]). rewrite E. lia.
  - rewrite upd_other by congruence. specialize (IH N' I). lia.
Qed.
Lemma only_upd ts y t v s lk h : only ts y -> In t ts -> only ts (mkSys s (upd (threads y) t v) lk h).
Proof using lock_of. clear one_lock. intros [N O] I. split; [exact N|]. cbn. intros t' T. destruct (Nat.eq_dec t' t) as [->|D]; [exact I|]. rewrite upd_other in T by assumption. auto. Qed.
Lemma only_reachable s0 y : reachable code lock_of s0 y -> exists ts, only ts y.
Proof using lock_of.
  clear one_lock.
  induction 1 as [|y y' R (ts & O) ST]; [exists []; split; [constructor|cbn; congruence]|].
  assert (X : forall t v s lk h, exists ts', only ts' (mkSys s (upd (threads y) t v) lk h)).
  { intros t v s lk h. destruct (in_dec Nat.eq_dec t ts) as [I|I]; [exists ts; now apply only_upd|]. exists (t :: ts). destruct O as [N O]. split; [now constructor|]. cbn. intros t' T. destruct (Nat.eq_dec t' t) as [->|D]; [now left|]. rewrite upd_other in T by assumption. right. auto. }
  destruct ST; apply X.
Qed.
(** A step that is no call makes the total smaller, or is an access. *)
Lemma lighter ts y y' : only ts y -> not_call y y' -> only ts y' /\ ((total ts y' < total ts y)%nat
  \/ exists t n o u k, threads y t = Inside n o (Access u k) /\ total ts y' = total ts y /\ threads y' t = Inside n o (k (shared y))).
Proof using lock_of.
  clear one_lock.
  intros O [ST NC]. pose proof O as [N OI]. destruct ST as [y t o TI|y t n o r TC CE|y t n o b TC CE LK|y t n o u k TI|y t n o r TI|y t n o r TL]; cbn [past] in NC.
  1: { rewrite filter_app, app_length in NC. cbn in NC. lia. }
  all: assert (I : In t ts) by (apply OI; congruence); split; [now apply only_upd|].
  - pose proof (total_upd ts (shared y) (threads y) (locks y) (past y) t (Left n o r) N I) as E. rewrite TC in E. cbn [weight] in E. left. change (total ts (mkSys (shared y) (threads y) (locks y) (past y))) with (total ts y) in E. lia.
  - pose proof (total_upd ts (shared y) (threads y) (upd (locks y) (lock_of t) (Some t)) (past y) t (Inside n o b) N I) as E. rewrite TC in E. cbn [weight] in E. left. change (total ts (mkSys (shared y) (threads y) (upd (locks y) (lock_of t) (Some t)) (past y))) with (total ts y) in E. lia.
  - pose proof (total_upd ts (u (shared y)) (threads y) (locks y) (past y) t (Inside n o (k (shared y))) N I) as E. rewrite TI in E. cbn [weight] in E. change (total ts (mkSys (u (shared y)) (threads y) (locks y) (past y))) with (total ts y) in E.
    right. exists t, n, o, u, k. split; [exact TI|]. split; [lia|]. cbn. apply upd_same.
  - pose proof (total_upd ts (shared y) (threads y) (upd (locks y) (lock_of t) None) (past y) t (Left n o r) N I) as E. rewrite TI in E. cbn [weight] in E. left. change (total ts (mkSys (shared y) (threads y) (upd (locks y) (lock_of t) None) (past y))) with (total ts y) in E. lia.
  - pose proof (total_upd ts (shared y) (threads y) (locks y) (past y ++ [Res n t r]) t Idle N I) as E. rewrite TL in E. cbn [weight] in E. left. change (total ts (mkSys (shared y) (threads y) (locks y) (past y ++ [Res n t r]))) with (total ts y) in E. lia.
Qed.
Lemma all_end s0 y : reachable code lock_of s0 y -> Acc (fun y2 y1 => not_call y1 y2) y.
Proof using one_lock.
  intro R. destruct (only_reachable _ _ R) as (ts & O). remember (total ts y) as W eqn:EW. revert y R O EW.
  induction W as [W IH] using lt_wf_ind. intros y R O EW.
  assert (BODY : forall b y t n o, reachable code lock_of s0 y -> only ts y -> W = total ts y -> threads y t = Inside n o b -> Acc (fun y2 y1 => not_call y1 y2) y).
  { clear y R O EW. induction b as [r|u k IB]; intros y t n o R O EW T; constructor; intros y' NC; destruct (lighter ts y y' O NC) as [O' [LT|(t' & n' & o' & u' & k' & T' & E & TT)]];
      try (eapply (IH (total ts y')); [lia|eapply reach_step; [exact R|apply NC]|exact O'|reflexivity]);
      assert (t' = t) by (eapply exclusive; eassumption); subst t'; rewrite T in T'; try discriminate.
    injection T' as <- <- <- <-. eapply IB; [eapply reach_step; [exact R|apply NC]|exact O'|congruence|exact TT]. }
  constructor. intros y' NC. destruct (lighter ts y y' O NC) as [O' [LT|(t' & n' & o' & u' & k' & T' & E & TT)]].
  - eapply (IH (total ts y')); [lia|eapply reach_step; [exact R|apply NC]|exact O'|reflexivity].
  - eapply BODY; [eapply reach_step; [exact R|apply NC]|exact O'|congruence|exact TT].
Qed.
End Facts.

(** Schedules as lists, for concrete runs: a call by goroutine [t], or its next step. *)
Section Play.
Context {Sh Op Re : Type}.
Variables (code : Op -> method Sh Re) (lock_of : nat -> nat).
Inductive move := Call (t : nat) (o : Op) | Go (t : nat).
Definition play1 (v : move) (y : sys Sh Op Re) : option (sys Sh Op Re) :=
  match v with
  | Call t o => match threads y t with Idle => Some (mkSys (shared y) (upd (threads y) t (Called (length (past y)) o)) (locks y) (past y ++ [Inv (length (past y)) t o])) | _ => None end
  | Go t =>
      match threads y t with
      | Idle => None
      | Called n o => match code o with
                      | Early r => Some (mkSys (shared y) (upd (threads y) t (Left n o r)) (locks y) (past y))
                      | Locked b => match locks y (lock_of t) with None => Some (mkSys (shared y) (upd (threads y) t (Inside n o b)) (upd (locks y) (lock_of t) (Some t)) (past y)) | Some _ => None end
                      end
      | Inside n o (Access u k) => Some (mkSys (u (shared y)) (upd (threads y) t (Inside n o (k (shared y)))) (locks y) (past y))
      | Inside n o (Return r) => Some (mkSys (shared y) (upd (threads y) t (Left n o r)) (upd (locks y) (lock_of t) None) (past y))
      | Left n o r => Some (mkSys (shared y) (upd (threads y) t Idle) (locks y) (past y ++ [Res n t r]))
      end
  end.
Fixpoint play (l : list move) (y : sys Sh Op Re) : option (sys Sh Op Re) :=
  match l with [] => Some y | v :: r => match play1 v y with Some y' => play r y' | None => None end end.
Lemma play_reachable s l : forall y y', reachable code lock_of s y -> play l y = Some y' -> reachable code lock_of s y'.
Proof.
  induction l as [|v l IH]; intros y y' R E; cbn in E; [now injection E as <-|]. destruct (play1 v y) as [y1|] eqn:P; [|discriminate]. eapply IH; [|exact E]. eapply reach_step; [exact R|].
  destruct v as [t o|t]; cbn in P; destruct (threads y t) as [|n o'|n o' [r|u k]|n o' r] eqn:T; try discriminate.
  - injection P as <-. now apply st_call.
  - destruct (code o') as [r|b] eqn:C; [injection P as <-; now apply st_early|]. destruct (locks y (lock_of t)) eqn:K; [discriminate|]. injection P as <-. now apply st_lock.
  - injection P as <-. now apply st_unlock.
  - injection P as <-. now apply (st_access _ _ _ _ _ _ u k).
  - injection P as <-. now apply st_return with (o := o').
Qed.
End Play.
