(** C79. *)
From Verif Require Import Prelude Mutex Random SpecRandom.

(** ** Histories *)
Lemma made_app (h l : history) n t o : made h n t o -> made (h ++ l) n t o.
Proof. unfold made. intro H. rewrite nth_error_app1; [exact H|]. apply nth_error_Some. rewrite H. discriminate. Qed.
Lemma made_lt h n t o : made h n t o -> (n < length h)%nat.
Proof. unfold made. intro H. apply nth_error_Some. rewrite H. discriminate. Qed.
Lemma made_in h n t o : made h n t o -> In (Inv n t o) h.
Proof. apply nth_error_In. Qed.
Lemma none_set_app h l n : (n <= length h)%nat -> none_set_by h n -> none_set_by (h ++ l) n.
Proof. unfold none_set_by. intros L H m t. rewrite firstn_app. replace (n - length h)%nat with 0%nat by lia. rewrite firstn_O, app_nil_r. apply H. Qed.
Lemma firstn_In {A} n (l : list A) x : In x (firstn n l) -> In x l.
Proof. intro H. rewrite <- (firstn_skipn n l). apply in_or_app. now left. Qed.

(** ** What holds in every reachable state *)
Definition proper (h : history) (n : nat) (s : source) : Prop :=
  match s with
  | Builtin => none_set_by h n
  | Custom r => exists m t, made h m t (SetRNG r) /\ none_set_by h m
  | NoReader => False
  end.
Lemma proper_app h l n s : (n <= length h)%nat -> proper h n s -> proper (h ++ l) n s.
Proof.
  destruct s; cbn; intros L H; [now apply none_set_app| |exact H].
  destruct H as (m & t & M & N). exists m, t. split; [now apply made_app|]. apply none_set_app; [|exact N]. apply made_lt in M. lia.
Qed.

(** How far a call is. *)
Inductive stage (v : vars) (h : history) (n : nat) : rng_op -> body vars rng_re -> Prop :=
| sg_start o : stage v h n o (rng_code o)
| sg_store r : none_set_by h n -> stage v h n (SetRNG r) (store_reader r)
| sg_raise r : none_set_by h n -> v_reader v <> None -> stage v h n (SetRNG r) raise_flag
| sg_done r : v_flag v = true -> stage v h n (SetRNG r) (Return Done)
| sg_read : v_flag v = true -> stage v h n GetRandom read_reader
| sg_got s : proper h n s -> stage v h n GetRandom (Return (Got s)).

Record fine (y : rng_sys) : Prop := mkFine {
  f_run : forall t n o b, rthreads y t = Running n o b -> made (rpast y) n t o /\ (forall t' r, ~ In (Res n t' r) (rpast y)) /\ stage (rvars y) (rpast y) n o b;
  f_reader : forall r, v_reader (rvars y) = Some r -> exists m t, made (rpast y) m t (SetRNG r) /\ none_set_by (rpast y) m;
  f_flag : v_flag (rvars y) = true -> v_reader (rvars y) <> None;
  f_done : forall m t, In (Res m t Done) (rpast y) -> v_flag (rvars y) = true;
  f_res : forall n t r, In (Res n t r) (rpast y) -> exists o, made (rpast y) n t o /\ match r with Done => exists k, o = SetRNG k | Got s => o = GetRandom /\ proper (rpast y) n s end;
  f_inv : forall k n t o, nth_error (rpast y) k = Some (Inv n t o) -> k = n }.

Lemma stage_app v h l n o b : (n <= length h)%nat -> stage v h n o b -> stage v (h ++ l) n o b.
Proof.
  intros L S. destruct S; [constructor|constructor|constructor|now constructor|now constructor|constructor]; try assumption; try now apply none_set_app.
  now apply proper_app.
Qed.
(** The variables may change as long as the flag stays up and a reader stays stored. *)
Lemma stage_vars v v' h n o b : (v_flag v = true -> v_flag v' = true) -> (v_reader v <> None -> v_reader v' <> None) -> stage v h n o b -> stage v' h n o b.
Proof. intros F R S. destruct S; constructor; auto. Qed.

Lemma fine_start : fine rng_start.
Proof.
  split; cbn; try discriminate; try tauto.
  - intros k n t o H. destruct k; discriminate.
Qed.

Lemma upd_same {A} (f : nat -> A) t v : upd f t v t = v.
Proof. unfold upd. now rewrite Nat.eqb_refl. Qed.
Lemma upd_other {A} (f : nat -> A) t v t' : t' <> t -> upd f t v t' = f t'.
Proof. unfold upd. intro H. destruct (Nat.eqb_spec t' t); [contradiction|reflexivity]. Qed.

Lemma res_new (h : history) n t o m t' r : In (Res m t' r) (h ++ [Inv n t o]) -> In (Res m t' r) h.
Proof. intro H. apply in_app_or in H. destruct H as [H|[H|[]]]; [exact H|discriminate]. Qed.

Lemma fine_step y y' : fine y -> rng_step y y' -> fine y'.
Proof.
  intros F S. destruct S as [y t o I|y t n o change next I|y t n o r I].
  - (* a call *)
    split; cbn [rvars rthreads rpast].
    + intros t' n o' b H. destruct (Nat.eq_dec t' t) as [->|D].
      * rewrite upd_same in H. injection H as <- <- <-. split; [|split].
        -- unfold made. rewrite nth_error_app2, Nat.sub_diag by lia. reflexivity.
        -- intros t' r H. apply res_new in H. destruct (f_res _ F _ _ _ H) as (o' & M & _). apply made_lt in M. lia.
        -- constructor.
      * rewrite (upd_other _ _ _ _ D) in H. destruct (f_run _ F _ _ _ _ H) as (M & N & G). split; [now apply made_app|split].
        -- intros t'' r X. apply res_new in X. exact (N _ _ X).
        -- apply stage_app; [apply made_lt in M; lia|exact G].
    + intros r H. destruct (f_reader _ F _ H) as (m & t' & M & N). exists m, t'. split; [now apply made_app|]. apply none_set_app; [apply made_lt in M; lia|exact N].
    + apply (f_flag _ F).
    + intros m t' H. apply res_new in H. exact (f_done _ F _ _ H).
    + intros n t' r H. apply res_new in H. destruct (f_res _ F _ _ _ H) as (o' & M & K). exists o'. split; [now apply made_app|].
      destruct r; [exact K|]. destruct K as [-> K]. split; [reflexivity|]. apply proper_app; [apply made_lt in M; lia|exact K].
    + intros k n t' o' H. destruct (Nat.lt_ge_cases k (length (rpast y))) as [L|L].
      * rewrite nth_error_app1 in H by exact L. exact (f_inv _ F _ _ _ _ H).
      * rewrite nth_error_app2 in H by exact L. destruct (k - length (rpast y))%nat eqn:E; [|destruct n0; discriminate].
        cbn in H. injection H as <- _ _. lia.
  - (* an access *)
    destruct (f_run _ F _ _ _ _ I) as (M & N & G).
    assert (X : fine (mkRng (change (rvars y)) (rthreads y) (rpast y)) /\ stage (change (rvars y)) (rpast y) n o (next (rvars y))
                /\ (v_flag (rvars y) = true -> v_flag (change (rvars y)) = true) /\ (v_reader (rvars y) <> None -> v_reader (change (rvars y)) <> None)).
    { destruct y as [v th h]. cbn [rvars rthreads rpast] in *.
      assert (K : forall v', (v_flag v = true -> v_flag v' = true) -> (v_reader v <> None -> v_reader v' <> None) ->
                 (forall r, v_reader v' = Some r -> exists m t, made h m t (SetRNG r) /\ none_set_by h m) ->
                 (v_flag v' = true -> v_reader v' <> None) -> fine (mkRng v' th h)).
      { intros v' K1 K2 K3 K4. split; cbn [rvars rthreads rpast]; try assumption.
        - intros t' n' o' b' H. destruct (f_run _ F _ _ _ _ H) as (A & B & C). repeat split; try assumption. now apply (stage_vars v).
        - intros m t' H. apply K1. exact (f_done _ F _ _ H).
        - exact (f_res _ F).
        - exact (f_inv _ F). }
      remember (Access change next) as b eqn:Eb. destruct G as [o|r E1|r E1 E2|r E1|E1|s E1]; try discriminate Eb.
      - destruct o as [r|]; cbn in Eb; injection Eb as <- <-.
        + split; [exact F|split; [|split; auto]]. destruct (v_flag v) eqn:E; cbn [negb].
          * now constructor.
          * constructor. intros m t' H. apply firstn_In in H. apply (f_done _ F) in H. cbn in H. congruence.
        + split; [exact F|split; [|split; auto]]. destruct (v_flag v) eqn:E.
          * now constructor.
          * constructor. cbn. intros m t' H. apply firstn_In in H. apply (f_done _ F) in H. cbn in H. congruence.
      - unfold store_reader in Eb. injection Eb as <- <-. split; [|split; [|split; cbn; [auto|discriminate]]].
        + apply K; cbn; [auto|discriminate| |discriminate]. intros r' H. injection H as <-. exists n, t. split; assumption.
        + constructor; [assumption|discriminate].
      - unfold raise_flag in Eb. injection Eb as <- <-. split; [|split; [|split; cbn; auto]].
        + apply K; cbn; auto. exact (f_reader _ F).
        + now constructor.
      - unfold read_reader in Eb. injection Eb as <- <-. split; [exact F|split; [|split; auto]]. constructor. cbn in *.
        destruct (v_reader v) as [r|] eqn:E; [exact (f_reader _ F _ E)|]. exact (f_flag _ F E1 E). }
    destruct X as (X1 & X2 & X3 & X4). split; cbn [rvars rthreads rpast].
    + intros t' n' o' b H. destruct (Nat.eq_dec t' t) as [->|D].
      * rewrite upd_same in H. injection H as <- <- <-. split; [exact M|split; [exact N|exact X2]].
      * rewrite (upd_other _ _ _ _ D) in H. exact (f_run _ X1 _ _ _ _ H).
    + exact (f_reader _ X1).
    + exact (f_flag _ X1).
    + exact (f_done _ X1).
    + exact (f_res _ X1).
    + exact (f_inv _ X1).
  - (* a return *)
    destruct (f_run _ F _ _ _ _ I) as (M & N & G).
    assert (L : (n <= length (rpast y))%nat) by (apply made_lt in M; lia).
    assert (W : forall m t' r', In (Res m t' r') (rpast y ++ [Res n t r]) -> In (Res m t' r') (rpast y) \/ (m = n /\ t' = t /\ r' = r)).
    { intros m t' r' H. apply in_app_or in H. destruct H as [H|[H|[]]]; [now left|]. injection H as <- <- <-. now right. }
    split; cbn [rvars rthreads rpast].
    + intros t' n' o' b H. destruct (Nat.eq_dec t' t) as [->|D]; [rewrite upd_same in H; discriminate|].
      rewrite (upd_other _ _ _ _ D) in H. destruct (f_run _ F _ _ _ _ H) as (A & B & C). split; [now apply made_app|split].
      * intros t'' r' X. apply W in X. destruct X as [X|(-> & _)]; [exact (B _ _ X)|]. unfold made in A, M. rewrite A in M. congruence.
      * apply stage_app; [apply made_lt in A; lia|exact C].
    + intros k H. destruct (f_reader _ F _ H) as (m & t' & A & B). exists m, t'. split; [now apply made_app|]. apply none_set_app; [apply made_lt in A; lia|exact B].
    + exact (f_flag _ F).
    + intros m t' H. apply W in H. destruct H as [H|(_ & _ & <-)]; [exact (f_done _ F _ _ H)|]. remember (Return Done) as b eqn:Eb. destruct G as [o| | | | |]; try discriminate Eb; [destruct o; discriminate Eb|assumption].
    + intros m t' r' H. apply W in H. destruct H as [H|(-> & -> & ->)].
      * destruct (f_res _ F _ _ _ H) as (o' & A & K). exists o'. split; [now apply made_app|].
        destruct r'; [exact K|]. destruct K as [-> K]. split; [reflexivity|]. apply proper_app; [apply made_lt in A; lia|exact K].
      * exists o. split; [now apply made_app|]. remember (Return r) as b eqn:Eb. destruct G as [o|k E1|k E1 E2|k E1|E1|s E1]; try discriminate Eb; [destruct o; discriminate Eb| |]; injection Eb as <-; [eauto|]. split; [reflexivity|]. now apply proper_app.
    + intros k m t' o' H. destruct (Nat.lt_ge_cases k (length (rpast y))) as [L'|L'].
      * rewrite nth_error_app1 in H by exact L'. exact (f_inv _ F _ _ _ _ H).
      * rewrite nth_error_app2 in H by exact L'. destruct (k - length (rpast y))%nat; [discriminate|destruct n0; discriminate].
Qed.
Lemma fine_steps y y' : rng_steps y y' -> fine y -> fine y'.
Proof. intro S. induction S as [y|y y1 y2 S IH T]; intro F; [exact F|]. exact (fine_step _ _ (IH F) T). Qed.
Lemma fine_reached y : rng_steps rng_start y -> fine y.
Proof. intro H. exact (fine_steps _ _ H fine_start). Qed.

(** ** C79 *)
(** Whatever Random() returns: the built-in source, and then no SetCustomRNG had returned when Random() was called; or a
    reader that was given to a SetCustomRNG, which was called before any SetCustomRNG had returned. *)
Theorem C79_what_random_returns y n t s :
  rng_steps rng_start y -> In (Res n t (Got s)) (rpast y) ->
  made (rpast y) n t GetRandom /\
  match s with
  | Builtin => none_set_by (rpast y) n
  | Custom r => exists m t', made (rpast y) m t' (SetRNG r) /\ none_set_by (rpast y) m
  | NoReader => False
  end.
Proof.
  intros R H. destruct (f_res _ (fine_reached _ R) _ _ _ H) as (o & M & -> & P). split; [exact M|exact P].
Qed.

(** If the calls of SetCustomRNG do not overlap, the first one wins. *)
Theorem C79_first_one_wins y m r n t s :
  rng_steps rng_start y -> set_one_at_a_time (rpast y) -> first_set (rpast y) m r ->
  In (Res n t (Got s)) (rpast y) -> s = Custom r \/ s = Builtin /\ none_set_by (rpast y) n.
Proof.
  intros R O [[t0 M0] B] H. destruct (C79_what_random_returns _ _ _ _ R H) as [_ P]. destruct s as [|k|]; [now right| |contradiction].
  left. destruct P as (m' & t' & M' & N'). destruct (Nat.eq_dec m' m) as [->|D].
  - unfold made in M0, M'. rewrite M0 in M'. congruence.
  - exfalso. pose proof (B _ _ _ M'). assert (L : (m < m')%nat) by lia. destruct (O _ _ _ _ _ _ M0 M' L) as (j & [J1 J2] & J3).
    apply (N' m t0). apply nth_error_In with (n := j).
    rewrite <- J3. rewrite <- (firstn_skipn m' (rpast y)) at 2. rewrite nth_error_app1; [reflexivity|].
    rewrite firstn_length. apply made_lt in M'. lia.
Qed.

(** Once all calls of SetCustomRNG have returned, the source never changes again, also when there are more of them. *)
Record settled (y0 : rng_sys) (r0 : nat) (y : rng_sys) : Prop := {
  s_flag : v_flag (rvars y) = true;
  s_reader : v_reader (rvars y) = Some r0;
  s_len : (length (rpast y0) <= length (rpast y))%nat;
  s_run : forall t n o b, rthreads y t = Running n o b -> match o with
            | SetRNG r => b = rng_code (SetRNG r) \/ b = Return Done
            | GetRandom => (length (rpast y0) <= n)%nat -> b = rng_code GetRandom \/ b = read_reader \/ b = Return (Got (Custom r0))
            end;
  s_res : forall n t s, (length (rpast y0) <= n)%nat -> In (Res n t (Got s)) (rpast y) -> s = Custom r0 }.

Lemma settled_step y0 r0 y y' : settled y0 r0 y -> fine y -> rng_step y y' -> settled y0 r0 y'.
Proof.
  intros S F T. destruct T as [y t o I|y t n o change next I|y t n o r I].
  - split; cbn [rvars rthreads rpast]; try apply S.
    + rewrite app_length. pose proof (s_len _ _ _ S). lia.
    + intros t' n o' b H. destruct (Nat.eq_dec t' t) as [->|D].
      * rewrite upd_same in H. injection H as <- <- <-. destruct o; auto.
      * rewrite (upd_other _ _ _ _ D) in H. exact (s_run _ _ _ S _ _ _ _ H).
    + intros n t' s L H. apply res_new in H. exact (s_res _ _ _ S _ _ _ L H).
  - pose proof (s_run _ _ _ S _ _ _ _ I) as P. pose proof (s_flag _ _ _ S) as Fl. pose proof (s_reader _ _ _ S) as Rd.
    destruct (f_run _ F _ _ _ _ I) as (M & N & G).
    assert (X : change (rvars y) = rvars y /\ match o with
            | SetRNG r => next (rvars y) = rng_code (SetRNG r) \/ next (rvars y) = Return Done
            | GetRandom => (length (rpast y0) <= n)%nat -> next (rvars y) = rng_code GetRandom \/ next (rvars y) = read_reader \/ next (rvars y) = Return (Got (Custom r0))
            end).
    { destruct o as [k|].
      - destruct P as [P|P]; [|discriminate]. cbn in P. injection P as -> ->. rewrite Fl. cbn. auto.
      - clear P. remember GetRandom as o eqn:Eo. remember (Access change next) as b eqn:Eb. destruct G as [o|r E1|r E1 E2|r E1|E1|s E1]; try discriminate Eb; try discriminate Eo.
        + subst o. cbn in Eb. injection Eb as <- <-. rewrite Fl. auto.
        + unfold read_reader in Eb. injection Eb as <- <-. rewrite Rd. auto. }
    destruct X as [X1 X2]. split; cbn [rvars rthreads rpast]; try rewrite X1; try apply S.
    intros t' n' o' b H. destruct (Nat.eq_dec t' t) as [->|D].
    + rewrite upd_same in H. injection H as <- <- <-. exact X2.
    + rewrite (upd_other _ _ _ _ D) in H. exact (s_run _ _ _ S _ _ _ _ H).
  - split; cbn [rvars rthreads rpast]; try apply S.
    + rewrite app_length. pose proof (s_len _ _ _ S). lia.
    + intros t' n' o' b H. destruct (Nat.eq_dec t' t) as [->|D]; [rewrite upd_same in H; discriminate|].
      rewrite (upd_other _ _ _ _ D) in H. exact (s_run _ _ _ S _ _ _ _ H).
    + intros m t' s L H. apply in_app_or in H. destruct H as [H|[H|[]]]; [exact (s_res _ _ _ S _ _ _ L H)|].
      injection H as <- <- ->. destruct (f_run _ F _ _ _ _ I) as (M & _ & G). pose proof (s_run _ _ _ S _ _ _ _ I) as P.
      destruct o as [k|]; [destruct P as [P|P]; discriminate|]. destruct (P L) as [Q|[Q|Q]]; try discriminate. congruence.
Qed.

Theorem C79_settled_for_good y y' :
  rng_steps rng_start y -> set_and_quiet (rpast y) -> rng_steps y y' ->
  exists r, (exists m t, made (rpast y) m t (SetRNG r)) /\
    forall n t s, (length (rpast y) <= n)%nat -> In (Res n t (Got s)) (rpast y') -> s = Custom r.
Proof.
  intros R ((m0 & t0 & D) & Q) T. pose proof (fine_reached _ R) as F.
  pose proof (f_done _ F _ _ D) as Fl. destruct (v_reader (rvars y)) as [r|] eqn:E; [|destruct (f_flag _ F Fl E)].
  exists r. destruct (f_reader _ F _ E) as (m & t & M & _). split; [eauto|].
  assert (S : settled y r y).
  { split; auto.
    - intros t' n o b H. destruct (f_run _ F _ _ _ _ H) as (A & B & _). destruct o as [k|].
      + exfalso. exact (B _ _ (Q _ _ _ A)).
      + intro L. apply made_lt in A. lia.
    - intros n t' s L H. destruct (f_res _ F _ _ _ H) as (o & A & _). apply made_lt in A. lia. }
  assert (G : settled y r y' /\ fine y').
  { clear -S F T. induction T as [|y0 y1 y2 T IH K]; [auto|]. destruct (IH F S) as [A B]. split; [exact (settled_step _ _ _ _ A B K)|exact (fine_step _ _ B K)]. }
  exact (s_res _ _ _ (proj1 G)).
Qed.

(** ** Runs *)
Inductive move := Make (t : nat) (o : rng_op) | Move (t : nat).
Definition play (y : rng_sys) (a : move) : option rng_sys :=
  match a with
  | Make t o => match rthreads y t with
                | Rest => Some (mkRng (rvars y) (upd (rthreads y) t (Running (length (rpast y)) o (rng_code o))) (rpast y ++ [Inv (length (rpast y)) t o]))
                | _ => None
                end
  | Move t => match rthreads y t with
              | Running n o (Access change next) => Some (mkRng (change (rvars y)) (upd (rthreads y) t (Running n o (next (rvars y)))) (rpast y))
              | Running n o (Return r) => Some (mkRng (rvars y) (upd (rthreads y) t Rest) (rpast y ++ [Res n t r]))
              | Rest => None
              end
  end.
Fixpoint play_all (y : rng_sys) (l : list move) : option rng_sys :=
  match l with [] => Some y | a :: l' => match play y a with Some y' => play_all y' l' | None => None end end.
Lemma play_step y a y' : play y a = Some y' -> rng_step y y'.
Proof.
  destruct a as [t o|t]; cbn.
  - destruct (rthreads y t) eqn:E; [|discriminate]. intro H. injection H as <-. now constructor.
  - destruct (rthreads y t) as [|n o [r|change next]] eqn:E; [discriminate| |]; intro H; injection H as <-; econstructor; eassumption.
Qed.
Lemma steps_step_l y y' y'' : rng_step y y' -> rng_steps y' y'' -> rng_steps y y''.
Proof. intros S T. revert y S. induction T as [y'|y' z z' T IH K]; intros y S; [exact (rss_step _ _ _ (rss_refl _) S)|]. exact (rss_step _ _ _ (IH _ S) K). Qed.
Lemma play_all_steps l : forall y y', play_all y l = Some y' -> rng_steps y y'.
Proof.
  induction l as [|a l IH]; cbn; intros y y' H; [injection H as <-; constructor|].
  destruct (play y a) as [z|] eqn:E; [|discriminate]. exact (steps_step_l _ _ _ (play_step _ _ _ E) (IH _ _ H)).
Qed.

(** Goroutine 0 sets reader 1 and 1 sets reader 2; both find the flag down.  Goroutine 0 has finished and has been given its
    own reader, when goroutine 1 goes on: from then on Random() returns the other reader. *)
Definition overlap : list move :=
  [ Make 0 (SetRNG 1); Make 1 (SetRNG 2); Move 0; Move 1; Move 0; Move 0; Move 0;
    Make 0 GetRandom; Move 0; Move 0; Move 0; Move 1; Make 0 GetRandom; Move 0; Move 0; Move 0 ].
Lemma overlap_past : option_map rpast (play_all rng_start overlap)
  = Some [Inv 0 0 (SetRNG 1); Inv 1 1 (SetRNG 2); Res 0 0 Done; Inv 3 0 GetRandom; Res 3 0 (Got (Custom 1)); Inv 5 0 GetRandom; Res 5 0 (Got (Custom 2))]%nat.
Proof. vm_compute. reflexivity. Qed.
Theorem C79_overlapping_calls_refuted :
  ~ (forall y n1 n2 m t1 t2 s1 s2, rng_steps rng_start y ->
       (exists t, In (Res m t Done) (firstn n1 (rpast y))) -> (n1 < n2)%nat ->
       In (Res n1 t1 (Got s1)) (rpast y) -> In (Res n2 t2 (Got s2)) (rpast y) -> s1 = s2).
Proof.
  intro H. pose proof overlap_past as P. destruct (play_all rng_start overlap) as [y|] eqn:E; [|discriminate].
  cbn [option_map] in P. assert (P' := f_equal (fun o => match o with Some l => l | None => [] end) P). cbn beta iota in P'. clear P. rename P' into P.
  specialize (H y 3%nat 5%nat 0%nat 0%nat 0%nat (Custom 1) (Custom 2) (play_all_steps _ _ _ E)). rewrite P in H.
  assert (X : Custom 1 = Custom 2); [|discriminate]. apply H; cbn; [exists 0%nat; tauto|lia|tauto|tauto].
Qed.

(** RandomBytes gives what one Read of exactly this size delivers without an error, and never less. *)
Theorem C79_random_bytes rd n bs :
  read_random rd n = Ok bs <-> (0 <= n)%Z /\ rd (Z.to_nat n) = (bs, None) /\ Z.of_nat (length bs) = n.
Proof.
  unfold read_random. destruct (Z.ltb_spec n 0); [split; [discriminate|lia]|].
  destruct (rd (Z.to_nat n)) as [got [e|]]; [split; [discriminate|intros (_ & X & _); discriminate]|].
  destruct (Nat.eqb_spec (length got) (Z.to_nat n)).
  - split; [intro X; injection X as <-; repeat split; lia|]. intros (_ & X & _). congruence.
  - split; [discriminate|]. intros (_ & X & L). injection X as ->. lia.
Qed.
Theorem C79_random_bytes_panics rd n : read_random rd n = Panic <-> (n < 0)%Z.
Proof.
  unfold read_random. destruct (Z.ltb_spec n 0); [tauto|]. destruct (rd (Z.to_nat n)) as [got [e|]]; [split; [discriminate|lia]|].
  destruct (Nat.eqb _ _); split; try discriminate; lia.
Qed.
(** io.Reader allows short reads; a source that makes use of this, like one that delivers a byte at a time, is good for
    no more than a byte. *)
Theorem C79_short_reads_refuted : ~ (forall (rd : io_reader) n, (0 <= n)%Z -> (forall k, (0 < k)%nat -> exists l, rd k = (l, None) /\ (0 < length l <= k)%nat) -> exists bs, read_random rd n = Ok bs).
Proof.
  intro H. destruct (H (fun _ => ([n2b 7], None)) 2%Z) as [bs X]; [lia| |discriminate].
  intros k K. exists [n2b 7]. cbn. split; [reflexivity|lia].
Qed.

(** Calls that do not overlap, two of them; the second has no effect. *)
Definition in_turn : list move :=
  [ Make 0 GetRandom; Move 0; Move 0; Make 0 (SetRNG 1); Move 0; Move 0; Move 0; Move 0;
    Make 1 (SetRNG 2); Move 1; Move 1; Make 2 GetRandom; Move 2; Move 2; Move 2 ].
Definition in_turn_past : history :=
  [Inv 0 0 GetRandom; Res 0 0 (Got Builtin); Inv 2 0 (SetRNG 1); Res 2 0 Done; Inv 4 1 (SetRNG 2); Res 4 1 Done; Inv 6 2 GetRandom; Res 6 2 (Got (Custom 1))]%nat.
Lemma in_turn_ends : option_map rpast (play_all rng_start in_turn) = Some in_turn_past.
Proof. vm_compute. reflexivity. Qed.
Example C79_hypotheses_met : exists y, rng_steps rng_start y /\ set_one_at_a_time (rpast y) /\ first_set (rpast y) 2 1 /\ set_and_quiet (rpast y)
  /\ In (Res 0 0 (Got Builtin)) (rpast y) /\ In (Res 6 2 (Got (Custom 1))) (rpast y).
Proof.
  pose proof in_turn_ends as P. destruct (play_all rng_start in_turn) as [y|] eqn:E; [|discriminate].
  cbn [option_map] in P. assert (P' := f_equal (fun o => match o with Some l => l | None => [] end) P). cbn beta iota in P'. clear P. rename P' into P.
  exists y. rewrite P. split; [exact (play_all_steps _ _ _ E)|].
  assert (K : forall m t r, made in_turn_past m t (SetRNG r) -> (m = 2 /\ t = 0 /\ r = 1 \/ m = 4 /\ t = 1 /\ r = 2)%nat).
  { intros m t r H. apply made_in in H. cbn in H. repeat (destruct H as [H|H]; [try discriminate H; inversion H; subst; tauto|]). destruct H. }
  split; [|split; [|split; [|cbn; tauto]]].
  - intros m t r m' t' r' H H' L. apply K in H. apply K in H'. exists 3%nat. split; [lia|]. assert (m = 2 /\ t = 0)%nat as [-> ->] by lia. reflexivity.
  - split; [exists 0%nat; reflexivity|]. intros m' t' r' H. apply K in H. lia.
  - split; [exists 2%nat, 0%nat; cbn; tauto|]. intros m t r H. apply K in H. destruct H as [(-> & -> & ->)|(-> & -> & ->)]; cbn; tauto.
Qed.
