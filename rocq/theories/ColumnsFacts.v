(** Facts about formatColumns. *)
From Coq Require Import Init.Byte.
From Verif Require Import Prelude PreludeFacts Wizard Columns SpecColumns.

Definition clean (p : byte -> bool) (l : bytes) : Prop := forall b, In b l -> p b = false.
Lemma split_clean p l : clean p l -> split_at p l = [l].
Proof.
  induction l as [|b l IH]; intro C; cbn [split_at]; [reflexivity|]. rewrite (C b) by now left.
  rewrite IH; [reflexivity|]. intros x I. apply C. now right.
Qed.
Lemma split_cut p x s r : clean p x -> p s = true -> split_at p (x ++ s :: r) = x :: split_at p r.
Proof.
  intros C Hs. induction x as [|b x IH]; cbn [app split_at]; [now rewrite Hs|]. rewrite (C b) by now left.
  rewrite IH; [reflexivity|]. intros y I. apply C. now right.
Qed.
Lemma split_join p s l : l <> [] -> (forall x, In x l -> clean p x) -> p s = true -> split_at p (join s l) = l.
Proof.
  intros N C Hs. induction l as [|x l IH]; [contradiction|]. destruct l as [|y l].
  - cbn [join]. apply split_clean, C. now left.
  - change (join s (x :: y :: l)) with (x ++ s :: join s (y :: l)). rewrite split_cut; [|apply C; now left|exact Hs].
    rewrite IH; [reflexivity|discriminate|]. intros z I. apply C. now right.
Qed.
Lemma join_clean p s l : (forall x, In x l -> clean p x) -> p s = false -> clean p (join s l).
Proof.
  intros C Hs. induction l as [|x l IH]; [intros b []|]. destruct l as [|y l]; [apply C; now left|].
  change (join s (x :: y :: l)) with (x ++ s :: join s (y :: l)). intros b I. apply in_app_or in I as [I|[<-|I]]; [apply (C x); [now left|exact I]|exact Hs|].
  apply IH; [intros z J; apply C; now right|exact I].
Qed.
Lemma byte_eqb_neq a b : a <> b -> byte_eqb a b = false.
Proof. intro N. destruct (byte_eqb a b) eqn:E; [|reflexivity]. apply Byte.byte_dec_bl in E. contradiction. Qed.
Lemma plain_line c : plain_text c -> clean ends_line c.
Proof. intros P b I. unfold ends_line. rewrite !byte_eqb_neq; [reflexivity| |]; intros ->; apply (P _ I); cbn; tauto. Qed.
Lemma plain_cell c : plain_text c -> clean ends_cell c.
Proof. intros P b I. unfold ends_cell. rewrite !byte_eqb_neq; [reflexivity| |]; intros ->; apply (P _ I); cbn; tauto. Qed.

Lemma table_lines t : t <> [] -> (forall r, In r t -> r <> [] /\ forall c, In c r -> plain_text c) ->
  text_lines (join x0a (map (join x09) t)) = flush_last t.
Proof.
  intros N P. unfold text_lines. rewrite split_join; [| |intros x I|reflexivity].
  - f_equal. rewrite map_map. rewrite <- (map_id t) at 2. apply map_ext_in. intros r I. destruct (P r I) as [NE C].
    apply split_join; [exact NE|intros c J; now apply plain_cell, C|reflexivity].
  - destruct t; [contradiction|discriminate].
  - apply in_map_iff in I as (r & <- & I). destruct (P r I) as [NE C]. apply join_clean; [intros c J; now apply plain_line, C|reflexivity].
Qed.

Lemma drop_empty_spec l : l <> [] -> (last l [] <> [] /\ drop_empty_end l = l) \/ (last l [] = [] /\ drop_empty_end l = removelast l).
Proof.
  induction l as [|c l IH]; intro N; [contradiction|]. destruct l as [|d l].
  - cbn [last removelast drop_empty_end]. destruct c; [right|left]; split; try reflexivity; discriminate.
  - change (last (c :: d :: l) []) with (last (d :: l) []). change (removelast (c :: d :: l)) with (c :: removelast (d :: l)).
    assert (E : drop_empty_end (c :: d :: l) = c :: drop_empty_end (d :: l)) by (destruct c; reflexivity). rewrite E.
    destruct IH as [[A B]|[A B]]; [discriminate| |]; [left|right]; split; auto; now rewrite B.
Qed.
Lemma flush_shown t : t <> [] -> (forall r, In r t -> r <> []) -> shown_table t (flush_last t).
Proof.
  intros N P. induction t as [|r t IH]; [contradiction|]. destruct t as [|q t].
  - exists [], r. split; [reflexivity|]. cbn [flush_last app]. destruct (drop_empty_spec r) as [[A B]|[A B]]; [apply P; now left| |]; rewrite B; auto.
  - destruct IH as (u & x & E & D); [discriminate|intros y I; apply P; now right|]. exists (r :: u), x. rewrite E. split; [reflexivity|].
    change (flush_last (r :: u ++ [x])) with (match u ++ [x] with [] => [drop_empty_end r] | _ => r :: flush_last (u ++ [x]) end).
    assert (G : match u ++ [x] with [] => [drop_empty_end r] | _ => r :: flush_last (u ++ [x]) end = r :: flush_last (u ++ [x])) by (destruct u; reflexivity).
    rewrite G. rewrite E in D. destruct D as [[A B]|[A B]]; [left|right]; split; auto; cbn [app]; now rewrite B.
Qed.

Section W.
Variable runes : bytes -> nat.
Notation next := (next_column runes).

(** What a line in the making stands for: the row [r], the widths [ws] used so far. *)
Definition stands (j : nat) (r : list bytes) (ws : list nat) (m : making) : Prop :=
  exists done, r = done ++ snd m /\ length ws = length done /\ length ws = Nat.min j (pred (length r))
  /\ (forall i c w, nth_error r i = Some c -> nth_error ws i = Some w -> runes c + 3 <= w)
  /\ fst m = concat (map (fun cw => fst cw ++ repeat x20 (snd cw - runes (fst cw))) (combine done ws)).
Inductive all3 {A B C} (P : A -> B -> C -> Prop) : list A -> list B -> list C -> Prop :=
| all3_nil : all3 P [] [] []
| all3_cons a b c la lb lc : P a b c -> all3 P la lb lc -> all3 P (a :: la) (b :: lb) (c :: lc).
Definition agree (a b : list nat) : Prop := forall j v w, nth_error a j = Some v -> nth_error b j = Some w -> v = w.
Fixpoint chain (p : list nat) (l : list (list nat)) : Prop := match l with [] => True | a :: r => agree p a /\ chain a r end.

Lemma agree_short p q v : agree p q -> length q <= length p -> agree (p ++ [v]) q.
Proof. intros A L j x y X Y. apply (A j); [|exact Y]. rewrite nth_error_app1 in X; [exact X|]. assert (j < length q) by (apply nth_error_Some; congruence). lia. Qed.
Lemma agree_short_r p q v : agree p q -> length p <= length q -> agree p (q ++ [v]).
Proof. intros A L j x y X Y. apply (A j); [exact X|]. rewrite nth_error_app1 in Y; [exact Y|]. assert (j < length p) by (apply nth_error_Some; congruence). lia. Qed.
Lemma agree_both p q v : agree p q -> length p = length q -> agree (p ++ [v]) (q ++ [v]).
Proof.
  intros A L j x y X Y. destruct (Nat.lt_ge_cases j (length p)) as [H|H].
  - rewrite nth_error_app1 in X by exact H. rewrite nth_error_app1 in Y by lia. now apply (A j).
  - rewrite nth_error_app2 in X by exact H. rewrite nth_error_app2 in Y by lia. rewrite L in X. congruence.
Qed.

Lemma stands_extend j r ws out c d rest bw : stands j r ws (out, c :: d :: rest) -> runes c + 3 <= bw ->
  length ws = j /\ stands (S j) r (ws ++ [bw]) (out ++ padded runes c bw, d :: rest).
Proof.
  intros (done & E & L & M & F & O) W. cbn [fst snd] in *. assert (J : length ws = j) by (rewrite E, app_length in M; cbn [length] in M; lia).
  split; [exact J|]. exists (done ++ [c]). cbn [fst snd]. split; [rewrite <- app_assoc; exact E|]. split; [rewrite !app_length; cbn; lia|].
  split; [rewrite E, !app_length; cbn [length]; lia|]. split.
  - intros i x w X Y. destruct (Nat.lt_ge_cases i (length ws)) as [H|H].
    + rewrite nth_error_app1 in Y by exact H. now apply (F i).
    + rewrite nth_error_app2 in Y by exact H. destruct (i - length ws) as [|k] eqn:K; [|destruct k; discriminate]. cbn in Y. injection Y as <-.
      assert (i = length done) by lia. subst i. rewrite E, nth_error_app2 in X by lia. rewrite Nat.sub_diag in X. cbn in X. now injection X as <-.
  - rewrite O. assert (CB : forall (a : list bytes) (b : list nat) x y, length b = length a -> combine (a ++ [x]) (b ++ [y]) = combine a b ++ [(x, y)]).
    { induction a as [|u a IH]; intros [|z b] x y H; cbn in *; try lia; [reflexivity|]. rewrite IH by lia. reflexivity. }
    rewrite CB by exact L. rewrite map_app, concat_app. cbn [map concat fst snd]. now rewrite app_nil_r.
Qed.
Lemma stands_stay j r ws m : stands j r ws m -> length (snd m) <= 1 -> stands (S j) r ws m.
Proof.
  intros (done & E & L & M & F & O) S. exists done. split; [exact E|]. split; [exact L|]. split; [|auto]. rewrite E, app_length in *. lia.
Qed.
Lemma stands_le j r ws m : stands j r ws m -> length ws <= j.
Proof. intros (done & _ & _ & M & _). lia. Qed.

Lemma step j : forall t wss ls, all3 (stands j) t wss ls -> forall w, (forall v, w = Some v -> block_width runes ls <= v) ->
  exists wss', all3 (stands (S j)) t wss' (next w ls)
  /\ forall p p', chain p wss -> match w with Some v => p' = p ++ [v] /\ length p = j | None => p' = p /\ length p <= j end -> chain p' wss'.
Proof.
  intros t wss ls H. induction H as [|r ws m t wss ls Hm H IH]; intros w Hw; [exists []; split; [constructor|now intros]|].
  destruct m as [out [|c [|d rest]]].
  - destruct (IH None) as (wss' & A & C); [discriminate|]. exists (ws :: wss'). split; [cbn [next_column]; constructor; [apply stands_stay; [exact Hm|cbn; lia]|exact A]|].
    intros p p' [P1 P2] Q. pose proof (stands_le _ _ _ _ Hm) as LE. cbn [chain]. split.
    + destruct w as [v|]; destruct Q as [-> Q]; [apply agree_short; [exact P1|lia]|exact P1].
    + eapply C; [exact P2|]. split; [reflexivity|exact LE].
  - destruct (IH None) as (wss' & A & C); [discriminate|]. exists (ws :: wss'). split; [cbn [next_column]; constructor; [apply stands_stay; [exact Hm|cbn; lia]|exact A]|].
    intros p p' [P1 P2] Q. pose proof (stands_le _ _ _ _ Hm) as LE. cbn [chain]. split.
    + destruct w as [v|]; destruct Q as [-> Q]; [apply agree_short; [exact P1|lia]|exact P1].
    + eapply C; [exact P2|]. split; [reflexivity|exact LE].
  - cbn [next_column]. set (bw := match w with Some v => v | None => block_width runes ((out, c :: d :: rest) :: ls) end).
    assert (BW : Nat.max (runes c + 3) (block_width runes ls) <= bw).
    { unfold bw. destruct w as [v|]; [exact (Hw v eq_refl)|apply le_n]. }
    destruct (IH (Some bw)) as (wss' & A & C); [intros v [= <-]; lia|].
    destruct (stands_extend j r ws out c d rest bw Hm) as [LJ SE]; [lia|].
    exists ((ws ++ [bw]) :: wss'). split; [constructor; assumption|].
    intros p p' [P1 P2] Q. cbn [chain]. split.
    + destruct w as [v|]; destruct Q as [-> Q].
      * change bw with v. apply agree_both; [exact P1|lia].
      * apply agree_short_r; [exact P1|lia].
    + eapply C; [exact P2|]. split; [reflexivity|exact LJ].
Qed.

Lemma columns_stand n : forall j t wss ls, all3 (stands j) t wss ls -> chain [] wss ->
  exists wss', all3 (stands (n + j)) t wss' (columns runes n ls) /\ chain [] wss'.
Proof.
  induction n as [|n IH]; intros j t wss ls H C; [exists wss; auto|]. cbn [columns].
  destruct (step j t wss ls H None) as (wss' & A & D); [discriminate|].
  destruct (IH (S j) t wss' (next None ls) A) as (w2 & A2 & C2); [eapply D; [exact C|split; [reflexivity|cbn; lia]]|].
  exists w2. split; [|exact C2]. replace (S n + j) with (n + S j) by lia. exact A2.
Qed.

Lemma stands_filled j r ws m : stands j r ws m -> r <> [] -> length r <= S j ->
  fits runes r ws /\ fst m ++ concat (snd m) = filled runes ws r.
Proof.
  intros (done & E & L & M & F & O) N J.
  assert (LR : length r = S (length ws)). { destruct r; [contradiction|]. cbn [length] in *. lia. }
  split; [split; assumption|]. rewrite O. clear - E L. revert ws L. subst r. induction done as [|c done IH]; intros [|w ws] L; cbn [length] in L; try lia; [reflexivity|].
  cbn [app combine map concat fst snd filled]. rewrite <- !app_assoc. do 2 f_equal. apply IH. lia.
Qed.

Lemma most_cells_le l ls : In l ls -> length l <= most_cells ls.
Proof. induction ls as [|x ls IH]; intros I; [destruct I|]. cbn [most_cells fold_right]. fold (most_cells ls). destruct I as [->|I]; [lia|]. specialize (IH I). lia. Qed.

Lemma columns_all t : exists wss, all3 (stands (most_cells t + 0)) t wss (columns runes (most_cells t) (map (fun l => ([], l)) t)) /\ chain [] wss.
Proof.
  apply columns_stand with (wss := map (fun _ => []) t).
  - induction t as [|r t IH]; [constructor|]. cbn [map]. constructor; [|exact IH]. exists []. repeat split; try reflexivity. intros [|i] c w _ X; discriminate X.
  - assert (G : forall p, (forall j, nth_error p j = None) -> chain p (map (fun _ : list bytes => []) t)).
    { induction t as [|r t IH]; intros p Hp; cbn [map chain]; [exact I|]. split; [intros j v w X; now rewrite Hp in X|]. apply IH. now intros [|j]. }
    apply G. now intros [|j].
Qed.
Lemma columns_done t q : In q (columns runes (most_cells t) (map (fun l => ([], l)) t)) -> length (snd q) <= 1.
Proof.
  destruct (columns_all t) as (wss & A & _). pose proof (fun r => most_cells_le r t) as ML.
  remember (columns runes (most_cells t) (map (fun l : list bytes => ([], l)) t)) as ls eqn:El. clear El. remember (most_cells t) as K eqn:EK. clear EK. intro I.
  induction A as [|r ws y t wss ls Hy A IH]; [destruct I|]. destruct I as [<-|I]; [|apply IH; auto; intros; apply ML; now right].
  destruct Hy as (done & E & L1 & L2 & _). assert (length r <= K) by (apply ML; now left). rewrite E, app_length in *. lia.
Qed.

(** All of what the tab writer makes of lines of cells. *)
Lemma laid_out_spec t : (forall r, In r t -> r <> []) -> exists wss, Forall2 (fits runes) t wss /\ chain [] wss
  /\ Forall2 (fun rw l => l = filled runes (snd rw) (fst rw)) (combine t wss) (laid_out runes t).
Proof.
  intro N. destruct (columns_all t) as (wss & A & C). revert A C. intros A C.
  exists wss. assert (LE : forall r, In r t -> length r <= S (most_cells t + 0)) by (intros r I; pose proof (most_cells_le r t I); lia).
    unfold laid_out. remember (most_cells t + 0) as k eqn:Ek. clear Ek. revert C. generalize (@nil nat) as p.
    assert (G : Forall2 (fits runes) t wss /\ Forall2 (fun rw l => l = filled runes (snd rw) (fst rw)) (combine t wss) (map (fun l => fst l ++ concat (snd l)) (columns runes (most_cells t) (map (fun l => ([], l)) t)))).
    { remember (columns runes (most_cells t) (map (fun l : list bytes => ([], l)) t)) as ls eqn:Els. clear Els.
      induction A as [|r ws m t wss ls Hm A IH]; [split; constructor|]. destruct (stands_filled k r ws m Hm) as [F E]; [apply N; now left|apply LE; now left|].
      destruct IH as [I1 I2]; [intros; apply N; now right|intros; apply LE; now right|]. split; [constructor; assumption|]. cbn [combine map]. constructor; assumption. }
    intros p C. destruct G. auto.
Qed.
End W.
