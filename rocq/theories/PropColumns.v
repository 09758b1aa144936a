(** C76: tables and menus show every entry on a line of its own. *)
From Coq Require Import Init.Byte.
From Verif Require Import Prelude PreludeFacts Requirements Tools Crypto Letter Session Core Envelope Signets TrustStore Wizard SpecWizard PropManage Columns SpecColumns ColumnsFacts SessionProps.

Section T.
Variable runes : bytes -> nat.

Definition ends_well (l : bytes) : Prop := clean (fun b => byte_eqb b x0a) l /\ clean (fun b => byte_eqb b x0d) l.
Lemma drop_cr_clean l : clean (fun b => byte_eqb b x0d) l -> drop_cr l = l.
Proof.
  intro C. unfold drop_cr. destruct (rev l) as [|b r] eqn:E; [reflexivity|]. assert (I : In b l) by (apply in_rev; rewrite E; now left).
  specialize (C b I). cbn beta in C. destruct b; try reflexivity. discriminate C.
Qed.
Lemma scanned_join ls : ls <> [] -> last ls [] <> [] -> (forall l, In l ls -> ends_well l /\ (N.of_nat (length l) < 65536)%N) -> scanned (join x0a ls) = ls.
Proof.
  intros N L H. unfold scanned. rewrite (split_join (fun b => byte_eqb b x0a) x0a ls N); [|intros l I; now apply H|reflexivity].
  destruct (existsb too_long ls) eqn:E.
  - apply existsb_exists in E as (l & I & T). unfold too_long in T. apply N.leb_le in T. destruct (H l I) as [_ X]. lia.
  - assert (D : drop_last_empty ls = ls).
    { clear H E N. induction ls as [|l ls IH]; [reflexivity|]. destruct ls as [|m ls].
      - cbn in *. destruct l; [contradiction|reflexivity].
      - assert (G : drop_last_empty (l :: m :: ls) = l :: drop_last_empty (m :: ls)) by (destruct l; reflexivity). rewrite G, IH; [reflexivity|exact L]. }
    rewrite D. rewrite <- (map_id ls) at 2. apply map_ext_in. intros l I. apply drop_cr_clean, H, I.
Qed.

Lemma clean_app p a b : clean p a -> clean p b -> clean p (a ++ b).
Proof. intros A B x I. apply in_app_or in I as [I|I]; auto. Qed.
Lemma clean_blank p n : p x20 = false -> clean p (repeat x20 n).
Proof. intros H b I. apply repeat_spec in I. now subst. Qed.
Lemma filled_clean p ws r : (forall c, In c r -> clean p c) -> p x20 = false -> clean p (filled runes ws r).
Proof.
  intros C S. revert ws. induction r as [|c r IH]; intro ws.
  - destruct ws; intros b I; destruct I.
  - destruct ws as [|w ws]; cbn [filled].
    + intros b I. apply in_concat in I as (x & X & I). exact (C x X b I).
    + apply clean_app; [apply C; now left|]. apply clean_app; [now apply clean_blank|]. apply IH. intros; apply C. now right.
Qed.
Lemma plain_ends c : plain_text c -> ends_well c.
Proof. intro P. split; intros b I; apply byte_eqb_neq; intros ->; apply (P _ I); cbn; tauto. Qed.

(** Widths never exceed the longest cell by more than the padding, or the minimal width. *)
Variable m : nat.
Hypothesis rune_bytes : forall c, runes c <= length c.
Definition short_making (l : making) : Prop := forall c, In c (snd l) -> length c <= m.
Lemma block_width_le ls : Forall short_making ls -> block_width runes ls <= m + 8.
Proof.
  induction 1 as [|l ls H _ IH]; cbn [block_width]; [lia|]. destruct l as [out [|c [|d r]]]; try lia.
  assert (length c <= m) by (apply H; now left). specialize (rune_bytes c). lia.
Qed.
Definition bounded (n : nat) (l : making) : Prop := short_making l /\ length (fst l) <= n * (2 * m + 8).
Lemma next_bounded n ls : Forall (bounded n) ls -> forall w, (forall v, w = Some v -> v <= m + 8) -> Forall (bounded (S n)) (next_column runes w ls).
Proof.
  induction 1 as [|l ls [H1 H2] H IH]; intros w Hw; [constructor|].
  assert (Stay : bounded (S n) l) by (split; [exact H1|lia]).
  destruct l as [out [|c [|d r]]]; [constructor; [exact Stay|apply IH; discriminate]..|].
  cbn [next_column]. set (bw := match w with Some v => v | None => _ end).
  assert (BW : bw <= m + 8). { unfold bw. destruct w as [v|]; [now apply Hw|]. apply block_width_le. constructor; [exact H1|]. eapply Forall_impl; [|exact H]. now intros l [L _]. }
  constructor; [|apply IH; intros v [= <-]; exact BW]. split; [intros x I; apply H1; cbn [snd] in *; now right|].
  cbn [fst snd] in *. unfold padded, spaces. rewrite !app_length, repeat_length. assert (length c <= m) by (apply H1; now left). lia.
Qed.
Lemma columns_bounded k n ls : Forall (bounded n) ls -> Forall (bounded (k + n)) (columns runes k ls).
Proof.
  revert n ls. induction k as [|k IH]; intros n ls H; [exact H|]. cbn [columns]. replace (S k + n) with (k + S n) by lia.
  apply IH, next_bounded; [exact H|discriminate].
Qed.
End T.

Lemma chain_aligned p wss : chain p wss -> aligned wss.
Proof.
  revert p. induction wss as [|a wss IH]; intros p C; [intros [|i] x y j v w X; discriminate X|]. destruct C as [_ C].
  intros [|i] x y j v w X Y V W; [|exact (IH a C i x y j v w X Y V W)]. cbn in X. injection X as <-.
  destruct wss as [|b wss]; [discriminate|]. cbn in Y. injection Y as <-. destruct C as [A _]. exact (A j v w V W).
Qed.

Lemma Forall2_len {A B} (P : A -> B -> Prop) l q : Forall2 P l q -> length l = length q.
Proof. induction 1; cbn; congruence. Qed.
Lemma last_Forall2 {A B} (P : A -> B -> Prop) l q d e : Forall2 P l q -> l <> [] -> P (last l d) (last q e).
Proof.
  induction 1 as [|x y l q H F IH]; intro N; [contradiction|]. destruct F as [|x' y' l' q' H' F]; [exact H|]. apply IH. discriminate.
Qed.

(** Every row is one line, in order; its cells follow each other with at least three spaces between, and consecutive rows have
    their common columns in the same places. *)
Theorem C76_one_line_per_row : forall runes m k t,
  (forall c, runes c <= length c) -> t <> [] -> plain_table t -> small_table m k t ->
  exists s wss, shown_table t s /\ Forall2 (fits runes) s wss /\ aligned wss
  /\ Forall2 (fun rw l => l = filled runes (snd rw) (fst rw)) (combine s wss) (format_columns runes t)
  /\ length (format_columns runes t) = length t.
Proof.
  intros runes m k t RB N [P L] [SM SZ].
  assert (NE : forall r, In r t -> r <> []) by (intros r I; now apply P).
  pose proof (flush_shown t N NE) as SH. remember (flush_last t) as s eqn:SE.
  assert (SUB : forall r, In r s -> r <> [] /\ length r <= k /\ forall c, In c r -> plain_text c /\ length c <= m).
  { destruct SH as (u & x & E & [[A B]|[A B]]); rewrite B.
    - intros r I. split; [now apply NE|]. split; [now apply SM|]. intros c J. split; [now apply (P r)|now apply (SM r)].
    - intros r I. apply in_app_or in I as [I|[<-|[]]].
      + assert (In r t) by (rewrite E; apply in_or_app; now left). split; [now apply NE|]. split; [now apply SM|]. intros c J. split; [now apply (P r)|now apply (SM r)].
      + assert (I : In x t) by (rewrite E; apply in_or_app; right; now left).
        destruct (@exists_last _ x (NE x I)) as (y & z & Ex). rewrite Ex in *. rewrite removelast_last. rewrite last_last in A. subst z.
        rewrite E, last_last in L. split; [intros ->; now apply L|]. destruct (SM _ I) as [LK LC]. rewrite app_length in LK. cbn in LK. split; [lia|].
        intros c J. assert (In c (y ++ [[]])) by (apply in_or_app; now left). split; [now apply (P (y ++ [[]]))|now apply LC]. }
  assert (HL : s <> [] /\ hd [] (last s [[]]) <> []).
  { destruct SH as (u & x & E & [[A B]|[A B]]); rewrite B; [split; assumption|]. split; [destruct u; discriminate|]. rewrite last_last. rewrite E, last_last in L.
    assert (I : In x t) by (rewrite E; apply in_or_app; right; now left). destruct (@exists_last _ x (NE x I)) as (y & z & Ex). rewrite Ex in *. rewrite last_last in A. subst z. rewrite removelast_last.
    destruct y; [contradiction|exact L]. }
  destruct (laid_out_spec runes s) as (wss & F & C & O); [intros r I; now apply SUB|].
  assert (FL : forall l, In l (laid_out runes s) -> ends_well l /\ (N.of_nat (length l) < 65536)%N).
  { intros l I. split.
    - destruct (Forall2_In_r _ _ _ _ O I) as ([r ws] & J & ->). apply in_combine_l in J. destruct (SUB r J) as (_ & _ & SC).
      split; apply filled_clean; try reflexivity; intros c X; now apply plain_ends, SC.
    - apply in_map_iff in I as (q & <- & I).
      assert (BD : Forall (bounded m (most_cells s + 0)) (columns runes (most_cells s) (map (fun l => ([], l)) s))).
      { apply columns_bounded; [exact RB|]. apply Forall_forall. intros y Y. apply in_map_iff in Y as (r & <- & Y). split; [intros c X; now apply (SUB r Y)|cbn; lia]. }
      assert (MC : most_cells s <= k).
      { clear - SUB. induction s as [|r s IH]; [cbn; lia|]. change (most_cells (r :: s)) with (Nat.max (length r) (most_cells s)). assert (length r <= k) by (apply SUB; now left). assert (most_cells s <= k) by (apply IH; intros; apply SUB; now right). lia. }
      rewrite Forall_forall in BD. destruct (BD q I) as [B1 B2]. rewrite app_length. assert (I1 : length (snd q) <= 1) by exact (columns_done runes s q I). destruct q as [qo qr]. unfold short_making in B1. cbn [fst snd] in *.
      assert (LR : length (concat qr) <= m).
      { destruct qr as [|c [|d r]]; [apply Nat.le_0_l| |exfalso; cbn [length] in I1; lia]. cbn [concat]. rewrite app_nil_r. apply B1. now left. }
      assert (X : length qo + length (concat qr) <= S k * (2 * m + 8)) by nia. lia. }
  assert (FE : format_columns runes t = laid_out runes s).
  { unfold format_columns, tabwritten. rewrite table_lines; [|exact N|exact P]. rewrite <- SE. apply (scanned_join runes); [| |exact FL].
    - intro E. rewrite E in O. assert (Z : combine s wss = []) by (inversion O; reflexivity). destruct HL as [HL _]. destruct F; [contradiction|discriminate].
    - assert (Z : combine s wss <> []) by (destruct HL as [HL _]; destruct F; [contradiction|discriminate]).
      pose proof (last_Forall2 _ _ _ ([], []) [] O Z) as LL. cbn beta in LL. rewrite LL. clear LL.
      assert (Y : fst (last (combine s wss) ([], [])) = last s [[]]).
      { clear - F HL. destruct HL as [HL _]. revert HL. induction F as [|r w s' wss' H F IH]; intro HL; [contradiction|]. destruct F as [|r2 w2 s2 wss2 H2 F]; [reflexivity|]. apply IH. discriminate. }
      rewrite Y. destruct HL as [_ HL]. destruct (last s [[]]) as [|c r]; [now elim HL|]. cbn [hd] in HL. destruct c as [|b c]; [now elim HL|].
      destruct (snd _); discriminate. }
  exists s, wss. split; [exact SH|]. split; [exact F|]. split; [exact (chain_aligned [] wss C)|]. rewrite FE. split; [exact O|].
  apply Forall2_len in O. rewrite <- O, combine_length. apply Forall2_len in F. rewrite <- F, Nat.min_id.
  destruct SH as (u & x & E & [[_ B]|[_ B]]); rewrite B; [reflexivity|]. now rewrite E, !app_length.
Qed.
Print Assumptions C76_one_line_per_row.

(** ** What is read off a line *)
Lemma filled_row runes r ws : fits runes r ws -> exists cells, filled runes ws r = row cells (last r []) /\ map fst cells = removelast r.
Proof.
  intros [L F]. revert ws L F. induction r as [|c r IH]; intros ws L F; [discriminate|]. destruct ws as [|w ws].
  - destruct r; [|discriminate]. exists []. cbn. now rewrite app_nil_r.
  - destruct r as [|d r]; [discriminate|]. destruct (IH ws) as (cells & E & M).
    + cbn [length] in *. lia.
    + intros j x v X V. exact (F (S j) x v X V).
    + exists ((c, w - runes c - 3) :: cells). split.
      * change (filled runes (w :: ws) (c :: d :: r)) with (c ++ repeat x20 (w - runes c) ++ filled runes ws (d :: r)). rewrite E.
        change (last (c :: d :: r) []) with (last (d :: r) []). cbn [row]. unfold spaces.
        replace (w - runes c) with (3 + (w - runes c - 3)) at 1; [reflexivity|]. specialize (F 0 c w eq_refl eq_refl). lia.
      * change (removelast (c :: d :: r)) with (c :: removelast (d :: r)). cbn [map fst]. now rewrite M.
Qed.
Lemma combine_nth {A B} (l : list A) (q : list B) i x y : nth_error l i = Some x -> nth_error q i = Some y -> nth_error (combine l q) i = Some (x, y).
Proof. revert q i. induction l as [|a l IH]; intros [|b q] [|i] X Y; cbn in *; try discriminate; [congruence|]. now apply IH. Qed.
Lemma Forall2_nth_l {A B} (P : A -> B -> Prop) l q i x : Forall2 P l q -> nth_error l i = Some x -> exists y, nth_error q i = Some y /\ P x y.
Proof. intro F. revert i. induction F as [|a b l q H F IH]; intros [|i] X; cbn in *; try discriminate; [injection X as <-; eauto|]. now apply IH. Qed.

(** The line of a row, unless it is the last row and ends in an empty cell. *)
Theorem C76_line_of_row : forall runes m k t i r,
  (forall c, runes c <= length c) -> plain_table t -> small_table m k t ->
  nth_error t i = Some r -> i < pred (length t) \/ last r [] <> [] ->
  exists cells, nth_error (format_columns runes t) i = Some (row cells (last r [])) /\ map fst cells = removelast r.
Proof.
  intros runes m k t i r RB P SM I J. assert (N : t <> []) by (intros ->; destruct i; discriminate).
  destruct (C76_one_line_per_row runes m k t RB N P SM) as (s & wss & (u & x & E & SH) & F & _ & O & _).
  assert (X : nth_error s i = Some r).
  { destruct SH as [[_ ->]|[A ->]]; [exact I|]. rewrite E in I, J. rewrite app_length in J. cbn [length] in J.
    destruct (Nat.lt_ge_cases i (length u)) as [L|L]; [rewrite nth_error_app1 in I |- * by exact L; exact I|].
    rewrite nth_error_app2 in I by exact L. destruct (i - length u) as [|z] eqn:Z; [|destruct z; discriminate]. cbn in I. injection I as <-. destruct J as [J|J]; [lia|contradiction]. }
  destruct (Forall2_nth_l _ _ _ _ _ F X) as (ws & W & FT).
  destruct (Forall2_nth_l _ _ _ _ _ O (combine_nth _ _ _ _ _ X W)) as (l & L & ->). cbn [fst snd] in L.
  destruct (filled_row _ _ _ FT) as (cells & C & M). exists cells. rewrite L, C. auto.
Qed.
Print Assumptions C76_line_of_row.

(** ** The menu of signets: whatever entry is chosen, it is the one that is shown. *)
Lemma prefix_step a t b p : has_prefix (a :: t) (b :: p) = true -> a = b /\ has_prefix t p = true.
Proof. cbn [has_prefix]. intro E. apply andb_true_iff in E as [E F]. apply byte_eqb_eq in E. auto. Qed.
Lemma done_prefix n k cells last : plain_text n -> n <> lit "Done" -> ~ starts (lit "Done ") n -> n <> [] ->
  has_prefix (row ((n, k) :: cells) last) (lit "Done ") = false.
Proof.
  intros _ ND NS NE. destruct (has_prefix _ _) eqn:E; [|reflexivity]. exfalso. cbn [row] in E. change (spaces (3 + k)) with (x20 :: spaces (2 + k)) in E.
  generalize dependent (spaces (2 + k)). intros sp E. change (lit "Done ") with [x44; x6f; x6e; x65; x20] in *. change (lit "Done") with [x44; x6f; x6e; x65] in ND.
  destruct n as [|a [|b [|d [|x [|y n]]]]]; [contradiction|..]; cbn [app] in E.
  1, 2, 3: repeat (apply prefix_step in E as [? E]); discriminate.
  - repeat (apply prefix_step in E as [? E]). subst. now apply ND.
  - repeat (apply prefix_step in E as [? E]). subst. apply NS. now exists n.
Qed.
Theorem C76_chosen_is_shown : forall runes reg level m k all i d,
  (forall c, runes c <= length c) ->
  (forall e c, In e all -> In c (signet_cells reg level e) -> plain_text c) -> small_table m k ([lit "Done"] :: map (signet_cells reg level) all) ->
  nth_error all i = Some d -> first_with_id all d -> one_word (d_id d) ->
  name_cell d <> lit "Done" -> ~ starts (lit "Done ") (name_cell d) ->
  exists line n kind scheme purp k1 k2 k3 k4 k5, nth_error (signet_menu runes reg level (lit "Done") all) (S i) = Some line /\ pick_one all (lit "Done") line = Ok (Some d)
  /\ line = row [(n, k1); (kind, k2); (scheme, k3); (purp, k4); (level d, k5)] (d_id d) /\ shown_name d n /\ shown_kind d kind
  /\ (scheme = d_scheme d \/ (scheme = [] /\ In (d_scheme d) [lit "key"; lit "pw"])).
Proof.
  intros runes reg level m k all i d RB P SM I F W ND NS.
  assert (NN : forall e, name_cell e <> []).
  { intro e. unfold name_cell. destruct (d_info e) as [n|]; [destruct (in_name n) eqn:E1; cbn [nonempty]|]; try discriminate; destruct (d_id e) eqn:E2; discriminate. }
  assert (PT : plain_table ([lit "Done"] :: map (signet_cells reg level) all)).
  { split.
    - intros r [<-|J].
      + split; [discriminate|]. intros c [<-|[]] b B. cbn in B. repeat (destruct B as [<-|B]; [cbn; intuition discriminate|]). destruct B.
      + apply in_map_iff in J as (e & <- & J). split; [discriminate|]. intros c C. exact (P e c J C).
    - destruct all as [|e all] using rev_ind; [discriminate|]. rewrite map_app. change ([lit "Done"] :: map (signet_cells reg level) all ++ map (signet_cells reg level) [e])
        with (([lit "Done"] :: map (signet_cells reg level) all) ++ [signet_cells reg level e]). rewrite last_last. cbn [signet_cells hd]. apply NN. }
  destruct (C76_line_of_row runes m k _ (S i) (signet_cells reg level d) RB PT SM) as (cells & L & M).
  - cbn [nth_error]. now apply map_nth_error.
  - right. cbn. apply W.
  - change (last (signet_cells reg level d) []) with (d_id d) in L. change (removelast (signet_cells reg level d)) with [name_cell d; type_cell d; scheme_cell d; signet_purpose_cell reg d; level d] in M.
    destruct cells as [|[n k1] [|[kd k2] [|[sc k3] [|[pu k4] [|[le k5] [|c6 cells]]]]]]; try discriminate M. cbn [map fst] in M. injection M as -> -> -> -> ->.
    exists (row [(name_cell d, k1); (type_cell d, k2); (scheme_cell d, k3); (signet_purpose_cell reg d, k4); (level d, k5)] (d_id d)), (name_cell d), (type_cell d), (scheme_cell d), (signet_purpose_cell reg d), k1, k2, k3, k4, k5.
    split; [exact L|]. split.
    { apply pick_row; [exact F|exact W|]. apply done_prefix; [|exact ND|exact NS|apply NN]. apply (P d); [eapply nth_error_In; eassumption|now left]. }
    split; [reflexivity|]. split; [|split].
    + split; [apply NN|]. unfold name_cell. destruct (d_info d) as [x|] eqn:E.
      * destruct (in_name x) as [|b bs] eqn:E2; cbn [nonempty]; [|left; now exists x]. right. split; [intros y [= <-]; exact E2|]. destruct (d_id d); cbn [nonempty]; [now right|now left].
      * right. split; [discriminate|]. destruct (d_id d); cbn [nonempty]; [now right|now left].
    + unfold type_cell, shown_kind. destruct (bytes_eqb (d_scheme d) (lit "key")) eqn:E1; [apply bytes_eqb_eq in E1; now left|]. apply bytes_eqb_neq in E1.
      destruct (bytes_eqb (d_scheme d) (lit "pw")) eqn:E2; [apply bytes_eqb_eq in E2; now right; left|]. apply bytes_eqb_neq in E2. right. right. split; [exact E1|]. split; [exact E2|].
      destruct (d_public d); [now left|now right].
    + unfold scheme_cell, keyed_scheme. destruct (bytes_eqb (d_scheme d) (lit "key")) eqn:E1; [apply bytes_eqb_eq in E1; right; split; [reflexivity|left; now symmetry]|].
      destruct (bytes_eqb (d_scheme d) (lit "pw")) eqn:E2; [apply bytes_eqb_eq in E2; right; split; [reflexivity|right; left; now symmetry]|]. now left.
Qed.
Print Assumptions C76_chosen_is_shown.

(** ** jess list: every suite, tool and hash tool has a line, which begins with its name. *)
Lemma filled_first runes c d r ws : fits runes (c :: d :: r) ws -> exists x, filled runes ws (c :: d :: r) = c ++ x20 :: x.
Proof.
  intros [L F]. destruct ws as [|w ws]; [discriminate|]. specialize (F 0 c w eq_refl eq_refl). cbn [filled].
  destruct (w - runes c) as [|z] eqn:Z; [lia|]. cbn [repeat app]. eauto.
Qed.
Theorem C76_lines_begin_with_names : forall runes m k t,
  (forall c, runes c <= length c) -> t <> [] -> plain_table t -> small_table m k t ->
  (forall r, In r t -> 3 <= length r /\ one_word (hd [] r)) ->
  named_lines fields (map (hd []) t) (format_columns runes t).
Proof.
  intros runes m k t RB N P SM H. destruct (C76_one_line_per_row runes m k t RB N P SM) as (s & wss & SH & F & _ & O & _).
  assert (HD : map (hd []) s = map (hd []) t /\ forall r, In r s -> 2 <= length r /\ one_word (hd [] r)).
  { destruct SH as (u & x & E & [[A B]|[A B]]); rewrite B.
    - split; [reflexivity|]. intros r I. destruct (H r I). split; [lia|assumption].
    - assert (I : In x t) by (rewrite E; apply in_or_app; right; now left). destruct (H x I) as [L W].
      destruct x as [|a [|b [|d x]]]; cbn [length] in L; try lia. rewrite E, !map_app. split; [reflexivity|].
      intros r J. apply in_app_or in J as [J|[<-|[]]].
      + destruct (H r) as [L2 W2]; [rewrite E; apply in_or_app; now left|]. split; [lia|assumption].
      + change (removelast (a :: b :: d :: x)) with (a :: b :: removelast (d :: x)). split; [cbn; lia|exact W]. }
  destruct HD as [HD HS]. rewrite <- HD. clear SH HD H N P SM. remember (format_columns runes t) as ls eqn:LE. clear LE. unfold named_lines.
  revert ls O. induction F as [|r ws s wss H F IH]; intros ls O; cbn [combine map] in *; inversion O as [|q l z ls' E O']; subst; constructor.
  - destruct (HS r (or_introl eq_refl)) as [L W]. destruct r as [|c [|d r]]; cbn [length] in L; try lia. cbn [fst snd].
    destruct (filled_first _ _ _ _ _ H) as [x ->]. cbn [hd] in *. now rewrite fields_cut, (fields_word _ W).
  - apply IH; [|exact O']. intros; apply HS. now right.
Qed.
Print Assumptions C76_lines_begin_with_names.

Definition plain_b (c : bytes) : bool := forallb (fun b => negb (existsb (byte_eqb b) [x09; x0a; x0b; x0c; x0d; xff])) c.
Lemma plain_b_ok c : plain_b c = true -> plain_text c.
Proof.
  intros H b I J. unfold plain_b in H. rewrite forallb_forall in H. specialize (H b I). apply negb_true_iff in H.
  assert (X : existsb (byte_eqb b) [x09; x0a; x0b; x0c; x0d; xff] = true) by (apply existsb_exists; exists b; split; [exact J|now apply byte_eqb_eq]). congruence.
Qed.
Definition visible (b : byte) : bool := (33 <=? b2n b)%N && (b2n b <=? 126)%N.
Definition word_b (c : bytes) : bool := nonempty c && forallb visible c.
Lemma word_b_ok c : word_b c = true -> one_word c.
Proof.
  intro H. apply andb_true_iff in H as [N V]. split; [intros ->; discriminate|]. intros p a b I ->. rewrite forallb_forall in V.
  assert (X : forallb (fun p => existsb (fun b => negb (visible b)) p) Text.space_runes = true) by (vm_compute; reflexivity).
  rewrite forallb_forall in X. specialize (X p I). apply existsb_exists in X as (y & Y & Z). apply negb_true_iff in Z.
  rewrite V in Z; [discriminate|]. apply in_or_app. right. apply in_or_app. now left.
Qed.
Definition cells_b (n : nat) (cells : list bytes) : bool := forallb (fun c => plain_b c && (length c <=? n)) cells.
Lemma cells_b_ok n cells : cells_b n cells = true -> forall c, In c cells -> plain_text c /\ length c <= n.
Proof. intros H c I. unfold cells_b in H. rewrite forallb_forall in H. specialize (H c I). apply andb_true_iff in H as [P L]. split; [now apply plain_b_ok|now apply Nat.leb_le]. Qed.

Lemma table_of (runes : bytes -> nat) (m : nat) (header : list bytes) (rows : list (list bytes)) :
  (forall c, runes c <= length c) -> (6 * (2 * N.of_nat m + 8) < 65536)%N ->
  (forall r, In r (header :: rows) -> 3 <= length r <= 5 /\ one_word (hd [] r) /\ forall c, In c r -> plain_text c /\ length c <= m) ->
  named_lines fields (map (hd []) (header :: rows)) (format_columns runes (header :: rows)).
Proof.
  intros RB SZ H. apply (C76_lines_begin_with_names runes m 5); [exact RB|discriminate| | |].
  - split.
    + intros r I. destruct (H r I) as (L & _ & C). split; [intros ->; cbn in L; lia|]. intros c J. now apply C.
    + assert (I : In (last (header :: rows) [[]]) (header :: rows)).
      { destruct (@exists_last _ (header :: rows)) as (a & b & E); [discriminate|]. rewrite E, last_last. apply in_or_app. right. now left. }
      destruct (H _ I) as (_ & [W _] & _). exact W.
  - split; [|exact SZ]. intros r I. destruct (H r I) as (L & _ & C). split; [lia|]. intros c J. now apply C.
  - intros r I. destruct (H r I) as (L & W & _). split; [lia|exact W].
Qed.

Definition author_text (who : bytes -> bytes) : Prop := forall n, plain_text (who n) /\ length (who n) <= 500.
Theorem C76_list : forall runes who what suites tools hashes,
  (forall c, runes c <= length c) -> author_text who -> author_text what ->
  incl suites suite_registry -> incl tools tool_registry -> incl hashes hash_registry ->
  exists l1 l2 l3,
  list_command runes who what suites tools hashes =
    concat (map (fun l => l ++ [x0a]) ([lit "Suites"; []] ++ l1 ++ [[]; []; lit "Tools"; []] ++ l2 ++ [[]; []; lit "HashTools"; []] ++ l3))
  /\ named_lines fields (lit "Name/ID" :: map su_id suites) l1
  /\ named_lines fields (lit "Name/ID" :: map t_name tools) l2
  /\ named_lines fields (lit "Name/ID" :: map h_name hashes) l3.
Proof.
  intros runes who what suites tools hashes RB A1 A2 IS IT IH.
  exists (format_columns runes (suites_table suites)), (format_columns runes (tools_table who what tools)), (format_columns runes (hashes_table who what hashes)).
  split.
  { unfold list_command. change println with (fun l : bytes => l ++ [x0a]). rewrite !map_app, !concat_app. cbn [map concat app]. now rewrite <- !app_assoc. }
  unfold suites_table, tools_table, hashes_table. split; [|split].
  - replace (map su_id suites) with (map (hd []) (map suite_cells suites)) by (rewrite map_map; reflexivity).
    refine (table_of runes 500 [lit "Name/ID"; lit "Provides"; lit "Security Level"; lit "Tools"; lit "Notes"] (map suite_cells suites) RB _ _); [vm_compute; reflexivity|]. intros r [<-|I].
    + split; [cbn; lia|]. split; [apply word_b_ok; vm_compute; reflexivity|]. apply cells_b_ok. vm_compute. reflexivity.
    + apply in_map_iff in I as (s & <- & I). apply IS in I. split; [cbn; lia|].
      assert (X : forallb (fun s => word_b (su_id s) && cells_b 500 (suite_cells s)) suite_registry = true) by (vm_compute; reflexivity).
      rewrite forallb_forall in X. specialize (X s I). apply andb_true_iff in X as [X Y]. split; [now apply word_b_ok|now apply cells_b_ok].
  - replace (map t_name tools) with (map (hd []) (map (tool_cells who what) tools)) by (rewrite map_map; reflexivity).
    refine (table_of runes 500 [lit "Name/ID"; lit "Purpose"; lit "Security Level"; lit "Author"; lit "Comment"] (map (tool_cells who what) tools) RB _ _); [vm_compute; reflexivity|]. intros r [<-|I].
    + split; [cbn; lia|]. split; [apply word_b_ok; vm_compute; reflexivity|]. apply cells_b_ok. vm_compute. reflexivity.
    + apply in_map_iff in I as (t & <- & I). apply IT in I. split; [cbn; lia|].
      assert (X : forallb (fun t => word_b (t_name t) && cells_b 500 [t_name t; purpose_cell (t_purpose t); tool_level_cell t]) tool_registry = true) by (vm_compute; reflexivity).
      rewrite forallb_forall in X. specialize (X t I). apply andb_true_iff in X as [X Y]. split; [now apply word_b_ok|].
      intros c J. change (tool_cells who what t) with ([t_name t; purpose_cell (t_purpose t); tool_level_cell t] ++ [who (t_name t); what (t_name t)]) in J.
      apply in_app_or in J as [J|[<-|[<-|[]]]]; [exact (cells_b_ok _ _ Y c J)|apply A1|apply A2].
  - replace (map h_name hashes) with (map (hd []) (map (hash_cells who what) hashes)) by (rewrite map_map; reflexivity).
    refine (table_of runes 500 [lit "Name/ID"; lit "Security Level"; lit "Author"; lit "Comment"] (map (hash_cells who what) hashes) RB _ _); [vm_compute; reflexivity|]. intros r [<-|I].
    + split; [cbn; lia|]. split; [apply word_b_ok; vm_compute; reflexivity|]. apply cells_b_ok. vm_compute. reflexivity.
    + apply in_map_iff in I as (h & <- & I). apply IH in I. split; [cbn; lia|].
      assert (X : forallb (fun h => word_b (h_name h) && cells_b 500 [h_name h; level_cell (h_level h)]) hash_registry = true) by (vm_compute; reflexivity).
      rewrite forallb_forall in X. specialize (X h I). apply andb_true_iff in X as [X Y]. split; [now apply word_b_ok|].
      intros c J. change (hash_cells who what h) with ([h_name h; level_cell (h_level h)] ++ [who (h_name h); what (h_name h)]) in J.
      apply in_app_or in J as [J|[<-|[<-|[]]]]; [exact (cells_b_ok _ _ Y c J)|apply A1|apply A2].
Qed.
Print Assumptions C76_list.

(** The security level in a table reads as the level. *)
Lemma digits_reads f : forall n acc, (0 < n)%N -> (n < 10 ^ N.of_nat f)%N ->
  exists ds, digits f n acc = ds ++ acc /\ (forall b, In b ds -> (48 <= b2n b <= 57)%N) /\ fold_left (fun a b => (a * 10 + (b2n b - 48))%N) ds 0%N = n /\ ds <> [] /\ hd x30 ds <> x30.
Proof.
  induction f as [|f IH]; intros n acc P L; [cbn in L; lia|]. cbn [digits].
  assert (MB : (n mod 10 < 10)%N) by (apply N.mod_lt; lia). pose proof (N.div_mod n 10) as DM.
  assert (DB : b2n (n2b (48 + n mod 10)) = (48 + n mod 10)%N) by (rewrite b2n_n2b; apply N.mod_small; lia).
  destruct (n <? 10)%N eqn:E.
  - apply N.ltb_lt in E. exists [n2b (48 + n mod 10)]. rewrite N.mod_small in * by exact E. split; [reflexivity|]. split; [|split; [|split]].
    + intros b [<-|[]]. rewrite DB. lia.
    + cbn [fold_left]. rewrite DB. lia.
    + discriminate.
    + cbn [hd]. intro Q. apply (f_equal b2n) in Q. rewrite DB in Q. change (b2n x30) with 48%N in Q. lia.
  - apply N.ltb_ge in E. destruct (IH (n / 10)%N (n2b (48 + n mod 10) :: acc)) as (ds & D & R & V & N0 & H).
    + apply N.div_str_pos. lia.
    + apply N.div_lt_upper_bound; [lia|]. rewrite Nat2N.inj_succ, N.pow_succ_r' in L. exact L.
    + exists (ds ++ [n2b (48 + n mod 10)]). split; [rewrite D, <- app_assoc; reflexivity|]. split; [|split; [|split]].
      * intros b I. apply in_app_or in I as [I|[<-|[]]]; [now apply R|]. rewrite DB. lia.
      * rewrite fold_left_app, V. cbn [fold_left]. rewrite DB. lia.
      * destruct ds; discriminate.
      * destruct ds as [|d ds]; [contradiction|exact H].
Qed.
Theorem C76_level_cell : forall l, (0 <= l < 2 ^ 63)%Z -> exists ds, level_cell l = ds ++ lit " b/s" /\ reads_as ds (Z.to_N l).
Proof.
  intros l R. exists (decimal l). split; [reflexivity|]. unfold decimal. destruct (Z.eq_dec l 0) as [->|N0].
  - change (digits 20 (Z.to_N 0) []) with [x30]. split; [intros b [<-|[]]; vm_compute; split; intro Q; discriminate Q|]. split; [reflexivity|]. split; [discriminate|reflexivity].
  - destruct (digits_reads 20 (Z.to_N l) []) as (ds & D & A & V & E & H); [lia| |].
    + apply N2Z.inj_lt. rewrite Z2N.id by lia. change (Z.of_N (10 ^ N.of_nat 20)) with 100000000000000000000%Z. change (2 ^ 63)%Z with 9223372036854775808%Z in R. lia.
    + rewrite D, app_nil_r. split; [exact A|]. split; [exact V|]. split; [exact E|]. intro Q. contradiction.
Qed.
Print Assumptions C76_level_cell.

(** ** A name with a line feed, which an imported signet can carry: the menu has a line that reads as an entry of its own,
    and choosing it picks another signet than the one the line shows. *)
Definition menu_signet (id name : bytes) : sdata := mkData 1 id (lit "Ed25519") [] true None (Some (mkInfo name [])) None.
Definition by_bytes (c : bytes) : nat := length c.
Theorem C76_line_feed_refuted : exists reg level own other line,
  In line (signet_menu by_bytes reg level (lit "Done") [own; other]) /\ starts (lit "Backup key") line
  /\ name_cell own <> lit "Backup key" /\ name_cell other = lit "Alice"
  /\ pick_one [own; other] (lit "Done") line = Ok (Some other)
  /\ length (signet_menu by_bytes reg level (lit "Done") [own; other]) = 5.
Proof.
  exists tool_registry, (fun _ => lit "128 b/s"), (menu_signet (lit "id-m") (lit "Mallory" ++ [x0a] ++ lit "Backup key   signet   Ed25519   Signing   128 b/s   id-a" ++ [x0a] ++ lit "X")), (menu_signet (lit "id-a") (lit "Alice")),
    (lit "Backup key   signet   Ed25519   Signing   128 b/s   id-a").
  split.
  - match goal with |- In ?x ?l => assert (E : existsb (bytes_eqb x) l = true) by (vm_compute; reflexivity) end.
    apply existsb_exists in E as (y & I & E). apply bytes_eqb_eq in E. exact (eq_ind_r (fun z => In z _) I E).
  - split; [exists (lit "   signet   Ed25519   Signing   128 b/s   id-a"); vm_compute; reflexivity|]. split; [vm_compute; intro X; discriminate X|].
    split; [vm_compute; reflexivity|]. split; vm_compute; reflexivity.
Qed.
Print Assumptions C76_line_feed_refuted.

(** The hypotheses are met by a menu of three signets, one without a name. *)
Definition menu_all : list sdata :=
  [menu_signet (lit "id-a") (lit "Alice"); mkData 1 (lit "id-p") (lit "pw") [] false None (Some (mkInfo (lit "the old password") [])) None; mkData 1 (lit "id-x") (lit "RSA-OAEP") [] false None None None].
Example C76_hypotheses_met :
  (forall c, by_bytes c <= length c)
  /\ (forall e c, In e menu_all -> In c (signet_cells tool_registry (fun _ => lit "128 b/s") e) -> plain_text c)
  /\ small_table 100 6 ([lit "Done"] :: map (signet_cells tool_registry (fun _ => lit "128 b/s")) menu_all)
  /\ (forall d, In d menu_all -> first_with_id menu_all d /\ one_word (d_id d) /\ name_cell d <> lit "Done" /\ ~ starts (lit "Done ") (name_cell d))
  /\ signet_menu by_bytes tool_registry (fun _ => lit "128 b/s") (lit "Done") menu_all =
     [lit "Done";
      lit "Alice              recipient   Ed25519    Signing            128 b/s   id-a";
      lit "the old password   password                                  128 b/s   id-p";
      lit "id-x               signet      RSA-OAEP   KeyEncapsulation   128 b/s   id-x"]
  /\ pick_one menu_all (lit "Done") (lit "the old password   password                                  128 b/s   id-p") = Ok (nth_error menu_all 1).
Proof.
  split; [intro c; apply le_n|]. split.
  { intros e c I J. assert (X : forallb (fun e => forallb plain_b (signet_cells tool_registry (fun _ => lit "128 b/s") e)) menu_all = true) by (vm_compute; reflexivity).
    rewrite forallb_forall in X. specialize (X e I). rewrite forallb_forall in X. exact (plain_b_ok c (X c J)). }
  split.
  { split; [|vm_compute; reflexivity]. intros r I.
    assert (X : forallb (fun r => (length r <=? 6) && cells_b 100 r) ([lit "Done"] :: map (signet_cells tool_registry (fun _ => lit "128 b/s")) menu_all) = true) by (vm_compute; reflexivity).
    rewrite forallb_forall in X. specialize (X r I). apply andb_true_iff in X as [X Y]. apply Nat.leb_le in X. split; [exact X|]. intros c J. now apply (cells_b_ok 100 r). }
  split; [|split; vm_compute; reflexivity].
  intros d I.
  assert (FI : first_with_id menu_all d).
  { unfold menu_all in I |- *. destruct I as [<-|[<-|[<-|[]]]].
    - exists [], [mkData 1 (lit "id-p") (lit "pw") [] false None (Some (mkInfo (lit "the old password") [])) None; mkData 1 (lit "id-x") (lit "RSA-OAEP") [] false None None None]. split; [reflexivity|constructor].
    - exists [menu_signet (lit "id-a") (lit "Alice")], [mkData 1 (lit "id-x") (lit "RSA-OAEP") [] false None None None]. split; [reflexivity|]. constructor; [vm_compute; intro X; discriminate X|constructor].
    - exists [menu_signet (lit "id-a") (lit "Alice"); mkData 1 (lit "id-p") (lit "pw") [] false None (Some (mkInfo (lit "the old password") [])) None], []. split; [reflexivity|].
      constructor; [vm_compute; intro X; discriminate X|]. constructor; [vm_compute; intro X; discriminate X|constructor]. }
  split; [exact FI|].
  assert (X : forallb (fun d => word_b (d_id d) && negb (bytes_eqb (name_cell d) (lit "Done")) && negb (has_prefix (name_cell d) (lit "Done "))) menu_all = true) by (vm_compute; reflexivity).
  rewrite forallb_forall in X. specialize (X d I). apply andb_true_iff in X as [X Z]. apply andb_true_iff in X as [X Y].
  split; [now apply word_b_ok|]. apply negb_true_iff in Y, Z. split; [now apply bytes_eqb_neq|].
  intros [r E]. rewrite E in Z. assert (W : forall p q, has_prefix (p ++ q) p = true) by (induction p as [|b p IHp]; intro q; [destruct q; reflexivity|cbn; rewrite IHp, andb_true_r; now apply byte_eqb_eq]).
  rewrite W in Z. discriminate.
Qed.
