(** C57-C59: the commands that write files - open, close and checksum. *)
From Coq Require Import Init.Byte.
From Verif Require Import PreludeFacts Container Letter Requirements RequirementsFacts Tools Crypto Session SpecSession Core Envelope Toy PropCodec PropTrip PropLetter SpecPost Post PropPost FileSig PropFileTrip
  Lhash SpecHash PropHash Search Text SpecText PropText Json SpecJson PropJson Cmd PropCmd CmdFiles SpecCmdFiles.

(** ** What a list of events does *)
Section Runs.
Variable sy : system.
Notation after_run := (disk_after sy).

Lemma printed_app a b : printed (a ++ b) = printed a ++ printed b.
Proof using Type. apply flat_map_app. Qed.
Lemma run_app a b : after_run (a ++ b) = fold_left (apply (sy_node sy)) b (after_run a).
Proof using Type. apply fold_left_app. Qed.
Lemma questions_apply dk qs : fold_left (apply (sy_node sy)) (map Asked qs) dk = dk.
Proof using Type. induction qs as [|q qs IH]; [reflexivity|exact IH]. Qed.
Lemma questions_printed qs : printed (map Asked qs) = [].
Proof using Type. induction qs as [|q qs IH]; [reflexivity|exact IH]. Qed.
Lemma prints_apply dk l : fold_left (apply (sy_node sy)) (map Printed l) dk = dk.
Proof using Type. induction l as [|q qs IH]; [reflexivity|exact IH]. Qed.
Lemma prints_printed l : printed (map Printed l) = l.
Proof using Type. induction l as [|q qs IH]; [reflexivity|cbn; now f_equal]. Qed.
Lemma writes_printed f l : printed (map (Wrote f) l) = [].
Proof using Type. induction l as [|q qs IH]; [reflexivity|exact IH]. Qed.
Lemma upd_same dk n x : upd dk n x n = Some x.
Proof using Type. unfold upd. now rewrite Nat.eqb_refl. Qed.
Lemma upd_other dk n x m : m <> n -> upd dk n x m = dk m.
Proof using Type. intro N. unfold upd. now apply Nat.eqb_neq in N as ->. Qed.
Lemma writes_apply f l : forall dk m part, dk (sy_node sy f) = Some (File m part) ->
  let dk' := fold_left (apply (sy_node sy)) (map (Wrote f) l) dk in
  dk' (sy_node sy f) = Some (File m (part ++ l)) /\ forall n, n <> sy_node sy f -> dk' n = dk n.
Proof using Type.
  induction l as [|b l IH]; intros dk m part E; cbn [map fold_left].
  - rewrite app_nil_r. auto.
  - specialize (IH (apply (sy_node sy) dk (Wrote f b)) m (part ++ [b])). cbn [apply] in *. rewrite E in *. rewrite upd_same in IH. destruct (IH eq_refl) as [A B]. split; [now rewrite <- app_assoc in A|].
    intros n N. rewrite (B n N). now apply upd_other.
Qed.

Lemma nothing_questions qs : nothing sy (map Asked qs).
Proof using Type. split; [intro n; unfold disk_after; now rewrite questions_apply|apply questions_printed]. Qed.
Lemma wrote_prints qs part : wrote sy (lit "-") 384 part (map Asked qs ++ map Printed part).
Proof using Type.
  left. split; [reflexivity|]. split; [now rewrite printed_app, questions_printed, prints_printed|]. intro n. rewrite run_app, prints_apply. unfold disk_after. now rewrite questions_apply.
Qed.
Lemma wrote_writes qs f mode part : f <> lit "-" -> (forall z, sy_disk sy (sy_node sy f) <> Some (Special z)) -> wrote sy f mode part (map Asked qs ++ Opened f mode :: map (Wrote f) part).
Proof using Type.
  intros NF NS. right. split; [exact NF|]. rewrite printed_app, questions_printed. change (printed (Opened f mode :: map (Wrote f) part)) with (printed (map (Wrote f) part)). rewrite writes_printed. split; [reflexivity|].
  rewrite run_app. unfold disk_after at 1. rewrite questions_apply. cbn [fold_left].
  set (m := match sy_disk sy (sy_node sy f) with Some (File m _) => m | _ => mode end).
  destruct (writes_apply f part (apply (sy_node sy) (sy_disk sy) (Opened f mode)) m []) as [A B]; [cbn [apply]; apply upd_same|]. split.
  - exists m. split; [exact A|]. subst m. destruct (sy_disk sy (sy_node sy f)) as [[m old|z]|] eqn:E; [left; eauto|now elim (NS z)|right; auto].
  - intros n N. unfold disk_after at 1. rewrite questions_apply, (B n N). cbn [apply]. now apply upd_other.
Qed.

(** ** Prefixes of what the commands do *)
Lemma prefix_map {A} (f : A -> event) l done rest : map f l = done ++ rest -> exists a b, l = a ++ b /\ done = map f a.
Proof using Type.
  revert done. induction l as [|x l IH]; intros done E; cbn in E.
  - symmetry in E. apply app_eq_nil in E as [-> _]. exists [], []. auto.
  - destruct done as [|y done]; [exists [], (x :: l); auto|]. injection E as <- E. apply IH in E as (a & b & -> & ->). exists (x :: a), b. auto.
Qed.
Lemma prefix_app (a b done rest : list event) : a ++ b = done ++ rest -> (exists a', a = done ++ a') \/ exists d', done = a ++ d' /\ b = d' ++ rest.
Proof using Type.
  revert done. induction a as [|x a IH]; intros done E; [right; exists done; auto|]. destruct done as [|y done]; [left; now exists (x :: a)|]. injection E as <- E. destruct (IH _ E) as [[a' ->]|(d' & -> & ->)]; [left; now exists a'|right; now exists d'].
Qed.

(** Feeding [data] into a file: all of it on success, some of it always. *)
Lemma feed_inv f put data r es : feed sy f put data = (r, es) -> exists part rest, data = part ++ rest /\ es = map put part /\ (r = Ok tt -> rest = []) /\ r <> Panic.
Proof using Type.
  unfold feed. assert (W : forall r es, ((if sy_no_close sy f then Err EOther else Ok tt), map put data) = (r, es) -> exists part rest, data = part ++ rest /\ es = map put part /\ (r = Ok tt -> rest = []) /\ r <> Panic).
  { intros r' es' E. injection E as <- <-. exists data, []. rewrite app_nil_r. repeat split; auto. destruct (sy_no_close sy f); discriminate. }
  destruct (sy_room sy f) as [n|]; [|apply W]. destruct (n <? length data)%nat eqn:L; [|apply W]. intro E. injection E as <- <-. exists (firstn n data), (skipn n data). rewrite firstn_skipn. repeat split; discriminate.
Qed.
Lemma write_file_inv f mode data r es : f <> lit "-" -> write_file sy f mode data = (r, es) ->
  (es = [] /\ r = Err EOther)
  \/ exists part rest, data = part ++ rest /\ es = Opened f mode :: map (Wrote f) part /\ (r = Ok tt -> rest = []) /\ r <> Panic /\ forall z, sy_disk sy (sy_node sy f) <> Some (Special z).
Proof using Type.
  intros NF. unfold write_file. destruct (sy_no_write sy f); [intro E; injection E as <- <-; auto|]. destruct (sy_disk sy (sy_node sy f)) as [[m old|z]|] eqn:S; [|intro E; injection E as <- <-; auto|].
  all: unfold after; intro E; injection E as <- <-; destruct (feed sy f (Wrote f) data) as [r es] eqn:F; apply feed_inv in F as (part & rest & -> & -> & A & B); right; exists part, rest; repeat split; auto; congruence.
Qed.
(** Everything a run that asks [qs] and then writes [data] may have done when it is stopped. *)
Lemma writing f data mode r es qs done rest : (f = lit "-" /\ feed sy f Printed data = (r, es) \/ f <> lit "-" /\ write_file sy f mode data = (r, es)) ->
  mode = 384%N \/ f <> lit "-" -> map Asked qs ++ es = done ++ rest ->
  (nothing sy done \/ exists part more, data = part ++ more /\ wrote sy f mode part done /\ (exists dn, done = map Asked qs ++ dn)) /\ r <> Panic.
Proof using Type.
  intros W M P. apply prefix_app in P. destruct W as [[-> W]|[NF W]].
  - apply feed_inv in W as (part & more & -> & -> & A & B). split; [|exact B]. destruct P as [[a' P]|(d' & -> & P)].
    + apply prefix_map in P as (a & b & _ & ->). left. apply nothing_questions.
    + apply prefix_map in P as (a & b & -> & ->). right. exists a, (b ++ more). rewrite app_assoc. split; [reflexivity|]. destruct M as [->|M]; [|now elim M]. split; [apply wrote_prints|]. eauto.
  - apply write_file_inv in W as [[-> ->]|(part & more & -> & -> & A & B & NS)]; [..|exact NF].
    + split; [|discriminate]. left. destruct P as [[a' P]|(d' & -> & P)]; [apply prefix_map in P as (a & b & _ & ->); apply nothing_questions|]. symmetry in P. apply app_eq_nil in P as [-> ->]. rewrite app_nil_r. apply nothing_questions.
    + split; [|exact B]. destruct P as [[a' P]|(d' & -> & P)]; [left; apply prefix_map in P as (a & b & _ & ->); apply nothing_questions|].
      destruct d' as [|x d']; [left; rewrite app_nil_r; apply nothing_questions|]. injection P as <- P. apply prefix_map in P as (a & b & -> & ->). right. exists a, (b ++ more). rewrite app_assoc. split; [reflexivity|]. split; [now apply wrote_writes|]. eauto.
Qed.
Lemma writing_all f data mode es qs : (f = lit "-" /\ feed sy f Printed data = (Ok tt, es) \/ f <> lit "-" /\ write_file sy f mode data = (Ok tt, es)) ->
  mode = 384%N \/ f <> lit "-" -> wrote sy f mode data (map Asked qs ++ es).
Proof using Type.
  intros [[-> W]|[NF W]] M.
  - apply feed_inv in W as (part & more & -> & -> & A & _). rewrite (A eq_refl), app_nil_r. destruct M as [->|M]; [|now elim M]. apply wrote_prints.
  - apply write_file_inv in W as [[-> W]|(part & more & -> & -> & A & _ & NS)]; [discriminate W|rewrite (A eq_refl), app_nil_r; now apply wrote_writes|exact NF].
Qed.

(** ** The questions *)
Lemma stat_exists f n : stat_file sy f = Exists n <-> sy_hidden sy f = false /\ exists e, sy_disk sy (sy_node sy f) = Some e /\ entry_size e = n.
Proof using Type.
  unfold stat_file. destruct (sy_hidden sy f); [split; [discriminate|intros [X _]; discriminate]|]. destruct (sy_disk sy (sy_node sy f)) as [[m b|z]|]; cbn.
  - split; [intro E; injection E as <-; eauto|]. intros (_ & e & E & <-). now injection E as <-.
  - split; [intro E; injection E as <-; eauto|]. intros (_ & e & E & <-). now injection E as <-.
  - split; [discriminate|]. intros (_ & e & E & _). discriminate.
Qed.
Definition cleared (f out : bytes) (qs : list ask) : Prop :=
  (big sy f -> In (AskBig f) qs /\ sy_answer sy (AskBig f) = Some true) /\ (present sy out -> In (AskOverwrite out) qs /\ sy_answer sy (AskOverwrite out) = Some true).
Lemma question_inv q k r es : question sy q k = (r, es) ->
  exists es', es = Asked q :: es' /\ ((es' = [] /\ r = Err EOther /\ sy_answer sy q = None) \/ (es' = [] /\ r = Ok tt /\ sy_answer sy q = Some false) \/ (k = (r, es') /\ sy_answer sy q = Some true)).
Proof using Type.
  unfold question, after. destruct (sy_answer sy q) as [[|]|]; intro E; injection E as <- <-; eexists; (split; [reflexivity|]); auto. destruct k. auto 6.
Qed.
Lemma prompts_inv f out k r es : check_input sy f (check_output sy out k) = (r, es) ->
  exists qs es', es = map Asked qs ++ es'
   /\ ((es' = [] /\ r <> Panic /\ (r = Ok tt -> refused sy f out)) \/ (k = (r, es') /\ cleared f out qs)).
Proof using Type.
  assert (O : forall r es, check_output sy out k = (r, es) -> exists qs es', es = map Asked qs ++ es'
    /\ ((es' = [] /\ r <> Panic /\ (r = Ok tt -> present sy out /\ sy_answer sy (AskOverwrite out) = Some false)) \/ (k = (r, es') /\ (present sy out -> In (AskOverwrite out) qs /\ sy_answer sy (AskOverwrite out) = Some true)))).
  { intros r' es'. unfold check_output. destruct (bytes_eqb out stdio) eqn:B.
    - intros ->. exists [], es'. split; [reflexivity|]. right. split; [reflexivity|]. intros [N _]. apply bytes_eqb_eq in B. now elim N.
    - assert (NB : out <> lit "-") by (intro X; rewrite X, bytes_eqb_refl in B; discriminate B). destruct (stat_file sy out) as [n| |] eqn:S.
      + apply stat_exists in S as (_ & e & E & _). intro Q. apply question_inv in Q as (t & -> & [(-> & -> & A)|[(-> & -> & A)|[-> A]]]); exists [AskOverwrite out].
        * exists []. split; [reflexivity|]. left. repeat split; discriminate.
        * exists []. split; [reflexivity|]. left. split; [reflexivity|]. split; [discriminate|]. intros _. split; [split; [exact NB|eauto]|exact A].
        * exists t. split; [reflexivity|]. right. split; [reflexivity|]. intros _. split; [now left|exact A].
      + intros ->. exists [], es'. split; [reflexivity|]. right. split; [reflexivity|]. intros [_ [e E]]. revert S. unfold stat_file. destruct (sy_hidden sy out); [discriminate|]. rewrite E. now destruct e.
      + intro Q. injection Q as <- <-. exists [], []. split; [reflexivity|]. left. repeat split; discriminate. }
  unfold check_input. destruct (bytes_eqb f stdio) eqn:B.
  - intro E. apply O in E as (qs & es' & -> & X). exists qs, es'. split; [reflexivity|]. destruct X as [(-> & NP & X)|[X Y]].
    + left. split; [reflexivity|]. split; [exact NP|]. intro R. right. auto.
    + right. split; [exact X|]. split; [|exact Y]. intros [N _]. apply bytes_eqb_eq in B. now elim N.
  - assert (NB : f <> lit "-") by (intro X; rewrite X, bytes_eqb_refl in B; discriminate B). destruct (stat_file sy f) as [n| |] eqn:S; [|intro E; injection E as <- <-; exists [], []; split; [reflexivity|left; repeat split; discriminate]..].
    apply stat_exists in S as (_ & e & E & SZ). destruct (n >? warn_size)%Z eqn:G.
    + intro Q. apply question_inv in Q as (t & -> & [(-> & -> & A)|[(-> & -> & A)|[K A]]]).
      * exists [AskBig f], []. split; [reflexivity|]. left. repeat split; discriminate.
      * exists [AskBig f], []. split; [reflexivity|]. left. split; [reflexivity|]. split; [discriminate|]. intros _. left. split; [split; [exact NB|]|exact A]. exists e. split; [exact E|]. rewrite SZ. unfold warn_size in G. lia.
      * apply O in K as (qs & es' & -> & X). exists (AskBig f :: qs), es'. split; [reflexivity|]. destruct X as [(-> & NP & X)|[X Y]].
        -- left. split; [reflexivity|]. split; [exact NP|]. intro R. right. auto.
        -- right. split; [exact X|]. split; [intros _; split; [now left|exact A]|]. intro P. destruct (Y P). split; [now right|assumption].
    + intro K. apply O in K as (qs & es' & -> & X). exists qs, es'. split; [reflexivity|]. destruct X as [(-> & NP & X)|[X Y]].
      * left. split; [reflexivity|]. split; [exact NP|]. intro R. right. auto.
      * right. split; [exact X|]. split; [|exact Y]. intros (_ & e' & E' & L). assert (e' = e) by congruence. subst e'. rewrite SZ in L. unfold warn_size in G. lia.
Qed.
Lemma cleared_consented f out qs es : cleared f out qs -> consented sy f out (map Asked qs ++ es).
Proof using Type.
  intros [A B]. split; intro P; [destruct (A P) as [X Y]|destruct (B P) as [X Y]]; split; auto; apply in_or_app; left; now apply in_map.
Qed.
Lemma load_file_inv f data : load_file sy f = Ok data -> reads sy f data.
Proof using Type.
  unfold load_file. destruct (bytes_eqb f stdio) eqn:B.
  - apply bytes_eqb_eq in B. destruct (sy_stdin sy) eqn:S; [|discriminate]. intro E. injection E as <-. left. auto.
  - destruct (sy_no_read sy f); [discriminate|]. destruct (sy_disk sy (sy_node sy f)) as [[m b|z]|] eqn:E; try discriminate. intro X. injection X as <-. right. split; [intros ->; discriminate B|eauto].
Qed.
Lemma write_out_inv f data r es : write_out sy f data = (r, es) -> f = lit "-" /\ feed sy f Printed data = (r, es) \/ f <> lit "-" /\ write_file sy f 384 data = (r, es).
Proof using Type.
  unfold write_out. destruct (bytes_eqb f stdio) eqn:B; intro E; [left; apply bytes_eqb_eq in B; auto|right; split; [intros ->; discriminate B|exact E]].
Qed.

(** The common shape of open and close: ask, read, make the output from the input, write. *)
Definition pipeline (f out : bytes) (make : bytes -> outcome bytes) : cmd :=
  check_input sy f (check_output sy out (try (load_file sy f) (fun data => try (make data) (write_out sy out)))).
Lemma pipeline_any f out make r es done rest : pipeline f out make = (r, es) -> es = done ++ rest ->
  nothing sy done \/ exists data result part more, reads sy f data /\ make data = Ok result /\ result = part ++ more /\ wrote sy out 384 part done /\ consented sy f out done.
Proof using Type.
  intros R P. apply prompts_inv in R as (qs & es' & -> & [(-> & _ & _)|[K C]]).
  - left. rewrite app_nil_r in P. apply prefix_map in P as (a & b & _ & ->). apply nothing_questions.
  - assert (Q : es' = [] -> nothing sy done). { intros ->. rewrite app_nil_r in P. apply prefix_map in P as (a & b & _ & ->). apply nothing_questions. }
    destruct (load_file sy f) as [data| |] eqn:L; cbn [try] in K; [|injection K as _ <-; left; now apply Q..]. destruct (make data) as [result| |] eqn:MK; cbn [try] in K; [|injection K as _ <-; left; now apply Q..].
    apply write_out_inv in K. destruct (writing _ _ 384 _ _ qs done rest K (or_introl eq_refl) P) as [[N|(part & more & -> & W & dn & ->)] _]; [now left|]. right. exists data, (part ++ more), part, more. apply load_file_inv in L. repeat split; auto; now apply (cleared_consented f out qs dn C).
Qed.
Lemma pipeline_ok f out make es : pipeline f out make = (Ok tt, es) ->
  (refused sy f out /\ nothing sy es) \/ exists data result, reads sy f data /\ make data = Ok result /\ wrote sy out 384 result es /\ consented sy f out es.
Proof using Type.
  intros R. apply prompts_inv in R as (qs & es' & -> & [(-> & _ & RF)|[K C]]).
  - left. split; [now apply RF|]. rewrite app_nil_r. apply nothing_questions.
  - right. destruct (load_file sy f) as [data| |] eqn:L; cbn [try] in K; try discriminate K. destruct (make data) as [result| |] eqn:MK; cbn [try] in K; try discriminate K.
    exists data, result. apply load_file_inv in L. split; [exact L|]. split; [exact MK|]. split; [|now apply cleared_consented]. apply writing_all; [now apply write_out_inv|now left].
Qed.
(** If nothing stands in the way, everything is written. *)
Lemma feed_all f put data : (forall n, sy_room sy f = Some n -> (length data <= n)%nat) -> sy_no_close sy f = false -> feed sy f put data = (Ok tt, map put data).
Proof using Type.
  intros R C. unfold feed. rewrite C. destruct (sy_room sy f) as [n|]; [|reflexivity]. specialize (R n eq_refl). destruct (n <? length data)%nat eqn:L; [|reflexivity]. apply Nat.ltb_lt in L. lia.
Qed.
Lemma prompts_pass f out k : readable sy f -> (f = lit "-" \/ exists e, sy_disk sy (sy_node sy f) = Some e) -> (out = lit "-" \/ sy_hidden sy out = false) -> agreeable sy f out ->
  exists qs, check_input sy f (check_output sy out k) = after (map Asked qs) k.
Proof using Type.
  intros RF PF HO [A B].
  assert (O : exists qs, check_output sy out k = after (map Asked qs) k).
  { unfold check_output. destruct (bytes_eqb out stdio) eqn:E; [exists []; now destruct k|]. assert (NO : out <> lit "-") by (intro X; rewrite X in E; discriminate E). destruct HO as [HO|HO]; [now elim NO|].
    destruct (stat_file sy out) as [n| |] eqn:S.
    - apply stat_exists in S as (_ & e & D & _). exists [AskOverwrite out]. unfold question. rewrite (B (conj NO (ex_intro _ e D))). reflexivity.
    - exists []. now destruct k.
    - revert S. unfold stat_file. rewrite HO. now destruct (sy_disk sy (sy_node sy out)) as [[]|]. }
  destruct O as [qs O]. rewrite O. unfold check_input. destruct (bytes_eqb f stdio) eqn:E; [exists qs; reflexivity|]. assert (NO : f <> lit "-") by (intro X; rewrite X in E; discriminate E).
  destruct RF as [RF|[RF _]]; [now elim NO|]. destruct PF as [PF|[e PF]]; [now elim NO|]. destruct (stat_file sy f) as [n| |] eqn:S.
  - apply stat_exists in S as (_ & e' & D & SZ). destruct (n >? warn_size)%Z eqn:G; [|now exists qs]. exists (AskBig f :: qs). unfold question. rewrite A; [now destruct k|]. split; [exact NO|]. exists e'. split; [exact D|]. rewrite SZ. unfold warn_size in G. lia.
  - revert S. unfold stat_file. rewrite RF, PF. now destruct e.
  - revert S. unfold stat_file. rewrite RF, PF. now destruct e.
Qed.
Lemma pipeline_works f out make data result : readable sy f -> reads sy f data -> make data = Ok result -> writable_file sy out result -> agreeable sy f out ->
  exists es, pipeline f out make = (Ok tt, es) /\ wrote sy out 384 result es.
Proof using Type.
  intros RF RD MK (RO & CL & WO) AG. unfold pipeline.
  destruct (prompts_pass f out (try (load_file sy f) (fun data => try (make data) (write_out sy out)))) as [qs Q]; [exact RF| | |exact AG|].
  - destruct RD as [[-> _]|(_ & m & D)]; [now left|right; eauto].
  - destruct WO as [->|(WO & _)]; auto.
  - rewrite Q. assert (L : load_file sy f = Ok data).
    { unfold load_file. destruct RD as [[-> E]|(NF & m & D)]; [cbn; now rewrite E|]. destruct RF as [RF|[_ RF]]; [now elim NF|]. destruct (bytes_eqb f stdio) eqn:B; [apply bytes_eqb_eq in B; now elim NF|]. now rewrite RF, D. }
    rewrite L. cbn [try]. rewrite MK. cbn [try]. assert (W : exists es, write_out sy out result = (Ok tt, es)).
    { unfold write_out. destruct (bytes_eqb out stdio) eqn:B; [eexists; now apply feed_all|]. destruct WO as [->|(_ & NW & NS)]; [discriminate B|]. unfold write_file. rewrite NW. destruct (sy_disk sy (sy_node sy out)) as [[m b|z]|]; [|now elim (NS z)|];
        unfold after; rewrite feed_all by assumption; eexists; reflexivity. }
    destruct W as [es W]. exists (map Asked qs ++ es). unfold after. rewrite W. split; [reflexivity|]. apply writing_all; [now apply write_out_inv|now left].
Qed.
End Runs.

(** ** C57: jess open *)
Lemma open_name_iff flag f out : open_name flag f = Ok out <-> open_output flag f out.
Proof.
  unfold open_name, open_output. destruct flag as [|b flag].
  - destruct (Search.has_suffix (lit ".letter") f) eqn:S.
    + apply has_suffix_iff in S as [a ->]. rewrite trim_suffix_app. cbn [negb orb]. rewrite app_length. change (length (lit ".letter")) with 7%nat. destruct (length a + 7 <? 8)%nat eqn:L.
      * apply Nat.ltb_lt in L. split; [discriminate|]. intros [[X _]|(_ & N & X)]; [now elim X|]. apply app_inv_tail in X. subst. destruct out; [now elim N|cbn in L; lia].
      * apply Nat.ltb_ge in L. split; [intro E; injection E as <-; right; split; [reflexivity|]; split; [intros ->; cbn in L; lia|reflexivity]|]. intros [[X _]|(_ & N & X)]; [now elim X|]. apply app_inv_tail in X. now subst.
    + cbn [negb orb]. split; [discriminate|]. intros [[X _]|(_ & N & ->)]; [now elim X|]. assert (Search.has_suffix (lit ".letter") (out ++ lit ".letter") = true) by (apply has_suffix_iff; eauto). congruence.
  - split; [intro E; injection E as <-; left; split; [discriminate|reflexivity]|]. intros [[_ ->]|[X _]]; [reflexivity|discriminate].
Qed.
Section Open.
Variables (c : config) (cr : crypto) (w : world) (sy : system) (parse : bytes -> outcome raw_letter) (requirements : option reqs) (d : nat).
Notation jess_open := (open_cmd c cr w sy parse requirements d).
Notation genuine := (authentic c cr w parse requirements d).

Definition opened (data : bytes) : outcome bytes :=
  do l <- parse data; letter_open c suite_registry tool_registry hash_registry cr w (Some match requirements with Some q => q | None => newRequirements end) l d.
Lemma opened_iff data plain : opened data = Ok plain <-> genuine data plain.
Proof using Type.
  unfold opened, authentic. split.
  - destruct (parse data) as [l| |]; cbn [bind]; try discriminate. intro E. exists l. split; [reflexivity|]. exact E.
  - intros (l & E & O). rewrite E. exact O.
Qed.
Lemma open_pipeline flag f out : open_output flag f out -> jess_open flag [f] = pipeline sy f out opened.
Proof using Type.
  intro O. apply open_name_iff in O. unfold open_cmd. rewrite O. cbn [try]. unfold pipeline, opened. do 2 f_equal. destruct (load_file sy f) as [data| |]; [|reflexivity..]. cbn [try]. destruct (parse data) as [l| |]; reflexivity.
Qed.
Lemma open_other flag args : (forall f out, args = [f] -> ~ open_output flag f out) -> jess_open flag args = (Err EOther, []).
Proof using Type.
  intro N. destruct args as [|f [|]]; try reflexivity. unfold open_cmd. destruct (open_name flag f) as [out| |] eqn:E; cbn [try].
  - apply open_name_iff in E. now elim (N f out).
  - f_equal. unfold open_name in E. destruct flag; [destruct (_ || _)|]; congruence.
  - exfalso. unfold open_name in E. destruct flag; [destruct (_ || _)|]; congruence.
Qed.
Lemma open_args flag args r es : jess_open flag args = (r, es) -> (r = Err EOther /\ es = []) \/ exists f out, args = [f] /\ open_output flag f out.
Proof using Type.
  intro R. destruct args as [|f [|]]; try (injection R as <- <-; auto). destruct (open_name flag f) as [out| |] eqn:E; [right; exists f, out; split; [reflexivity|now apply open_name_iff]|..].
  all: left; rewrite open_other in R; [injection R as <- <-; auto|]; intros f' out' A O; injection A as <-; apply open_name_iff in O; congruence.
Qed.

(** Wherever the command is stopped: either it changed nothing and printed nothing, or it has written the beginning of the
    plaintext of a letter that opened with the requirements, to the output only, and the user agreed to whatever there was to ask. *)
Theorem C57_open_any_point : forall flag args r es done rest, jess_open flag args = (r, es) -> es = done ++ rest ->
  nothing sy done
  \/ exists f out data plain part more, args = [f] /\ open_output flag f out /\ reads sy f data /\ genuine data plain
       /\ plain = part ++ more /\ wrote sy out 384 part done /\ consented sy f out done.
Proof using Type.
  intros flag args r es done rest R P. destruct (open_args _ _ _ _ R) as [[_ ->]|(f & out & -> & O)].
  - symmetry in P. apply app_eq_nil in P as [-> ->]. left. split; reflexivity.
  - rewrite (open_pipeline _ _ _ O) in R. destruct (pipeline_any _ _ _ _ _ _ _ _ R P) as [N|(data & plain & part & more & RD & MK & E & W & C)]; [now left|]. right. exists f, out, data, plain, part, more. apply opened_iff in MK. auto 8.
Qed.
(** Exit status 0: the whole plaintext is written, or the user did not want it. *)
Theorem C57_open_success : forall flag args es, jess_open flag args = (Ok tt, es) ->
  exists f out, args = [f] /\ open_output flag f out
    /\ ((refused sy f out /\ nothing sy es)
        \/ exists data plain, reads sy f data /\ genuine data plain /\ wrote sy out 384 plain es /\ consented sy f out es).
Proof using Type.
  intros flag args es R. destruct (open_args _ _ _ _ R) as [[X _]|(f & out & -> & O)]; [discriminate X|]. exists f, out. split; [reflexivity|]. split; [exact O|]. rewrite (open_pipeline _ _ _ O) in R.
  destruct (pipeline_ok _ _ _ _ _ R) as [N|(data & plain & RD & MK & W & C)]; [now left|]. right. exists data, plain. apply opened_iff in MK. auto.
Qed.
(** It works when nothing stands in the way. *)
Theorem C57_open_works : forall flag f out data plain, open_output flag f out -> readable sy f -> reads sy f data -> genuine data plain ->
  writable_file sy out plain -> agreeable sy f out ->
  exists es, jess_open flag [f] = (Ok tt, es) /\ wrote sy out 384 plain es.
Proof using Type.
  intros flag f out data plain O RF RD G W A. rewrite (open_pipeline _ _ _ O). apply (pipeline_works sy f out opened data plain); auto. now apply opened_iff.
Qed.
End Open.
Print Assumptions C57_open_any_point.

(** ** C58: jess close *)
Lemma close_name_iff flag f out : close_name flag f = Ok out <-> close_output flag f out.
Proof.
  unfold close_name, close_output. destruct flag as [|b flag].
  - destruct (Search.has_suffix ext_letter f) eqn:S.
    + apply has_suffix_iff in S as [a ->]. split; [discriminate|]. intros [[X _]|(_ & _ & N)]; [now elim X|]. now elim (N a).
    + split.
      * intro E. injection E as <-. right. split; [reflexivity|]. split; [reflexivity|]. intros a ->. assert (Search.has_suffix (lit ".letter") (a ++ lit ".letter") = true) by (apply has_suffix_iff; eauto). unfold ext_letter in S. congruence.
      * intros [[X _]|(_ & -> & N)]; [now elim X|reflexivity].
  - split; [intro E; injection E as <-; left; split; [discriminate|reflexivity]|]. intros [[_ ->]|[X _]]; [reflexivity|discriminate].
Qed.
Section Close.
Variables (c : config) (cr : crypto) (w : world) (sy : system) (get_envelope : bytes -> outcome envelope) (dump : letter -> outcome bytes) (full : bool) (d : nat).
Notation jess_close := (close_cmd c cr w sy get_envelope dump full d).
Notation letter_file := (sealed c cr w get_envelope dump full d).

Definition closed (s : session) (data : bytes) : outcome bytes :=
  do l <- fst (close_session c cr s full data (rt_start d None)); fst (to_file_format dump l).
Lemma closed_sealed name e s data text : get_envelope name = Ok e -> correspondence c suite_registry tool_registry hash_registry cr w e = Ok s ->
  closed s data = Ok text -> letter_file name data text.
Proof using Type.
  intros G CO. unfold closed, sealed. destruct (close_session c cr s full data (rt_start d None)) as [o r] eqn:E. destruct o as [l| |]; cbn [fst bind]; try discriminate. intro T. exists e, s, l, r. auto.
Qed.
Lemma sealed_closed name data text : letter_file name data text -> exists e s, get_envelope name = Ok e /\ correspondence c suite_registry tool_registry hash_registry cr w e = Ok s /\ closed s data = Ok text.
Proof using Type. intros (e & s & l & r & G & CO & CL & T). exists e, s. split; [exact G|]. split; [exact CO|]. unfold closed. now rewrite CL. Qed.
Lemma close_pipeline flag f kw name e s out : kw = lit "with" -> get_envelope name = Ok e -> correspondence c suite_registry tool_registry hash_registry cr w e = Ok s -> close_output flag f out ->
  jess_close flag [f; kw; name] = pipeline sy f out (closed s).
Proof using Type.
  intros -> G CO O. apply close_name_iff in O. unfold close_cmd. rewrite bytes_eqb_refl, G. cbn [try]. rewrite CO. cbn [try]. rewrite O. cbn [try]. unfold pipeline, closed. do 2 f_equal.
  destruct (load_file sy f) as [data| |]; [|reflexivity..]. cbn [try]. destruct (close_session c cr s full data (rt_start d None)) as [[l| |] r]; reflexivity.
Qed.
Lemma close_args flag args r es : jess_close flag args = (r, es) -> (r <> Ok tt /\ es = []) \/ exists f name e s out, args = [f; lit "with"; name] /\ close_output flag f out
  /\ get_envelope name = Ok e /\ correspondence c suite_registry tool_registry hash_registry cr w e = Ok s.
Proof using Type.
  intro R. assert (B : (Err EOther : outcome unit, @nil event) = (r, es) -> r <> Ok tt /\ es = []) by (intro X; injection X as <- <-; split; [discriminate|reflexivity]).
  destruct args as [|f [|kw [|name [|]]]]; try (left; now apply B). unfold close_cmd in R. destruct (bytes_eqb kw (lit "with")) eqn:K; [|left; now apply B]. apply bytes_eqb_eq in K as ->.
  destruct (get_envelope name) as [e| |] eqn:G; cbn [try] in R; try (left; injection R as <- <-; split; [discriminate|reflexivity]).
  destruct (correspondence c suite_registry tool_registry hash_registry cr w e) as [s| |] eqn:CO; cbn [try] in R; try (left; injection R as <- <-; split; [discriminate|reflexivity]).
  destruct (close_name flag f) as [out| |] eqn:O; cbn [try] in R; try (left; injection R as <- <-; split; [discriminate|reflexivity]). apply close_name_iff in O. right. exists f, name, e, s, out. auto.
Qed.

(** Wherever the command is stopped: either it changed nothing, or it has written the beginning of the letter file that the envelope
    makes of the input, to the output only, and the user agreed to whatever there was to ask. *)
Theorem C58_close_any_point : forall flag args r es done rest, jess_close flag args = (r, es) -> es = done ++ rest ->
  nothing sy done
  \/ exists f name out data text part more, args = [f; lit "with"; name] /\ close_output flag f out /\ reads sy f data /\ letter_file name data text
       /\ text = part ++ more /\ wrote sy out 384 part done /\ consented sy f out done.
Proof using Type.
  intros flag args r es done rest R P. destruct (close_args _ _ _ _ R) as [[_ ->]|(f & name & e & s & out & -> & O & G & CO)].
  - symmetry in P. apply app_eq_nil in P as [-> ->]. left. split; reflexivity.
  - rewrite (close_pipeline _ _ _ _ _ _ _ eq_refl G CO O) in R. destruct (pipeline_any _ _ _ _ _ _ _ _ R P) as [N|(data & text & part & more & RD & MK & E & W & C)]; [now left|]. right. exists f, name, out, data, text, part, more. eapply closed_sealed in MK; eauto 10.
Qed.
Theorem C58_close_success : forall flag args es, jess_close flag args = (Ok tt, es) ->
  exists f name out, args = [f; lit "with"; name] /\ close_output flag f out
    /\ ((refused sy f out /\ nothing sy es)
        \/ exists data text, reads sy f data /\ letter_file name data text /\ wrote sy out 384 text es /\ consented sy f out es).
Proof using Type.
  intros flag args es R. destruct (close_args _ _ _ _ R) as [[X _]|(f & name & e & s & out & -> & O & G & CO)]; [now elim X|]. exists f, name, out. split; [reflexivity|]. split; [exact O|]. rewrite (close_pipeline _ _ _ _ _ _ _ eq_refl G CO O) in R.
  destruct (pipeline_ok _ _ _ _ _ R) as [N|(data & text & RD & MK & W & C)]; [now left|]. right. exists data, text. eapply closed_sealed in MK; eauto.
Qed.
Theorem C58_close_works : forall flag f name out data text, close_output flag f out -> readable sy f -> reads sy f data -> letter_file name data text ->
  writable_file sy out text -> agreeable sy f out ->
  exists es, jess_close flag [f; lit "with"; name] = (Ok tt, es) /\ wrote sy out 384 text es.
Proof using Type.
  intros flag f name out data text O RF RD L W A. apply sealed_closed in L as (e & s & G & CO & L). rewrite (close_pipeline _ _ _ _ _ _ _ eq_refl G CO O). now apply (pipeline_works sy f out (closed s) data text).
Qed.
End Close.
Print Assumptions C58_close_any_point.

Lemma reads_det sy f a b : reads sy f a -> reads sy f b -> a = b.
Proof. intros [[E A]|[N [m A]]] [[E' B]|[N' [m' B]]]; congruence. Qed.
(** close on one computer, open on another one that has got the letter file: the file is there as it was. *)
Theorem C58_close_then_open : forall c cr w1 w2 sy1 sy2 get_envelope dump load wr full d1 d2 requirements f name e su data es,
  crypto_laws cr -> get_envelope name = Ok e -> writable c e su ->
  (forall s, correspondence c suite_registry tool_registry hash_registry cr w1 e = Ok s -> reader cr w2 (s_env s)) ->
  incl (wanted requirements) (su_provides su) ->
  (forall l0 h, dump l0 = Ok h -> load (h ++ [x0a]) = Ok l0 /\ fits (h ++ [x0a])) ->
  (forall s l r, correspondence c suite_registry tool_registry hash_registry cr w1 e = Ok s -> close_session c cr s full data (rt_start d1 None) = (Ok l, r) -> fits (l_data l)) ->
  f <> [] -> f <> lit "-" -> reads sy1 f data -> ~ refused sy1 f (f ++ lit ".letter") ->
  close_cmd c cr w1 sy1 get_envelope dump full d1 [] [f; lit "with"; name] = (Ok tt, es) ->
  exists m text, disk_after sy1 es (sy_node sy1 (f ++ lit ".letter")) = Some (File m text)
    /\ (readable sy2 (f ++ lit ".letter") -> reads sy2 (f ++ lit ".letter") text -> writable_file sy2 f data -> agreeable sy2 (f ++ lit ".letter") f ->
        exists es2, open_cmd c cr w2 sy2 (fun x => do l <- letter_from_file_format wr load x; Ok (raw l)) requirements d2 [] [f ++ lit ".letter"] = (Ok tt, es2)
          /\ wrote sy2 f 384 data es2).
Proof.
  intros c cr w1 w2 sy1 sy2 ge dump load wr full d1 d2 requirements f name e su data es LW GE WR RD RQ DL FT NE NF RE NR CL.
  apply C58_close_success in CL as (f' & name' & out & A & O & [[R _]|(data' & text & RE' & S & W & _)]).
  - injection A as <- <-. destruct O as [[X _]|(_ & -> & _)]; [now elim X|]. now elim NR.
  - injection A as <- <-. destruct O as [[X _]|(_ & -> & _)]; [now elim X|]. assert (data' = data) by (eapply reads_det; eassumption). subst data'.
    assert (N2 : f ++ lit ".letter" <> lit "-") by (intro X; apply (f_equal (@length byte)) in X; rewrite app_length in X; cbn in X; lia).
    destruct W as [[W _]|(_ & _ & (m & W & _) & _)]; [now elim N2|]. exists m, text. split; [exact W|]. intros RF RT WF AG. apply (C57_open_works c cr w2 sy2 _ requirements d2 [] _ f text data); auto.
    + right. auto.
    + destruct S as (e' & s & l & r & G & CO & CS & T). assert (e' = e) by congruence. subst e'.
      assert (RQ' : incl (wanted (Some match requirements with Some q => q | None => [Confidentiality; Integrity; RecipientAuthentication; SenderAuthentication] end)) (su_provides su)) by (destruct requirements; exact RQ).
      destruct (C54_file c cr w1 w2 e su s full data d1 d2 l r _ dump load wr LW WR CO (RD s CO) CS RQ' DL (FT s l r CO CS) text T) as (l' & L & OP).
      exists (raw l'). split; [now rewrite L|exact OP].
Qed.
Print Assumptions C58_close_then_open.

(** ** C59: jess checksum *)
Lemma ext_rev_plain x : forall r acc, (forall b, In b x -> b <> x2f /\ b <> x2e) -> ext_rev (x ++ x2e :: r) acc = x2e :: rev x ++ acc.
Proof.
  induction x as [|b x IH]; intros r acc N; [reflexivity|]. cbn. destruct (N b (or_introl eq_refl)) as [N1 N2].
  destruct (byte_eqb b x2f) eqn:E1; [apply byte_eqb_eq in E1; contradiction|]. destruct (byte_eqb b x2e) eqn:E2; [apply byte_eqb_eq in E2; contradiction|].
  rewrite IH by (intros; apply N; now right). now rewrite <- app_assoc.
Qed.
Lemma ext_rev_inv r : forall acc, ext_rev r acc = [] \/ exists x r', r = x ++ x2e :: r' /\ ext_rev r acc = x2e :: rev x ++ acc.
Proof.
  induction r as [|b r IH]; intro acc; [now left|]. cbn. destruct (byte_eqb b x2f); [now left|]. destruct (byte_eqb b x2e) eqn:E.
  - apply byte_eqb_eq in E as ->. right. exists [], r. auto.
  - destruct (IH (b :: acc)) as [X|(x & r' & -> & X)]; [now left|]. right. exists (b :: x), r'. split; [reflexivity|]. rewrite X. cbn. now rewrite <- app_assoc.
Qed.
Lemma ext_iff f x : (forall b, In b x -> b <> x2f /\ b <> x2e) -> (bytes_eqb (file_ext f) (x2e :: x) = true <-> exists a, f = a ++ x2e :: x).
Proof.
  intro N. rewrite bytes_eqb_eq. unfold file_ext. split.
  - intro E. destruct (ext_rev_inv (rev f) []) as [X|(y & r & R & X)]; [congruence|]. rewrite X, app_nil_r in E. injection E as <-. exists (rev r). rewrite <- (rev_involutive f), R, rev_app_distr. cbn. now rewrite <- app_assoc.
  - intros [a ->]. rewrite rev_app_distr. cbn. rewrite <- app_assoc. cbn. rewrite ext_rev_plain; [now rewrite rev_involutive, app_nil_r|]. intros b I. apply N. now apply in_rev.
Qed.
Ltac no_dots := let b := fresh in let I := fresh in intros b I; cbn in I; repeat (destruct I as [<-|I]; [split; discriminate|]); destruct I.
Lemma ext_json f : bytes_eqb (file_ext f) (lit ".json") = true <-> json_name f.
Proof. apply (ext_iff f (lit "json")). no_dots. Qed.
Lemma ext_yml f : bytes_eqb (file_ext f) (lit ".yml") = true <-> exists a, f = a ++ lit ".yml".
Proof. apply (ext_iff f (lit "yml")). no_dots. Qed.
Lemma ext_yaml f : bytes_eqb (file_ext f) (lit ".yaml") = true <-> exists a, f = a ++ lit ".yaml".
Proof. apply (ext_iff f (lit "yaml")). no_dots. Qed.
Lemma ext_txt f : bytes_eqb (file_ext f) (lit ".txt") = true <-> exists a, f = a ++ lit ".txt".
Proof. apply (ext_iff f (lit "txt")). no_dots. Qed.
Lemma same_ext (f : bytes) x y : bytes_eqb (file_ext f) x = true -> bytes_eqb (file_ext f) y = true -> x = y.
Proof. rewrite !bytes_eqb_eq. congruence. Qed.

Section Checksum.
Variables (sy : system) (esc unesc : bytes -> bytes) (render : json -> bytes) (parse : bytes -> option json) (H : N -> bytes -> bytes).
Notation jess_add := (checksum_add_cmd sy esc unesc render parse H).
Notation jess_verify := (fun sy => checksum_verify_cmd sy unesc render parse H).

Lemma text_ext f : text_name f -> bytes_eqb (file_ext f) (lit ".json") = false
  /\ ((bytes_eqb (file_ext f) (lit ".yml") || bytes_eqb (file_ext f) (lit ".yaml") = true)
      \/ (bytes_eqb (file_ext f) (lit ".yml") || bytes_eqb (file_ext f) (lit ".yaml") = false /\ bytes_eqb (file_ext f) (lit ".txt") = true)).
Proof using Type.
  intros (a & T). assert (J : forall x, bytes_eqb (file_ext f) x = true -> x <> lit ".json" -> bytes_eqb (file_ext f) (lit ".json") = false).
  { intros x X N. destruct (bytes_eqb (file_ext f) (lit ".json")) eqn:J; [|reflexivity]. elim N. eapply same_ext; eassumption. }
  destruct T as [T|[T|T]].
  - assert (Y : bytes_eqb (file_ext f) (lit ".yml") = true) by (apply ext_yml; eauto). split; [apply (J _ Y); discriminate|]. left. now rewrite Y.
  - assert (Y : bytes_eqb (file_ext f) (lit ".yaml") = true) by (apply ext_yaml; eauto). split; [apply (J _ Y); discriminate|]. left. rewrite Y. apply orb_true_r.
  - assert (Y : bytes_eqb (file_ext f) (lit ".txt") = true) by (apply ext_txt; eauto). split; [apply (J _ Y); discriminate|]. rewrite Y. destruct (_ || _); auto.
Qed.
Lemma check_text f data : text_name f -> check_checksum unesc render parse H f data = verify_text_checksum H data (lit "#").
Proof using Type. intro T. unfold check_checksum. destruct (text_ext f T) as [-> [-> | [-> ->]]]; reflexivity. Qed.
Lemma add_text f data : text_name f -> add_checksum esc unesc render parse H f data = add_text_checksum H data (lit "#") AfterComment.
Proof using Type. intro T. unfold add_checksum. destruct (text_ext f T) as [-> [-> | [-> ->]]]; reflexivity. Qed.
Lemma read_file_iff s f data : read_file s f = Ok data <-> sy_no_read s f = false /\ exists m, sy_disk s (sy_node s f) = Some (File m data).
Proof using Type.
  unfold read_file. destruct (sy_no_read s f); [split; [discriminate|intros [X _]; discriminate]|]. destruct (sy_disk s (sy_node s f)) as [[m b|z]|].
  - split; [intro E; injection E as <-; eauto|]. intros (_ & m' & E). now injection E as _ <-.
  - split; [discriminate|]. intros (_ & m' & E). discriminate.
  - split; [discriminate|]. intros (_ & m' & E). discriminate.
Qed.
Lemma verify_silent s args r es : jess_verify s args = (r, es) -> es = [].
Proof using Type. unfold checksum_verify_cmd. destruct args as [|f [|]]; try (intro E; now injection E as _ <-). destruct (read_file s f); cbn [try]; intro E; now injection E as _ <-. Qed.

(** verify: exit status 0 exactly if the file can be read and its checksums - there is at least one - are those of its content. *)
Theorem C59_verify_text : forall f, text_name f ->
  (jess_verify sy [f] = (Ok tt, []) <->
   sy_no_read sy f = false /\ exists m data content, sy_disk sy (sy_node sy f) = Some (File m data) /\ short_lines data /\ content_of (lit "#") data content
     /\ (exists t, has_checksum (lit "#") data t) /\ forall t, has_checksum (lit "#") data t -> checksum_of H t content).
Proof using Type.
  intros f T. unfold checksum_verify_cmd. split.
  - destruct (read_file sy f) as [data| |] eqn:R; cbn [try]; try discriminate. apply read_file_iff in R as (NR & m & D). rewrite check_text by exact T. intro E. injection E as E. apply C41_verify_exact in E as (S & content & C & X & A). split; [exact NR|]. exists m, data, content. auto 6.
  - intros (NR & m & data & content & D & S & C & X & A). assert (R : read_file sy f = Ok data) by (apply read_file_iff; eauto). rewrite R. cbn [try]. rewrite check_text by exact T. f_equal. apply C41_verify_exact. split; [exact S|]. eauto.
Qed.
Theorem C59_verify_json : forall f d, json_name f -> plain unesc d -> (exists m data, sy_disk sy (sy_node sy f) = Some (File m data) /\ parse data = Some d) ->
  (jess_verify sy [f] = (Ok tt, []) <->
   sy_no_read sy f = false /\ exists content, json_content unesc d content /\ (exists s, listed unesc (lit "_jess-checksum") d s)
     /\ forall s, listed unesc (lit "_jess-checksum") d s -> json_checksum_of H render s content).
Proof using Type.
  intros f d T P (m & data & D & PA). apply ext_json in T. unfold checksum_verify_cmd. split.
  - destruct (read_file sy f) as [data'| |] eqn:R; cbn [try]; try discriminate. apply read_file_iff in R as (NR & m' & D'). assert (data' = data) by congruence. subst data'. unfold check_checksum. rewrite T, PA. intro E. injection E as E. apply C49_verify_exact in E; [|exact P]. auto.
  - intros (NR & X). assert (R : read_file sy f = Ok data) by (apply read_file_iff; eauto). rewrite R. cbn [try]. unfold check_checksum. rewrite T, PA. f_equal. now apply C49_verify_exact.
Qed.

Lemma add_inv args r es : jess_add args = (r, es) ->
  (r <> Ok tt /\ es = []) \/ exists f m data out, args = [f] /\ sy_disk sy (sy_node sy f) = Some (File m data) /\ add_checksum esc unesc render parse H f data = Ok out /\ write_file sy f m out = (r, es).
Proof using Type.
  unfold checksum_add_cmd. destruct args as [|f [|]]; try (intro E; injection E as <- <-; left; split; [discriminate|reflexivity]).
  destruct (read_file sy f) as [data| |] eqn:R; cbn [try]; try (intro E; injection E as <- <-; left; split; [discriminate|reflexivity]). apply read_file_iff in R as (NR & m & D).
  destruct (add_checksum esc unesc render parse H f data) as [out| |] eqn:A; cbn [try]; try (intro E; injection E as <- <-; left; split; [discriminate|reflexivity]).
  rewrite D. destruct (stat_file sy f); [|intro E; injection E as <- <-; left; split; [discriminate|reflexivity]..]. intro W. right. exists f, m, data, out. auto.
Qed.
Lemma wrote_writes_any qs f m data part : sy_disk sy (sy_node sy f) = Some (File m data) ->
  disk_after sy (map Asked qs ++ Opened f m :: map (Wrote f) part) (sy_node sy f) = Some (File m part) /\ forall n, n <> sy_node sy f -> disk_after sy (map Asked qs ++ Opened f m :: map (Wrote f) part) n = sy_disk sy n.
Proof using Type.
  intro D. rewrite run_app. unfold disk_after at 1. rewrite questions_apply. cbn [fold_left]. destruct (writes_apply sy f part (apply (sy_node sy) (sy_disk sy) (Opened f m)) m []) as [A B]; [cbn [apply]; rewrite D; apply upd_same|].
  split; [exact A|]. intros n N. unfold disk_after at 1. rewrite questions_apply, (B n N). cbn [apply]. now apply upd_other.
Qed.
(** Wherever add is stopped: the file has the old content, or the beginning of the new one; it keeps its mode, and no other file changes. *)
Theorem C59_add_any_point : forall args r es done rest, jess_add args = (r, es) -> es = done ++ rest ->
  printed done = []
  /\ ((forall n, disk_after sy done n = sy_disk sy n)
      \/ exists f m data out part more, args = [f] /\ sy_disk sy (sy_node sy f) = Some (File m data) /\ add_checksum esc unesc render parse H f data = Ok out
           /\ out = part ++ more /\ disk_after sy done (sy_node sy f) = Some (File m part) /\ forall n, n <> sy_node sy f -> disk_after sy done n = sy_disk sy n).
Proof using Type.
  intros args r es done rest R P. destruct (add_inv _ _ _ R) as [[_ ->]|(f & m & data & out & -> & D & A & W)].
  - symmetry in P. apply app_eq_nil in P as [-> _]. split; [reflexivity|]. left. reflexivity.
  - unfold write_file in W. rewrite D in W. destruct (sy_no_write sy f); [injection W as _ <-; symmetry in P; apply app_eq_nil in P as [-> _]; split; [reflexivity|left; reflexivity]|].
    unfold after in W. destruct (feed sy f (Wrote f) out) as [r' es'] eqn:F. injection W as _ <-. apply feed_inv in F as (part & more & -> & -> & _). cbn [snd app] in P.
    destruct done as [|x done]; [split; [reflexivity|left; reflexivity]|]. injection P as <- P. apply prefix_map in P as (a & b & -> & ->). split; [exact (writes_printed f a)|]. right. exists f, m, data, ((a ++ b) ++ more), a, (b ++ more).
    destruct (wrote_writes_any [] f m data a D) as [X Y]. cbn [map app] in X, Y. rewrite <- app_assoc in *. auto 8.
Qed.
Lemma add_done args es : jess_add args = (Ok tt, es) -> exists f m data out, args = [f] /\ sy_no_read sy f = false /\ sy_disk sy (sy_node sy f) = Some (File m data) /\ add_checksum esc unesc render parse H f data = Ok out
  /\ disk_after sy es (sy_node sy f) = Some (File m out).
Proof using Type.
  intro R. assert (NR : forall f, args = [f] -> sy_no_read sy f = false). { intros f ->. revert R. unfold checksum_add_cmd, read_file. destruct (sy_no_read sy f); [discriminate|reflexivity]. }
  destruct (add_inv _ _ _ R) as [[X _]|(f & m & data & out & -> & D & A & W)]; [now elim X|]. exists f, m, data, out. split; [reflexivity|]. split; [now apply NR|]. split; [exact D|]. split; [exact A|].
  unfold write_file in W. rewrite D in W. destruct (sy_no_write sy f); [discriminate|]. unfold after in W. destruct (feed sy f (Wrote f) out) as [r' es'] eqn:F. injection W as -> <-. apply feed_inv in F as (part & more & -> & -> & E & _). rewrite (E eq_refl), app_nil_r. cbn [snd app].
  exact (proj1 (wrote_writes_any [] f m data part D)).
Qed.
(** add, then verify: the file verifies if its old checksums did, and its content is the same. *)
Theorem C59_text_add_then_verify : forall f m data content es, hash_family H -> text_name f -> sy_disk sy (sy_node sy f) = Some (File m data) ->
  content_of (lit "#") data content -> ~ meta_line (lit "#") content -> placeable AfterComment (lit "#") content ->
  jess_add [f] = (Ok tt, es) ->
  exists new, disk_after sy es (sy_node sy f) = Some (File m new)
    /\ (short_lines new ->
        content_of (lit "#") new content
        /\ (jess_verify (then_ sy es) [f] = (Ok tt, []) <-> forall t, has_checksum (lit "#") data t -> checksum_of H t content)).
Proof using Type.
  intros f m data content es HF T D C NM PL A. apply add_done in A as (f' & m' & data' & out & E & NR & D' & A & W). injection E as <-. assert (data' = data) by congruence. assert (m' = m) by congruence. subst data' m'.
  exists out. split; [exact W|]. intro SO. rewrite (add_text f data T) in A. assert (NS : ~ In newline (lit "#")) by (intros [X|[]]; discriminate X).
  destruct (C40_add_then_verify H data (lit "#") AfterComment content out HF NS C NM PL A SO) as (V & CO & _). split; [exact CO|]. rewrite <- V.
  unfold checksum_verify_cmd. assert (R : read_file (then_ sy es) f = Ok out) by (apply read_file_iff; split; [exact NR|exists m; exact W]). rewrite R. cbn [try]. rewrite check_text by exact T. split; [intro X; now injection X|now intros ->].
Qed.
Theorem C59_json_add_then_verify : forall f m data ms es, (forall s, unesc (esc s) = s) -> (forall j, add_json_checksum esc unesc render H (Some (JObj ms)) = Ok j -> parse (render j) = Some j) -> hash_family H -> json_name f ->
  sy_disk sy (sy_node sy f) = Some (File m data) -> parse data = Some (JObj ms) -> plain unesc (JObj ms) ->
  jess_add [f] = (Ok tt, es) ->
  exists new out content, disk_after sy es (sy_node sy f) = Some (File m new) /\ parse new = Some out
    /\ json_content unesc (JObj ms) content /\ json_content unesc out content
    /\ (jess_verify (then_ sy es) [f] = (Ok tt, []) <-> forall s, listed unesc (lit "_jess-checksum") (JObj ms) s -> json_checksum_of H render s content).
Proof using Type.
  intros f m data ms es UE PR HF T D PA P A. apply add_done in A as (f' & m' & data' & out & E & NR & D' & A & W). injection E as <-. assert (data' = data) by congruence. assert (m' = m) by congruence. subst data' m'. apply ext_json in T.
  unfold add_checksum in A. rewrite T, PA in A. destruct (C49_add_then_verify esc unesc render H ms UE HF P) as (j & content & AJ & C1 & C2 & _ & V & _). rewrite AJ in A. cbn [bind] in A. injection A as <-.
  exists (render j), j, content. split; [exact W|]. specialize (PR j AJ). split; [exact PR|]. split; [exact C1|]. split; [exact C2|]. etransitivity; [|exact V].
  unfold checksum_verify_cmd. assert (R : read_file (then_ sy es) f = Ok (render j)) by (apply read_file_iff; split; [exact NR|exists m; exact W]). rewrite R. cbn [try]. unfold check_checksum. rewrite T, PR. split; [intro X; now injection X|now intros ->].
Qed.
End Checksum.
Print Assumptions C59_add_any_point.
Print Assumptions C59_json_add_then_verify.

(** ** Concrete cases *)
(** Names lead to different files; everything is readable and writable, and the user agrees. *)
Fixpoint name_index (names : list bytes) (f : bytes) : nat := match names with [] => 0 | x :: r => if bytes_eqb x f then 1 else S (name_index r f) end.
Definition demo_system (names : list bytes) (dk : disk) : system :=
  mkSystem (name_index names) dk (fun _ => false) (fun _ => false) (fun _ => false) (fun _ => None) (fun _ => false) (Some (lit "piped")) (fun _ => Some true).
Definition cautious (sy : system) : system :=
  mkSystem (sy_node sy) (sy_disk sy) (sy_hidden sy) (sy_no_read sy) (sy_no_write sy) (sy_room sy) (sy_no_close sy) (sy_stdin sy) (fun _ => Some false).
Definition one_file (mode : N) (b : bytes) : disk := fun n => if (n =? 1)%nat then Some (File mode b) else None.
Definition two_files (b : bytes) (mode : N) (old : bytes) : disk := fun n => if (n =? 1)%nat then Some (File 384 b) else if (n =? 2)%nat then Some (File mode old) else None.
Definition v1 : suite := suite_named (lit "v1").
Definition note_letter : letter := closed_by v1 (lit "my secret").
Definition note_parse (b : bytes) : outcome raw_letter := if bytes_eqb b (lit "LETTER") then Ok (raw note_letter) else Err EOther.
Notation run_open sy := (open_cmd default_config toy (reader_world v1) sy note_parse None 7).

(** All hypotheses of C57 with the default requirements; the plaintext ends up in "note", readable for the owner only. *)
Example C57_hypotheses_met : let sy := demo_system [lit "note.letter"; lit "note"] (one_file 420 (lit "LETTER")) in
  open_output [] (lit "note.letter") (lit "note") /\ readable sy (lit "note.letter") /\ reads sy (lit "note.letter") (lit "LETTER")
  /\ authentic default_config toy (reader_world v1) note_parse None 7 (lit "LETTER") (lit "my secret")
  /\ writable_file sy (lit "note") (lit "my secret") /\ agreeable sy (lit "note.letter") (lit "note")
  /\ exists es, run_open sy [] [lit "note.letter"] = (Ok tt, es) /\ disk_after sy es 2 = Some (File 384 (lit "my secret")) /\ disk_after sy es 1 = Some (File 420 (lit "LETTER")).
Proof.
  cbv zeta. split; [right; split; [reflexivity|split; [discriminate|reflexivity]]|]. split; [right; split; reflexivity|]. split; [right; split; [discriminate|eexists; reflexivity]|].
  split; [exists (raw note_letter); split; [reflexivity|vm_compute; reflexivity]|].
  split; [split; [discriminate|split; [reflexivity|right; split; [reflexivity|split; [reflexivity|discriminate]]]]|]. split; [split; reflexivity|].
  eexists. split; [vm_compute; reflexivity|]. split; vm_compute; reflexivity.
Qed.
(** Exit status 0 does not mean that the plaintext was written: the user did not want to overwrite a file. *)
Theorem C57_declined_refuted : let sy := cautious (demo_system [lit "note.letter"; lit "note"] (two_files (lit "LETTER") 384 (lit "old"))) in
  exists es, run_open sy [] [lit "note.letter"] = (Ok tt, es) /\ nothing sy es.
Proof. eexists. split; [vm_compute; reflexivity|]. split; [intro n; reflexivity|reflexivity]. Qed.
(** Overwriting a file that everyone may read leaves the plaintext readable for everyone. *)
Theorem C57_mode_refuted : let sy := demo_system [lit "note.letter"; lit "note"] (two_files (lit "LETTER") 420 (lit "old")) in
  exists es, run_open sy [] [lit "note.letter"] = (Ok tt, es) /\ disk_after sy es 2 = Some (File 420 (lit "my secret")).
Proof. eexists. split; [vm_compute; reflexivity|vm_compute; reflexivity]. Qed.
(** Opening a letter onto itself and being interrupted (or running out of space) loses both the letter and the plaintext. *)
Theorem C57_interrupted_refuted : let sy := demo_system [lit "note.letter"] (one_file 384 (lit "LETTER")) in
  exists done rest, run_open sy (lit "note.letter") [lit "note.letter"] = (Ok tt, done ++ rest) /\ disk_after sy done 1 = Some (File 384 []).
Proof.
  eexists (_ :: _ :: []), _. split; [vm_compute; reflexivity|vm_compute; reflexivity].
Qed.
Print Assumptions C57_interrupted_refuted.

Definition note_dump (l : letter) : outcome bytes := one_dump letter_eqb (set_data note_letter []) l.
Definition note_load (x : bytes) : outcome letter := if bytes_eqb x [x01; x0a] then Ok (set_data note_letter []) else Err EOther.
Definition note_envelope (name : bytes) : outcome envelope := if bytes_eqb name (lit "bob") then Ok (post_env v1) else Err EEnvelopeNotFound.
Notation run_close sy := (close_cmd default_config toy (writer_world v1) sy note_envelope note_dump false 3).
Lemma v1_registered : In v1 suite_registry.
Proof. apply (get_suite_in (lit "v1")). vm_compute. reflexivity. Qed.
Lemma fits_le x y : fits y -> blen x = blen y -> fits x.
Proof. unfold fits. now intros A ->. Qed.
(** The hypotheses of the round trip, and the round trip itself. *)
Example C58_hypotheses_met : let sy := demo_system [lit "note"; lit "note.letter"] (one_file 420 (lit "my secret")) in
  note_envelope (lit "bob") = Ok (post_env v1) /\ writable default_config (post_env v1) v1
  /\ (forall s, correspondence default_config suite_registry tool_registry hash_registry toy (writer_world v1) (post_env v1) = Ok s -> reader toy (reader_world v1) (s_env s))
  /\ incl (wanted None) (su_provides v1)
  /\ (forall l0 h, note_dump l0 = Ok h -> note_load (h ++ [x0a]) = Ok l0 /\ fits (h ++ [x0a]))
  /\ (forall s l r, correspondence default_config suite_registry tool_registry hash_registry toy (writer_world v1) (post_env v1) = Ok s -> close_session default_config toy s false (lit "my secret") (rt_start 3 None) = (Ok l, r) -> fits (l_data l))
  /\ reads sy (lit "note") (lit "my secret") /\ ~ refused sy (lit "note") (lit "note.letter")
  /\ exists es text, run_close sy [] [lit "note"; lit "with"; lit "bob"] = (Ok tt, es) /\ disk_after sy es 2 = Some (File 384 text)
       /\ let sy2 := demo_system [lit "note.letter"; lit "note"] (one_file 420 text) in
          readable sy2 (lit "note.letter") /\ reads sy2 (lit "note.letter") text /\ writable_file sy2 (lit "note") (lit "my secret") /\ agreeable sy2 (lit "note.letter") (lit "note")
          /\ exists es2, open_cmd default_config toy (reader_world v1) sy2 (fun x => do l <- letter_from_file_format 2 note_load x; Ok (raw l)) None 7 [] [lit "note.letter"] = (Ok tt, es2)
               /\ disk_after sy2 es2 2 = Some (File 384 (lit "my secret")).
Proof.
  cbv zeta. pose proof C54_hypotheses_met as T. rewrite Forall_forall in T. destruct (T v1 v1_registered) as (s & l & r & W & CO & RD & _).
  split; [reflexivity|]. split; [exact W|]. split; [intros s' E; rewrite CO in E; injection E as <-; exact RD|]. split; [vm_compute; auto|].
  split. { intros l0 h. unfold note_dump, one_dump. destruct (letter_eqb l0 (set_data note_letter [])) eqn:E; [|discriminate]. intro X. injection X as <-. apply letter_eqb_eq in E as ->. split; [reflexivity|vm_compute; reflexivity]. }
  split. { intros s' l' r' C1 C2. assert (X : l' = note_letter). { unfold note_letter, closed_by. rewrite C1, C2. reflexivity. } subst l'. vm_compute. reflexivity. }
  split; [right; split; [discriminate|eexists; reflexivity]|]. split; [intros [[_ X]|[_ X]]; discriminate X|].
  eexists. eexists. split; [vm_compute; reflexivity|]. split; [vm_compute; reflexivity|]. split; [right; split; reflexivity|]. split; [right; split; [discriminate|eexists; reflexivity]|].
  split; [split; [discriminate|split; [reflexivity|right; split; [reflexivity|split; [reflexivity|discriminate]]]]|]. split; [split; reflexivity|].
  eexists. split; [vm_compute; reflexivity|vm_compute; reflexivity].
Qed.
(** `jess close - with bob` reads stdin but does not write to stdout: it makes a file "-.letter". *)
Theorem C58_stdin_refuted : let sy := demo_system [lit "-.letter"; lit "-"] (fun _ => None) in
  let note_dump := fun l => one_dump letter_eqb (set_data (closed_by v1 (lit "piped")) []) l in
  exists es text, close_cmd default_config toy (writer_world v1) sy note_envelope note_dump false 3 [] [lit "-"; lit "with"; lit "bob"] = (Ok tt, es)
    /\ printed es = [] /\ disk_after sy es 1 = Some (File 384 text).
Proof. eexists. eexists. split; [vm_compute; reflexivity|]. split; [vm_compute; reflexivity|vm_compute; reflexivity]. Qed.
Print Assumptions C58_stdin_refuted.

Definition no_json (_ : bytes) : option json := None.
Notation run_add sy := (checksum_add_cmd sy idb idb toy_render no_json toy_hash).
(** Adding a checksum and being interrupted loses the file. *)
Theorem C59_interrupted_refuted : let sy := demo_system [lit "conf.yml"] (one_file 420 (lit "key: value")) in
  exists done rest, run_add sy [lit "conf.yml"] = (Ok tt, done ++ rest) /\ disk_after sy done 1 = Some (File 420 []).
Proof. eexists (_ :: []), _. split; [vm_compute; reflexivity|vm_compute; reflexivity]. Qed.
Example C59_hypotheses_met : let sy := demo_system [lit "conf.yml"] (one_file 420 sample_text) in
  hash_family toy_hash /\ text_name (lit "conf.yml")
  /\ (exists content, content_of (lit "#") sample_text content /\ ~ meta_line (lit "#") content /\ placeable AfterComment (lit "#") content)
  /\ exists es new, run_add sy [lit "conf.yml"] = (Ok tt, es) /\ disk_after sy es 1 = Some (File 420 new) /\ short_lines new
       /\ checksum_verify_cmd (then_ sy es) idb toy_render no_json toy_hash [lit "conf.yml"] = (Ok tt, []).
Proof.
  cbv zeta. destruct C40_hypotheses_met as (content & out & HF & _ & C & M & P & A & S & V & _). split; [exact HF|]. split; [exists (lit "conf"); now left|]. split; [eauto|].
  eexists. exists out. split; [vm_compute; reflexivity|]. split; [vm_compute; f_equal; f_equal; vm_compute in A; now injection A|]. split; [exact S|]. vm_compute. reflexivity.
Qed.
Definition json_text : bytes := lit "{...}".
Definition json_out : json := match add_json_checksum idb idb toy_render toy_hash (Some sample_json) with Ok j => j | _ => sample_json end.
Definition two_json (b : bytes) : option json := if bytes_eqb b json_text then Some sample_json else if bytes_eqb b (toy_render json_out) then Some json_out else None.
Example C59_json_hypotheses_met : let sy := demo_system [lit "conf.json"] (one_file 420 json_text) in
  json_name (lit "conf.json") /\ two_json json_text = Some sample_json /\ plain idb sample_json
  /\ (forall j, add_json_checksum idb idb toy_render toy_hash (Some sample_json) = Ok j -> two_json (toy_render j) = Some j)
  /\ exists es, checksum_add_cmd sy idb idb toy_render two_json toy_hash [lit "conf.json"] = (Ok tt, es)
       /\ checksum_verify_cmd (then_ sy es) idb toy_render two_json toy_hash [lit "conf.json"] = (Ok tt, []).
Proof.
  cbv zeta. split; [exists (lit "conf"); reflexivity|]. split; [reflexivity|]. split; [exact sample_plain|]. split; [intros j E; assert (X : j = json_out) by (unfold json_out; now rewrite E); subst j; vm_compute; reflexivity|].
  eexists. split; [vm_compute; reflexivity|vm_compute; reflexivity].
Qed.
