(** Facts about signature files. *)
From Coq Require Import Init.Byte.
From Verif Require Import Prelude PreludeFacts Letter Envelope EncodingsFacts.
From Verif Require Export Search Armor SpecArmor.

Lemma first_occurrence_le p a0 r a s : first_occurrence p a0 -> a0 ++ p ++ r = a ++ p ++ s -> length a0 <= length a.
Proof.
  intros F E. destruct (le_lt_dec (length a0) (length a)) as [L|L]; [exact L|exfalso].
  rewrite (app_assoc a0), (app_assoc a) in E. apply app_eq_app in E as [m [[E _]|[E _]]].
  - rewrite <- app_assoc in E. pose proof E as E'. apply F in E. subst m. apply (f_equal (@length byte)) in E'. rewrite !app_length in E'. cbn in E'. lia.
  - apply (f_equal (@length byte)) in E. rewrite !app_length in E. lia.
Qed.
Lemma first_occurrence_suffix p x a : first_occurrence p (x ++ a) -> first_occurrence p a.
Proof. intros F a' r E. apply (F (x ++ a') r). now rewrite <- !app_assoc, E. Qed.
Lemma end_cond x m : (forall a r, a <> [] -> (x :: m) ++ end_line = a ++ end_line ++ r -> r = []) <-> first_occurrence armor_end m.
Proof.
  split.
  - intros H a r E. apply (H (x :: a) r); [discriminate|]. cbn. f_equal. exact E.
  - intros F a r NE E. destruct a as [|y a]; [congruence|]. injection E as _ E. exact (F _ _ E).
Qed.

Lemma next_section_none l : next_section l = None <-> forall a c b, l = a ++ begin_line ++ c ++ end_line ++ b -> c = [].
Proof.
  change begin_line with armor_start. change end_line with armor_end. unfold next_section. split.
  - intros E a c b ->. destruct (find_sub armor_start _) as [[a0 [|x r]]|] eqn:ES.
    + apply find_sub_some in ES as [ES F]. pose proof (first_occurrence_le _ _ _ _ _ F (eq_sym ES)) as L.
      apply (f_equal (@length byte)) in ES. rewrite !app_length in ES. cbn [length] in ES. change (length armor_end) with 28 in ES. lia.
    + destruct (find_sub armor_end r) as [[m b']|] eqn:EE; [discriminate|]. apply find_sub_none in EE.
      apply find_sub_some in ES as [ES F]. pose proof (first_occurrence_le _ _ _ _ _ F (eq_sym ES)) as L.
      destruct c as [|y c]; [reflexivity|exfalso]. apply EE.
      replace (a ++ armor_start ++ (y :: c) ++ armor_end ++ b) with ((a ++ armor_start ++ y :: c) ++ armor_end ++ b) in ES by now rewrite <- !app_assoc.
      rewrite (app_assoc a0) in ES. apply app_eq_app in ES as [m [[E1 E2]|[E1 E2]]].
      * pose proof (f_equal (@length byte) E1) as X. rewrite !app_length in X. cbn [length] in X.
        destruct m as [|z m]; [cbn [length] in X; lia|]. injection E2 as -> E2. exists m, b. exact E2.
      * apply (f_equal (@length byte)) in E1. rewrite !app_length in E1. cbn [length] in E1. lia.
    + apply find_sub_none in ES. exfalso. apply ES. now exists a, (c ++ armor_end ++ b).
  - intro H. destruct (find_sub armor_start l) as [[a0 [|x r]]|] eqn:ES; [reflexivity| |reflexivity].
    destruct (find_sub armor_end r) as [[m b]|] eqn:EE; [exfalso|reflexivity].
    apply find_sub_some in ES as [-> _]. apply find_sub_some in EE as [-> _]. specialize (H a0 (x :: m) b eq_refl). discriminate.
Qed.
Lemma next_section_some l t c b : next_section l = Some (t, c, b) ->
  l = t ++ begin_line ++ c ++ end_line ++ b /\ c <> [] /\ first_occurrence armor_start t
  /\ (forall a r, a <> [] -> c ++ end_line = a ++ end_line ++ r -> r = []).
Proof.
  unfold next_section. destruct (find_sub armor_start l) as [[a0 [|x r]]|] eqn:ES; [discriminate| |discriminate].
  destruct (find_sub armor_end r) as [[m b']|] eqn:EE; [|discriminate]. intros [= -> <- ->].
  apply find_sub_some in ES as [-> F1]. apply find_sub_some in EE as [-> F2]. split; [reflexivity|]. split; [discriminate|]. split; [exact F1|].
  now apply end_cond.
Qed.
Lemma next_section_first t c b : c <> [] -> first_occurrence armor_start t ->
  (forall a r, a <> [] -> c ++ end_line = a ++ end_line ++ r -> r = []) ->
  next_section (t ++ begin_line ++ c ++ end_line ++ b) = Some (t, c, b).
Proof.
  intros NE F1 F2. destruct c as [|x m]; [congruence|]. apply end_cond in F2. unfold next_section. rewrite (find_sub_first armor_start t _ F1).
  change end_line with armor_end. cbn [app]. now rewrite (find_sub_first armor_end m b F2).
Qed.

Lemma skip_eol_eq l : skip_eol l = without_eol l.
Proof.
  unfold skip_eol, without_eol, byte_eqb. destruct l as [|x l]; [reflexivity|].
  destruct x; try reflexivity; cbn; destruct l as [|y l]; try reflexivity; destruct y; reflexivity.
Qed.
Lemma without_eol_suffix l : exists e, l = e ++ without_eol l.
Proof.
  rewrite <- skip_eol_eq. unfold skip_eol. destruct l as [|x l]; [now exists []|]. destruct (byte_eqb x x0d).
  - destruct l as [|y l]; [now exists [x]|]. destruct (byte_eqb y x0a); [now exists [x; y]|now exists [x]].
  - destruct (byte_eqb x x0a); [now exists [x]|now exists []].
Qed.
Lemma without_eol_begin t r : without_eol (t ++ begin_line ++ r) = without_eol t ++ begin_line ++ r.
Proof.
  rewrite <- !skip_eol_eq. destruct t as [|x t]; [reflexivity|]. unfold skip_eol. cbn [app]. destruct (byte_eqb x x0d).
  - destruct t as [|y t]; [reflexivity|]. cbn [app]. destruct (byte_eqb y x0a); reflexivity.
  - destruct (byte_eqb x x0a); reflexivity.
Qed.
Lemma without_eol_len l : length (without_eol l) <= length l.
Proof. destruct (without_eol_suffix l) as [e E]. rewrite E at 2. rewrite app_length. lia. Qed.

Lemma sections_spec file ts cs rest : sections_of file ts cs rest -> forall f, length file <= f -> sections f file = cs.
Proof.
  induction 1 as [rest N|t c file ts cs rest NE F1 F2 S IH]; intros f L.
  - destruct f; [reflexivity|]. cbn [sections]. apply next_section_none in N. now rewrite N.
  - rewrite !app_length in L. change (length begin_line) with 30 in L. destruct f as [|f]; [lia|]. cbn [sections].
    rewrite (next_section_first t c file NE F1 F2). f_equal. apply IH. lia.
Qed.
Lemma none_suffix e rest : (forall a c b, e ++ rest = a ++ begin_line ++ c ++ end_line ++ b -> c = []) ->
  (forall a c b, rest = a ++ begin_line ++ c ++ end_line ++ b -> c = []).
Proof. intros H a c b ->. apply (H (e ++ a) c b). now rewrite <- app_assoc. Qed.
Lemma sections_without_eol file ts cs rest : sections_of file ts cs rest ->
  exists ts' rest', sections_of (without_eol file) ts' cs rest' /\ kept ts' rest' = cut ts rest.
Proof.
  destruct 1 as [rest N|t c file ts cs rest NE F1 F2 S].
  - exists [], (without_eol rest). split; [|reflexivity]. constructor. destruct (without_eol_suffix rest) as [e E]. rewrite E in N. eapply none_suffix, N.
  - exists (without_eol t :: ts), rest. split; [|reflexivity]. rewrite without_eol_begin. constructor; auto.
    destruct (without_eol_suffix t) as [e E]. rewrite E in F1. apply (first_occurrence_suffix _ e). exact F1.
Qed.
Lemma remove_spec f : forall file ts cs rest, length file <= f -> sections_of file ts cs rest -> remove_fuel f file = kept ts rest.
Proof.
  induction f as [|f IH]; intros file ts cs rest L S.
  - destruct file; [|cbn in L; lia]. inversion S as [? N|t c ? ? ? ? NE F1 F2 S']; subst; [reflexivity|].
    match goal with H : _ = [] |- _ => apply (f_equal (@length byte)) in H; rewrite !app_length in H; change (length begin_line) with 30 in H; cbn in H; lia end.
  - cbn [remove_fuel]. destruct S as [rest N|t c file ts cs rest NE F1 F2 S].
    + apply next_section_none in N. now rewrite N.
    + rewrite (next_section_first t c file NE F1 F2). cbn [kept]. f_equal. rewrite skip_eol_eq.
      destruct (sections_without_eol _ _ _ _ S) as (ts' & rest' & S' & <-). apply (IH _ _ cs); [|exact S'].
      rewrite !app_length in L. change (length begin_line) with 30 in L. pose proof (without_eol_len file). lia.
Qed.
Lemma sections_exist file : exists ts cs rest, sections_of file ts cs rest.
Proof.
  assert (G : forall n file, length file <= n -> exists ts cs rest, sections_of file ts cs rest).
  { induction n as [|n IH]; intros l L; (destruct (next_section l) as [[[t c] b]|] eqn:E; [|exists [], [], l; constructor; now apply next_section_none]).
    - apply next_section_some in E as (-> & NE & F1 & F2). rewrite !app_length in L. change (length begin_line) with 30 in L. lia.
    - apply next_section_some in E as (-> & NE & F1 & F2). rewrite !app_length in L. change (length begin_line) with 30 in L.
      destruct (IH b) as (ts & cs & rest & S); [lia|]. exists (t :: ts), (c :: cs), rest. now constructor. }
  exact (G _ file (le_n _)).
Qed.

(** Sections made by the library. *)
Lemma chunks_concat f l : length l < f -> concat (chunks f l) = l.
Proof.
  revert l. induction f as [|f IH]; intros l L; [lia|]. cbn [chunks]. destruct l as [|x l]; [reflexivity|].
  destruct (Nat.ltb_spec line_length (length (x :: l))) as [G|G]; [|cbn; now rewrite app_nil_r].
  cbn [concat]. rewrite IH; [apply firstn_skipn|]. rewrite skipn_length. unfold line_length in *. lia.
Qed.
Lemma join_split sep : forall ls x, join sep (x :: ls) = x ++ concat (map (fun l => sep ++ l) ls).
Proof.
  induction ls as [|l ls IH]; intro x; [cbn; now rewrite app_nil_r|].
  change (join sep (x :: l :: ls)) with (x ++ sep ++ join sep (l :: ls)). rewrite IH. cbn [map concat]. now rewrite <- !app_assoc.
Qed.
(** The body of a section: lines of base64, each preceded by a line break, and a final line break. *)
Definition body (d : bytes) : bytes := concat (map (fun l => x0a :: l) (chunks (S (length (b64_encode false d))) (b64_encode false d))) ++ [x0a].
Lemma armor_text_eq d : armor_text d = begin_line ++ body d ++ end_line.
Proof.
  unfold armor_text, body. rewrite join_split. change armor_start with begin_line. f_equal. rewrite map_app, concat_app. cbn [map concat].
  rewrite app_nil_r, <- app_assoc. reflexivity.
Qed.
Lemma no_space_app a b : no_space (a ++ b) = no_space a ++ no_space b.
Proof. apply filter_app. Qed.
Lemma b64_digit_prop (P : byte -> bool) d : forallb (fun n => P (b64_digit false n)) (map N.of_nat (seq 0 64)) = true -> forallb P (b64_encode false d) = true.
Proof.
  intro H. unfold b64_encode. apply forallb_forall. intros x I. apply in_map_iff in I as (n & <- & I).
  pose proof (b64_groups_small d) as S. rewrite Forall_forall in S. apply (small_all (fun n => P (b64_digit false n)) 64 n H (S _ I)).
Qed.
Lemma no_space_id l : forallb (fun b => negb (is_space b)) l = true -> no_space l = l.
Proof. induction l as [|x l IH]; [reflexivity|]. cbn [forallb no_space filter]. intro H. apply andb_prop in H as [-> H]. f_equal. now apply IH. Qed.
Lemma no_space_lines ls : no_space (concat (map (fun l => x0a :: l) ls)) = no_space (concat ls).
Proof. induction ls as [|l ls IH]; [reflexivity|]. cbn [map concat]. rewrite !no_space_app, IH. reflexivity. Qed.
Lemma no_space_body d : no_space (body d) = b64_encode false d.
Proof.
  unfold body. rewrite no_space_app, no_space_lines, chunks_concat by lia. cbn [no_space filter is_space]. rewrite app_nil_r.
  apply no_space_id, b64_digit_prop. vm_compute. reflexivity.
Qed.
Lemma body_no_dash d x : In x (body d) -> x <> x2d.
Proof.
  unfold body. intros I E. subst. apply in_app_or in I as [I|[I|[]]]; [|discriminate].
  assert (C : forall ls, In x2d (concat (map (fun l => x0a :: l) ls)) -> In x2d (concat ls)).
  { induction ls as [|l ls IH]; [auto|]. cbn [map concat]. rewrite !in_app_iff. intros [[J|J]|J]; [discriminate|auto|auto]. }
  apply C in I. rewrite chunks_concat in I by lia.
  pose proof (b64_digit_prop (fun b => negb (byte_eqb b x2d)) d ltac:(vm_compute; reflexivity)) as H. rewrite forallb_forall in H. apply H in I. discriminate.
Qed.
Lemma body_ne d : body d <> [].
Proof. unfold body. intro E. now apply app_eq_nil in E as [_ E]. Qed.
Lemma body_end d a r : a <> [] -> body d ++ end_line = a ++ end_line ++ r -> r = [].
Proof.
  intros _ E. destruct r as [|y r]; [reflexivity|exfalso].
  assert (L : length a < length (body d)) by (apply (f_equal (@length byte)) in E; rewrite !app_length in E; cbn [length] in E; lia).
  assert (X : nth (length a) (body d ++ end_line) x00 = x2d).
  { rewrite E, app_nth2, Nat.sub_diag by lia. reflexivity. }
  rewrite app_nth1 in X by exact L. apply (body_no_dash d x2d); [|reflexivity]. rewrite <- X. now apply nth_In.
Qed.

(** The trims of ParseSigFile do nothing: no white space is left to match the markers. *)
Lemma strip_prefix_space p l r : strip_prefix p l = Some r -> forallb (fun b => negb (is_space b)) l = true -> forallb (fun b => negb (is_space b)) p = true.
Proof. intros E H. apply strip_prefix_some in E. subst. rewrite forallb_app in H. now apply andb_prop in H as [H _]. Qed.
Lemma no_space_all l : forallb (fun b => negb (is_space b)) (no_space l) = true.
Proof. apply forallb_forall. intros x I. now apply filter_In in I. Qed.
Lemma captured_eq c : captured c = no_space c.
Proof.
  unfold captured. assert (S : trim_suffix armor_end (no_space c) = no_space c).
  { unfold trim_suffix, trim_prefix. destruct (strip_prefix (rev armor_end) (rev (no_space c))) as [r|] eqn:E; [exfalso|apply rev_involutive].
    apply strip_prefix_space in E; [vm_compute in E; discriminate|]. apply forallb_forall. intros x I. apply in_rev in I.
    pose proof (no_space_all c) as H. rewrite forallb_forall in H. auto. }
  rewrite S. unfold trim_prefix. destruct (strip_prefix armor_start (no_space c)) as [r|] eqn:E; [exfalso|reflexivity].
  apply strip_prefix_space in E; [vm_compute in E; discriminate|apply no_space_all].
Qed.

(** The letter in the body of a section, if it can be read. *)
Definition body_letter (load : bytes -> option raw_letter) (c : bytes) : option raw_letter :=
  match b64_decode false (no_space c) with Ok d => load d | _ => None end.
Lemma body_letter_body load d : body_letter load (body d) = load d.
Proof. unfold body_letter. rewrite no_space_body, b64_round_trip. reflexivity. Qed.
Lemma parse_captured_app load a b :
  parse_captured load (a ++ b) = (fst (parse_captured load a) ++ fst (parse_captured load b), snd (parse_captured load a) || snd (parse_captured load b)).
Proof.
  induction a as [|c a IH]; cbn [app parse_captured].
  - destruct (parse_captured load b). reflexivity.
  - rewrite IH. destruct (parse_captured load a) as [la wa], (parse_captured load b) as [lb wb]. cbn [fst snd].
    destruct (b64_decode _ _); [destruct (load _)|..]; reflexivity.
Qed.
Lemma parse_captured_spec load cs :
  fst (parse_captured load cs) = concat (map (fun c => match body_letter load c with Some l => [l] | None => [] end) cs)
  /\ (snd (parse_captured load cs) = true <-> exists c, In c cs /\ body_letter load c = None).
Proof.
  induction cs as [|c cs [I1 I2]]; cbn [parse_captured map concat].
  - split; [reflexivity|]. split; [discriminate|now intros (c & [] & _)].
  - destruct (parse_captured load cs) as [ls w]. rewrite captured_eq. cbn [fst snd] in *. unfold body_letter in *.
    destruct (b64_decode false (no_space c)) as [d| |] eqn:D; [destruct (load d) as [l|] eqn:LD|..]; cbn [fst snd app]; (split; [now rewrite I1|]).
    + rewrite I2. split; [intros (x & I & E); exists x; split; [now right|exact E]|].
      intros (x & [<-|I] & E); [rewrite D, LD in E; discriminate|]. eauto.
    + split; [intros _; exists c; split; [now left|now rewrite D]|reflexivity].
    + split; [intros _; exists c; split; [now left|now rewrite D]|reflexivity].
    + split; [intros _; exists c; split; [now left|now rewrite D]|reflexivity].
Qed.

Lemma plain_first t : plain_text t -> first_occurrence armor_start t.
Proof.
  intros [L N]. apply (first_after_line _ _ x0a L); [|exact N]. intro I.
  assert (E : existsb (byte_eqb x0a) armor_start = true) by (apply existsb_exists; exists x0a; split; [exact I|reflexivity]). vm_compute in E. discriminate.
Qed.
Lemma no_begin_none rest : ~ contains begin_line rest -> sections_of rest [] [] rest.
Proof. intro N. constructor. intros a c b ->. destruct N. now exists a, (c ++ end_line ++ b). Qed.
Lemma section_of_armor t d file ts cs rest : first_occurrence armor_start t -> sections_of file ts cs rest ->
  sections_of (t ++ armor_text d ++ file) (t :: ts) (body d :: cs) rest.
Proof.
  intros F S. rewrite armor_text_eq. rewrite <- !app_assoc. constructor; auto using body_ne. exact (body_end d).
Qed.
(** Appending a section to a file whose rest is complete. *)
Lemma sections_append file ts cs rest d : sections_of file ts cs rest -> ~ contains begin_line rest ->
  sections_of (file ++ [x0a] ++ armor_text d) (ts ++ [rest ++ [x0a]]) (cs ++ [body d]) [].
Proof.
  induction 1 as [rest N|t c file ts cs rest NE F1 F2 S IH]; intro NB.
  - rewrite app_assoc, <- (app_nil_r (armor_text d)). apply section_of_armor; [|apply no_begin_none; intros (a & b & E); destruct a; discriminate].
    apply plain_first. split; [right; eauto|]. intros (a & b & E).
    destruct b as [|x b]; [|].
    2:{ destruct (@exists_last _ (x :: b) ltac:(discriminate)) as (b' & y & Eb). rewrite Eb, !app_assoc in E. apply app_inj_tail in E as [E _].
      apply NB. exists a, b'. now rewrite <- app_assoc in E. }
    rewrite app_nil_r in E. replace begin_line with (removelast begin_line ++ [x2d]) in E by reflexivity.
    rewrite app_assoc in E. apply app_inj_tail in E as [_ E]. discriminate.
  - cbn [app]. rewrite <- !app_assoc. constructor; auto.
Qed.
