(** Facts about text files with checksums. *)
From Coq Require Import Init.Byte.
From Verif Require Import Prelude PreludeFacts EncodingsFacts Lhash SpecHash PropHash SpecText.
From Verif Require Export Search Text.

(** ** Stripping a prefix code *)
Definition code (P : list bytes) : Prop := (forall p, In p P -> p <> []) /\ forall p q r, In p P -> In q P -> p = q ++ r -> r = [].
Definition blank_of (P : list bytes) (a : bytes) : Prop := exists ws, (forall w, In w ws -> In w P) /\ a = concat ws.

Lemma strip_first_none P l : strip_first P l = None <-> forall p r, In p P -> l <> p ++ r.
Proof.
  induction P as [|p P IH]; cbn; [split; [intros _ p r []|reflexivity]|].
  destruct (strip_prefix p l) as [t|] eqn:E.
  - split; [discriminate|]. intro N. apply strip_prefix_some in E. now apply (N p t (or_introl eq_refl)) in E.
  - rewrite IH. split.
    + intros N q r [<-|I]; [now apply strip_prefix_none|now apply N].
    + intros N q r I. apply N. now right.
Qed.
Lemma strip_first_some P l t : strip_first P l = Some t -> exists p, In p P /\ l = p ++ t.
Proof.
  induction P as [|p P IH]; cbn; [discriminate|]. destruct (strip_prefix p l) as [t'|] eqn:E.
  - intros [= ->]. apply strip_prefix_some in E. exists p. auto.
  - intro X. destruct (IH X) as (q & I & ->). exists q. auto.
Qed.
Lemma strip_first_code P p l : code P -> In p P -> strip_first P (p ++ l) = Some l.
Proof.
  intros [NE PF] I. destruct (strip_first P (p ++ l)) as [t|] eqn:E.
  - apply strip_first_some in E as (q & Q & E). f_equal. apply app_eq_app in E as [m [[E1 E2]|[E1 E2]]].
    + pose proof (PF _ _ _ I Q E1). subst m. now rewrite E2.
    + pose proof (PF _ _ _ Q I E1). subst m. now rewrite E2.
  - exfalso. apply (proj1 (strip_first_none _ _) E p l I eq_refl).
Qed.
Lemma strip_all_end P fuel l : strip_first P l = None -> strip_all P fuel l = l.
Proof. intro E. destruct fuel; cbn; [reflexivity|]. now rewrite E. Qed.
Lemma strip_all_blank P a y fuel : code P -> blank_of P a -> strip_first P y = None -> length a <= fuel -> strip_all P fuel (a ++ y) = y.
Proof.
  intros C (ws & W & ->) N. revert fuel. induction ws as [|w ws IH]; intros fuel L; [now apply strip_all_end|].
  cbn [concat] in *. rewrite app_length in L. assert (I : In w P) by (apply W; now left).
  assert (1 <= length w) by (destruct C as [C _]; specialize (C _ I); destruct w; [congruence|cbn; lia]).
  destruct fuel as [|f]; [lia|]. cbn [strip_all]. rewrite <- app_assoc, strip_first_code by assumption. apply IH; [intros; apply W; now right|lia].
Qed.
Lemma strip_all_spec P fuel l : (forall p, In p P -> p <> []) -> length l <= fuel ->
  exists a, blank_of P a /\ l = a ++ strip_all P fuel l /\ strip_first P (strip_all P fuel l) = None.
Proof.
  intro NE. revert l. induction fuel as [|f IH]; intros l L; cbn [strip_all].
  - destruct l; [|cbn in L; lia]. exists []. split; [now exists []|]. split; [reflexivity|]. apply strip_first_none. intros p r I E. symmetry in E. apply app_eq_nil in E as [E _]. now apply (NE p).
  - destruct (strip_first P l) as [t|] eqn:E.
    + apply strip_first_some in E as (p & I & ->). assert (1 <= length p) by (specialize (NE _ I); destruct p; [congruence|cbn; lia]).
      destruct (IH t) as (a & (ws & W & ->) & E1 & E2); [rewrite app_length in L; lia|].
      exists (p ++ concat ws). split; [exists (p :: ws); split; [intros w [<-|X]; auto|reflexivity]|]. split; [now rewrite <- app_assoc, <- E1|exact E2].
    + exists []. split; [now exists []|]. auto.
Qed.

(** ** TrimSpace *)
Definition is_cont (b : byte) : bool := ((128 <=? b2n b) && (b2n b <? 192))%N.
Definition code_b (P : list bytes) : bool :=
  forallb (fun p => match p with [] => false | _ => forallb (fun q => negb (has_prefix q p) || bytes_eqb p q) P end) P.
Lemma code_b_ok P : code_b P = true -> code P.
Proof.
  intro E. unfold code_b in E. rewrite forallb_forall in E. split.
  - intros p I X. subst. apply E in I. discriminate.
  - intros p q r I J X. specialize (E _ I). destruct p as [|x p]; [discriminate|]. rewrite forallb_forall in E. specialize (E _ J).
    unfold has_prefix in E. rewrite X, strip_prefix_app in E. cbn [negb orb] in E. apply bytes_eqb_eq in E.
    apply (f_equal (@length byte)) in E. rewrite app_length in E. destruct r; [reflexivity|cbn in E; lia].
Qed.
Lemma spaces_code : code space_runes.
Proof. apply code_b_ok. vm_compute. reflexivity. Qed.
Lemma rev_spaces_code : code (map (@rev byte) space_runes).
Proof. apply code_b_ok. vm_compute. reflexivity. Qed.
(** Every space rune starts with a byte that cannot continue a rune, and continues with bytes that can. *)
Lemma spaces_lead p : In p space_runes -> exists x r, p = x :: r /\ is_cont x = false /\ forallb is_cont r = true.
Proof.
  intro I. assert (F : forallb (fun p => match p with [] => false | x :: r => negb (is_cont x) && forallb is_cont r end) space_runes = true) by (vm_compute; reflexivity).
  rewrite forallb_forall in F. apply F in I. destruct p as [|x r]; [discriminate|]. apply andb_prop in I as [A B]. apply negb_true_iff in A. eauto.
Qed.

Lemma white_spaces_eq : white_spaces = space_runes.
Proof. vm_compute. reflexivity. Qed.
Definition blank (a : bytes) : Prop := blank_of space_runes a.
Definition trimmed (x : bytes) : Prop := forall p r, In p space_runes -> x <> p ++ r /\ x <> r ++ p.
Lemma spec_blank a : SpecText.blank a <-> blank a.
Proof. unfold SpecText.blank. rewrite white_spaces_eq. reflexivity. Qed.
Lemma spec_trimmed a : SpecText.trimmed a <-> trimmed a.
Proof. unfold SpecText.trimmed. rewrite white_spaces_eq. reflexivity. Qed.
Lemma blank_nil : blank [].
Proof. now exists []. Qed.
Lemma blank_app a b : blank a -> blank b -> blank (a ++ b).
Proof. intros (u & U & ->) (v & V & ->). exists (u ++ v). split; [intros w I; apply in_app_or in I as [I|I]; auto|now rewrite concat_app]. Qed.
Lemma blank_one p : In p space_runes -> blank p.
Proof. intro I. exists [p]. split; [intros w [<-|[]]; exact I|cbn; now rewrite app_nil_r]. Qed.
Lemma blank_rev b : blank b -> blank_of (map (@rev byte) space_runes) (rev b).
Proof.
  intros (ws & W & ->). exists (rev (map (@rev byte) ws)). split.
  - intros w I. apply in_rev, in_map_iff in I as (v & <- & I). apply in_map. auto.
  - clear. induction ws as [|w ws IH]; [reflexivity|]. cbn [concat map rev]. rewrite rev_app_distr, IH, concat_app. cbn. now rewrite app_nil_r.
Qed.
Lemma rev_blank b : blank_of (map (@rev byte) space_runes) b -> blank (rev b).
Proof.
  intros (ws & W & ->). exists (rev (map (@rev byte) ws)). split.
  - intros w I. apply in_rev, in_map_iff in I as (v & <- & I). apply W in I. apply in_map_iff in I as (u & <- & I). now rewrite rev_involutive.
  - clear. induction ws as [|w ws IH]; [reflexivity|]. cbn [concat map rev]. rewrite rev_app_distr, IH, concat_app. cbn. now rewrite app_nil_r.
Qed.
Lemma no_suffix_rev x : (forall p r, In p space_runes -> x <> r ++ p) <-> strip_first (map (@rev byte) space_runes) (rev x) = None.
Proof.
  rewrite strip_first_none. split.
  - intros N p r I E. apply in_map_iff in I as (q & <- & I). apply (N q (rev r) I). rewrite <- (rev_involutive x), E, rev_app_distr. now rewrite rev_involutive.
  - intros N p r I ->. apply (N (rev p) (rev r)); [now apply in_map|]. apply rev_app_distr.
Qed.
(** A space rune at the start of [x ++ b] lies in [x], if [x] is not empty and [b] blank. *)
Lemma no_prefix_app x b : x <> [] -> blank b -> (forall p r, In p space_runes -> x <> p ++ r) -> strip_first space_runes (x ++ b) = None.
Proof.
  intros NE (ws & W & ->) N. apply strip_first_none. intros p r I E. apply app_eq_app in E as [m [[E1 E2]|[E1 E2]]].
  - now apply (N p m I).
  - destruct m as [|y m]; [rewrite app_nil_r in E1; apply (N p [] I); now rewrite app_nil_r|].
    destruct ws as [|w ws]; [discriminate|]. destruct (spaces_lead w) as (z & t & -> & Z & _); [apply W; now left|].
    cbn in E2. injection E2 as <- _. destruct (spaces_lead p I) as (u & v & -> & _ & C). destruct x as [|x0 x]; [congruence|].
    injection E1 as _ E1. subst v. rewrite forallb_app in C. apply andb_prop in C as [_ C]. cbn in C. rewrite Z in C. discriminate.
Qed.
Lemma ltrim_blank a y : blank a -> strip_first space_runes y = None -> ltrim (a ++ y) = y.
Proof. intros B N. unfold ltrim. apply strip_all_blank; auto using spaces_code. rewrite app_length. lia. Qed.
Lemma rtrim_blank y b : blank b -> (forall p r, In p space_runes -> y <> r ++ p) -> rtrim (y ++ b) = y.
Proof.
  intros B N. unfold rtrim. rewrite rev_app_distr, (strip_all_blank _ (rev b)).
  - apply rev_involutive.
  - apply rev_spaces_code.
  - now apply blank_rev.
  - now apply no_suffix_rev.
  - rewrite rev_length, app_length. lia.
Qed.
Lemma nil_no_prefix p r : In p space_runes -> [] <> p ++ r.
Proof. intros I E. destruct (spaces_lead p I) as (x & t & -> & _). discriminate. Qed.
Lemma nil_trimmed : trimmed [].
Proof. intros p r I. split; [now apply nil_no_prefix|]. intro E. destruct (spaces_lead p I) as (x & t & -> & _). symmetry in E. apply app_eq_nil in E as [_ E]. discriminate. Qed.
Lemma trim_unique a x b : blank a -> blank b -> trimmed x -> trim_space (a ++ x ++ b) = x.
Proof.
  intros A B T. unfold trim_space. destruct x as [|x0 x].
  - cbn [app]. rewrite <- (app_nil_r (a ++ b)). rewrite ltrim_blank; [reflexivity| |].
    + apply blank_app; assumption.
    + apply strip_first_none. intros. apply nil_no_prefix. assumption.
  - rewrite ltrim_blank; [|exact A|]. 2:{ apply no_prefix_app; [discriminate|exact B|]. intros p r I. exact (proj1 (T p r I)). }
    apply rtrim_blank; [exact B|]. intros p r I. exact (proj2 (T p r I)).
Qed.
Lemma trim_decomp l : exists a b, blank a /\ blank b /\ l = a ++ trim_space l ++ b /\ trimmed (trim_space l).
Proof.
  unfold trim_space. destruct (strip_all_spec space_runes (length l) l) as (a & A & E & N); [apply spaces_code|lia|]. fold (ltrim l) in E, N.
  set (y := ltrim l) in *. destruct (strip_all_spec (map (@rev byte) space_runes) (length y) (rev y)) as (b & B & E2 & N2); [apply rev_spaces_code|rewrite rev_length; lia|].
  exists a, (rev b). split; [exact A|]. split; [now apply rev_blank|]. unfold rtrim.
  assert (EY : y = rev (strip_all (map (@rev byte) space_runes) (length y) (rev y)) ++ rev b).
  { rewrite <- rev_app_distr, <- E2. now rewrite rev_involutive. }
  split; [now rewrite <- EY|]. intros p r I. split.
  - intro X. apply strip_first_none with (p := p) (r := r ++ rev b) in N; [|exact I]. apply N. rewrite EY at 1. rewrite X. now rewrite <- app_assoc.
  - apply (proj2 (no_suffix_rev _)); [now rewrite rev_involutive|exact I].
Qed.
Lemma trim_space_trimmed l : trimmed (trim_space l).
Proof. destruct (trim_decomp l) as (a & b & _ & _ & _ & T). exact T. Qed.
Lemma trim_eq l x : (exists a b, blank a /\ blank b /\ l = a ++ x ++ b) -> trimmed x -> trim_space l = x.
Proof. intros (a & b & A & B & ->) T. now apply trim_unique. Qed.

(** ** Lines *)
Definition complete_line (l : bytes) : Prop := exists w, l = w ++ [x0a] /\ ~ In x0a w.
Lemma raw_lines_concat l cur : concat (raw_lines cur l) = cur ++ l.
Proof.
  revert cur. induction l as [|x l IH]; intro cur; cbn [raw_lines].
  - destruct cur; [reflexivity|]. cbn. now rewrite app_nil_r.
  - destruct (byte_eqb x x0a); cbn [concat]; rewrite IH; cbn; now rewrite <- app_assoc.
Qed.
Lemma raw_lines_cur l cur : l <> [] -> exists h t, raw_lines [] l = h :: t /\ raw_lines cur l = (cur ++ h) :: t.
Proof.
  assert (G : forall l c1 c2, l <> [] -> exists h t, raw_lines c1 l = (c1 ++ h) :: t /\ raw_lines c2 l = (c2 ++ h) :: t).
  { clear. induction l as [|x l IH]; intros c1 c2 NE; [congruence|]. cbn [raw_lines]. destruct (byte_eqb x x0a).
    - exists [x], (raw_lines [] l). split; reflexivity.
    - destruct l as [|y l].
      + exists [x], []. cbn. split; destruct c1, c2; reflexivity.
      + destruct (IH (c1 ++ [x]) (c2 ++ [x])) as (h & t & E1 & E2); [discriminate|]. exists (x :: h), t. rewrite E1, E2. now rewrite <- !app_assoc. }
  intro NE. destruct (G l [] cur NE) as (h & t & E1 & E2). exists h, t. auto.
Qed.
(** The unterminated end of a text. *)
Fixpoint tail_line (cur l : bytes) : bytes :=
  match l with [] => cur | x :: r => if byte_eqb x x0a then tail_line [] r else tail_line (cur ++ [x]) r end.
Definition closed_lines (cur l : bytes) : list bytes :=
  match tail_line cur l with [] => raw_lines cur l | _ => removelast (raw_lines cur l) end.
Fixpoint head_lines (cur l : bytes) : list bytes :=
  match l with [] => [] | x :: r => if byte_eqb x x0a then (cur ++ [x]) :: head_lines [] r else head_lines (cur ++ [x]) r end.
Lemma raw_lines_app a b cur : raw_lines cur (a ++ b) = head_lines cur a ++ raw_lines (tail_line cur a) b.
Proof.
  revert cur. induction a as [|x a IH]; intro cur; [reflexivity|]. cbn [app raw_lines head_lines tail_line]. destruct (byte_eqb x x0a); cbn [app]; now rewrite IH.
Qed.
Lemma raw_lines_split a cur : raw_lines cur a = head_lines cur a ++ match tail_line cur a with [] => [] | t => [t] end.
Proof. rewrite <- (app_nil_r a) at 1. rewrite raw_lines_app. cbn [raw_lines]. destruct (tail_line cur a); reflexivity. Qed.
Lemma no_newline_raw w cur : ~ In x0a w -> raw_lines cur w = match cur ++ w with [] => [] | l => [l] end.
Proof.
  revert cur. induction w as [|x w IH]; intros cur N; [rewrite app_nil_r; destruct cur; reflexivity|]. cbn [raw_lines].
  destruct (byte_eqb x x0a) eqn:E; [apply byte_eqb_eq in E; subst; destruct N; now left|]. rewrite IH by (intro; apply N; now right). now rewrite <- app_assoc.
Qed.
Lemma no_newline_head w cur : ~ In x0a w -> head_lines cur w = [] /\ tail_line cur w = cur ++ w.
Proof.
  revert cur. induction w as [|x w IH]; intros cur N; [now rewrite app_nil_r|]. cbn [head_lines tail_line].
  destruct (byte_eqb x x0a) eqn:E; [apply byte_eqb_eq in E; subst; destruct N; now left|]. destruct (IH (cur ++ [x])) as [-> ->]; [intro; apply N; now right|]. now rewrite <- app_assoc.
Qed.
Lemma closed_line_raw l r : complete_line l -> raw_lines [] (l ++ r) = l :: raw_lines [] r.
Proof.
  intros (w & -> & N). rewrite <- app_assoc, raw_lines_app. destruct (no_newline_head w [] N) as [-> ->]. reflexivity.
Qed.
Lemma closed_lines_raw ls r : Forall complete_line ls -> raw_lines [] (concat ls ++ r) = ls ++ raw_lines [] r.
Proof. induction 1 as [|l ls C F IH]; [reflexivity|]. cbn [concat]. rewrite <- app_assoc, closed_line_raw by assumption. cbn. now rewrite IH. Qed.
Lemma lines_shape l cur : ~ In x0a cur ->
  exists ls t, raw_lines cur l = ls ++ match t with [] => [] | _ => [t] end /\ Forall complete_line ls /\ ~ In x0a t
    /\ head_lines cur l = ls /\ tail_line cur l = t.
Proof.
  revert cur. induction l as [|x l IH]; intros cur N; cbn [raw_lines head_lines tail_line].
  - exists [], cur. repeat split; auto.
  - destruct (byte_eqb x x0a) eqn:E.
    + apply byte_eqb_eq in E. subst. destruct (IH []) as (ls & t & E1 & F & NT & E2 & E3); [intros []|].
      exists ((cur ++ [x0a]) :: ls), t. rewrite E1, E2, E3. repeat split; auto. constructor; [|exact F]. exists cur. auto.
    + destruct (IH (cur ++ [x])) as (ls & t & G); [|now exists ls, t].
      intro I. apply in_app_or in I as [I|[I|[]]]; [auto|]. subst. now rewrite byte_eqb_refl in E.
Qed.
(** Every part of the lines of a text is again the lines of its concatenation. *)
Lemma filter_lines (f : bytes -> bool) l : raw_lines [] (concat (filter f (raw_lines [] l))) = filter f (raw_lines [] l).
Proof.
  destruct (lines_shape l []) as (ls & t & -> & F & NT & _); [intros []|]. rewrite filter_app, concat_app.
  assert (FF : Forall complete_line (filter f ls)) by (apply Forall_forall; intros x I; apply filter_In in I as [I _]; rewrite Forall_forall in F; auto).
  rewrite closed_lines_raw by exact FF. f_equal. destruct t as [|x t]; [reflexivity|]. cbn [filter]. destruct (f (x :: t)); [|reflexivity].
  cbn [concat]. rewrite app_nil_r. now rewrite no_newline_raw.
Qed.
(** The lines of the end of a text: only the first can be a new line. *)
Lemma lines_of_suffix u v : v <> [] -> exists h t, raw_lines [] v = h :: t /\ forall x, In x t -> In x (raw_lines [] (u ++ v)).
Proof.
  intro NE. destruct (raw_lines_cur v (tail_line [] u) NE) as (h & t & E1 & E2). exists h, t. split; [exact E1|].
  intros x I. rewrite raw_lines_app, E2. apply in_or_app. right. now right.
Qed.
(** The lines of the start of a text begin lines of the text. *)
Lemma lines_of_prefix u v x : In x (raw_lines [] u) -> exists y, In (x ++ y) (raw_lines [] (u ++ v)).
Proof.
  intro I. rewrite raw_lines_app. rewrite raw_lines_split in I. apply in_app_or in I as [I|I].
  - exists []. rewrite app_nil_r. apply in_or_app. now left.
  - destruct (tail_line [] u) as [|c cs] eqn:E; [destruct I|]. destruct I as [<-|[]].
    destruct v as [|b v]; [exists []; rewrite app_nil_r; apply in_or_app; right; now left|].
    destruct (raw_lines_cur (b :: v) (c :: cs)) as (h & t & E1 & E2); [discriminate|]. exists h. rewrite E2. apply in_or_app. right. now left.
Qed.
Lemma has_prefix_true p l : has_prefix p l = true <-> exists r, l = p ++ r.
Proof.
  unfold has_prefix. destruct (strip_prefix p l) as [r|] eqn:E.
  - split; [intros _; exists r; now apply strip_prefix_some|reflexivity].
  - split; [discriminate|]. intros [r ->]. now rewrite strip_prefix_app in E.
Qed.
Lemma has_prefix_ext p l r : has_prefix p l = true -> has_prefix p (l ++ r) = true.
Proof. rewrite !has_prefix_true. intros [t ->]. exists (t ++ r). now rewrite <- app_assoc. Qed.
Lemma has_prefix_first p l h t : raw_lines [] l = h :: t -> has_prefix p l = false -> has_prefix p h = false.
Proof.
  intros E N. destruct (has_prefix p h) eqn:X; [|reflexivity]. pose proof (raw_lines_concat l []) as C. rewrite E in C. cbn in C.
  rewrite <- C, has_prefix_ext in N by exact X. discriminate.
Qed.
(** Trimming leaves all lines but the first as they are, up to their end. *)
Lemma trimmed_lines p l : (forall x, In x (raw_lines [] l) -> has_prefix p x = false) -> has_prefix p (trim_space l) = false ->
  forall x, In x (raw_lines [] (trim_space l)) -> has_prefix p x = false.
Proof.
  intros N NP x I. destruct (trim_decomp l) as (a & b & _ & _ & E & _). set (y := trim_space l) in *.
  destruct y as [|y0 y'] eqn:EY; [destruct I|]. rewrite <- EY in *. clear EY.
  destruct (raw_lines [] y) as [|h t] eqn:EL; [destruct I|]. destruct I as [<-|I]; [now apply (has_prefix_first p y h t EL)|].
  assert (NE : y ++ b <> []) by (destruct y; [discriminate|discriminate]).
  (* x is a line of y other than the first *)
  destruct (lines_of_suffix a (y ++ b) NE) as (h' & t' & E1 & E2). rewrite <- E in E2.
  assert (PX : exists z, In (x ++ z) t').
  { rewrite raw_lines_app in E1. rewrite (raw_lines_split y []) in EL. destruct (head_lines [] y) as [|g gs] eqn:EH.
    - destruct (tail_line [] y); cbn in EL; [discriminate|]. injection EL as _ <-. destruct I.
    - cbn in EL, E1. injection EL as -> EL. injection E1 as <- <-. rewrite <- EL in I. apply in_app_or in I as [I|I].
      + exists []. rewrite app_nil_r. apply in_or_app. now left.
      + destruct (tail_line [] y) as [|c cs]; [destruct I|]. destruct I as [<-|[]].
        destruct b as [|b0 b]; [exists []; rewrite app_nil_r; apply in_or_app; right; now left|].
        destruct (raw_lines_cur (b0 :: b) (c :: cs)) as (h2 & t2 & F1 & F2); [discriminate|]. exists h2. rewrite F2. apply in_or_app. right. now left. }
  destruct PX as [z Z]. apply E2, N in Z. destruct (has_prefix p x) eqn:X; [|reflexivity]. rewrite has_prefix_ext in Z by exact X. discriminate.
Qed.

(** ** Sorting *)
Lemma insert_In x l y : In y (insert x l) <-> y = x \/ In y l.
Proof. induction l as [|z l IH]; cbn; [split; [intros [->|[]]; auto|intros [->|[]]; auto]|]. destruct (bytes_leb x z); cbn; [|rewrite IH]; intuition congruence. Qed.
Lemma sort_In l y : In y (sort l) <-> In y l.
Proof. induction l as [|x l IH]; [easy|]. cbn. rewrite insert_In, IH. intuition congruence. Qed.
Lemma compact_In l y : In y (compact l) <-> In y l.
Proof.
  induction l as [|x l IH]; [easy|]. cbn [compact]. destruct l as [|z l]; [easy|]. destruct (bytes_eqb x z) eqn:E.
  - apply bytes_eqb_eq in E. subst. rewrite IH. cbn. intuition congruence.
  - cbn [In] in *. rewrite IH. easy.
Qed.

(** ** The specification *)
Lemma trims_to_iff l x : trims_to l x <-> trim_space l = x.
Proof.
  unfold trims_to. rewrite spec_trimmed. split.
  - intros [T (a & b & A & B & ->)]. apply trim_unique; [now apply spec_blank|now apply spec_blank|exact T].
  - intros <-. destruct (trim_decomp l) as (a & b & A & B & E & T). split; [exact T|]. exists a, b. rewrite !spec_blank. auto.
Qed.
Lemma existsb_byte x set : existsb (byte_eqb x) set = true <-> In x set.
Proof.
  rewrite existsb_exists. split; [intros (y & I & E); apply byte_eqb_eq in E; now subst|]. intro I. exists x. split; [exact I|apply byte_eqb_refl].
Qed.
Lemma drop_set_spec set l : exists a, (forall c, In c a -> In c set) /\ l = a ++ drop_set set l /\ forall c r, drop_set set l = c :: r -> ~ In c set.
Proof.
  induction l as [|x l IH]; cbn [drop_set]; [exists []; cbn; repeat split; [easy|discriminate]|]. destruct (existsb (byte_eqb x) set) eqn:E.
  - destruct IH as (a & A & E1 & N). exists (x :: a). split; [intros c [<-|I]; [now apply existsb_byte|auto]|]. split; [now rewrite E1 at 1|exact N].
  - exists []. split; [easy|]. split; [reflexivity|]. intros c r [= <- _] I. apply existsb_byte in I. congruence.
Qed.
Lemma drop_set_unique set a x : (forall c, In c a -> In c set) -> (forall c r, x = c :: r -> ~ In c set) -> drop_set set (a ++ x) = x.
Proof.
  induction a as [|y a IH]; intros A N; cbn [app drop_set].
  - destruct x as [|c x]; [reflexivity|]. cbn. destruct (existsb (byte_eqb c) set) eqn:E; [|reflexivity]. apply existsb_byte in E. now apply (N c x eq_refl) in E.
  - replace (existsb (byte_eqb y) set) with true by (symmetry; apply existsb_byte, A; now left). apply IH; [intros; apply A; now right|exact N].
Qed.
Lemma strips_to_iff set l x : strips_to set l x <-> trim_set set l = x.
Proof.
  unfold trim_set. split.
  - intros [(a & b & A & B & ->) [N1 N2]]. destruct x as [|c x].
    + cbn [app]. rewrite <- (app_nil_r (a ++ b)), drop_set_unique; [reflexivity| |discriminate]. intros c I. apply in_app_or in I as [I|I]; auto.
    + rewrite drop_set_unique; [|exact A|]; [|intros y r [= <- _]; now apply (N1 c x)]. rewrite rev_app_distr, drop_set_unique; [apply rev_involutive| |].
      * intros y I. apply B. now apply in_rev.
      * intros y r E. apply (N2 y (rev r)). rewrite <- (rev_involutive (c :: x)), E. reflexivity.
  - intros <-. destruct (drop_set_spec set l) as (a & A & E1 & N1). set (y := drop_set set l) in *.
    destruct (drop_set_spec set (rev y)) as (b & B & E2 & N2). set (z := drop_set set (rev y)) in *.
    assert (EY : y = rev z ++ rev b) by (rewrite <- rev_app_distr, <- E2; now rewrite rev_involutive).
    split; [exists a, (rev b)|split].
    + split; [exact A|]. split; [intros c I; apply B; now apply in_rev|]. now rewrite <- EY.
    + intros c r E. apply (N1 c (r ++ rev b)). rewrite EY, E. reflexivity.
    + intros c r E. apply (N2 c (rev r)). rewrite <- (rev_involutive z), E, rev_app_distr. reflexivity.
Qed.
Lemma lines_of_raw data : lines_of data (raw_lines [] data).
Proof.
  destruct (lines_shape data []) as (ls & t & E & F & N & _); [intros []|]. exists ls, (match t with [] => [] | _ => [t] end). split; [exact E|]. split; [|split].
  - eapply Forall_impl; [|exact F]. intros l (w & -> & W). exists w. auto.
  - destruct t as [|x t]; [now left|]. right. exists (x :: t). repeat split; auto. discriminate.
  - now rewrite raw_lines_concat.
Qed.
Lemma lines_of_unique data ls : lines_of data ls -> ls = raw_lines [] data.
Proof.
  intros (w & t & -> & F & T & ->). rewrite concat_app, closed_lines_raw.
  - f_equal. destruct T as [->|(u & -> & NE & N)]; [reflexivity|]. cbn [concat]. rewrite app_nil_r, no_newline_raw by exact N. now destruct u.
  - eapply Forall_impl; [|exact F]. intros l (v & V & ->). exists v. auto.
Qed.
Lemma lines_of_iff data ls : lines_of data ls <-> ls = raw_lines [] data.
Proof. split; [apply lines_of_unique|intros ->; apply lines_of_raw]. Qed.
Lemma whole_line_suffix l ls : In l (raw_lines [] ls) -> (whole_line l <-> has_suffix [x0a] l = true).
Proof.
  intro I. destruct (lines_shape ls []) as (w & t & E & F & N & _); [intros []|]. rewrite E in I. unfold has_suffix. cbn [rev app].
  apply in_app_or in I as [I|I].
  - rewrite Forall_forall in F. destruct (F _ I) as (v & -> & V). split; [intros _|intros _; exists v; auto]. rewrite rev_app_distr. reflexivity.
  - destruct t as [|x t]; [destruct I|]. destruct I as [<-|[]]. split.
    + intros (v & _ & E2). exfalso. apply N. rewrite E2. apply in_or_app. right. now left.
    + intro P. exfalso. apply N. apply has_prefix_true in P as [r P]. apply in_rev. rewrite P. now left.
Qed.
Lemma line_fits_iff l data : In l (raw_lines [] data) -> (line_fits l = true <-> short_line l).
Proof.
  intro I. unfold line_fits, short_line. pose proof (whole_line_suffix l data I) as W. fold max_token. destruct (has_suffix [x0a] l).
  - rewrite N.leb_le. unfold max_token. split; [intro; split; [assumption|right; now apply W]|now intros [? _]].
  - rewrite N.ltb_lt. unfold max_token. split; [intro; split; [lia|now left]|]. intros [_ [?|C]]; [assumption|]. apply W in C. discriminate.
Qed.
Lemma scan_iff data ls : scan data = Ok ls <-> lines_of data ls /\ Forall short_line ls.
Proof.
  unfold scan. rewrite lines_of_iff. destruct (forallb line_fits (raw_lines [] data)) eqn:E.
  - split.
    + intros [= <-]. split; [reflexivity|]. apply Forall_forall. intros l I. rewrite forallb_forall in E. apply (line_fits_iff l data I). auto.
    + now intros [-> _].
  - split; [discriminate|]. intros [-> F]. rewrite Forall_forall in F. assert (X : forallb line_fits (raw_lines [] data) = true); [|congruence].
    apply forallb_forall. intros l I. apply (line_fits_iff l data I). auto.
Qed.
Lemma meta_prefix_eq sign r : meta_prefix sign ++ r = sign ++ lit " jess-" ++ r.
Proof. unfold meta_prefix. rewrite <- !app_assoc. reflexivity. Qed.
Lemma meta_line_iff sign l : meta_line sign l <-> has_prefix (meta_prefix sign) l = true.
Proof.
  rewrite has_prefix_true. unfold meta_line. split; intros [r ->]; exists r; now rewrite meta_prefix_eq.
Qed.
Lemma body_lines_iff sign ls kept : body_lines sign ls kept <-> kept = filter (fun l => negb (has_prefix (meta_prefix sign) l)) ls.
Proof.
  split.
  - induction 1 as [|l ls kept M B IH|l ls kept M B IH]; cbn [filter]; [reflexivity| |].
    + apply meta_line_iff in M. now rewrite M.
    + rewrite meta_line_iff in M. destruct (has_prefix (meta_prefix sign) l); [congruence|]. cbn. now f_equal.
  - intros ->. induction ls as [|l ls IH]; cbn [filter]; [constructor|]. destruct (has_prefix (meta_prefix sign) l) eqn:E; cbn [negb].
    + constructor; [now apply meta_line_iff|exact IH].
    + constructor; [rewrite meta_line_iff; congruence|exact IH].
Qed.
Definition body_of (sign data : bytes) : bytes := concat (filter (fun l => negb (has_prefix (meta_prefix sign) l)) (raw_lines [] data)).
Lemma content_of_iff sign data c : content_of sign data c <-> trim_space (body_of sign data) = c.
Proof.
  unfold content_of. split.
  - intros (ls & k & L & B & T). apply lines_of_iff in L. apply body_lines_iff in B. subst. now apply trims_to_iff.
  - intro E. eexists _, _. split; [apply lines_of_raw|]. split; [apply body_lines_iff; reflexivity|]. now apply trims_to_iff.
Qed.
Definition metas_of (sign data : bytes) : list bytes :=
  map (fun l => trim_space (trim_prefix sign l)) (filter (has_prefix (meta_prefix sign)) (raw_lines [] data)).
Lemma text_split_eq data sign ls : scan data = Ok ls -> text_split data sign = Ok (trim_space (body_of sign data), metas_of sign data).
Proof. intro E. unfold text_split. rewrite E. apply scan_iff in E as [E _]. apply lines_of_iff in E. subst. reflexivity. Qed.
Lemma trim_prefix_app p r : trim_prefix p (p ++ r) = r.
Proof. unfold trim_prefix. now rewrite strip_prefix_app. Qed.
Lemma checksum_line_iff sign l t : checksum_line sign l t <->
  has_prefix (meta_prefix sign) l = true /\ is_checksum_line (trim_space (trim_prefix sign l)) = true /\ checksum_text (trim_space (trim_prefix sign l)) = t.
Proof.
  unfold checksum_line. rewrite meta_line_iff. split.
  - intros [M (x & m & r & u & -> & T1 & -> & T2 & S)]. split; [exact M|]. apply trims_to_iff in T1, T2. apply strips_to_iff in S.
    rewrite !trim_prefix_app, T1. split; [apply has_prefix_true; now exists r|].
    unfold checksum_text. change checksum_key with (lit "jess-checksum"). now rewrite trim_prefix_app, T2, S.
  - intros (M & C & T). split; [exact M|]. pose proof M as M'. apply has_prefix_true in M' as [r ->]. unfold meta_prefix in *. rewrite <- !app_assoc in *.
    rewrite !trim_prefix_app in C, T. apply has_prefix_true in C as [r2 C]. eexists _, _, r2, _. split; [reflexivity|].
    split; [apply trims_to_iff; reflexivity|]. split; [exact C|]. split; [apply trims_to_iff; reflexivity|]. apply strips_to_iff.
    rewrite <- T, C. unfold checksum_text. now rewrite trim_prefix_app.
Qed.
