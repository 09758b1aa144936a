(** Property theorems C37, C38: signature files.  [dump]/[load] is the DSD (CBOR) codec of letters, which is
    third party: the theorems about signatures made by the library assume that it restores a letter. *)
From Coq Require Import Init.Byte.
From Verif Require Import Prelude PreludeFacts Letter Envelope EncodingsFacts ArmorFacts PropLetter.

(** ** C37 *)

(** Every file has exactly one reading, and ParseSigFile follows it: the letters of all readable
    sections in file order, and a warning exactly if a section cannot be read. *)
Theorem C37_parse_exact : forall load file,
  exists texts bodies rest, sections_of file texts bodies rest
  /\ fst (parse_sig_file load file) = concat (map (fun c => match body_letter load c with Some l => [l] | None => [] end) bodies)
  /\ (snd (parse_sig_file load file) = true <-> exists c, In c bodies /\ body_letter load c = None)
  /\ forall texts' bodies' rest', sections_of file texts' bodies' rest' -> bodies' = bodies.
Proof.
  intros load file. destruct (sections_exist file) as (ts & cs & rest & S). exists ts, cs, rest. split; [exact S|].
  unfold parse_sig_file, all_sections. rewrite (sections_spec _ _ _ _ S) by apply le_n. destruct (parse_captured_spec load cs) as [P Q].
  split; [exact P|]. split; [exact Q|]. intros ts' cs' rest' S'.
  rewrite <- (sections_spec _ _ _ _ S (length file) (le_n _)). symmetry. apply (sections_spec _ _ _ _ S'). lia.
Qed.
Print Assumptions C37_parse_exact.

(** A file of complete lines of text and sections made by MakeSigFileSection yields exactly the letters, in order,
    without a warning.  [items]: the letter, its section, the text before the section. *)
Theorem C37_round_trip : forall dump load (items : list (letter * bytes * bytes)) rest,
  (forall l d, dump l = Ok d -> load d = Some (raw l)) ->
  (forall l s t, In (l, s, t) items -> make_section dump l = Ok s /\ plain_text t) ->
  ~ contains begin_line rest ->
  parse_sig_file load (concat (map (fun x => match x with (_, s, t) => t ++ s end) items) ++ rest)
    = (map (fun x => match x with (l, _, _) => raw l end) items, false).
Proof.
  intros dump load items rest RT H NR.
  assert (G : exists ts cs, sections_of (concat (map (fun x => match x with (_, s, t) => t ++ s end) items) ++ rest) ts cs rest
     /\ map (fun x => match x with (l, _, _) => Some (raw l) end) items = map (body_letter load) cs).
  { induction items as [|[[l s] t] items IH]; [exists [], []; split; [now apply no_begin_none|reflexivity]|].
    destruct IH as (ts & cs & S & E). { intros. apply H. now right. }
    destruct (H l s t (or_introl eq_refl)) as [M P]. unfold make_section in M. apply bind_ok in M as (d & D & M). injection M as <-.
    exists (t :: ts), (body d :: cs). split.
    - cbn [map concat]. rewrite <- !app_assoc. apply section_of_armor; [now apply plain_first|exact S].
    - cbn [map]. rewrite E, body_letter_body. f_equal. symmetry. now apply RT. }
  destruct G as (ts & cs & S & E). unfold parse_sig_file, all_sections. rewrite (sections_spec _ _ _ _ S) by apply le_n.
  clear H S. revert cs E. induction items as [|[[l s] t] items IH]; intros [|c cs] E; try discriminate; [reflexivity|].
  injection E as E1 E. cbn [parse_captured map]. rewrite (IH cs E), captured_eq. unfold body_letter in E1.
  destruct (b64_decode false (no_space c)) as [d| |]; [|discriminate..]. destruct (load d); [|discriminate]. now injection E1 as <-.
Qed.
Print Assumptions C37_round_trip.

(** The section itself: the begin line, lines of at most 64 base64 characters, the end line. *)
Theorem C37_section_shape : forall dump l s, make_section dump l = Ok s ->
  exists lines, s = begin_line ++ concat (map (fun x => [x0a] ++ x) lines) ++ [x0a] ++ end_line
  /\ (forall x, In x lines -> 1 <= length x <= 64
        /\ forall b, In b x -> In b (lit "ABCDEFGHIJKLMNOPQRSTUVWXYZabcdefghijklmnopqrstuvwxyz0123456789+/")).
Proof.
  intros dump l s M. unfold make_section in M. apply bind_ok in M as (d & D & M). injection M as <-.
  exists (chunks (S (length (b64_encode false d))) (b64_encode false d)). split.
  - rewrite armor_text_eq. unfold body. now rewrite <- app_assoc.
  - assert (G : forall f e x, In x (chunks f e) -> 1 <= length x <= 64 /\ incl x e).
    { induction f as [|f IH]; intros e x; [intros []|]. cbn [chunks]. destruct e as [|y e]; [intros []|].
      destruct (Nat.ltb_spec line_length (length (y :: e))) as [L|L].
      - intros [<-|I].
        + split; [rewrite firstn_length; unfold line_length in *; lia|]. intros z Z. rewrite <- (firstn_skipn line_length (y :: e)). apply in_or_app. now left.
        + apply IH in I as [I1 I2]. split; [exact I1|]. intros z Z. rewrite <- (firstn_skipn line_length (y :: e)). apply in_or_app. right. auto.
      - intros [<-|[]]. split; [unfold line_length in L; cbn in *; lia|apply incl_refl]. }
    intros x I. apply G in I as [I1 I2]. split; [exact I1|]. intros b B. apply I2 in B. unfold b64_encode in B. apply in_map_iff in B as (n & <- & B).
    pose proof (b64_groups_small d) as F. rewrite Forall_forall in F. apply F in B. apply (nth_In (b64_alphabet false)). change (length (b64_alphabet false)) with 64. lia.
Qed.
Print Assumptions C37_section_shape.

(** A toy codec that restores every letter used in the examples: the version and the data. *)
Definition toy_dump (l : letter) : outcome bytes :=
  match l with
  | mkLetter v [] [] [] d [] [] false => if (v <? 256)%N then Ok (n2b v :: d) else Err EOther
  | _ => Err EOther
  end.
Definition toy_load (d : bytes) : option raw_letter :=
  match d with
  | v :: r => Some (raw (mkLetter (b2n v) [] [] [] r [] [] false))
  | [] => None
  end.
Lemma toy_codec l d : toy_dump l = Ok d -> toy_load d = Some (raw l).
Proof.
  destruct l as [v [|? ?] [|? ?] [|? ?] dd [|? ?] [|? ?] [|]]; try discriminate. cbn [toy_dump]. destruct (N.ltb_spec v 256); [|discriminate].
  intros [= <-]. cbn [toy_load]. rewrite b2n_n2b, N.mod_small by assumption. reflexivity.
Qed.
Definition toy_letter (s : Coq.Strings.String.string) : letter := mkLetter 1 [] [] [] (lit s) [] [] false.
Arguments toy_letter s%string_scope.
Definition toy_section (s : Coq.Strings.String.string) : bytes := match make_section toy_dump (toy_letter s) with Ok x => x | _ => [] end.
Arguments toy_section s%string_scope.

Definition nl : bytes := [x0a].
Example C37_hypotheses_met :
  let a := toy_letter "a signature that is long enough for more than one line of the armor" in let b := toy_letter "b" in
  let s := toy_section "a signature that is long enough for more than one line of the armor" in let r := toy_section "b" in
  (forall l d, toy_dump l = Ok d -> toy_load d = Some (raw l))
  /\ make_section toy_dump a = Ok s /\ make_section toy_dump b = Ok r
  /\ plain_text (lit "text -----BEGIN JESS" ++ nl) /\ plain_text nl /\ ~ contains begin_line (lit "x")
  /\ parse_sig_file toy_load ((lit "text -----BEGIN JESS" ++ nl) ++ s ++ nl ++ r ++ lit "x") = ([raw a; raw b], false).
Proof.
  assert (NC : forall l, find_sub armor_start l = None -> ~ contains begin_line l) by (intros l E; now apply find_sub_none in E).
  assert (PT : forall l, find_sub armor_start (l ++ nl) = None -> plain_text (l ++ nl)).
  { intros l E. split; [right; now exists l|]. now apply NC. }
  repeat apply conj; try (vm_compute; reflexivity); [exact toy_codec|right; eauto|apply NC; vm_compute; reflexivity|right; exists []; reflexivity|apply NC; vm_compute; reflexivity..].
Qed.

(** ** C38 *)

(** Without removal the file is kept byte for byte and followed by a line break and the new section; if no
    begin line is left open in it, its signatures stay readable and the new one follows them. *)
Theorem C38_add : forall dump load l file file' texts bodies rest,
  (forall l d, dump l = Ok d -> load d = Some (raw l)) ->
  add_to_sig_file dump l file false = Ok file' ->
  sections_of file texts bodies rest -> ~ contains begin_line rest ->
  (exists s, make_section dump l = Ok s /\ file' = file ++ [x0a] ++ s)
  /\ parse_sig_file load file' = (fst (parse_sig_file load file) ++ [raw l], snd (parse_sig_file load file)).
Proof.
  intros dump load l file file' ts cs rest RT A S NB. unfold add_to_sig_file in A. apply bind_ok in A as (s & M & A). injection A as <-.
  split; [eauto|]. unfold make_section in M. apply bind_ok in M as (d & D & M). injection M as <-.
  pose proof (sections_append _ _ _ _ d S NB) as S'. unfold parse_sig_file, all_sections. rewrite (sections_spec _ _ _ _ S') by apply le_n. rewrite (sections_spec _ _ _ _ S) by apply le_n.
  rewrite parse_captured_app. cbn [parse_captured]. rewrite captured_eq, no_space_body, b64_round_trip, (RT _ _ D). cbn [fst snd]. now rewrite orb_false_r.
Qed.
Print Assumptions C38_add.

(** With removal: all text outside the sections is kept (less the line break that ends each section), then a line
    break and the new section; and the new signature is the only one in the file, if no begin line is left. *)
Theorem C38_replace : forall dump load l file file' texts bodies rest,
  (forall l d, dump l = Ok d -> load d = Some (raw l)) ->
  add_to_sig_file dump l file true = Ok file' ->
  sections_of file texts bodies rest ->
  (exists s, make_section dump l = Ok s /\ file' = kept texts rest ++ [x0a] ++ s)
  /\ (~ contains begin_line (kept texts rest) -> parse_sig_file load file' = ([raw l], false)).
Proof.
  intros dump load l file file' ts cs rest RT A S. unfold add_to_sig_file in A. apply bind_ok in A as (s & M & A). injection A as <-.
  unfold remove_sections. rewrite (remove_spec _ _ _ _ _ (le_n _) S).
  split; [eauto|]. intro NB. unfold make_section in M. apply bind_ok in M as (d & D & M). injection M as <-.
  pose proof (sections_append _ _ _ _ d (no_begin_none _ NB) NB) as S'. unfold parse_sig_file, all_sections. rewrite (sections_spec _ _ _ _ S') by apply le_n.
  cbn [app parse_captured]. rewrite captured_eq, no_space_body, b64_round_trip, (RT _ _ D). reflexivity.
Qed.
Print Assumptions C38_replace.

(** A begin line cannot arise when the texts between the sections are complete lines. *)
Lemma contains_app_line t r : plain_text t -> ~ contains begin_line r -> ~ contains begin_line (t ++ r).
Proof.
  intros P NR (a & b & E). pose proof (plain_first t P) as F. destruct P as [L N].
  destruct (le_lt_dec (length t) (length a)) as [G|G].
  - apply app_eq_app in E as [m [[E1 E2]|[E1 E2]]].
    + subst t. rewrite app_length in G. destruct m; [|cbn in G; lia]. cbn in E2. apply NR. exists [], b. now symmetry.
    + apply NR. exists m, b. exact E2.
  - rewrite (app_assoc a) in E. apply app_eq_app in E as [m [[E1 E2]|[E1 E2]]].
    + apply N. exists a, m. now rewrite E1, <- app_assoc.
    + destruct L as [->|[t' ->]]; [cbn in G; lia|].
      assert (X : nth (length t') (a ++ begin_line) x00 = x0a).
      { rewrite E1. rewrite app_nth1 by (rewrite app_length; cbn; lia). rewrite app_nth2 by lia. now rewrite Nat.sub_diag. }
      rewrite app_length in G. cbn in G. rewrite app_nth2 in X by lia.
      pose proof (f_equal (@length byte) E1) as L1. rewrite !app_length in L1. cbn [length] in L1.
      assert (I : In x0a begin_line). { rewrite <- X. apply nth_In. lia. }
      assert (Y : existsb (byte_eqb x0a) begin_line = true) by (apply existsb_exists; exists x0a; split; [exact I|reflexivity]). vm_compute in Y. discriminate.
Qed.
Lemma plain_without_eol t : plain_text t -> plain_text (without_eol t).
Proof.
  intros [L N]. split.
  - destruct L as [->|[t' ->]]; [now left|]. rewrite <- skip_eol_eq. unfold skip_eol. destruct t' as [|x t']; [left; reflexivity|]. cbn [app].
    destruct (byte_eqb x x0d).
    + destruct t' as [|y t']; [left; reflexivity|]. cbn [app]. destruct (byte_eqb y x0a); right; [exists t'|exists (y :: t')]; reflexivity.
    + destruct (byte_eqb x x0a); right; [exists t'|exists (x :: t')]; reflexivity.
  - intros (a & b & E). destruct (without_eol_suffix t) as [e E2]. apply N. exists (e ++ a), b. rewrite E2, E. now rewrite <- app_assoc.
Qed.
Lemma contains_without_eol t : ~ contains begin_line t -> ~ contains begin_line (without_eol t).
Proof. intros N (a & b & E). destruct (without_eol_suffix t) as [e E2]. apply N. exists (e ++ a), b. rewrite E2, E. now rewrite <- app_assoc. Qed.
Theorem C38_replace_lines : forall dump load l file file' texts bodies rest,
  (forall l d, dump l = Ok d -> load d = Some (raw l)) ->
  add_to_sig_file dump l file true = Ok file' ->
  sections_of file texts bodies rest ->
  (forall t, In t texts -> plain_text t) -> ~ contains begin_line rest ->
  parse_sig_file load file' = ([raw l], false).
Proof.
  intros dump load l file file' ts cs rest RT A S P NR. apply (C38_replace dump load l file file' ts cs rest RT A S).
  destruct ts as [|t ts]; [exact NR|]. cbn [kept].
  assert (G : ~ contains begin_line (cut ts rest)).
  { assert (P' : forall t, In t ts -> plain_text t) by (intros; apply P; now right). clear -P' NR. induction ts as [|t ts IH]; cbn [cut]; [now apply contains_without_eol|].
    apply contains_app_line; [apply plain_without_eol, P'; now left|]. apply IH. intros. apply P'. now right. }
  apply contains_app_line; [apply P; now left|exact G].
Qed.
Print Assumptions C38_replace_lines.

(** A file with an open begin line: the new signature is added but cannot be read, whether or not the existing
    signatures are removed. *)
Theorem C38_open_begin_line_refuted : forall remove, exists file file' l,
  (forall a b, file <> a ++ end_line ++ b)
  /\ add_to_sig_file toy_dump l file remove = Ok file'
  /\ (forall load, parse_sig_file load file' = ([], true)).
Proof.
  intro remove. exists (begin_line ++ nl), (begin_line ++ nl ++ nl ++ toy_section "new"), (toy_letter "new"). repeat apply conj.
  - assert (E : find_sub end_line (begin_line ++ nl) = None) by (vm_compute; reflexivity). apply find_sub_none in E. intros a b X. apply E. now exists a, b.
  - destruct remove; vm_compute; reflexivity.
  - intro load. unfold parse_sig_file.
    assert (S : all_sections (begin_line ++ nl ++ nl ++ toy_section "new") = [nl ++ nl ++ begin_line ++ nl ++ lit "AW5ldw" ++ nl]) by (vm_compute; reflexivity).
    rewrite S. cbn [parse_captured]. assert (D : b64_decode false (captured (nl ++ nl ++ begin_line ++ nl ++ lit "AW5ldw" ++ nl)) = Err EOther) by (vm_compute; reflexivity).
    rewrite D. reflexivity.
Qed.
Print Assumptions C38_open_begin_line_refuted.

Example C38_hypotheses_met :
  let file := (lit "head" ++ nl) ++ toy_section "one" ++ nl ++ lit "middle" ++ nl ++ toy_section "two" ++ nl ++ lit "tail" in
  (exists file', add_to_sig_file toy_dump (toy_letter "new") file false = Ok file'
     /\ parse_sig_file toy_load file' = ([raw (toy_letter "one"); raw (toy_letter "two"); raw (toy_letter "new")], false))
  /\ add_to_sig_file toy_dump (toy_letter "new") file true = Ok (lit "head" ++ nl ++ lit "middle" ++ nl ++ lit "tail" ++ nl ++ toy_section "new")
  /\ exists texts bodies rest, sections_of file texts bodies rest /\ (forall t, In t texts -> plain_text t) /\ ~ contains begin_line rest.
Proof.
  assert (NC : forall l, find_sub armor_start l = None -> ~ contains begin_line l) by (intros l E; now apply find_sub_none in E).
  assert (PT : forall l, find_sub armor_start (l ++ nl) = None -> plain_text (l ++ nl)).
  { intros l E. split; [right; now exists l|]. now apply NC. }
  intro file. repeat apply conj.
  - eexists. split; vm_compute; reflexivity.
  - vm_compute. reflexivity.
  - exists [lit "head" ++ nl; (nl ++ lit "middle") ++ nl], [body (n2b 1 :: lit "one"); body (n2b 1 :: lit "two")], (nl ++ lit "tail").
    assert (P : forall t, In t [lit "head" ++ nl; (nl ++ lit "middle") ++ nl] -> plain_text t).
    { intros t [<-|[<-|[]]]; apply PT; vm_compute; reflexivity. }
    assert (R : ~ contains begin_line (nl ++ lit "tail")) by (apply NC; vm_compute; reflexivity).
    split; [|auto].
    apply (section_of_armor (lit "head" ++ nl) (n2b 1 :: lit "one")); [apply plain_first, P; now left|].
    apply (section_of_armor ((nl ++ lit "middle") ++ nl) (n2b 1 :: lit "two")); [apply plain_first, P; right; now left|].
    now apply no_begin_none.
Qed.
