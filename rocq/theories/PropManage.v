(** Property theorems C63: `jess manage`. *)
From Coq Require Import Init.Byte.
From Verif Require Import Prelude PreludeFacts Requirements Tools Crypto Session Core Envelope Signets TrustStore SpecStore PropStore SpecExport PropExport Container Toy Wizard SpecWizard WizardFacts WizardLevel PropWizard.
From Verif Require Letter Post Search Text TextFacts.

(** ** Words *)
Lemma strip_cut a b : a <> [] -> Text.strip_first Text.space_runes (a ++ x20 :: b)
  = match Text.strip_first Text.space_runes a with Some t => Some (t ++ x20 :: b) | None => None end.
Proof.
  intro NE.
  assert (P : forall p, In p Text.space_runes -> p <> [] /\ ~ In x20 (tl p)).
  { intros p H. repeat (destruct H as [<-|H]; [split; [discriminate|cbn [tl]; intro X; repeat (destruct X as [X|X]; [discriminate X|]); destruct X]|]). destruct H. }
  assert (SP : forall p, p <> [] -> ~ In x20 (tl p) -> Search.strip_prefix p (a ++ x20 :: b) = match Search.strip_prefix p a with Some t => Some (t ++ x20 :: b) | None => None end).
  { assert (G : forall p a, ~ In x20 p -> Search.strip_prefix p (a ++ x20 :: b) = match Search.strip_prefix p a with Some t => Some (t ++ x20 :: b) | None => None end).
    { induction p as [|x p IH]; intros y H; [reflexivity|]. destruct y as [|z y]; cbn [app Search.strip_prefix].
      - destruct (byte_eqb x x20) eqn:E; [|reflexivity]. apply byte_eqb_eq in E. exfalso. apply H. now left.
      - destruct (byte_eqb x z); [|reflexivity]. apply IH. intro X. apply H. now right. }
    intros [|x p] _ H; [reflexivity|]. destruct a as [|z y]; [congruence|]. cbn [app Search.strip_prefix]. destruct (byte_eqb x z); [|reflexivity]. apply G. exact H. }
  revert P. generalize Text.space_runes as ps. induction ps as [|p ps IH]; intro P; [reflexivity|]. cbn [Text.strip_first].
  destruct (P p (or_introl eq_refl)) as [P1 P2]. rewrite (SP p P1 P2). destruct (Search.strip_prefix p a); [reflexivity|]. apply IH. intros q Q. apply P. now right.
Qed.
Lemma strip_shorter l t : Text.strip_first Text.space_runes l = Some t -> length t < length l.
Proof.
  intro H. apply TextFacts.strip_first_some in H as (p & I & ->). rewrite app_length.
  assert (p <> []) by (intros ->; repeat (destruct I as [I|I]; [discriminate I|]); destruct I). destruct p; [congruence|]. cbn [length]. lia.
Qed.
Lemma fields_fuel n : forall l f g cur, length l <= n -> length l < f -> length l < g -> fields_from f cur l = fields_from g cur l.
Proof.
  induction n as [|n IH]; intros l f g cur L F G; (destruct f as [|f]; [lia|]); (destruct g as [|g]; [lia|]); cbn [fields_from].
  - destruct l; [|cbn in L; lia]. reflexivity.
  - destruct (Text.strip_first Text.space_runes l) as [t|] eqn:E.
    + apply strip_shorter in E. f_equal. apply IH; lia.
    + destruct l as [|x l]; [reflexivity|]. cbn [length] in *. apply IH; lia.
Qed.
Lemma fields_step f cur l : fields_from (S f) cur l = match Text.strip_first Text.space_runes l with
  | Some r => word cur ++ fields_from f [] r
  | None => match l with [] => word cur | b :: r => fields_from f (b :: cur) r end end.
Proof. reflexivity. Qed.
Lemma strip_space b : Text.strip_first Text.space_runes (x20 :: b) = Some b.
Proof. reflexivity. Qed.
Lemma fields_cut_nil b f cur : length b < f -> fields_from (S f) cur ([] ++ x20 :: b) = fields_from (S (length (@nil byte))) cur [] ++ fields b.
Proof.
  intro F. cbn [app fields_from length]. rewrite strip_space. change (match Text.strip_first Text.space_runes [] with Some r => word cur ++ fields_from 0 [] r | None => word cur end) with (word cur).
  f_equal. unfold fields. apply (fields_fuel (length b)); lia.
Qed.
Lemma fields_cut_from n : forall a b f cur, length a <= n -> length (a ++ x20 :: b) < f -> fields_from f cur (a ++ x20 :: b) = fields_from (S (length a)) cur a ++ fields b.
Proof.
  induction n as [|n IH]; intros a b f cur L F; (destruct f as [|f]; [lia|]).
  - destruct a; [|cbn in L; lia]. apply fields_cut_nil. cbn in F. lia.
  - destruct a as [|x a]; [apply fields_cut_nil; cbn in F; lia|].
    rewrite !fields_step. rewrite strip_cut by discriminate. destruct (Text.strip_first Text.space_runes (x :: a)) as [t|] eqn:E.
    + apply strip_shorter in E. rewrite IH; [|cbn in *; lia|cbn in *; rewrite app_length in *; cbn in *; lia]. rewrite app_assoc. f_equal. f_equal. apply (fields_fuel (length t)); cbn in *; lia.
    + cbn [app]. rewrite IH; [reflexivity|cbn in *; lia|cbn in *; lia].
Qed.
Lemma fields_cut a b : fields (a ++ x20 :: b) = fields a ++ fields b.
Proof. unfold fields at 1. apply (fields_cut_from (length a)); lia. Qed.
Lemma fields_spaces n b : fields (spaces n ++ b) = fields b.
Proof. induction n as [|n IH]; [reflexivity|]. change (spaces (S n) ++ b) with ([] ++ x20 :: (spaces n ++ b)). rewrite fields_cut. exact IH. Qed.
Lemma fields_word x : one_word x -> fields x = [x].
Proof.
  intros [NE W]. unfold fields.
  assert (G : forall y f cur, (forall p a b, In p Text.space_runes -> y <> a ++ p ++ b) -> length y < f -> fields_from f cur y = word (rev y ++ cur)).
  { induction y as [|z y IH]; intros f cur H F; (destruct f as [|f]; [lia|]); [reflexivity|]. cbn [fields_from].
    rewrite (proj2 (TextFacts.strip_first_none Text.space_runes (z :: y))) by (intros p r I E; exact (H p [] r I E)).
    rewrite IH; [cbn [rev]; now rewrite <- app_assoc| |cbn in F; lia]. intros p a b I ->. exact (H p (z :: a) b I eq_refl). }
  rewrite G by (assumption || lia). rewrite app_nil_r. unfold word. destruct (rev x) eqn:E; [|rewrite <- E, rev_involutive; reflexivity].
  exfalso. apply NE. rewrite <- (rev_involutive x), E. reflexivity.
Qed.
Lemma fields_row cells last : fields (row cells last) = flat_map (fun c => fields (fst c)) cells ++ fields last.
Proof.
  induction cells as [|[x n] cells IH]; [reflexivity|]. cbn [row flat_map fst]. change (spaces (3 + n)) with (x20 :: spaces (2 + n)). cbn [app].
  rewrite fields_cut, fields_spaces, IH. now rewrite app_assoc.
Qed.

Lemma find_first_id all d : first_with_id all d -> find (fun e => bytes_eqb (d_id d) (d_id e)) all = Some d.
Proof.
  intros (l1 & l2 & -> & F). induction F as [|e l1 N F IH]; cbn [app find].
  - now rewrite bytes_eqb_refl.
  - destruct (bytes_eqb (d_id d) (d_id e)) eqn:E; [|exact IH]. apply bytes_eqb_eq in E. congruence.
Qed.
Lemma find_first_name all v : first_with_name all v -> find (fun e => bytes_eqb (ev_name e) (ev_name v)) all = Some v.
Proof.
  intros (l1 & l2 & -> & F). induction F as [|e l1 N F IH]; cbn [app find].
  - now rewrite bytes_eqb_refl.
  - destruct (bytes_eqb (ev_name e) (ev_name v)) eqn:E; [|exact IH]. apply bytes_eqb_eq in E. congruence.
Qed.

Section Manage.
Variables (c : config) (cr : crypto).
Variables (jundump : bytes -> option sdata) (jedump : edata -> option bytes) (jeundump : bytes -> option edata).
Variable (edump : edata -> option bytes).
Variable (walk : fs -> list (path * bytes)).
Variable (dir : bytes).
Notation listed w := (dir_select jundump FilterAny [] (walk w) []).
Notation listed_envelopes w := (dir_envelopes jeundump suite_registry (walk w) []).
Notation signets := (manage_signets jundump walk dir).
Notation envelopes := (manage_envelopes c cr jundump jedump jeundump edump walk dir).
Notation edt := (edit c cr jundump jedump edump walk dir).
Notation get_env := (dir_get_envelope jeundump suite_registry dir).

(** One round with the signet [d]. *)
Lemma pick_row all d cells done : first_with_id all d -> one_word (d_id d) -> has_prefix (row cells (d_id d)) (done ++ lit " ") = false ->
  pick_one all done (row cells (d_id d)) = Ok (Some d).
Proof using Type.
  intros F W N. unfold pick_one. rewrite N, fields_row, (fields_word _ W), rev_app_distr. cbn [rev app]. now rewrite (find_first_id _ _ F).
Qed.

(** C63: choosing a signet and "Delete" deletes its file, and no other. *)
Theorem C63_signet_deleted : forall w all d cells rs b, listed w = Ok all -> first_with_id all d -> one_word (d_id d) -> nice (d_id d) = true ->
  ~ starts (lit "Done ") (row cells (d_id d)) -> read w (signet_path dir d) = Some b -> exists w1,
  signets (Choose (row cells (d_id d)) :: Choose (lit "Delete") :: rs) w = signets rs w1
  /\ dir_get jundump dir w1 (d_id d) (d_public d) = Err ESignetNotFound /\ forall p, p <> signet_path dir d -> read w1 p = read w p.
Proof using Type.
  intros w all d cells rs b A F W N ND R. exists (a_del path_eqb (signet_path dir d) w). split; [|split].
  - cbn [manage_signets]. rewrite A. rewrite (pick_row _ _ _ _ F W).
    + change (bytes_eqb (lit "Delete") (lit "Delete")) with true. cbn iota. unfold dir_delete. rewrite N. fold (signet_path dir d). now rewrite R.
    + destruct (has_prefix _ _) eqn:E; [|reflexivity]. exfalso. apply ND. now apply menu_starts.
  - unfold dir_get. rewrite N. unfold load_signet_file. fold (signet_path dir d). now rewrite read_del_same.
  - intros p P. apply read_del_other. congruence.
Qed.
(** C63: any other answer at the second prompt changes nothing. *)
Theorem C63_back : forall w all d cells action rs, listed w = Ok all -> first_with_id all d -> one_word (d_id d) ->
  ~ starts (lit "Done ") (row cells (d_id d)) -> action <> lit "Delete" ->
  signets (Choose (row cells (d_id d)) :: Choose action :: rs) w = signets rs w.
Proof using Type.
  intros w all d cells action rs A F W ND NA. cbn [manage_signets]. rewrite A. rewrite (pick_row _ _ _ _ F W).
  - destruct (bytes_eqb action (lit "Delete")) eqn:E; [apply bytes_eqb_eq in E; contradiction|reflexivity].
  - destruct (has_prefix _ _) eqn:E; [|reflexivity]. exfalso. apply ND. now apply menu_starts.
Qed.
(** C63: the entry "Done" ends the command. *)
Theorem C63_done : forall w all rs, listed w = Ok all -> (forall d, In d all -> d_id d <> lit "Done") ->
  signets (Choose (lit "Done") :: rs) w = (Ok tt, w, [], rs).
Proof using Type.
  intros w all rs A N. cbn [manage_signets]. rewrite A. unfold pick_one. change (has_prefix (lit "Done") (lit "Done" ++ lit " ")) with false. cbn iota.
  change (rev (fields (lit "Done"))) with [lit "Done"]. cbn iota. assert (E : find (fun d => bytes_eqb (lit "Done") (d_id d)) all = None); [|now rewrite E].
  destruct (find _ all) as [d|] eqn:E; [|reflexivity]. apply find_some in E as [I E]. apply bytes_eqb_eq in E. exfalso. exact (N d I (eq_sym E)).
Qed.
Lemma cons_length {A} (x : A) l n : length (x :: l) <= S n -> length l <= n.
Proof using Type. cbn [length]. intro H. now apply le_S_n. Qed.
(** C63: all a run can do is to delete files of signets that were named by an answer that was followed by "Delete". *)
Lemma signets_effects : forall n rs w o w' ts rest, length rs <= n -> signets rs w = (o, w', ts, rest) -> ts = [] /\ forall p,
  read w' p = read w p \/ (read w' p = None /\ exists r1 line r2 id pub, rs = r1 ++ Choose line :: Choose (lit "Delete") :: r2
    /\ last (fields line) [] = id /\ nice id = true /\ p = join_path dir (storage_id id pub)).
Proof using Type.
  induction n as [|n IH]; intros rs w o w' ts rest L H.
  { destruct rs; [|inversion L]. cbn [manage_signets] in H. destruct (listed w); injection H as <- <- <- <-; auto. }
  destruct rs as [|r rs]; [cbn [manage_signets] in H; destruct (listed w); injection H as <- <- <- <-; auto|].
  cbn [manage_signets] in H. destruct (listed w) as [all| |]; [|injection H as <- <- <- <-; auto..].
  destruct r as [line|]; [|injection H as <- <- <- <-; auto]. destruct (pick_one all (lit "Done") line) as [[d|]| |] eqn:P; [|injection H as <- <- <- <-; auto..].
  destruct rs as [|[action|] rs]; [injection H as <- <- <- <-; auto| |injection H as <- <- <- <-; auto].
  assert (EX : forall w1, signets rs w1 = (o, w', ts, rest) -> ts = [] /\ forall p, read w' p = read w1 p \/ (read w' p = None /\ exists r1 line0 r2 id pub,
     Choose line :: Choose action :: rs = r1 ++ Choose line0 :: Choose (lit "Delete") :: r2 /\ last (fields line0) [] = id /\ nice id = true /\ p = join_path dir (storage_id id pub))).
  { intros w1 H1. destruct (IH rs w1 o w' ts rest (cons_length _ _ _ (le_S _ _ (cons_length _ _ _ L))) H1) as [T E]. split; [exact T|]. intro p. destruct (E p) as [E1|(E1 & r1 & l0 & r2 & id & pub & -> & X)]; [now left|right].
    split; [exact E1|]. exists (Choose line :: Choose action :: r1), l0, r2, id, pub. split; [reflexivity|exact X]. }
  destruct (bytes_eqb action (lit "Delete")) eqn:A; [|now apply EX]. apply bytes_eqb_eq in A. subst action.
  unfold dir_delete in H. destruct (nice (d_id d)) eqn:N; [|injection H as <- <- <- <-; auto]. destruct (read w (join_path dir (storage_id (d_id d) (d_public d)))) eqn:R; [|injection H as <- <- <- <-; auto].
  destruct (EX _ H) as [T E]. split; [exact T|]. intro p. destruct (E p) as [E1|E1]; [|now right].
  destruct (path_eqb (join_path dir (storage_id (d_id d) (d_public d))) p) eqn:Q.
  - apply path_eqb_eq in Q. subst p. right. rewrite E1, read_del_same. split; [reflexivity|]. exists [], line, rs, (d_id d), (d_public d). split; [reflexivity|]. split; [|auto].
    unfold pick_one in P. destruct (has_prefix line _); [discriminate P|]. destruct (rev (fields line)) as [|id q] eqn:RF; [discriminate P|]. injection P as P.
    apply find_some in P as [_ P]. apply bytes_eqb_eq in P. subst id. rewrite <- (rev_involutive (fields line)), RF. cbn [rev]. apply last_last.
  - left. rewrite E1. apply read_del_other. intros <-. assert (X : path_eqb (join_path dir (storage_id (d_id d) (d_public d))) (join_path dir (storage_id (d_id d) (d_public d))) = true) by now apply path_eqb_eq. congruence.
Qed.
Theorem C63_signets_effects : forall rs w o w' ts rest, signets rs w = (o, w', ts, rest) -> ts = [] /\ forall p,
  read w' p = read w p \/ (read w' p = None /\ exists r1 line r2 id pub, rs = r1 ++ Choose line :: Choose (lit "Delete") :: r2
    /\ last (fields line) [] = id /\ nice id = true /\ p = join_path dir (storage_id id pub)).
Proof using Type. intros rs w o w' ts rest. apply (signets_effects (length rs)). apply le_n. Qed.

(** ** Envelopes *)
Definition suffix_of (rest rs : list reply) : Prop := exists pre, rs = pre ++ rest.
Lemma suffix_refl rs : suffix_of rs rs.
Proof using Type. now exists []. Qed.
Lemma suffix_cons r rest rs : suffix_of rest rs -> suffix_of rest (r :: rs).
Proof using Type. intros (pre & ->). now exists (r :: pre). Qed.
Lemma suffix_trans a b d : suffix_of a b -> suffix_of b d -> suffix_of a d.
Proof using Type. intros (p & ->) (q & ->). exists (q ++ p). now rewrite app_assoc. Qed.
Lemma suffix_length a b : suffix_of a b -> length a <= length b.
Proof using Type. intros (p & ->). rewrite app_length, Nat.add_comm. apply Nat.le_add_r. Qed.
Lemma edit_rest n : forall rs w e, length rs <= n -> suffix_of (snd (edt rs w e)) rs.
Proof using Type.
  induction n as [|n IH]; intros rs w e Hn.
  all: destruct rs as [|r rs]; cbn [edit]; destruct (status c cr jundump dir w e) as [e1| |]; try apply suffix_refl; destruct (e_suite e1) as [su0|]; try apply suffix_refl.
  { inversion Hn. }
  apply cons_length in Hn. assert (R : suffix_of rs (r :: rs)) by (apply suffix_cons, suffix_refl).
  destruct r as [line|ls]; [|apply suffix_refl].
  destruct (menu line (lit "Done")).
  { destruct (e_level e1 =? 0)%Z; [apply suffix_cons, IH, Hn|]. destruct (dir_store_envelope _ _ _ _); exact R. }
  destruct (menu line (lit "Export")).
  { destruct (e_level e1 =? 0)%Z; [apply suffix_cons, IH, Hn|]. destruct (export_envelope edump false (saved e1)); [|exact R..].
    specialize (IH rs w (clean_env e1) Hn). destruct (edt rs w (clean_env e1)) as [[[o w'] ts] rest]. now apply suffix_cons. }
  destruct (menu line (lit "Abort")); [exact R|].
  destruct (menu line (lit "Delete")); [destruct (dir_delete_envelope _ _ _); exact R|].
  destruct (menu line (lit "Suite")).
  { destruct rs as [|[line2|] rs2]; try exact R. assert (R2 : suffix_of rs2 (Choose line :: Choose line2 :: rs2)) by apply suffix_cons, suffix_cons, suffix_refl.
    destruct (fields line2); [exact R2|]. destruct (get_suite _ _); [|exact R2]. apply suffix_cons, suffix_cons, IH. apply (cons_length (Choose line2)). apply le_S, Hn. }
  destruct (if menu line (lit "Secrets") then _ else _) as [sc|]; [|apply suffix_cons, IH, Hn].
  destruct (candidates jundump walk w sc) as [cs| |]; [|exact R..].
  destruct rs as [|[|lines] rs2]; try exact R. assert (R2 : suffix_of rs2 (Choose line :: ChooseMany lines :: rs2)) by apply suffix_cons, suffix_cons, suffix_refl.
  destruct (picked _ _ _); [|exact R2..]. apply suffix_cons, suffix_cons, IH. apply (cons_length (ChooseMany lines)). apply le_S, Hn.
Qed.

Definition round (f : nat) (rs : list reply) (w : fs) (v : edata) : ran :=
  match edt rs w (env_of v) with
  | (Ok _, w', ts, rs2) => let '(o, w2, ts2, rs3) := envelopes f rs2 w' in (o, w2, ts ++ ts2, rs3)
  | r => r
  end.
(** C63: the number of rounds is bounded by the answers only. *)
Theorem C63_enough_fuel : forall f g rs w, length rs < f -> length rs < g -> envelopes f rs w = envelopes g rs w.
Proof using Type.
  induction f as [|f IH]; intros g rs w F G; [inversion F|]. destruct g as [|g]; [inversion G|]. cbn [manage_envelopes].
  destruct (listed_envelopes w) as [all| |]; [|reflexivity..]. destruct rs as [|[line|] rs]; [reflexivity| |reflexivity].
  cbn [length] in F, G. apply le_S_n in F, G.
  destruct (has_prefix line (lit "Done")); [reflexivity|]. destruct (fields line) as [|name q]; [reflexivity|]. destruct (find _ all) as [v|]; [|now apply IH].
  pose proof (suffix_length _ _ (edit_rest (length rs) rs w (env_of v) (le_n _))) as R. destruct (edt rs w (env_of v)) as [[[[] w'] ts] rs2]; [|reflexivity..]. cbn [snd] in R.
  rewrite (IH g rs2 w'); [reflexivity|eapply Nat.le_lt_trans; eauto..].
Qed.
(** C63: choosing an envelope edits that envelope. *)
Theorem C63_envelope_chosen : forall f rs w all v k cells last, listed_envelopes w = Ok all -> first_with_name all v -> one_word (ev_name v) ->
  ~ starts (lit "Done") (ev_name v) ->
  envelopes (S f) (Choose (row ((ev_name v, k) :: cells) last) :: rs) w = round f rs w v.
Proof using Type.
  intros f rs w all v k cells last A F W ND. cbn [manage_envelopes]. rewrite A. destruct (has_prefix (row _ last) (lit "Done")) eqn:E.
  - exfalso. destruct (ev_name v) as [|a [|b [|d [|x n]]]] eqn:EN.
    + now apply (proj1 W).
    + apply menu_starts in E as (r & E). cbn in E. discriminate E.
    + apply menu_starts in E as (r & E). cbn in E. discriminate E.
    + apply menu_starts in E as (r & E). cbn in E. discriminate E.
    + apply menu_starts in E as (r & E). apply ND. cbn in E. injection E as -> -> -> -> _. now exists n.
  - rewrite fields_row. cbn [flat_map fst]. rewrite (fields_word _ W). cbn [app]. rewrite (find_first_name _ _ F). reflexivity.
Qed.
Theorem C63_envelopes_done : forall f w all rs, listed_envelopes w = Ok all -> envelopes (S f) (Choose (lit "Done") :: rs) w = (Ok tt, w, [], rs).
Proof using Type. intros f w all rs A. cbn [manage_envelopes]. now rewrite A. Qed.

(** What a run on envelopes may do to a file. *)
Definition envelope_changes (P : bytes -> Prop) (w w' : fs) : Prop := forall p, read w' p = read w p \/ exists n, P n /\ nice n = true /\ p = envelope_path dir n
  /\ (read w' p = None \/ exists v b, jedump v = Some b /\ read w' p = Some b /\ ev_name v = n /\ passed c cr v).
Lemma changes_refl P w : envelope_changes P w w.
Proof using Type. intro p. now left. Qed.
Lemma changes_trans P w1 w2 w3 : envelope_changes P w1 w2 -> envelope_changes P w2 w3 -> envelope_changes P w1 w3.
Proof using Type. intros A B p. destruct (B p) as [E|X]; [rewrite E; apply A|now right]. Qed.
Lemma changes_mono (P Q : bytes -> Prop) w w' : (forall n, P n -> Q n) -> envelope_changes P w w' -> envelope_changes Q w w'.
Proof using Type. intros I A p. destruct (A p) as [E|(n & H & X)]; [now left|]. right. exists n. auto. Qed.
Lemma changes_get P w w' : envelope_changes P w w' -> forall id r, dir_get jundump dir w' id r = dir_get jundump dir w id r.
Proof using Type.
  intros H id r. unfold dir_get. destruct (nice id) eqn:N; [|reflexivity]. unfold load_signet_file. destruct (H (join_path dir (storage_id id r))) as [->|(n & _ & N2 & E & _)]; [reflexivity|].
  exfalso. exact (proj2 (proj2 (C33_distinct_files dir id r id r n n N N N2 N2)) E).
Qed.
Lemma edit_effects n rs w e o w' ts rest : sound n e -> edt rs w e = (o, w', ts, rest) -> envelope_changes (eq n) w w'
  /\ (forall t, In t ts -> exists v, ev_name v = n /\ passed c cr v /\ export_envelope edump false v = Ok t).
Proof using Type.
  intros S E. pose proof (edit_edited c cr jundump jedump edump walk dir w (sound n) (fun e e1 A B => sound_status c cr jundump dir n w e e1 A B) (fun e id su A B => sound_suite n e id su A B)
    (fun e sc cs ids A _ _ => sound_put n e sc _ A) (fun e A => sound_clean n e A) (length rs) rs e (le_n _) S) as ED. rewrite E in ED. destruct ED as [E1 E2]. split.
  - destruct E1 as [->|(-> & e0 & e1 & S0 & ST & C)]; [apply changes_refl|]. intro p. destruct C as [D|(s & A & SV)].
    + destruct (delete_only _ _ _ _ D) as (D1 & D2 & D3). destruct (path_eqb p (envelope_path dir (e_name e1))) eqn:Q.
      * apply path_eqb_eq in Q. subst p. right. exists (e_name e1). split; [symmetry; exact (proj1 (sound_status _ _ _ _ _ _ _ _ S0 ST))|]. auto.
      * left. apply D2. intros ->. rewrite (proj2 (path_eqb_eq _ _) eq_refl) in Q. discriminate Q.
    + destruct (approved_passed _ _ _ _ _ _ _ _ _ S0 A) as [P EN]. destruct (store_only _ _ _ _ _ SV) as (D1 & D2 & b & D3 & D4).
      destruct (path_eqb p (envelope_path dir (ev_name (saved e1)))) eqn:Q.
      * apply path_eqb_eq in Q. subst p. right. exists (ev_name (saved e1)). split; [now symmetry|]. split; [exact D1|]. split; [reflexivity|]. right. exists (saved e1), b. auto.
      * left. apply D2. intros ->. rewrite (proj2 (path_eqb_eq _ _) eq_refl) in Q. discriminate Q.
  - intros t Ht. destruct (E2 t Ht) as (e0 & e1 & s & S0 & A & X). destruct (approved_passed _ _ _ _ _ _ _ _ _ S0 A) as [P EN].
    exists (saved e1). auto.
Qed.
Lemma listed_in files : forall acc all v, dir_envelopes jeundump suite_registry files acc = Ok all -> In v all -> In v acc \/ exists p b, In (p, b) files /\ load_envelope jeundump suite_registry b = Ok v.
Proof using Type.
  induction files as [|[p b] files IH]; intros acc all v H I; [cbn in H; injection H as <-; now left|]. cbn [dir_envelopes] in H.
  destruct (path_suffix p (lit ".envelope")).
  - destruct (load_envelope jeundump suite_registry b) as [v0| |] eqn:LE; [|discriminate H..]. cbn [bind] in H. destruct (IH _ _ _ H I) as [J|(q & x & J & K)].
    + apply in_app_or in J as [J|[<-|[]]]; [now left|]. right. exists p, b. split; [now left|exact LE].
    + right. exists q, x. split; [now right|exact K].
  - destruct (IH _ _ _ H I) as [J|(q & x & J & K)]; [now left|]. right. exists q, x. split; [now right|exact K].
Qed.
Lemma listed_sound w all v : listed_envelopes w = Ok all -> In v all -> sound (ev_name v) (env_of v) /\ exists p b, In (p, b) (walk w) /\ jeundump b = Some v.
Proof using Type.
  intros A I. destruct (listed_in _ _ _ _ A I) as [[]|(p & b & J & K)]. unfold load_envelope in K. destruct (jeundump b) as [v'|] eqn:U; [|discriminate K]. cbn [of_option bind] in K.
  destruct (get_suite suite_registry (ev_suite v')) as [su|] eqn:G; [|discriminate K]. injection K as <-. split; [eapply env_of_sound; exact G|]. eauto.
Qed.
(** The names that answers begin with. *)
Definition named (rs : list reply) (n : bytes) : Prop := exists line, In (Choose line) rs /\ hd_error (fields line) = Some n.
Lemma named_mono rs rs' n : (forall r, In r rs -> In r rs') -> named rs n -> named rs' n.
Proof using Type. intros H (l & I & E). exists l. auto. Qed.
(** C63: managing envelopes changes envelope files only, and saves and prints only what was checked; signets stay as they are. *)
Theorem C63_envelopes_effects : forall f rs w o w' ts rest, envelopes f rs w = (o, w', ts, rest) ->
  envelope_changes (named rs) w w' /\ (forall id r, dir_get jundump dir w' id r = dir_get jundump dir w id r)
  /\ (forall t, In t ts -> exists v, named rs (ev_name v) /\ passed c cr v /\ export_envelope edump false v = Ok t).
Proof using Type.
  assert (G : forall f rs w o w' ts rest, envelopes f rs w = (o, w', ts, rest) -> envelope_changes (named rs) w w' /\ (forall t, In t ts -> exists v, named rs (ev_name v) /\ passed c cr v /\ export_envelope edump false v = Ok t)).
  { induction f as [|f IH]; intros rs w o w' ts rest H; cbn [manage_envelopes] in H; [injection H as <- <- <- <-; split; [apply changes_refl|intros t []]|].
    destruct (listed_envelopes w) as [all| |] eqn:A; [|injection H as <- <- <- <-; split; [apply changes_refl|intros t []]..].
    destruct rs as [|[line|] rs]; [injection H as <- <- <- <-; split; [apply changes_refl|intros t []]| |injection H as <- <- <- <-; split; [apply changes_refl|intros t []]].
    destruct (has_prefix line (lit "Done")); [injection H as <- <- <- <-; split; [apply changes_refl|intros t []]|].
    destruct (fields line) as [|name q] eqn:FD0; [injection H as <- <- <- <-; split; [apply changes_refl|intros t []]|].
    assert (FL : hd_error (fields line) = Some name) by now rewrite FD0.
    set (rs0 := Choose line :: rs).
    assert (UP : forall (X : ran) rs2 w1 o w' ts rest, (forall r, In r rs2 -> In r rs0) -> envelopes f rs2 w1 = (o, w', ts, rest) ->
      envelope_changes (named rs0) w1 w' /\ (forall t, In t ts -> exists v, named rs0 (ev_name v) /\ passed c cr v /\ export_envelope edump false v = Ok t)).
    { intros _ rs2 w1 o2 w2 ts2 rest2 SUB H2. destruct (IH _ _ _ _ _ _ H2) as [C T]. split; [eapply changes_mono; [|exact C]; intros n; now apply named_mono|].
      intros t Ht. destruct (T t Ht) as (v & N & X). exists v. split; [now apply (named_mono rs2)|exact X]. }
    assert (SUB : forall r, In r rs -> In r rs0) by (intros r; now right).
    destruct (find _ all) as [v|] eqn:FD; [|now apply (UP (o, w', ts, rest) _ _ _ _ _ _ SUB H)]. apply find_some in FD as [I NM]. apply bytes_eqb_eq in NM. destruct (listed_sound _ _ _ A I) as [S _].
    assert (NV : named rs0 (ev_name v)) by (exists line; split; [now left|]; rewrite NM; exact FL).
    pose proof (edit_rest (length rs) rs w (env_of v) (le_n _)) as SF. destruct (edt rs w (env_of v)) as [[[o1 w1] ts1] rs2] eqn:ED. destruct (edit_effects _ _ _ _ _ _ _ _ S ED) as [C1 T1]. cbn [snd] in SF.
    assert (C1' : envelope_changes (named rs0) w w1) by (eapply changes_mono; [|exact C1]; intros n <-; exact NV).
    assert (T1' : forall t, In t ts1 -> exists v, named rs0 (ev_name v) /\ passed c cr v /\ export_envelope edump false v = Ok t) by (intros t Ht; destruct (T1 t Ht) as (v0 & E0 & X); exists v0; rewrite E0; auto).
    destruct o1; [|injection H as <- <- <- <-; auto..]. destruct (envelopes f rs2 w1) as [[[o2 w2] ts2] rs3] eqn:E2. injection H as <- <- <- <-.
    assert (SUB2 : forall r, In r rs2 -> In r rs0) by (intros r Hr; right; destruct SF as (pre & ->); apply in_or_app; now right).
    destruct (UP (o2, w2, ts2, rs3) _ _ _ _ _ _ SUB2 E2) as [C2 T2]. split; [eapply changes_trans; eauto|]. intros t Ht. apply in_app_or in Ht as [Ht|Ht]; auto. }
  intros f rs w o w' ts rest H. destruct (G _ _ _ _ _ _ _ H) as [A B]. split; [exact A|]. split; [eapply changes_get; exact A|exact B].
Qed.

(** ** What is saved works *)
Lemma prep_same w w' : (forall id r, dir_get jundump dir w' id r = dir_get jundump dir w id r) -> forall level l r,
  prep_signets tool_registry cr (store_world jundump dir w') level r l = prep_signets tool_registry cr (store_world jundump dir w) level r l.
Proof using Type.
  intros E level. assert (F : forall sg r, fetch (store_world jundump dir w') sg r = fetch (store_world jundump dir w) sg r).
  { intros sg r. unfold fetch. cbn [store_world w_signet]. now rewrite E. }
  induction l as [|sg l IH]; intro r; [reflexivity|]. rewrite !Post.prep_cons.
  assert (O : Post.prep_one cr (store_world jundump dir w') level r sg = Post.prep_one cr (store_world jundump dir w) level r sg).
  { unfold Post.prep_one. destruct (Letter.nonempty (sg_key sg)); [reflexivity|]. destruct (bytes_eqb (sg_scheme sg) scheme_pw); [reflexivity|]. rewrite F. reflexivity. }
  rewrite O. destruct (Post.prep_one cr (store_world jundump dir w) level r sg) as [[x a] r']. destruct x; [|reflexivity..]. now rewrite IH.
Qed.
Lemma works_same w w' v : (forall id r, dir_get jundump dir w' id r = dir_get jundump dir w id r) -> works c cr jundump dir w v -> works c cr jundump dir w' v.
Proof using Type.
  intros E (s & H & X). exists s. split; [|exact X]. rewrite <- H. unfold correspondence. f_equal. unfold prepare. destruct (load_suite suite_registry (env_of v)); [|reflexivity..]. now rewrite !(prep_same _ _ E).
Qed.
Section Usable.
Hypothesis honest : forall w p b, In (p, b) (walk w) -> read w p = Some b.
Hypothesis codec : forall v b, no_keys v -> jedump v = Some b -> jeundump b = Some v.
Lemma edit_usable n rs w e o w' ts rest : orderly jundump dir w -> sound n e -> lists_ok cr jundump dir w e -> edt rs w e = (o, w', ts, rest) ->
  (forall p, read w' p = read w p \/ read w' p = None \/ exists v b, no_keys v /\ jedump v = Some b /\ read w' p = Some b /\ works c cr jundump dir w' v)
  /\ (forall t, In t ts -> exists v, works c cr jundump dir w v /\ export_envelope edump false v = Ok t).
Proof using Type.
  intros OD S L E. pose proof (proj1 (edit_effects _ _ _ _ _ _ _ _ S E)) as CH. pose proof (changes_get _ _ _ CH) as SG. set (I := fun e => sound n e /\ lists_ok cr jundump dir w e).
  pose proof (edit_edited c cr jundump jedump edump walk dir w I
    (fun e e1 A B => conj (sound_status c cr jundump dir n w e e1 (proj1 A) B) (lists_status c cr jundump dir w OD e e1 (proj1 (proj2 (proj1 A))) (proj2 A) B))
    (fun e id su A B => conj (sound_suite n e id su (proj1 A) B) (proj2 A))
    (fun e sc cs ids A _ _ => conj (sound_put n e sc _ (proj1 A)) (lists_put cr jundump dir w e sc ids (proj2 A)))
    (fun e A => conj (sound_clean n e (proj1 A)) (lists_clean cr jundump dir w e)) (length rs) rs e (le_n _) (conj S L)) as ED. rewrite E in ED. destruct ED as [E1 E2]. split.
  - destruct E1 as [->|(-> & e0 & e1 & [S0 L0] & ST & C)]; [now left|]. intro p. destruct C as [D|(s & A & SV)].
    + destruct (delete_only _ _ _ _ D) as (D1 & D2 & D3). destruct (path_eqb p (envelope_path dir (e_name e1))) eqn:Q.
      * apply path_eqb_eq in Q. subst p. right. now left.
      * left. apply D2. intros ->. rewrite (proj2 (path_eqb_eq _ _) eq_refl) in Q. discriminate Q.
    + destruct (approved_passed _ _ _ _ _ _ _ _ _ S0 A) as [P EN]. destruct (store_only _ _ _ _ _ SV) as (D1 & D2 & b & D3 & D4).
      destruct (path_eqb p (envelope_path dir (ev_name (saved e1)))) eqn:Q.
      * apply path_eqb_eq in Q. subst p. right. right. exists (saved e1), b. split; [exact (proj1 P)|]. split; [exact D3|]. split; [exact D4|].
        eapply approved_works; [exact OD|exact SG|exact S0|exact L0|exact A].
      * left. apply D2. intros ->. rewrite (proj2 (path_eqb_eq _ _) eq_refl) in Q. discriminate Q.
  - intros t Ht. destruct (E2 t Ht) as (e0 & e1 & s & [S0 L0] & A & X). exists (saved e1). split; [|exact X]. eapply approved_works; [exact OD|reflexivity|exact S0|exact L0|exact A].
Qed.
Lemma no_keys_keys v : no_keys v -> Forall (fun d => d_key d = []) (ev_secrets v ++ ev_senders v ++ ev_recipients v).
Proof using Type.
  intros (A & B & C). assert (X : forall l, Forall bare l -> Forall (fun d => d_key d = []) l) by (intros l; apply Forall_impl; intros d H; apply H).
  apply Forall_app. split; [now apply X|]. apply Forall_app. split; now apply X.
Qed.
(** C63: in an orderly store whose envelopes carry no keys, every envelope that was changed works at the end. *)
Theorem C63_envelopes_usable : forall f rs w o w' ts rest, envelopes f rs w = (o, w', ts, rest) -> orderly jundump dir w -> keyless jeundump w ->
  (forall n v, get_env w' n = Ok v -> get_env w n = Ok v \/ works c cr jundump dir w' v)
  /\ (forall t, In t ts -> exists v, works c cr jundump dir w v /\ export_envelope edump false v = Ok t).
Proof using honest codec.
  assert (G : forall f rs w o w' ts rest, envelopes f rs w = (o, w', ts, rest) -> orderly jundump dir w -> keyless jeundump w ->
    (forall p b v, read w' p = Some b -> jeundump b = Some v -> read w p = Some b \/ works c cr jundump dir w' v)
    /\ (forall t, In t ts -> exists v, works c cr jundump dir w v /\ export_envelope edump false v = Ok t)).
  { induction f as [|f IH]; intros rs w o w' ts rest H OD KL; cbn [manage_envelopes] in H; [injection H as <- <- <- <-; split; [now left|intros t []]|].
    destruct (listed_envelopes w) as [all| |] eqn:A; [|injection H as <- <- <- <-; split; [now left|intros t []]..].
    destruct rs as [|[line|] rs]; [injection H as <- <- <- <-; split; [now left|intros t []]| |injection H as <- <- <- <-; split; [now left|intros t []]].
    destruct (has_prefix line (lit "Done")); [injection H as <- <- <- <-; split; [now left|intros t []]|].
    destruct (fields line) as [|name q]; [injection H as <- <- <- <-; split; [now left|intros t []]|].
    destruct (find _ all) as [v|] eqn:FD; [|now apply (IH _ _ _ _ _ _ H)]. apply find_some in FD as [I _]. destruct (listed_sound _ _ _ A I) as [S (p & b & W & U)].
    assert (L : lists_ok cr jundump dir w (env_of v)).
    { pose proof (KL p b v (honest _ _ _ W) U) as K. apply Forall_app in K as [K1 K]. apply Forall_app in K as [K2 K3].
      assert (F : forall b l, Forall (fun d => d_key d = []) l -> list_ok cr jundump dir w b (map signet_of l)).
      { intros b0 l F. left. apply Forall_forall. intros y Hy. apply in_map_iff in Hy as (d & <- & Hd). left. rewrite Forall_forall in F. exact (F d Hd). }
      split; [|split]; apply F; assumption. }
    destruct (edt rs w (env_of v)) as [[[o1 w1] ts1] rs2] eqn:ED. pose proof (changes_get _ _ _ (proj1 (edit_effects _ _ _ _ _ _ _ _ S ED))) as SG.
    destruct (edit_usable _ _ _ _ _ _ _ _ OD S L ED) as [C1 T1].
    assert (D1 : forall p b v, read w1 p = Some b -> jeundump b = Some v -> read w p = Some b \/ (no_keys v /\ works c cr jundump dir w1 v)).
    { intros p0 b0 v0 R0 U0. destruct (C1 p0) as [E|[E|(v1 & b1 & N1 & E1 & E2 & W1)]]; [left; now rewrite <- E|congruence|]. right. rewrite R0 in E2. injection E2 as <-.
      pose proof (codec _ _ N1 E1) as X. rewrite U0 in X. injection X as <-. auto. }
    destruct o1; [|injection H as <- <- <- <-; split; [|exact T1]; intros p0 b0 v0 R0 U0; destruct (D1 p0 b0 v0 R0 U0) as [X|[_ X]]; auto..].
    destruct (envelopes f rs2 w1) as [[[o2 w2] ts2] rs3] eqn:E2. injection H as <- <- <- <-.
    assert (KL1 : keyless jeundump w1).
    { intros p0 b0 v0 R0 U0. destruct (D1 p0 b0 v0 R0 U0) as [X|[X _]]; [exact (KL _ _ _ X U0)|now apply no_keys_keys]. }
    destruct (IH _ _ _ _ _ _ E2 (orderly_same _ _ _ _ SG OD) KL1) as [C2 T2].
    pose proof (proj1 (proj2 (C63_envelopes_effects _ _ _ _ _ _ _ E2))) as SG2. split.
    - intros p0 b0 v0 R0 U0. destruct (C2 p0 b0 v0 R0 U0) as [X|X]; [|now right]. destruct (D1 p0 b0 v0 X U0) as [Y|[_ Y]]; [now left|right]. now apply (works_same w1).
    - intros t Ht. apply in_app_or in Ht as [Ht|Ht]; [auto|]. destruct (T2 t Ht) as (v0 & V & X). exists v0. split; [|exact X]. apply (works_same w1); [|exact V]. intros id r. symmetry. apply SG. }
  intros f rs w o w' ts rest H OD KL. destruct (G _ _ _ _ _ _ _ H OD KL) as [A B]. split; [|exact B]. intros n v E.
  unfold dir_get_envelope in *. destruct (nice n); [|discriminate E]. destruct (read w' (envelope_path dir n)) as [b|] eqn:R; [|discriminate E].
  assert (U : jeundump b = Some v). { unfold load_envelope in E. destruct (jeundump b) as [v'|]; [|discriminate E]. cbn [of_option bind] in E. destruct (get_suite _ _); [|discriminate E]. injection E as <-. reflexivity. }
  destruct (A _ _ _ R U) as [X|X]; [left; now rewrite X|now right].
Qed.
End Usable.

(** ** No panics *)
Section Calm.
Hypothesis load_np : forall t k b, cr_load cr t k b <> Panic.
Lemma no_blank_suffix rs rs' : suffix_of rs' rs -> no_blank rs -> no_blank rs'.
Proof using Type. intros (pre & ->) [A B]. split; [intros l H; apply A; apply in_or_app; now right|intros ls l H I; eapply B; [apply in_or_app; right; exact H|exact I]]. Qed.
Lemma no_blank_menus rs : no_blank rs -> from_menus rs.
Proof using Type. intros [A B]. split; [|exact B]. intros r1 a b r2 -> _. apply A. apply in_or_app. right. right. now left. Qed.
Lemma select_np f ss files : forall sel, dir_select jundump f ss files sel <> Panic.
Proof using Type.
  induction files as [|[p b] r IH]; intro sel; [discriminate|]. cbn [dir_select]. destruct (_ || _)%bool; [|apply IH]. destruct (jundump b); [|discriminate]. destruct (_ && _)%bool; apply IH.
Qed.
Lemma all_np files : forall acc, dir_envelopes jeundump suite_registry files acc <> Panic.
Proof using Type.
  induction files as [|[p b] r IH]; intro acc; [discriminate|]. cbn [dir_envelopes]. destruct (path_suffix _ _); [|apply IH]. unfold load_envelope.
  destruct (jeundump b) as [v|]; [|discriminate]. cbn [of_option bind]. destruct (get_suite _ _); [|discriminate]. cbn [bind]. apply IH.
Qed.
Lemma signets_calm n : forall rs w, length rs <= n -> no_blank rs -> fst (fst (fst (signets rs w))) <> Panic.
Proof using Type.
  induction n as [|n IH]; intros rs w L NB; (destruct rs as [|r rs]; [cbn [manage_signets]; pose proof (select_np FilterAny [] (walk w) []) as SN; destruct (listed w) as [all| |]; [discriminate|discriminate|congruence]|]); [inversion L|].
  cbn [manage_signets]. pose proof (select_np FilterAny [] (walk w) []) as SN. destruct (listed w) as [all| |]; [|discriminate|congruence].
  destruct r as [line|]; [|discriminate]. unfold pick_one. destruct (has_prefix _ _); [discriminate|]. destruct (rev (fields line)) as [|id q] eqn:R.
  { exfalso. apply (proj1 NB line (or_introl eq_refl)). rewrite <- (rev_involutive (fields line)), R. reflexivity. }
  destruct (find _ all) as [d|]; [|discriminate]. destruct rs as [|[action|] rs]; try discriminate.
  assert (NB' : no_blank rs) by (apply (no_blank_suffix _ _ ltac:(exists [Choose line; Choose action]; reflexivity) NB)).
  assert (L' : length rs <= n) by exact (cons_length _ _ _ (le_S _ _ (cons_length _ _ _ L))).
  destruct (bytes_eqb action _); [|now apply IH]. unfold dir_delete. destruct (nice _); [|discriminate]. destruct (read _ _); [|discriminate]. now apply IH.
Qed.
Theorem C63_no_panic : forall rs w, no_blank rs -> fst (fst (fst (manage c cr jundump jedump jeundump edump walk dir rs w))) <> Panic.
Proof using load_np.
  assert (G : forall f rs w, no_blank rs -> fst (fst (fst (envelopes f rs w))) <> Panic).
  { induction f as [|f IH]; intros rs w NB; cbn [manage_envelopes]; [discriminate|]. pose proof (all_np (walk w) []) as AN. destruct (listed_envelopes w) as [all| |] eqn:A; [|discriminate|congruence].
    destruct rs as [|[line|] rs]; try discriminate. destruct (has_prefix _ _); [discriminate|]. destruct (fields line) as [|name q] eqn:F; [exfalso; exact (proj1 NB line (or_introl eq_refl) F)|].
    assert (SF : suffix_of rs (Choose line :: rs)) by (apply suffix_cons, suffix_refl). pose proof (no_blank_suffix _ _ SF NB) as NB'.
    destruct (find _ all) as [v|] eqn:FD; [|now apply IH]. apply find_some in FD as [I _].
    destruct (listed_in _ _ _ _ A I) as [[]|(p & b & _ & K)]. assert (KN : known (env_of v)).
    { unfold load_envelope in K. destruct (jeundump b) as [v'|]; [|discriminate K]. cbn [of_option bind] in K. destruct (get_suite suite_registry (ev_suite v')) as [su|] eqn:GS; [|discriminate K]. injection K as <-.
      exists su. unfold load_suite. cbn [env_of e_suite]. now rewrite GS. }
    pose proof (edit_calm c cr jundump jedump jeundump edump walk dir load_np (length rs) rs w (env_of v) (le_n _) (no_blank_menus _ NB') KN) as EC.
    pose proof (edit_rest (length rs) rs w (env_of v) (le_n _)) as ER. destruct (edt rs w (env_of v)) as [[[o1 w1] ts1] rs2]. cbn [fst snd] in *.
    destruct o1; [|discriminate|congruence]. specialize (IH rs2 w1 (no_blank_suffix _ _ ER NB')). destruct (envelopes f rs2 w1) as [[[o2 w2] ts2] rs3]. exact IH. }
  intros rs w NB. unfold manage. destruct rs as [|[line|] rs]; try discriminate. assert (NB' : no_blank rs) by (eapply no_blank_suffix; [|exact NB]; apply suffix_cons, suffix_refl).
  destruct (bytes_eqb line (lit "Envelopes")); [now apply G|]. destruct (bytes_eqb line (lit "Signets")); [|discriminate]. eapply signets_calm; [apply le_n|exact NB'].
Qed.
End Calm.
End Manage.

(** ** Concrete cases *)
Notation demo_signets := (manage_signets demo_undump all_files tsdir).
Notation demo_envelopes := (manage_envelopes default_config toy demo_undump demo_edump demo_eundump demo_edump all_files tsdir).
Notation demo_manage := (manage default_config toy demo_undump demo_edump demo_eundump demo_edump all_files tsdir).
Definition line_of (name kind scheme id : bytes) : bytes := row [(name, 0); (kind, 5); (scheme, 2); (lit "signing", 1); (lit "128 b/s", 0)] id.
Definition bob_line : bytes := line_of (lit "Bob") (lit "recipient") (lit "ECDH-X25519") (lit "bob").
Lemma word_ascii x : x <> [] -> forallb (fun b => negb (existsb (byte_eqb b) [x09; x0a; x0b; x0c; x0d; x20; xc2; xe1; xe2; xe3])) x = true -> one_word x.
Proof.
  intros NE F. split; [exact NE|]. intros p a b I ->. rewrite !forallb_app in F. apply andb_prop in F as [_ F]. apply andb_prop in F as [F _].
  repeat (destruct I as [<-|I]; [discriminate F|]). destruct I.
Qed.
Example C63_hypotheses_met : dir_select demo_undump FilterAny [] (all_files shop) [] = Ok [ann; bob] /\ first_with_id [ann; bob] bob /\ one_word (d_id bob) /\ nice (d_id bob) = true
  /\ ~ starts (lit "Done ") bob_line /\ (exists b, read shop (signet_path tsdir bob) = Some b)
  /\ (exists w', demo_manage [Choose (lit "Signets"); Choose bob_line; Choose (lit "Delete"); Choose (lit "Done")] shop = (Ok tt, w', [], []) /\ w' = [file_of ann])
  /\ no_blank [Choose (lit "Signets"); Choose bob_line; Choose (lit "Delete"); Choose (lit "Done")].
Proof.
  split; [vm_compute; reflexivity|]. split; [exists [ann], []; split; [reflexivity|]; constructor; [discriminate|constructor]|]. split; [apply word_ascii; [discriminate|reflexivity]|].
  split; [reflexivity|]. split; [intros (r & E); discriminate E|]. split; [eexists; vm_compute; reflexivity|]. split; [eexists; split; [vm_compute; reflexivity|reflexivity]|].
  split; [|intros ls l I; repeat (destruct I as [I|I]; [discriminate I|]); destruct I]. intros l I. repeat (destruct I as [I|I]; [injection I as <-; vm_compute; discriminate|]). destruct I.
Qed.
(** Managing envelopes: "mail" is chosen and saved again with another suite. *)
Definition mail_line (name : bytes) : bytes := row [(name, 4); (lit "v1", 2); (lit "provides CRSI and 128 b/s", 0)] (lit "1 to, 1 from").
Definition mail2_replies : list reply := [Choose (lit "Envelopes"); Choose (mail_line (lit "mail")); Choose (lit "Suite: v1"); Choose (lit "v2   128 b/s"); Choose (lit "Done"); Choose (lit "Done")].
(** The demo codec, restricted to what it gives back; a walk that lists what can be read. *)
Definition same_ref (a b : sdata) : bool :=
  N.eqb (d_version a) (d_version b) && bytes_eqb (d_id a) (d_id b) && bytes_eqb (d_scheme a) (d_scheme b)
  && match d_key a, d_key b, d_public a, d_public b, d_prot a, d_prot b, d_info a, d_info b, d_sig a, d_sig b with
     | [], [], false, false, None, None, None, None, None, None => true | _, _, _, _, _, _, _, _, _, _ => false end.
Fixpoint same_refs (a b : list sdata) : bool := match a, b with [], [] => true | x :: a, y :: b => same_ref x y && same_refs a b | _, _ => false end.
Definition same_env (a b : edata) : bool :=
  N.eqb (ev_version a) (ev_version b) && bytes_eqb (ev_name a) (ev_name b) && bytes_eqb (ev_suite a) (ev_suite b) && same_refs (ev_secrets a) (ev_secrets b)
  && same_refs (ev_senders a) (ev_senders b) && same_refs (ev_recipients a) (ev_recipients b) && Z.eqb (ev_level a) (ev_level b).
Lemma same_ref_eq a b : same_ref a b = true -> a = b.
Proof.
  destruct a as [v1 i1 s1 k1 p1 q1 f1 g1], b as [v2 i2 s2 k2 p2 q2 f2 g2]. unfold same_ref. cbn [d_version d_id d_scheme d_key d_public d_prot d_info d_sig]. intro H.
  apply andb_prop in H as [H E]. apply andb_prop in H as [H H3]. apply andb_prop in H as [H1 H2]. apply N.eqb_eq in H1. apply bytes_eqb_eq in H2, H3. subst.
  destruct k1; [|discriminate E]. destruct k2; [|discriminate E]. destruct p1; [discriminate E|]. destruct p2; [discriminate E|]. destruct q1; [discriminate E|]. destruct q2; [discriminate E|].
  destruct f1; [discriminate E|]. destruct f2; [discriminate E|]. destruct g1; [discriminate E|]. destruct g2; [discriminate E|]. reflexivity.
Qed.
Lemma same_refs_eq a : forall b, same_refs a b = true -> a = b.
Proof. induction a as [|x a IH]; intros [|y b] H; try discriminate H; [reflexivity|]. cbn [same_refs] in H. apply andb_prop in H as [H1 H2]. f_equal; [now apply same_ref_eq|now apply IH]. Qed.
Lemma same_env_eq a b : same_env a b = true -> a = b.
Proof.
  destruct a as [v1 n1 s1 x1 y1 z1 l1], b as [v2 n2 s2 x2 y2 z2 l2]. unfold same_env. cbn [ev_version ev_name ev_suite ev_secrets ev_senders ev_recipients ev_level]. intro H. repeat (apply andb_prop in H as [H ?]).
  apply N.eqb_eq in H. apply bytes_eqb_eq in H4, H5. apply same_refs_eq in H1, H2, H3. apply Z.eqb_eq in H0. subst. reflexivity.
Qed.
Definition exact_edump (v : edata) : option bytes := match demo_edump v with Some b => match demo_eundump b with Some v' => if same_env v v' then Some b else None | None => None end | None => None end.
Lemma exact_codec v b : no_keys v -> exact_edump v = Some b -> demo_eundump b = Some v.
Proof.
  intros _ H. unfold exact_edump in H. destruct (demo_edump v) as [b'|]; [|discriminate H]. destruct (demo_eundump b') as [v'|] eqn:U; [|discriminate H]. destruct (same_env v v') eqn:S; [|discriminate H]. injection H as <-.
  apply same_env_eq in S. subst v'. exact U.
Qed.
Definition readable (w : fs) : list (path * bytes) := filter (fun pb => match read w (fst pb) with Some b => bytes_eqb b (snd pb) | None => false end) w.
Lemma readable_honest w p b : In (p, b) (readable w) -> read w p = Some b.
Proof. intro H. apply filter_In in H as [_ H]. cbn [fst snd] in H. destruct (read w p) as [b'|]; [|discriminate H]. apply bytes_eqb_eq in H. now subst. Qed.
Notation exact_manage := (manage default_config toy demo_undump exact_edump demo_eundump demo_edump readable tsdir).
Lemma shop2_keyless : keyless demo_eundump shop2.
Proof.
  intros p b v R U. unfold shop2 in R. assert (E : files_after mail_run = [file_of ann; file_of bob; env_file (lit "mail") mail]) by (vm_compute; reflexivity). rewrite E in R. unfold read in R.
  cbn [a_get file_of env_file] in R. destruct (path_eqb _ p); [injection R as <-; vm_compute in U; first [discriminate U|injection U as <-; repeat constructor]|].
  destruct (path_eqb _ p); [injection R as <-; vm_compute in U; first [discriminate U|injection U as <-; repeat constructor]|].
  destruct (path_eqb _ p); [injection R as <-; vm_compute in U; first [discriminate U|injection U as <-; repeat constructor]|]. discriminate R.
Qed.
Example C63_envelopes_met : exists all, dir_envelopes demo_eundump suite_registry (readable shop2) [] = Ok all /\ all = [mail] /\ first_with_name all mail /\ one_word (ev_name mail)
  /\ ~ starts (lit "Done") (ev_name mail) /\ orderly demo_undump tsdir shop2 /\ keyless demo_eundump shop2
  /\ (let r := exact_manage mail2_replies shop2 in ends r = Ok tt /\ exists v, demo_get_env (files_after r) (lit "mail") = Ok v /\ ev_suite v = lit "v2" /\ works default_config toy demo_undump tsdir (files_after r) v)
  /\ no_blank mail2_replies.
Proof.
  exists [mail]. split; [vm_compute; reflexivity|]. split; [reflexivity|]. split; [exists [], []; split; [reflexivity|constructor]|]. split; [apply word_ascii; [discriminate|reflexivity]|].
  split; [intros (r & E); discriminate E|]. split; [assert (E : shop2 = map file_of [ann; bob] ++ map (fun e => env_file (fst e) (snd e)) [(lit "mail", mail)]) by (vm_compute; reflexivity); rewrite E; exact (demo_orderly [ann; bob] [(lit "mail", mail)] ann_bob_ok ltac:(repeat constructor) ann_bob_pw)|]. split; [exact shop2_keyless|].
  split; [cbv zeta; split; [vm_compute; reflexivity|]; eexists; split; [vm_compute; reflexivity|]; split; [reflexivity|]; eexists; split; [vm_compute; reflexivity|]; split; [vm_compute; reflexivity|reflexivity]|].
  split; [|intros ls l I; repeat (destruct I as [I|I]; [discriminate I|]); destruct I]. intros l I. repeat (destruct I as [I|I]; [injection I as <-; vm_compute; discriminate|]). destruct I.
Qed.

(** Finding: where a recipient and a private signet have the same ID (as `generate` makes them), choosing the private one and "Delete" deletes the recipient. *)
Definition ann_recipient : sdata := mkData 1 (lit "ann") (lit "Ed25519") [n2b 5] true None (Some (mkInfo (lit "Ann") [])) None.
Theorem C63_same_id_refuted : exists w all d line, dir_select demo_undump FilterAny [] (all_files w) [] = Ok all /\ In d all /\ one_word (d_id d)
  /\ (exists cells, line = row cells (d_id d)) /\ ~ starts (lit "Done ") line /\ (exists b, read w (signet_path tsdir d) = Some b)
  /\ (let r := demo_signets [Choose line; Choose (lit "Delete"); Choose (lit "Done")] w in ends r = Ok tt
       /\ read (files_after r) (signet_path tsdir d) = read w (signet_path tsdir d)
       /\ exists other, In other all /\ other <> d /\ read w (signet_path tsdir other) <> None /\ read (files_after r) (signet_path tsdir other) = None).
Proof.
  exists [file_of ann_recipient; file_of ann], [ann_recipient; ann], ann, (line_of (lit "Ann") (lit "signet") (lit "Ed25519") (lit "ann")).
  split; [vm_compute; reflexivity|]. split; [right; now left|]. split; [apply word_ascii; [discriminate|reflexivity]|]. split; [eexists; reflexivity|]. split; [intros (r & E); discriminate E|].
  split; [eexists; vm_compute; reflexivity|]. cbv zeta. split; [vm_compute; reflexivity|]. split; [vm_compute; reflexivity|]. exists ann_recipient. split; [now left|]. split; [discriminate|].
  split; [vm_compute; discriminate|vm_compute; reflexivity].
Qed.
(** Finding: an ID with a space names another signet. *)
Definition with_id (id : bytes) : sdata := mkData 1 id (lit "Ed25519") [n2b 5] false None (Some (mkInfo (lit "Ann") [])) None.
Theorem C63_space_refuted : exists w all d line, dir_select demo_undump FilterAny [] (all_files w) [] = Ok all /\ first_with_id all d /\ nice (d_id d) = true
  /\ (exists cells, line = row cells (d_id d)) /\ ~ starts (lit "Done ") line
  /\ (let r := demo_signets [Choose line; Choose (lit "Delete"); Choose (lit "Done")] w in ends r = Ok tt
       /\ read (files_after r) (signet_path tsdir d) = read w (signet_path tsdir d)
       /\ exists other, In other all /\ other <> d /\ read w (signet_path tsdir other) <> None /\ read (files_after r) (signet_path tsdir other) = None).
Proof.
  exists [file_of (with_id (lit "key")); file_of (with_id (lit "my key"))], [with_id (lit "key"); with_id (lit "my key")], (with_id (lit "my key")), (line_of (lit "Ann") (lit "signet") (lit "Ed25519") (lit "my key")).
  split; [vm_compute; reflexivity|]. split; [exists [with_id (lit "key")], []; split; [reflexivity|]; constructor; [discriminate|constructor]|]. split; [reflexivity|]. split; [eexists; reflexivity|]. split; [intros (r & E); discriminate E|].
  cbv zeta. split; [vm_compute; reflexivity|]. split; [vm_compute; reflexivity|]. exists (with_id (lit "key")). split; [now left|]. split; [discriminate|].
  split; [vm_compute; discriminate|vm_compute; reflexivity].
Qed.
(** Finding: with a signet of the ID "Done", the entry "Done" does not end the command but selects that signet. *)
Theorem C63_done_refuted : exists w, ends (demo_signets [Choose (lit "Done"); Choose (lit "Delete"); Choose (lit "Done")] w) = Ok tt
  /\ read w (signet_path tsdir (with_id (lit "Done"))) <> None /\ read (files_after (demo_signets [Choose (lit "Done"); Choose (lit "Delete"); Choose (lit "Done")] w)) (signet_path tsdir (with_id (lit "Done"))) = None.
Proof. exists [file_of (with_id (lit "Done"))]. split; [vm_compute; reflexivity|]. split; [vm_compute; discriminate|vm_compute; reflexivity]. Qed.
(** Finding: signets in subdirectories are listed; deleting one deletes the file of the same ID in the directory itself. *)
Theorem C63_subdirectory_refuted : exists w all p b, dir_select demo_undump FilterAny [] (all_files w) [] = Ok all /\ read w p = Some b /\ demo_undump b = Some (with_id (lit "old")) /\ first_with_id all (with_id (lit "old"))
  /\ (let r := demo_signets [Choose (line_of (lit "Ann") (lit "signet") (lit "Ed25519") (lit "old")); Choose (lit "Delete"); Choose (lit "Done")] w in ends r = Ok tt
       /\ read (files_after r) p = Some b /\ exists q, q <> p /\ read w q <> None /\ read (files_after r) q = None).
Proof.
  exists [(join_path tsdir (lit "bak/old.signet"), snd (file_of (with_id (lit "old")))); file_of (with_id (lit "old"))]. eexists. exists (join_path tsdir (lit "bak/old.signet")). eexists.
  split; [vm_compute; reflexivity|]. split; [vm_compute; reflexivity|]. split; [vm_compute; reflexivity|]. split; [eexists []; eexists; split; [vm_compute; reflexivity|constructor]|].
  cbv zeta. split; [vm_compute; reflexivity|]. split; [vm_compute; reflexivity|]. exists (join_path tsdir (lit "old.signet")). split; [discriminate|]. split; [vm_compute; discriminate|vm_compute; reflexivity].
Qed.
(** Finding: an envelope whose name has a space stands for the envelope named by the first word; one whose name begins with "Done" cannot be chosen. *)
Definition boxed (n : bytes) : edata := mkEnv 1 n (lit "v1") [] [mkData 1 (lit "ann") (lit "Ed25519") [] false None None None] [mkData 1 (lit "bob") (lit "ECDH-X25519") [] false None None None] 128.
Theorem C63_envelope_space_refuted : exists w all v, dir_envelopes demo_eundump suite_registry (all_files w) [] = Ok all /\ first_with_name all v /\ nice (ev_name v) = true
  /\ (let r := demo_envelopes 9 [Choose (mail_line (ev_name v)); Choose (lit "Delete"); Choose (lit "Done")] w in ends r = Ok tt
       /\ demo_get_env (files_after r) (ev_name v) = Ok v /\ demo_get_env w (lit "mail") = Ok mail /\ demo_get_env (files_after r) (lit "mail") = Err EEnvelopeNotFound).
Proof.
  exists (shop ++ [env_file (lit "mail box") (boxed (lit "mail box")); env_file (lit "mail") mail]), [boxed (lit "mail box"); mail], (boxed (lit "mail box")).
  split; [vm_compute; reflexivity|]. split; [exists [], [mail]; split; [reflexivity|constructor]|]. split; [reflexivity|]. cbv zeta.
  split; [vm_compute; reflexivity|]. split; [vm_compute; reflexivity|]. split; [vm_compute; reflexivity|vm_compute; reflexivity].
Qed.
Theorem C63_envelope_done_refuted : forall c cr u d eu x walk dir f rs w all v k cells last, dir_envelopes eu suite_registry (walk w) [] = Ok all -> starts (lit "Done") (ev_name v) ->
  manage_envelopes c cr u d eu x walk dir (S f) (Choose (row ((ev_name v, k) :: cells) last) :: rs) w = (Ok tt, w, [], rs).
Proof.
  intros c cr u d eu x walk dir f rs w all v k cells last A (r & E). cbn [manage_envelopes]. rewrite A. cbn [row]. rewrite E, <- app_assoc.
  assert (P : has_prefix (lit "Done" ++ r ++ spaces (3 + k) ++ row cells last) (lit "Done") = true) by (apply menu_starts; eexists; reflexivity). now rewrite P.
Qed.
Print Assumptions C63_signet_deleted.
Print Assumptions C63_signets_effects.
Print Assumptions C63_envelopes_effects.
Print Assumptions C63_envelopes_usable.
Print Assumptions C63_enough_fuel.
Print Assumptions C63_no_panic.
