(** C76: the menu of suites of `jess configure`: whatever line is chosen, the suite it shows is taken. *)
From Coq Require Import Init.Byte.
From Verif Require Import Prelude PreludeFacts Requirements Tools Crypto Letter Session Core Envelope Signets TrustStore Wizard SpecWizard PropManage Columns SpecColumns ColumnsFacts SessionProps PropColumns SpecColumnsMore PropColumnsMore SuiteMenu.

(** What the menu says of a suite. *)
Inductive offers_suite (s : suite) (l : bytes) : Prop :=
| offers_suite_of level tools note : level_text (su_level s) level -> comma_list (su_tools s) tools -> remark (su_status s) note ->
    shows [su_id s; lit "provides " ++ req_short (su_provides s); level; lit "uses " ++ tools; note] l -> offers_suite s l.

Theorem C76_suite_menu : forall runes suites,
  (forall c, runes c <= length c) -> incl suites suite_registry ->
  Forall2 (fun s line => offers_suite s line /\ suite_chosen suite_registry line = Ok s) suites (suite_menu runes suites).
Proof.
  intros runes suites RB IS. destruct suites as [|s0 ss] eqn:ES; [constructor|]. rewrite <- ES in *.
  assert (RW : forall r, In r (map suite_choice_cells suites) -> 3 <= length r <= 5 /\ one_word (hd [] r) /\ forall c, In c r -> plain_text c /\ length c <= 500).
  { intros r I. apply in_map_iff in I as (s & <- & I). apply IS in I. split; [cbn; lia|].
    assert (X : forallb (fun s => word_b (su_id s) && cells_b 500 (suite_choice_cells s)) suite_registry = true) by (vm_compute; reflexivity).
    rewrite forallb_forall in X. specialize (X s I). apply andb_true_iff in X as [X Y]. split; [now apply word_b_ok|now apply cells_b_ok]. }
  assert (NE : map suite_choice_cells suites = suite_choice_cells s0 :: map suite_choice_cells ss) by now rewrite ES.
  assert (SH : Forall2 shows (map suite_choice_cells suites) (suite_menu runes suites)).
  { unfold suite_menu. rewrite NE in RW |- *. apply (table_shows runes 500); [exact RB|vm_compute; reflexivity|exact RW]. }
  assert (NM : named_lines fields (map (hd []) (map suite_choice_cells suites)) (suite_menu runes suites)).
  { unfold suite_menu. rewrite NE in RW |- *. apply (table_of runes 500); [exact RB|vm_compute; reflexivity|exact RW]. }
  clear NE ES RW. revert SH NM. generalize (suite_menu runes suites). intros ls SH NM. unfold named_lines in NM. rewrite map_map in NM.
  revert ls SH NM. induction suites as [|s l IH]; intros ls SH NM; cbn [map] in *; inversion SH as [|p q pl ql S1 S2]; subst; inversion NM as [|a b al bl N1 N2]; subst; constructor.
  - assert (I : In s suite_registry) by (apply IS; now left). split.
    + assert (X : forallb (fun s => level_ok (su_level s)) suite_registry = true) by (vm_compute; reflexivity). rewrite forallb_forall in X.
      exact (offers_suite_of s q _ _ _ (level_cell_text _ (level_ok_bounds _ (X s I))) (comma_join_list _) (status_remark _) S1).
    + unfold suite_chosen. destruct (fields q) as [|w ws]; [discriminate|]. cbn in N1. injection N1 as ->.
      assert (Y : forall x, In x suite_registry -> get_suite suite_registry (su_id x) = Some x).
      { intros x J. assert (Z : Forall (fun x => get_suite suite_registry (su_id x) = Some x) suite_registry) by (repeat constructor).
        rewrite Forall_forall in Z. now apply Z. }
      now rewrite Y.
  - apply IH; [|assumption|assumption]. intros x J. apply IS. now right.
Qed.
Print Assumptions C76_suite_menu.

(** The hypotheses are met by all suites; the sixth line of their menu, and what choosing it picks. *)
Example c76_menu_met : exists line, nth_error (suite_menu (@length byte) suite_registry) 5 = Some line
  /\ bytes_eqb (firstn 24 line) (lit "v1            provides C") = true /\ option_map su_id (match suite_chosen suite_registry line with Ok s => Some s | _ => None end) = Some (lit "v1").
Proof. eexists. split; [vm_compute; reflexivity|]. split; vm_compute; reflexivity. Qed.
