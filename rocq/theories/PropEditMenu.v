(** C76: the menu in which `jess configure` edits an envelope: every line does what it says, whatever the names of the signets are
    (if they are plain text). *)
From Coq Require Import Init.Byte.
From Verif Require Import Prelude PreludeFacts Requirements Tools Crypto Letter Session Core Envelope Signets TrustStore Wizard SpecWizard PropManage Columns SpecColumns ColumnsFacts SessionProps PropColumns SpecColumnsMore PropColumnsMore ReqText EditMenu.

(** The entries of the menu, in their order; lines without a label do nothing. *)
Definition edit_labels : list (option bytes) :=
  [Some (lit "Done"); None; Some (lit "Suite"); None; None; Some (lit "Secrets"); Some (lit "Recipients"); Some (lit "Senders"); None;
   Some (lit "Export"); Some (lit "Abort"); Some (lit "Delete")].
Definition labels : list bytes := [lit "Done"; lit "Suite"; lit "Secrets"; lit "Recipients"; lit "Senders"; lit "Export"; lit "Abort"; lit "Delete"].

(** A line is taken for the entry of its label, and for no other. *)
Definition acts_as (label : option bytes) (line : bytes) : Prop := forall x, In x labels -> (menu line x = true <-> label = Some x).

Lemma shows_labelled a b line : shows [a; b] line -> line = a \/ exists rest, line = a ++ x20 :: rest.
Proof.
  intros [H|[_ H]].
  - inversion H as [|? ? ? k l K S]; subst. right. destruct k as [|k]; [lia|]. cbn [repeat app]. eauto.
  - cbn in H. inversion H; subst. now left.
Qed.
Lemma acts_of a line : In a labels -> (line = a \/ exists rest, line = a ++ x20 :: rest) -> acts_as (Some a) line.
Proof.
  intros I H x J. unfold menu.
  assert (E : has_prefix line x = bytes_eqb a x).
  { unfold labels in I, J. cbn [In] in I, J.
    repeat (destruct I as [<-|I]; [repeat (destruct J as [<-|J]; [destruct H as [->|[rest ->]]; [vm_compute; reflexivity|cbn; reflexivity]|]); destruct J|]); destruct I. }
  rewrite E, bytes_eqb_eq. split; [now intros ->|congruence].
Qed.
Lemma acts_none line : (line = [] \/ exists rest, line = x20 :: rest) -> acts_as None line.
Proof.
  intros H x J. split; [|discriminate]. unfold menu, labels in *. cbn [In] in J.
  repeat (destruct J as [<-|J]; [destruct H as [->|[rest ->]]; intro E; discriminate E|]). destruct J.
Qed.

Lemma plain_join l : (forall n, In n l -> plain_text n) -> plain_text (comma_join l).
Proof.
  induction l as [|n l IH]; intro H; [intros b []|]. cbn [comma_join]. destruct l as [|m l]; [apply H; now left|]. intros b I. apply in_app_or in I as [I|I].
  - exact (H n (or_introl eq_refl) b I).
  - apply in_app_or in I as [I|I].
    + cbn in I. destruct I as [<-|[<-|[]]]; cbn; intuition discriminate.
    + apply IH in I; [exact I|]. intros; apply H. now right.
Qed.

Theorem C76_edit_menu : forall runes e su m,
  (forall c, runes c <= length c) -> In su suite_registry -> e_suite_id e = su_id su -> 500 <= m -> (N.of_nat m <= 10000)%N ->
  (forall l, In l [e_secrets e; e_recipients e; e_senders e] -> (forall sg, In sg l -> plain_text (signet_name sg)) /\ length (signet_names l) <= m) ->
  Forall2 acts_as edit_labels (edit_menu runes e su).
Proof.
  intros runes e su m RB IS EI M5 ML H.
  assert (SC : Forall (fun su => cells_b 500 [su_id su; lit "provides " ++ reqs_text (su_provides su); lit "and " ++ level_cell (su_level su)] = true) suite_registry) by (repeat (constructor; [vm_compute; reflexivity|]); constructor).
  rewrite Forall_forall in SC. specialize (SC su IS).
  assert (NM : forall l, In l [e_secrets e; e_recipients e; e_senders e] -> plain_text (signet_names l) /\ length (signet_names l) <= m).
  { intros l I. destruct (H l I) as [P L]. split; [|exact L]. apply plain_join. intros n J. apply in_map_iff in J as (sg & <- & J). now apply P. }
  unfold edit_menu. rewrite EI. set (rows := edit_rows (su_id su) su (e_secrets e) (e_recipients e) (e_senders e)).
  assert (CELL : forall r, In r rows -> r <> [] /\ length r <= 2 /\ forall c, In c r -> plain_text c /\ length c <= m).
  { intros r I. unfold rows, edit_rows in I.
    assert (CS : forall c, In c [su_id su; lit "provides " ++ reqs_text (su_provides su); lit "and " ++ level_cell (su_level su)] -> plain_text c /\ length c <= m).
    { intros c J. destruct (cells_b_ok _ _ SC c J) as [A B]. split; [exact A|lia]. }
    assert (CF : forall c, In c [[]; lit "Done"; lit "save and return"; lit "Suite"; lit "Secrets"; lit "Recipients"; lit "Senders"; lit "Export"; lit "export to text format"; lit "Abort"; lit "discard changes and return"; lit "Delete"; lit "delete and return"] -> plain_text c /\ length c <= m).
    { intros c J. assert (X : cells_b 500 [[]; lit "Done"; lit "save and return"; lit "Suite"; lit "Secrets"; lit "Recipients"; lit "Senders"; lit "Export"; lit "export to text format"; lit "Abort"; lit "discard changes and return"; lit "Delete"; lit "delete and return"] = true) by (vm_compute; reflexivity).
      destruct (cells_b_ok _ _ X c J) as [A B]. split; [exact A|lia]. }
    cbn [In] in I. 
    repeat (destruct I as [<-|I]; [split; [discriminate|split; [cbn; lia|]]; intros c J; cbn [In] in J; repeat (destruct J as [<-|J]; [first [apply CF; cbn [In]; tauto|apply CS; cbn [In]; tauto|apply NM; cbn [In]; tauto]|]); destruct J|]). destruct I. }
  assert (SH : Forall2 shows rows (format_columns runes rows)).
  { apply (C76_cells_are_shown runes m 2); [exact RB|discriminate| |].
    - split; [|discriminate]. intros r I. destruct (CELL r I) as (A & _ & B). split; [exact A|]. intros c J. now apply B.
    - split; [|lia]. intros r I. destruct (CELL r I) as (_ & A & B). split; [exact A|]. intros c J. now apply B. }
  clear CELL. revert SH. generalize (format_columns runes rows). subst rows. intros ls SH. unfold edit_rows in SH. unfold edit_labels.
  repeat match goal with
  | H : Forall2 shows (_ :: _) _ |- _ => inversion H as [|? ? ? ? ?S ?R]; subst; clear H
  | H : Forall2 shows [] _ |- _ => inversion H; subst; clear H
  end.
  repeat match goal with
  | |- Forall2 _ [] [] => constructor
  | |- Forall2 _ (Some _ :: _) (_ :: _) => constructor; [eapply acts_of; [cbn [In labels]; tauto|eapply shows_labelled; eassumption]|]
  | |- Forall2 _ (None :: _) (_ :: _) => constructor; [apply acts_none|]
  end.
  all: match goal with
  | S : shows [[]; ?b] ?y |- ?y = [] \/ _ => destruct (shows_labelled _ _ _ S) as [->|[rest ->]]; [now left|right; cbn; eauto]
  | S : shows [[]] ?y |- ?y = [] \/ _ => destruct S as [S|[_ S]]; cbn in S; inversion S; subst; now left
  end.
Qed.
Print Assumptions C76_edit_menu.

(** The hypotheses are met. *)
Definition menu_signet (id name : bytes) : signet := mkSignet 1 id (lit "pw") [] false false (Some (mkInfo name [])) None PNil.
Definition menu_envelope (name : bytes) : envelope := mkEnvelope 1 (lit "home") (lit "pw_v1") None [menu_signet (lit "s1") name] [] [] 128 false.
Example c76_edit_met : exists su, In su suite_registry /\ e_suite_id (menu_envelope (lit "Delete")) = su_id su
  /\ (forall l, In l [e_secrets (menu_envelope (lit "Delete")); e_recipients (menu_envelope (lit "Delete")); e_senders (menu_envelope (lit "Delete"))] ->
        (forall sg, In sg l -> plain_text (signet_name sg)) /\ length (signet_names l) <= 500)
  /\ nth_error (edit_menu (@length byte) (menu_envelope (lit "Delete")) su) 5 = Some (lit "Secrets      Delete").
Proof.
  destruct (get_suite suite_registry (lit "pw_v1")) as [su|] eqn:E; [|discriminate E]. exists su.
  assert (I : In su suite_registry) by (apply find_some in E; apply E). injection E as <-. split; [exact I|]. split; [reflexivity|]. split; [|vm_compute; reflexivity].
  assert (P : plain_text (lit "Delete")) by (apply plain_b_ok; reflexivity).
  intros l [<-|[<-|[<-|[]]]]; (split; [|apply Nat.leb_le; vm_compute; reflexivity]); [|intros sg []..]. intros sg [<-|[]]. exact P.
Qed.

(** With a line feed in the name of a signet (an import does not exclude it), the menu has a further line that is taken for an entry:
    choosing what is shown as a part of the secrets deletes the envelope. *)
Theorem C76_edit_menu_line_feed_refuted : exists name su, get_suite suite_registry (lit "pw_v1") = Some su /\
  exists line, nth_error (edit_menu (@length byte) (menu_envelope name) su) 6 = Some line /\ menu line (lit "Delete") = true
  /\ length (edit_menu (@length byte) (menu_envelope name) su) = 13.
Proof.
  exists (lit "work" ++ [x0a] ++ lit "Delete old one"). eexists. split; [reflexivity|]. eexists. split; [vm_compute; reflexivity|]. split; vm_compute; reflexivity.
Qed.
Print Assumptions C76_edit_menu_line_feed_refuted.
