From Verif Require Export PreludeFacts Requirements.

Lemma req_has_In r a : req_has r a = true <-> In a r.
Proof.
  induction r as [|x r IH]; cbn [req_has In]; [easy|].
  destruct (N.eqb_spec x a) as [->|Hne]; [tauto|]. rewrite IH. tauto.
Qed.
Lemma req_has_not_In r a : req_has r a = false <-> ~ In a r.
Proof. rewrite <- req_has_In. destruct (req_has r a); split; congruence. Qed.

Lemma req_add_In r a b : In b (req_add r a) <-> b = a \/ In b r.
Proof.
  unfold req_add. destruct (req_has r a) eqn:E.
  - apply req_has_In in E. split; [tauto|]. intros [->|]; auto.
  - rewrite in_app_iff. cbn. intuition.
Qed.
Lemma req_add_NoDup r a : NoDup r -> NoDup (req_add r a).
Proof.
  intro H. unfold req_add. destruct (req_has r a) eqn:E; [easy|].
  apply req_has_not_In in E.
  apply (NoDup_Add (a := a) (l := r)); [|easy].
  rewrite <- (app_nil_r r) at 1. apply Add_app.
Qed.
Lemma req_remove_In r a b : NoDup r -> (In b (req_remove r a) <-> b <> a /\ In b r).
Proof.
  induction 1 as [|x r Hx Hnd IH]; cbn [req_remove In]; [tauto|].
  destruct (N.eqb_spec x a) as [->|Hne].
  - split; [|intros [H1 [H2|H2]]; congruence]. intro Hb. split; [|tauto]. intros ->. tauto.
  - cbn [In]. rewrite IH. split; [|tauto]. intros [->|]; tauto.
Qed.
Lemma req_remove_incl r a b : In b (req_remove r a) -> In b r.
Proof.
  induction r as [|x r IH]; cbn [req_remove]; [easy|].
  destruct (N.eqb_spec x a); cbn; tauto.
Qed.
Lemma req_remove_NoDup r a : NoDup r -> NoDup (req_remove r a).
Proof.
  induction 1 as [|x r Hx Hnd IH]; cbn [req_remove]; [constructor|].
  destruct (N.eqb_spec x a); [easy|]. constructor; [|easy].
  intro H. apply req_remove_incl in H. easy.
Qed.

Lemma req_missing_spec r q m a :
  In a (req_missing r q m) <-> In a m \/ (In a q /\ ~ In a r).
Proof.
  revert m; induction q as [|x q IH]; intro m; cbn [req_missing In]; [tauto|].
  rewrite IH. destruct (req_has r x) eqn:E.
  - apply req_has_In in E. split; [tauto|]. intros [H|[[->|H] H2]]; tauto.
  - apply req_has_not_In in E. rewrite req_add_In. split.
    + intros [[->|H]|H]; tauto.
    + intros [H|[[->|H] H2]]; tauto.
Qed.
Lemma req_check_incl r q : req_check r q = Ok tt <-> incl q r.
Proof.
  unfold req_check, incl. destruct (req_missing r q []) as [|x m] eqn:E.
  - split; [|easy]. intros _ a Ha. destruct (req_has r a) eqn:Eh; [now apply req_has_In|].
    apply req_has_not_In in Eh.
    assert (H : In a (req_missing r q [])) by (apply req_missing_spec; tauto). rewrite E in H. easy.
  - split; [easy|]. intro H. exfalso.
    assert (Hx : In x (req_missing r q [])) by (rewrite E; now left).
    apply req_missing_spec in Hx as [[]|[Hq Hr]]. auto.
Qed.
Lemma req_check_ok r q u : req_check r q = Ok u -> incl q r.
Proof. destruct u. apply req_check_incl. Qed.
Lemma req_check_cases r q : req_check r q = Ok tt \/ req_check r q = Err EOther.
Proof. unfold req_check. destruct (req_missing r q []); auto. Qed.

Lemma req_step_NoDup r o : NoDup r -> NoDup (req_step r o).
Proof. destruct o; cbn; [apply req_add_NoDup | apply req_remove_NoDup]. Qed.
Lemma req_steps_NoDup r ops : NoDup r -> NoDup (fold_left req_step ops r).
Proof.
  revert r; induction ops as [|o ops IH]; intros r H; cbn [fold_left]; [easy|].
  apply IH. now apply req_step_NoDup.
Qed.
Lemma newRequirements_NoDup : NoDup newRequirements.
Proof. repeat constructor; cbn; intuition discriminate. Qed.

(** NoSpec *)
Definition known_attr (a : N) : Prop := (a < 4)%N.
Definition letter_attr (b : byte) : option N :=
  if N.eqb (b2n b) 67 then Some Confidentiality
  else if N.eqb (b2n b) 73 then Some Integrity
  else if N.eqb (b2n b) 82 then Some RecipientAuthentication
  else if N.eqb (b2n b) 83 then Some SenderAuthentication else None.

Lemma parse_no_spec_from_cons r b s :
  parse_no_spec_from r (b :: s) =
  match letter_attr b with Some a => parse_no_spec_from (req_remove r a) s | None => Err EOther end.
Proof.
  cbn [parse_no_spec_from]. unfold letter_attr.
  destruct (N.eqb (b2n b) 67); [easy|]. destruct (N.eqb (b2n b) 73); [easy|].
  destruct (N.eqb (b2n b) 82); [easy|]. destruct (N.eqb (b2n b) 83); easy.
Qed.

Lemma parse_no_spec_from_spec s : forall r, NoDup r ->
  match parse_no_spec_from r s with
  | Ok q => NoDup q /\ (forall b, In b s -> letter_attr b <> None) /\
            forall a, In a q <-> In a r /\ ~ exists b, In b s /\ letter_attr b = Some a
  | Err _ => exists b, In b s /\ letter_attr b = None
  | Panic => False
  end.
Proof.
  induction s as [|b s IH]; intros r Hr.
  - cbn. split; [easy|]. split; [easy|]. intro a. split; [|tauto]. intro Ha. split; [easy|]. intros (b & [] & _).
  - rewrite parse_no_spec_from_cons. destruct (letter_attr b) as [a|] eqn:Ea.
    + specialize (IH _ (req_remove_NoDup r a Hr)).
      destruct (parse_no_spec_from (req_remove r a) s) as [q|e|]; [|..].
      * destruct IH as (Hq & Hk & Hin). split; [easy|]. split.
        { intros c [->|Hc]; [congruence|auto]. }
        intro x. rewrite Hin, req_remove_In by easy. split.
        { intros [[Hne Hx] Hno]. split; [easy|]. intros (c & [->|Hc] & E); [congruence|].
          apply Hno. eauto. }
        { intros [Hx Hno]. split.
          - split; [|easy]. intros ->. apply Hno. exists b. cbn. tauto.
          - intros (c & Hc & E). apply Hno. exists c. cbn. tauto. }
      * destruct IH as (c & Hc & E). exists c. cbn; tauto.
      * easy.
    + exists b. cbn; tauto.
Qed.

Lemma no_spec_letter r b : In b (req_no_spec r) <->
  exists a, (a < 4)%N /\ letter_attr b = Some a /\ ~ In a r.
Proof.
  unfold req_no_spec. rewrite !in_app_iff.
  assert (K : forall a c, letter_attr (n2b c) = Some a ->
            (In b (if req_has r a then [] else [n2b c]) <-> b = n2b c /\ ~ In a r)).
  { intros a c _. destruct (req_has r a) eqn:E.
    - apply req_has_In in E. cbn. tauto.
    - apply req_has_not_In in E. cbn. intuition. }
  rewrite (K Confidentiality 67%N eq_refl), (K Integrity 73%N eq_refl),
    (K RecipientAuthentication 82%N eq_refl), (K SenderAuthentication 83%N eq_refl).
  split.
  - intros [[-> H]|[[-> H]|[[-> H]|[-> H]]]]; eexists; repeat split; try eassumption; reflexivity.
  - intros (a & Ha & E & H). unfold letter_attr in E.
    destruct (N.eqb_spec (b2n b) 67) as [E1|_]; [injection E as <-; left; split; [apply b2n_inj; rewrite E1; reflexivity|easy]|].
    destruct (N.eqb_spec (b2n b) 73) as [E1|_]; [injection E as <-; right; left; split; [apply b2n_inj; rewrite E1; reflexivity|easy]|].
    destruct (N.eqb_spec (b2n b) 82) as [E1|_]; [injection E as <-; do 2 right; left; split; [apply b2n_inj; rewrite E1; reflexivity|easy]|].
    destruct (N.eqb_spec (b2n b) 83) as [E1|_]; [injection E as <-; do 3 right; split; [apply b2n_inj; rewrite E1; reflexivity|easy]|].
    discriminate.
Qed.

Lemma newRequirements_In a : In a newRequirements <-> (a < 4)%N.
Proof.
  unfold newRequirements, Confidentiality, Integrity, RecipientAuthentication, SenderAuthentication.
  cbn. lia.
Qed.

Lemma no_spec_round_trip r :
  (forall a, In a r -> (a < 4)%N) ->
  exists q, parse_no_spec (req_no_spec r) = Ok q /\ forall a, In a q <-> In a r.
Proof.
  intro Hk. unfold parse_no_spec.
  pose proof (parse_no_spec_from_spec (req_no_spec r) _ newRequirements_NoDup) as H.
  destruct (parse_no_spec_from newRequirements (req_no_spec r)) as [q|e|]; [|exfalso|easy].
  - exists q. split; [easy|]. destruct H as (_ & _ & Hin). intro a.
    rewrite Hin, newRequirements_In. split.
    + intros [Ha Hno]. destruct (req_has r a) eqn:E; [now apply req_has_In|].
      apply req_has_not_In in E. exfalso. apply Hno.
      assert (exists b, letter_attr b = Some a) as (b & Hb).
      { unfold known_attr in *.
        assert (a = 0 \/ a = 1 \/ a = 2 \/ a = 3)%N as [->|[->|[->| ->]]] by lia;
          [exists (n2b 67)|exists (n2b 73)|exists (n2b 82)|exists (n2b 83)]; reflexivity. }
      exists b. split; [|easy]. apply no_spec_letter. eauto.
    + intro Ha. split; [auto|]. intros (b & Hb & E). apply no_spec_letter in Hb as (a' & _ & E' & Hn).
      rewrite E in E'. injection E' as <-. easy.
  - destruct H as (b & Hb & E). apply no_spec_letter in Hb as (a & _ & E' & _). congruence.
Qed.

Lemma no_spec_set r q : (forall a, In a r <-> In a q) -> req_no_spec r = req_no_spec q.
Proof.
  intro H. unfold req_no_spec.
  assert (K : forall a, req_has r a = req_has q a).
  { intro a. destruct (req_has q a) eqn:E; [apply req_has_In in E | apply req_has_not_In in E].
    - now apply req_has_In, H.
    - apply req_has_not_In. now rewrite H. }
  now rewrite !K.
Qed.
