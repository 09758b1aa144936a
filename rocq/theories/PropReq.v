(** Property theorems C24 and C25: requirements. *)
From Verif Require Import PreludeFacts RequirementsFacts.

(** The abstract object: a set of attributes, as its characteristic function. *)
Definition aset := N -> bool.
Definition aset_step (S : aset) (o : req_op) : aset :=
  match o with
  | ROpAdd a => fun x => N.eqb x a || S x
  | ROpRemove a => fun x => negb (N.eqb x a) && S x
  end.

(** Every sequence of Add and Remove on a fresh instance ([full]: NewRequirements,
    else the empty one) behaves like the set; nothing is stored twice. *)
Theorem C24_requirements_are_sets : forall (full : bool) ops,
  let r := fold_left req_step ops (if full then newRequirements else newEmptyRequirements) in
  let S := fold_left aset_step ops (fun a => full && (a <? 4)%N) in
  NoDup r /\ (forall a, In a r <-> S a = true)
  /\ (forall a, req_has r a = S a)
  /\ (req_empty r = true <-> forall a, S a = false)
  /\ (forall q, (req_check r q = Ok tt <-> forall a, In a q -> S a = true)
               /\ (req_check r q <> Ok tt -> req_check r q = Err EOther)).
Proof.
  intros full ops. cbn zeta.
  assert (G : forall ops r S, NoDup r -> (forall a, In a r <-> S a = true) ->
     NoDup (fold_left req_step ops r) /\ (forall a, In a (fold_left req_step ops r) <-> fold_left aset_step ops S a = true)).
  { induction ops0 as [|o ops0 IH]; intros r S Hd HS; cbn [fold_left]; [auto|].
    apply IH; [now apply req_step_NoDup|]. intro a. destruct o as [x|x]; cbn [req_step aset_step].
    - rewrite req_add_In, orb_true_iff, N.eqb_eq, HS. reflexivity.
    - rewrite req_remove_In by assumption. rewrite andb_true_iff, negb_true_iff, N.eqb_neq, HS. reflexivity. }
  destruct (G ops (if full then newRequirements else newEmptyRequirements) (fun a => full && (a <? 4)%N)) as [H1 H2].
  - destruct full; [apply newRequirements_NoDup|constructor].
  - intro a. destruct full; cbn [andb]; [rewrite newRequirements_In, N.ltb_lt; reflexivity|]. cbn. split; easy.
  - set (r := fold_left req_step ops _) in *. set (S := fold_left aset_step ops _) in *.
    assert (H3 : forall a, req_has r a = S a).
    { intro a. destruct (S a) eqn:E; [now apply req_has_In, H2|]. apply req_has_not_In. rewrite H2. congruence. }
    repeat split; auto; try apply H2.
    + intros E a. destruct r; [|discriminate]. destruct (S a) eqn:ES; [|reflexivity]. now apply H2 in ES.
    + intro E. destruct r as [|a r']; [reflexivity|]. exfalso. specialize (E a). destruct (H2 a) as [K _].
      rewrite K in E; [discriminate|now left].
    + intros E a Ha. apply H2. apply req_check_incl in E. auto.
    + intro E. apply req_check_incl. intros a Ha. apply H2. auto.
    + intro E. destruct (req_check_cases r q); [easy|assumption].
Qed.
Print Assumptions C24_requirements_are_sets.

Example C24_witness :
  let r := fold_left req_step [ROpAdd 1; ROpRemove 2; ROpAdd 1; ROpRemove 0]%N newRequirements in
  r = [1; 3]%N /\ req_check r [3]%N = Ok tt /\ req_check r [0; 3]%N = Err EOther.
Proof. repeat split. Qed.

(** ** C25 *)

(** 'C', 'I', 'R', 'S' name the four attributes. *)
Definition attr_letter (a : N) : option byte :=
  match a with 0 => Some (n2b 67) | 1 => Some (n2b 73) | 2 => Some (n2b 82) | 3 => Some (n2b 83) | _ => None end%N.

Lemma attr_letter_iff a b : attr_letter a = Some b <-> letter_attr b = Some a.
Proof.
  unfold attr_letter, letter_attr, Confidentiality, Integrity, RecipientAuthentication, SenderAuthentication. split.
  - destruct a as [|p]; [|destruct p as [p|p|]; [destruct p|destruct p|]]; intro H; try discriminate H;
      injection H; intros <-; reflexivity.
  - destruct (N.eqb_spec (b2n b) 67) as [E|_]; [|destruct (N.eqb_spec (b2n b) 73) as [E|_];
      [|destruct (N.eqb_spec (b2n b) 82) as [E|_]; [|destruct (N.eqb_spec (b2n b) 83) as [E|_]]]];
      intro H; inversion H; rewrite <- (n2b_b2n b), E; reflexivity.
Qed.

(** Exactly the strings over the four letters are accepted; the result is the full
    set without the named attributes. *)
Theorem C25_parse_no_spec : forall s,
  match parse_no_spec s with
  | Ok q => (forall b, In b s -> exists a, attr_letter a = Some b) /\ NoDup q
            /\ forall a, In a q <-> (a < 4)%N /\ ~ (exists b, In b s /\ attr_letter a = Some b)
  | Err _ => exists b, In b s /\ forall a, attr_letter a <> Some b
  | Panic => False
  end.
Proof.
  intro s. unfold parse_no_spec. pose proof (parse_no_spec_from_spec s _ newRequirements_NoDup) as H.
  destruct (parse_no_spec_from newRequirements s) as [q|e|]; [|destruct H as (b & Hb & E)|exact H].
  - destruct H as (H1 & H2 & H3). split; [|split; [assumption|]].
    + intros b Hb. destruct (letter_attr b) as [a|] eqn:E; [|now apply H2 in Hb]. exists a. now apply attr_letter_iff.
    + intro a. rewrite H3, newRequirements_In. split; intros [A B]; split; auto; intros (b & Hb & E); apply B; exists b; split; auto; now apply attr_letter_iff.
  - exists b. split; [assumption|]. intros a Ha. apply attr_letter_iff in Ha. congruence.
Qed.
Print Assumptions C25_parse_no_spec.

Theorem C25_no_spec_round_trip : forall r, (forall a, In a r -> (a < 4)%N) ->
  exists q, parse_no_spec (req_no_spec r) = Ok q /\ forall a, In a q <-> In a r.
Proof. exact no_spec_round_trip. Qed.
Print Assumptions C25_no_spec_round_trip.

(** ShortString: the letters of the attributes, each once, in the order C, I, R, S. *)
Theorem C25_short_string : forall r,
  (forall a b, attr_letter a = Some b -> (In b (req_short r) <-> In a r))
  /\ (forall b, In b (req_short r) -> exists a, In a r /\ attr_letter a = Some b)
  /\ exists named, req_short r = filter named (lit "CIRS").
Proof.
  intro r. assert (HI : forall a, req_has r a = true <-> In a r) by (intro a; apply req_has_In).
  pose proof (HI 0%N) as H0. pose proof (HI 1%N) as H1. pose proof (HI 2%N) as H2. pose proof (HI 3%N) as H3.
  assert (AL : forall a b, attr_letter a = Some b -> (a = 0%N /\ b = n2b 67) \/ (a = 1%N /\ b = n2b 73) \/ (a = 2%N /\ b = n2b 82) \/ (a = 3%N /\ b = n2b 83)).
  { intros a b E. apply attr_letter_iff in E. revert E. unfold letter_attr. destruct b; cbn; intro E; try discriminate; injection E as <-; auto 6. }
  unfold req_short, Confidentiality, Integrity, RecipientAuthentication, SenderAuthentication in *.
  split; [|split].
  - intros a b E. destruct (AL a b E) as [[-> ->]|[[-> ->]|[[-> ->]|[-> ->]]]]; [rewrite <- H0|rewrite <- H1|rewrite <- H2|rewrite <- H3];
    destruct (req_has r 0), (req_has r 1), (req_has r 2), (req_has r 3); vm_compute; intuition discriminate.
  - intros b I.
    assert (X : exists a, req_has r a = true /\ attr_letter a = Some b).
    { revert I. destruct (req_has r 0) eqn:E0, (req_has r 1) eqn:E1, (req_has r 2) eqn:E2, (req_has r 3) eqn:E3; cbn; intro I;
      repeat (destruct I as [<-|I]; [solve [exists 0%N; auto|exists 1%N; auto|exists 2%N; auto|exists 3%N; auto]|]); destruct I. }
    destruct X as (a & A & B). exists a. split; [now apply HI|exact B].
  - exists (fun b => match letter_attr b with Some a => req_has r a | None => false end). cbn. unfold Confidentiality, Integrity, RecipientAuthentication, SenderAuthentication in *.
    destruct (req_has r 0), (req_has r 1), (req_has r 2), (req_has r 3); reflexivity.
Qed.
Print Assumptions C25_short_string.

(** The text depends on the set only, and determines it. *)
Theorem C25_no_spec_canonical : forall r q, (forall a, In a r -> (a < 4)%N) -> (forall a, In a q -> (a < 4)%N) ->
  (req_no_spec r = req_no_spec q <-> forall a, In a r <-> In a q).
Proof.
  intros r q Hr Hq. split; [|apply no_spec_set]. intros E.
  destruct (no_spec_round_trip r Hr) as (r' & E1 & I1). destruct (no_spec_round_trip q Hq) as (q' & E2 & I2).
  rewrite E, E2 in E1. injection E1 as <-. intro a. rewrite <- I1, I2. reflexivity.
Qed.
Print Assumptions C25_no_spec_canonical.

Example C25_witness : parse_no_spec (lit "SR") = Ok [0; 1]%N /\ req_no_spec [1; 0]%N = lit "RS"
  /\ parse_no_spec (lit "SX") = Err EOther.
Proof. repeat split. Qed.
