(** C24: what the error of CheckComplianceTo says. *)
From Verif Require Import PreludeFacts Requirements RequirementsFacts Armor ReqText.

(** The names that a user reads; the English of the four attributes, in their numbering. *)
Definition names : list bytes := [lit "Confidentiality"; lit "Integrity"; lit "RecipientAuthentication"; lit "SenderAuthentication"].
Definition known (r : list N) : Prop := Forall (fun a => (a < 4)%N) r.
Definition shown (r : list N) : list bytes := map (fun a => nth (N.to_nat a) names []) r.

Lemma known_cases a : (a < 4)%N -> a = 0%N \/ a = 1%N \/ a = 2%N \/ a = 3%N.
Proof. lia. Qed.
Lemma req_names_known r : known r -> req_names r = shown r.
Proof.
  unfold known. induction 1 as [|a r A _ IH]; [reflexivity|]. cbn [req_names shown map]. rewrite IH.
  destruct (known_cases a A) as [->|[->|[->| ->]]]; reflexivity.
Qed.
Lemma req_missing_order r : forall q m, NoDup q -> (forall a, In a q -> ~ In a m) ->
  req_missing r q m = m ++ filter (fun a => negb (req_has r a)) q.
Proof.
  induction q as [|a q IH]; intros m N D; cbn [req_missing filter]; [now rewrite app_nil_r|].
  inversion N as [|? ? N1 N2]; subst. destruct (req_has r a) eqn:E; cbn [negb].
  - apply IH; [exact N2|]. intros x X. apply D. now right.
  - assert (F : req_has m a = false) by (apply req_has_not_In, D; now left). unfold req_add. rewrite F.
    rewrite IH; [now rewrite <- app_assoc|exact N2|]. intros x X Y. apply in_app_or in Y.
    destruct Y as [Y|[<-|[]]]; [|exact (N1 X)]. exact (D x (or_intror X) Y).
Qed.

(** There is an error exactly if an attribute is missing, and it names the missing ones that have a name, in the order in
    which they were required, separated by commas. *)
Lemma req_names_shown r : req_names r = shown (filter (fun a => a <? 4)%N r).
Proof.
  induction r as [|a r IH]; [reflexivity|]. cbn [req_names filter]. destruct (N.ltb_spec a 4) as [A|A].
  - cbn [shown map]. fold (shown (filter (fun a => a <? 4)%N r)). rewrite IH.
    destruct (known_cases a A) as [->|[->|[->| ->]]]; reflexivity.
  - unfold req_name, Confidentiality, Integrity, RecipientAuthentication, SenderAuthentication.
    destruct (N.eqb_spec a 0); [lia|]. destruct (N.eqb_spec a 1); [lia|]. destruct (N.eqb_spec a 2); [lia|]. destruct (N.eqb_spec a 3); [lia|]. exact IH.
Qed.
Theorem C24_error_names_what_is_missing r q :
  NoDup q ->
  req_report r q = let missing := filter (fun a => negb (req_has r a)) q in
                   match missing with
                   | [] => None
                   | _ => Some (lit "missing security requirements: " ++ join (lit ", ") (shown (filter (fun a => a <? 4)%N missing)))
                   end.
Proof.
  intros N. unfold req_report. rewrite req_missing_order by (auto; intros ? _ []). cbn [app]. cbn zeta.
  destruct (filter (fun a => negb (req_has r a)) q) as [|a l]; [reflexivity|].
  unfold req_string. rewrite req_names_shown. reflexivity.
Qed.
Theorem C24_report_iff r q : req_report r q = None <-> (forall a, In a q -> In a r).
Proof.
  pose proof (req_check_incl r q) as H. unfold req_check in H. unfold req_report. unfold incl in H.
  destruct (req_missing r q []); [tauto|]. split; [discriminate|]. intro X. apply H in X. discriminate.
Qed.

(** The text can be read back: no two sequences of attributes have the same one. *)
Lemma join_cons sep a l : join sep (a :: l) = a ++ match l with [] => [] | _ => sep ++ join sep l end.
Proof. destruct l; cbn [join]; [now rewrite app_nil_r|reflexivity]. Qed.
Theorem C24_text_is_unambiguous : forall r q, known r -> known q -> req_string r = req_string q -> r = q.
Proof.
  unfold req_string. intros r q K L. rewrite (req_names_known r K), (req_names_known q L). revert q L.
  unfold known in *. induction K as [|a r A K IH]; intros q L E.
  - destruct L as [|b q B L]; [reflexivity|]. exfalso. cbn [shown map] in E. rewrite join_cons in E.
    destruct (known_cases b B) as [->|[->|[->| ->]]]; discriminate E.
  - destruct L as [|b q B L].
    { exfalso. cbn [shown map] in E. rewrite join_cons in E. destruct (known_cases a A) as [->|[->|[->| ->]]]; discriminate E. }
    cbn [shown map] in E. fold (shown r) in E. fold (shown q) in E. rewrite !join_cons in E.
    assert (S : a = b) by (destruct (known_cases a A) as [->|[->|[->| ->]]]; destruct (known_cases b B) as [->|[->|[->| ->]]]; try reflexivity; discriminate E).
    subst b. apply app_inv_head in E. f_equal. apply IH; [exact L|].
    destruct (shown r) as [|x l] eqn:X; destruct (shown q) as [|y k] eqn:Y; try discriminate E; [reflexivity|].
    apply app_inv_head in E. exact E.
Qed.

(** An attribute that is none of the four can be required (Add takes any); the error then does not say what is missing. *)
Theorem C24_unknown_attribute_unnamed_refuted :
  ~ (forall r q q', req_report r q <> None -> req_report r q = req_report r q' -> forall a, In a q <-> In a q').
Proof.
  intro H. specialize (H [] [4%N] [5%N]). cbn in H. destruct (H ltac:(discriminate) eq_refl 4%N) as [X _].
  destruct (X (or_introl eq_refl)) as [Y|[]]. discriminate Y.
Qed.
Example C24_report_witness : NoDup [7; 1; 3; 0]%N /\ known [1; 3; 0]%N
  /\ req_report [1]%N [7; 1; 3; 0]%N = Some (lit "missing security requirements: SenderAuthentication, Confidentiality").
Proof. split; [repeat constructor; cbn; lia|]. split; [repeat constructor|reflexivity]. Qed.
