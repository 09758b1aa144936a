(** Facts about the base definitions. *)
From Verif Require Export Prelude.
From Coq Require Import Strings.Byte.

Ltac Zify.zify_post_hook ::= Z.div_mod_to_equations.

Lemma b2n_lt (b : byte) : (b2n b < 256)%N.
Proof. destruct b; reflexivity. Qed.

Lemma of_N_mod_some n : exists b, Byte.of_N (n mod 256) = Some b.
Proof.
  destruct (Byte.of_N (n mod 256)) as [b|] eqn:E; [eauto|].
  apply Byte.of_N_None_iff in E.
  pose proof (N.mod_upper_bound n 256 ltac:(discriminate)). lia.
Qed.

Lemma b2n_n2b n : b2n (n2b n) = (n mod 256)%N.
Proof.
  unfold n2b, b2n. destruct (of_N_mod_some n) as [b Hb]; rewrite Hb.
  now apply Byte.to_of_N.
Qed.

Lemma n2b_b2n b : n2b (b2n b) = b.
Proof.
  unfold n2b, b2n. rewrite N.mod_small by apply b2n_lt.
  now rewrite Byte.of_to_N.
Qed.

Lemma b2n_inj a b : b2n a = b2n b -> a = b.
Proof. intro H. rewrite <- (n2b_b2n a), <- (n2b_b2n b), H. reflexivity. Qed.

Lemma byte_eqb_eq a b : byte_eqb a b = true <-> a = b.
Proof. unfold byte_eqb. split; [apply Byte.byte_dec_bl | apply Byte.byte_dec_lb]. Qed.

Lemma byte_eqb_refl a : byte_eqb a a = true.
Proof. now apply byte_eqb_eq. Qed.

Lemma bytes_eqb_eq a b : bytes_eqb a b = true <-> a = b.
Proof.
  revert b; induction a as [|x a IH]; destruct b as [|y b]; cbn [bytes_eqb];
    try (split; congruence).
  rewrite andb_true_iff, byte_eqb_eq, IH. split; [intros []; congruence | now inversion 1].
Qed.
Lemma bytes_eqb_refl a : bytes_eqb a a = true.
Proof. now apply bytes_eqb_eq. Qed.
Lemma bytes_eqb_neq a b : bytes_eqb a b = false <-> a <> b.
Proof.
  rewrite <- (bytes_eqb_eq a b). destruct (bytes_eqb a b); split; congruence.
Qed.
Lemma bytes_eqb_sym a b : bytes_eqb a b = bytes_eqb b a.
Proof.
  destruct (bytes_eqb a b) eqn:E; symmetry.
  - apply bytes_eqb_eq in E; subst. apply bytes_eqb_refl.
  - apply bytes_eqb_neq in E. apply bytes_eqb_neq. congruence.
Qed.
Lemma bytes_eq_dec (a b : bytes) : {a = b} + {a <> b}.
Proof.
  destruct (bytes_eqb a b) eqn:E; [left; now apply bytes_eqb_eq | right; now apply bytes_eqb_neq].
Qed.

Lemma bind_ok {A B} (x : outcome A) (f : A -> outcome B) b :
  bind x f = Ok b -> exists a, x = Ok a /\ f a = Ok b.
Proof. destruct x; cbn; intro H; try discriminate; eauto. Qed.

Lemma guard_ok b e u : guard b e = Ok u -> b = true.
Proof. unfold guard; destruct b; congruence. Qed.

Lemma of_option_ok {A} e (o : option A) a : of_option e o = Ok a -> o = Some a.
Proof. destruct o; cbn; congruence. Qed.

(** Decompose a successful monadic computation. *)
Ltac inv_ok :=
  repeat match goal with
  | H : bind _ _ = Ok _ |- _ =>
      let a := fresh "a" in let H1 := fresh "Hok" in let H2 := fresh "Hok" in
      apply bind_ok in H; destruct H as (a & H1 & H2)
  | H : Ok _ = Ok _ |- _ => injection H as H; try subst
  | H : Err _ = Ok _ |- _ => discriminate H
  | H : Panic = Ok _ |- _ => discriminate H
  | H : guard _ _ = Ok _ |- _ => apply guard_ok in H
  | H : of_option _ _ = Ok _ |- _ => apply of_option_ok in H
  end.

Lemma mapM_ok_length {A B} (f : A -> outcome B) l r :
  mapM f l = Ok r -> length r = length l.
Proof.
  revert r; induction l as [|a l IH]; cbn [mapM]; intros r H; inv_ok; cbn; [easy|].
  f_equal; auto.
Qed.

Lemma mapM_ok_Forall2 {A B} (f : A -> outcome B) l r :
  mapM f l = Ok r <-> Forall2 (fun a b => f a = Ok b) l r.
Proof.
  split.
  - revert r; induction l as [|a l IH]; cbn [mapM]; intros r H; inv_ok; constructor; auto.
  - induction 1 as [|a b l r Hab _ IH]; cbn [mapM]; [easy|]. now rewrite Hab; cbn; rewrite IH.
Qed.

Lemma iterM_ok {A} (f : A -> outcome unit) l :
  iterM f l = Ok tt <-> Forall (fun a => f a = Ok tt) l.
Proof.
  induction l as [|a l IH]; cbn [iterM]; [split; constructor|].
  split.
  - intro H. inv_ok. destruct a0. constructor; tauto.
  - inversion 1; subst. rewrite H2; cbn; tauto.
Qed.

Lemma foldM_app {A S} (f : S -> A -> outcome S) s l1 l2 :
  foldM f s (l1 ++ l2) = bind (foldM f s l1) (fun s' => foldM f s' l2).
Proof.
  revert s; induction l1 as [|a l1 IH]; intro s; cbn [foldM app]; [reflexivity|].
  destruct (f s a); cbn; auto.
Qed.

Lemma Forall2_len {A B} (R : A -> B -> Prop) l m : Forall2 R l m -> length l = length m.
Proof. induction 1; cbn; congruence. Qed.

Lemma firstn_app_exact {A} (l1 l2 : list A) : firstn (length l1) (l1 ++ l2) = l1.
Proof. now rewrite firstn_app, Nat.sub_diag, firstn_all, firstn_O, app_nil_r. Qed.
Lemma skipn_app_exact {A} (l1 l2 : list A) : skipn (length l1) (l1 ++ l2) = l2.
Proof. now rewrite skipn_app, Nat.sub_diag, skipn_all. Qed.

Lemma app_inv_length {A} (a b c d : list A) :
  length a = length c -> a ++ b = c ++ d -> a = c /\ b = d.
Proof.
  revert c; induction a as [|x a IH]; destruct c as [|y c]; cbn; intros Hl H;
    try discriminate; [easy|].
  injection H as -> H. injection Hl as Hl. destruct (IH c Hl H). subst; easy.
Qed.
