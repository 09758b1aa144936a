(** Substring search, the part of Go's bytes/strings/regexp packages the file signature code
    needs.  Not code of /repo: the definitions state what the model assumes of these packages. *)
From Coq Require Import Init.Byte.
From Verif Require Import Prelude PreludeFacts.

(** bytes.HasPrefix / bytes.TrimPrefix. *)
Fixpoint strip_prefix (p l : bytes) : option bytes :=
  match p, l with
  | [], _ => Some l
  | x :: p', y :: l' => if byte_eqb x y then strip_prefix p' l' else None
  | _ :: _, [] => None
  end.
Definition trim_prefix (p l : bytes) : bytes := match strip_prefix p l with Some r => r | None => l end.
Definition has_prefix (p l : bytes) : bool := match strip_prefix p l with Some _ => true | None => false end.
Definition has_suffix (p l : bytes) : bool := has_prefix (rev p) (rev l).
Definition trim_suffix (p l : bytes) : bytes := rev (trim_prefix (rev p) (rev l)).

(** The first occurrence of [p] in [l]: what stands before it and what after it. *)
Fixpoint find_sub (p l : bytes) : option (bytes * bytes) :=
  match strip_prefix p l with
  | Some r => Some ([], r)
  | None => match l with
            | [] => None
            | x :: l' => option_map (fun ab => (x :: fst ab, snd ab)) (find_sub p l')
            end
  end.

Lemma strip_prefix_some p l r : strip_prefix p l = Some r <-> l = p ++ r.
Proof.
  revert l. induction p as [|x p IH]; intros l; cbn.
  - split; [now intros [= ->]|now intros ->].
  - destruct l as [|y l]; [split; [discriminate|discriminate]|]. destruct (byte_eqb x y) eqn:E.
    + apply byte_eqb_eq in E. subst. rewrite IH. split; [now intros ->|now intros [= ->]].
    + split; [discriminate|]. intros [= -> _]. now rewrite byte_eqb_refl in E.
Qed.
Lemma strip_prefix_app p r : strip_prefix p (p ++ r) = Some r.
Proof. now apply strip_prefix_some. Qed.
Lemma strip_prefix_none p l : strip_prefix p l = None <-> forall r, l <> p ++ r.
Proof.
  split.
  - intros E r ->. rewrite strip_prefix_app in E. discriminate.
  - intro H. destruct (strip_prefix p l) as [r|] eqn:E; [|reflexivity]. apply strip_prefix_some in E. now apply H in E.
Qed.

(** [a] precedes the first occurrence of [p] in [a ++ p ++ b]. *)
Definition first_occurrence (p a : bytes) : Prop := forall a' r, a ++ p = a' ++ p ++ r -> r = [].
Definition occurs (p l : bytes) : Prop := exists a b, l = a ++ p ++ b.

Lemma find_sub_some p l a b : find_sub p l = Some (a, b) -> l = a ++ p ++ b /\ first_occurrence p a.
Proof.
  revert a b. induction l as [|x l IH]; intros a b; cbn [find_sub].
  - destruct (strip_prefix p []) as [r|] eqn:E; [|discriminate]. intros [= <- <-]. apply strip_prefix_some in E. split; [exact E|].
    intros a' r' X. apply (f_equal (@length byte)) in X. rewrite !app_length in X. cbn in X. destruct r'; [reflexivity|cbn in X; lia].
  - destruct (strip_prefix p (x :: l)) as [r|] eqn:E.
    + intros [= <- <-]. apply strip_prefix_some in E. split; [exact E|].
      intros a' r' X. apply (f_equal (@length byte)) in X. rewrite !app_length in X. cbn in X. destruct r'; [reflexivity|cbn in X; lia].
    + destruct (find_sub p l) as [[a1 b1]|]; [|discriminate]. cbn. intros [= <- <-]. destruct (IH _ _ eq_refl) as [-> F]. split; [reflexivity|].
      intros a' r' X. destruct a' as [|y a'].
      * exfalso. cbn in X. apply strip_prefix_none with (r := r' ++ b1) in E. apply E. rewrite (app_assoc p), <- X. cbn. now rewrite <- app_assoc.
      * injection X as _ X. exact (F _ _ X).
Qed.
Lemma find_sub_none p l : find_sub p l = None <-> ~ occurs p l.
Proof.
  split.
  - intros E (a & b & ->). revert E. induction a as [|x a IH]; cbn [app].
    + destruct (p ++ b) as [|y m] eqn:P; cbn [find_sub].
      * rewrite <- P, strip_prefix_app. discriminate.
      * rewrite <- P, strip_prefix_app. discriminate.
    + cbn [find_sub]. destruct (strip_prefix p _); [discriminate|]. destruct (find_sub p (a ++ p ++ b)) as [q|]; [discriminate|]. now intros.
  - intro N. destruct (find_sub p l) as [[a b]|] eqn:E; [|reflexivity]. apply find_sub_some in E as [-> _]. destruct N. now exists a, b.
Qed.
Lemma find_sub_first p a b : first_occurrence p a -> find_sub p (a ++ p ++ b) = Some (a, b).
Proof.
  intro F. destruct (find_sub p (a ++ p ++ b)) as [[a' b']|] eqn:E.
  - apply find_sub_some in E as [E F']. 
    assert (L : length a = length a').
    { destruct (Nat.lt_trichotomy (length a) (length a')) as [L|[L|L]]; [|exact L|]; exfalso.
      - assert (X : exists s, a' ++ p = a ++ p ++ s /\ s <> []).
        { exists (skipn (length (a ++ p)) (a' ++ p)). split.
          - rewrite app_assoc. rewrite <- (firstn_skipn (length (a ++ p)) (a' ++ p)) at 1. f_equal.
            apply (f_equal (firstn (length (a ++ p)))) in E. rewrite !app_assoc, firstn_app_exact in E.
            rewrite firstn_app in E. replace (length (a ++ p) - length (a' ++ p)) with 0 in E by (rewrite !app_length; lia).
            cbn [firstn] in E. rewrite app_nil_r in E. now symmetry.
          - intro X. apply (f_equal (@length byte)) in X. rewrite skipn_length, !app_length in X. cbn in X. lia. }
        destruct X as (s & X & NE). apply F' in X. contradiction.
      - assert (X : exists s, a ++ p = a' ++ p ++ s /\ s <> []).
        { exists (skipn (length (a' ++ p)) (a ++ p)). split.
          - rewrite app_assoc. rewrite <- (firstn_skipn (length (a' ++ p)) (a ++ p)) at 1. f_equal.
            apply (f_equal (firstn (length (a' ++ p)))) in E. rewrite !app_assoc, firstn_app_exact in E.
            rewrite firstn_app in E. replace (length (a' ++ p) - length (a ++ p)) with 0 in E by (rewrite !app_length; lia).
            cbn [firstn] in E. rewrite app_nil_r in E. exact E.
          - intro X. apply (f_equal (@length byte)) in X. rewrite skipn_length, !app_length in X. cbn in X. lia. }
        destruct X as (s & X & NE). apply F in X. contradiction. }
    destruct (app_inv_length a (p ++ b) a' (p ++ b') L) as [-> X]; [assumption|]. apply app_inv_head in X. now subst.
  - exfalso. apply find_sub_none in E. apply E. now exists a, b.
Qed.
Lemma find_sub_len p l a b : find_sub p l = Some (a, b) -> length l = length a + length p + length b.
Proof. intro E. apply find_sub_some in E as [-> _]. rewrite !app_length. lia. Qed.

(** A pattern without line breaks after a complete line. *)
Lemma first_after_line p t nl : t = [] \/ (exists t', t = t' ++ [nl]) -> ~ In nl p -> ~ occurs p t -> first_occurrence p t.
Proof.
  intros T NI NO a' r E. destruct T as [->|[t' ->]].
  - apply (f_equal (@length byte)) in E. rewrite !app_length in E. cbn in E. destruct r; [reflexivity|cbn in E; lia].
  - destruct (le_lt_dec (length (t' ++ [nl])) (length a')) as [L|L].
    + apply (f_equal (@length byte)) in E. rewrite !app_length in E. rewrite app_length in L. destruct r; [reflexivity|cbn in E, L; lia].
    + destruct (le_lt_dec (length (a' ++ p)) (length (t' ++ [nl]))) as [L2|L2].
      * exfalso. apply NO. rewrite (app_assoc a') in E. apply app_eq_app in E as [m [[E _]|[E _]]].
        -- exists a', m. now rewrite E, <- app_assoc.
        -- rewrite E, app_length in L2. destruct m; [|cbn in L2; lia]. rewrite app_nil_r in E. exists a', []. now rewrite app_nil_r.
      * exfalso. apply NI. rewrite !app_assoc in E.
        assert (X : nth (length t') ((t' ++ [nl]) ++ p) nl = nl).
        { rewrite app_nth1 by (rewrite app_length; cbn; lia). rewrite app_nth2 by lia. now rewrite Nat.sub_diag. }
        rewrite E in X. rewrite !app_length in *. cbn in *. rewrite app_nth1 in X by (rewrite app_length; lia). rewrite app_nth2 in X by lia.
        rewrite <- X. apply nth_In. lia.
Qed.
