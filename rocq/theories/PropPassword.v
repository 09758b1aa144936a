(** C44: the password check. *)
From Verif Require Import Prelude PreludeFacts Password SpecPassword.

Definition all_chars : bytes := concat char_sets.
Definition sumZ (f : byte -> Z) (l : bytes) : Z := fold_right (fun c n => f c + n)%Z 0%Z l.
Definition present (pw l : bytes) : bytes := filter (fun c => (count pw c >? 0)%Z) l.
Definition few (pw : bytes) (c : byte) : bool := negb (count pw c * 4 >=? blenZ pw)%Z.
Lemma count_pos pw c : (count pw c >? 0)%Z = true <-> In c pw.
Proof.
  unfold count. rewrite Z.gtb_lt. split.
  - intro L. destruct (filter (byte_eqb c) pw) as [|x r] eqn:E; [cbn in L; lia|]. assert (I : In x (filter (byte_eqb c) pw)) by (rewrite E; now left). apply filter_In in I as [I B]. apply byte_eqb_eq in B. now subst.
  - intro I. assert (J : In c (filter (byte_eqb c) pw)) by (apply filter_In; split; [exact I|apply byte_eqb_refl]). destruct (filter (byte_eqb c) pw); [destruct J|cbn; lia].
Qed.
Lemma count_nonneg pw c : (0 <= count pw c)%Z. Proof. unfold count. lia. Qed.
Lemma scan_set_eq pw chars : forall found distinct some, scan_set pw chars (found, distinct, some) =
  if forallb (few pw) chars then Some (found + sumZ (count pw) chars, distinct + Z.of_nat (length (present pw chars)), some || existsb (fun c => (count pw c >? 0)%Z) chars)%Z else None.
Proof.
  induction chars as [|c r IH]; intros found distinct some; cbn [scan_set forallb sumZ fold_right present filter existsb]; [now rewrite !Z.add_0_r, orb_false_r|].
  unfold few at 1. destruct (count pw c * 4 >=? blenZ pw)%Z; [reflexivity|]. cbn [negb andb]. fold (sumZ (count pw) r). fold (present pw r). destruct (count pw c >? 0)%Z eqn:P; rewrite IH; destruct (forallb (few pw) r); try reflexivity; f_equal.
  - cbn [length]. rewrite !orb_true_r. cbn [orb]. f_equal. f_equal; lia.
  - assert (Z0 : count pw c = 0%Z) by (pose proof (count_nonneg pw c); rewrite Z.gtb_ltb in P; apply Z.ltb_ge in P; lia). rewrite Z0. cbn [orb]. f_equal.
Qed.
Definition sets_pool (pw : bytes) (sets : list bytes) : Z := fold_right (fun s n => (if existsb (fun c => (count pw c >? 0)%Z) s then blenZ s else 0) + n)%Z 0%Z sets.
Lemma sumZ_app f a b : sumZ f (a ++ b) = (sumZ f a + sumZ f b)%Z.
Proof. induction a as [|x a IH]; cbn; [reflexivity|]. fold (sumZ f (a ++ b)) (sumZ f a). lia. Qed.
Lemma scan_eq pw sets : forall found distinct pool, scan pw sets (found, distinct, pool) =
  if forallb (few pw) (concat sets) then Some (found + sumZ (count pw) (concat sets), distinct + Z.of_nat (length (present pw (concat sets))), pool + sets_pool pw sets)%Z else None.
Proof.
  induction sets as [|s r IH]; intros found distinct pool; cbn [scan concat sets_pool fold_right]; [cbn; now rewrite !Z.add_0_r|].
  rewrite scan_set_eq, forallb_app. destruct (forallb (few pw) s); [|reflexivity]. cbn [orb andb]. rewrite IH. destruct (forallb (few pw) (concat r)); [|reflexivity]. unfold present. rewrite sumZ_app, filter_app, app_length. fold (sets_pool pw r). f_equal. f_equal; [f_equal; lia|]. destruct (existsb _ s); lia.
Qed.
Lemma sum_count l : NoDup l -> forall pw, sumZ (count pw) l = Z.of_nat (length (filter (fun b => existsb (byte_eqb b) l) pw)).
Proof.
  intros ND pw. induction pw as [|b pw IH].
  - cbn [filter length]. change (Z.of_nat 0) with 0%Z. clear ND. induction l as [|c l IH]; [reflexivity|]. cbn [sumZ fold_right]. change (count [] c) with 0%Z. exact IH.
  - assert (X : sumZ (count (b :: pw)) l = ((if existsb (byte_eqb b) l then 1 else 0) + sumZ (count pw) l)%Z).
    { clear IH. induction l as [|c l IH]; cbn [sumZ fold_right existsb]; [reflexivity|]. fold (sumZ (count (b :: pw)) l) (sumZ (count pw) l). inversion ND as [|? ? NI ND']; subst. rewrite (IH ND'). unfold count at 1. cbn [filter].
      destruct (byte_eqb c b) eqn:E; fold (count pw c).
      - apply byte_eqb_eq in E. subst c. rewrite byte_eqb_refl. cbn [orb]. assert (existsb (byte_eqb b) l = false) as ->. { destruct (existsb (byte_eqb b) l) eqn:EX; [|reflexivity]. exfalso. apply existsb_exists in EX as (x & I & EX). apply byte_eqb_eq in EX. subst x. contradiction. } cbn [length]. unfold count. lia.
      - assert (byte_eqb b c = false) as -> by (destruct (byte_eqb b c) eqn:E2; [apply byte_eqb_eq in E2; subst; rewrite byte_eqb_refl in E; discriminate|reflexivity]). cbn [orb]. unfold count. lia. }
    rewrite X, IH. cbn [filter]. destruct (existsb (byte_eqb b) l); cbn [length]; lia.
Qed.
Lemma all_nodup : NoDup all_chars.
Proof.
  assert (E : (fix nd (l : bytes) := match l with [] => true | x :: r => negb (existsb (byte_eqb x) r) && nd r end) all_chars = true) by (vm_compute; reflexivity).
  revert E. generalize all_chars. induction b as [|x r IH]; [constructor|]. intro E. apply andb_true_iff in E as [E1 E2]. constructor; [|auto]. intro I. apply negb_true_iff in E1. assert (existsb (byte_eqb x) r = true) by (apply existsb_exists; exists x; split; [exact I|apply byte_eqb_refl]). congruence.
Qed.
Lemma all_printable b : existsb (byte_eqb b) all_chars = true <-> printable b.
Proof.
  assert (E : existsb (byte_eqb b) all_chars = ((32 <=? b2n b) && (b2n b <? 127))%N) by (destruct b; vm_compute; reflexivity).
  rewrite E. unfold printable. now rewrite andb_true_iff, N.leb_le, N.ltb_lt.
Qed.
Lemma in_all b : In b all_chars <-> printable b.
Proof. rewrite <- all_printable, existsb_exists. split; [intro I; exists b; split; [exact I|apply byte_eqb_refl]|]. intros (x & I & E). apply byte_eqb_eq in E. now subst. Qed.
Lemma group_printable b : (match group_of b with None => false | _ => true end) = existsb (byte_eqb b) all_chars.
Proof. destruct b; vm_compute; reflexivity. Qed.

(** ** The rules *)
Lemma filter_le (f : byte -> bool) l : length (filter f l) <= length l.
Proof. induction l as [|x l IH]; cbn; [lia|]. destruct (f x); cbn; lia. Qed.
Lemma few_iff pw c : few pw c = true <-> 4 * occurs c pw < length pw.
Proof. unfold few, count, occurs, blenZ. rewrite negb_true_iff, Z.geb_leb, Z.leb_gt. lia. Qed.
Lemma set_uses pw g s : (forall b, (match group_of b, g with Some Lower, Lower | Some Upper, Upper | Some Digit, Digit | Some Common, Common | Some Special, Special => true | _, _ => false end) = existsb (byte_eqb b) s) ->
  existsb (fun c => (count pw c >? 0)%Z) s = uses pw g.
Proof.
  intro G. unfold uses. apply eq_true_iff_eq. rewrite !existsb_exists. split.
  - intros (c & I & P). apply count_pos in P. exists c. split; [exact P|]. rewrite G. apply existsb_exists. exists c. split; [exact I|apply byte_eqb_refl].
  - intros (b & I & P). rewrite G in P. apply existsb_exists in P as (c & J & E). apply byte_eqb_eq in E. subst c. exists b. split; [exact J|]. now apply count_pos.
Qed.
Lemma pool_eq pw : (if (sumZ (count pw) all_chars <? blenZ pw)%Z then sets_pool pw char_sets + extra_pool else sets_pool pw char_sets)%Z = pool_size pw.
Proof.
  assert (O : (sumZ (count pw) all_chars <? blenZ pw)%Z = uses_other pw).
  { rewrite (sum_count _ all_nodup). unfold uses_other, blenZ. apply eq_true_iff_eq. rewrite Z.ltb_lt, existsb_exists. induction pw as [|b pw IH]; [split; [cbn; lia|intros (x & [] & _)]|].
    cbn [filter length]. rewrite <- group_printable. destruct (group_of b) eqn:G.
    - cbn [length]. split; [intro L; assert (L' : (Z.of_nat (length (filter (fun b => existsb (byte_eqb b) all_chars) pw)) < Z.of_nat (length pw))%Z) by lia; apply IH in L' as (x & I & X); exists x; split; [now right|exact X]|].
      intros (x & [<-|I] & X); [rewrite G in X; discriminate|]. assert (L' : (Z.of_nat (length (filter (fun b => existsb (byte_eqb b) all_chars) pw)) < Z.of_nat (length pw))%Z) by (apply IH; eauto). lia.
    - split; [intros _; exists b; split; [now left|now rewrite G]|]. intros _. pose proof (filter_le (fun b => existsb (byte_eqb b) all_chars) pw). lia. }
  rewrite O. unfold pool_size. cbn [fold_right]. unfold sets_pool, char_sets. cbn [fold_right].
  rewrite (set_uses pw Lower), (set_uses pw Upper), (set_uses pw Digit), (set_uses pw Common), (set_uses pw Special) by (intro b; destruct b; vm_compute; reflexivity).
  change (blenZ (lit "abcdefghijklmnopqrstuvwxyz")) with 26%Z. change (blenZ (lit "ABCDEFGHIJKLMNOPQRSTUVWXYZ")) with 26%Z. change (blenZ (lit "0123456789")) with 10%Z. change (blenZ (lit "- .,_")) with 5%Z.
  change (blenZ (lit "!" ++ [Coq.Init.Byte.x22] ++ lit "#$%&'()*+/:;<=>?@[\]^`{|}~")) with 28%Z. unfold group_size, extra_pool. destruct (uses_other pw); lia.
Qed.
Section Any.
Variable fl : floats.
(** For whatever floating point arithmetic: the level is -1 exactly for the passwords that break a rule - unless the estimate itself is -1 -
    and otherwise depends only on the length of the password and the size of its pool. *)
Theorem C44_exact : forall pw iterations,
  (diverse pw -> password_level fl pw iterations = f_int fl (estimate fl (pool_size pw) (Z.of_nat (length pw)) iterations))
  /\ (~ diverse pw -> password_level fl pw iterations = (-1)%Z).
Proof using Type.
  intros pw it. unfold password_level. rewrite scan_eq. fold all_chars. rewrite !Z.add_0_l.
  assert (R1 : forallb (few pw) all_chars = true <-> forall b, printable b -> 4 * occurs b pw < length pw).
  { rewrite forallb_forall. split; [intros A b P; apply few_iff, A; now apply in_all|]. intros A b I. apply few_iff, A. now apply in_all. }
  assert (R2 : (Z.of_nat (length (present pw all_chars)) * 4 <=? blenZ pw)%Z = false <-> exists distinct, NoDup distinct /\ (forall b, In b distinct <-> In b pw /\ printable b) /\ length pw < 4 * length distinct).
  { rewrite Z.leb_gt. unfold blenZ. assert (PI : forall b, In b (present pw all_chars) <-> In b pw /\ printable b) by (intro b; unfold present; rewrite filter_In, count_pos, in_all; tauto).
    assert (PN : NoDup (present pw all_chars)) by (apply NoDup_filter, all_nodup). split.
    - intro L. exists (present pw all_chars). split; [exact PN|]. split; [exact PI|lia].
    - intros (l & ND & IL & L). assert (length l <= length (present pw all_chars)); [|lia]. apply NoDup_incl_length; [exact ND|]. intros b I. apply PI. now apply IL. }
  unfold diverse. rewrite <- R1, <- R2. destruct (forallb (few pw) all_chars); [|split; [intros [X _]; discriminate X|reflexivity]]. destruct (_ <=? _)%Z; [split; [intros [_ X]; discriminate X|reflexivity]|].
  split; [intros _|intro X; exfalso; apply X; auto]. rewrite pool_eq. reflexivity.
Qed.
(** A password is accepted exactly if it was typed twice the same and its level reaches the minimum; one that breaks a rule never is. *)
Theorem C44_accepted : forall pw pw2 min r, create_password fl pw pw2 min = Some r <-> pw2 = pw /\ r = pw /\ (min <= password_level fl pw 20000)%Z.
Proof using Type.
  intros pw pw2 min r. unfold create_password. destruct (password_level fl pw 20000 <? min)%Z eqn:L; [apply Z.ltb_lt in L; split; [discriminate|intros (_ & _ & X); lia]|]. apply Z.ltb_ge in L.
  destruct (bytes_eqb pw pw2) eqn:E; [apply bytes_eqb_eq in E; subst; split; [intros [= <-]; auto|intros (_ & -> & _); reflexivity]|]. split; [discriminate|]. intros (-> & _ & _). rewrite bytes_eqb_refl in E. discriminate E.
Qed.
Theorem C44_rules_enforced : forall pw pw2 min r, (0 <= min)%Z -> create_password fl pw pw2 min = Some r -> diverse pw.
Proof using Type.
  intros pw pw2 min r M A. apply C44_accepted in A as (_ & _ & L). destruct (C44_exact pw 20000) as [_ X]. 
  assert (D : diverse pw \/ ~ diverse pw).
  { unfold password_level in L. rewrite scan_eq in L. fold all_chars in L. rewrite !Z.add_0_l in L. destruct (forallb (few pw) all_chars) eqn:F; [|lia]. destruct (_ <=? _)%Z eqn:Q; [lia|]. left. split.
    - intros b P. rewrite forallb_forall in F. apply few_iff, F. now apply in_all.
    - exists (present pw all_chars). split; [apply NoDup_filter, all_nodup|]. split; [intro b; unfold present; rewrite filter_In, count_pos, in_all; tauto|]. apply Z.leb_gt in Q. unfold blenZ in Q. lia. }
  destruct D as [D|D]; [exact D|]. rewrite (X D) in L. lia.
Qed.
End Any.

(** ** Longer passwords *)
(** What monotone floating point arithmetic does, in the cases that occur; [fin] are the finite numbers. *)
Record monotone (fl : floats) (le : F fl -> F fl -> Prop) (fin : F fl -> Prop) : Prop := mkMono {
  m_pow : forall a x y, (1 <= a)%Z -> (0 <= x <= y)%Z -> le (f_pow fl (f_of fl a) (f_of fl x)) (f_pow fl (f_of fl a) (f_of fl y));
  m_pow2 : forall x y, le x y -> le (f_pow fl (f_of fl 2) x) (f_pow fl (f_of fl 2) y);
  m_log2 : forall x y, le x y -> le (f_log2 fl x) (f_log2 fl y);
  m_sub : forall x y, le x y -> le (f_sub fl x (f_of fl 1)) (f_sub fl y (f_of fl 1));
  m_mul : forall x y n, (0 <= n)%Z -> le x y -> le (f_mul fl x (f_of fl n)) (f_mul fl y (f_of fl n));
  m_int : forall x y, fin y -> le x y -> (f_int fl x <= f_int fl y)%Z }.
Lemma pool_pos pw : pw <> [] -> (1 <= pool_size pw)%Z.
Proof.
  intro N. destruct pw as [|b pw]; [congruence|]. unfold pool_size, group_size. cbn [fold_right].
  assert (U : uses (b :: pw) Lower = true \/ uses (b :: pw) Upper = true \/ uses (b :: pw) Digit = true \/ uses (b :: pw) Common = true \/ uses (b :: pw) Special = true \/ uses_other (b :: pw) = true).
  { unfold uses, uses_other. cbn [existsb]. destruct (group_of b) as [[]|]; cbn [orb]; auto 7. }
  destruct (uses (b :: pw) Lower), (uses (b :: pw) Upper), (uses (b :: pw) Digit), (uses (b :: pw) Common), (uses (b :: pw) Special), (uses_other (b :: pw)); lia.
Qed.
(** Of two passwords that keep the rules and draw from the same pool, the longer is not weaker, as long as the estimate is finite. *)
Theorem C44_monotone : forall fl le fin, monotone fl le fin -> forall p q iterations, (0 <= iterations)%Z ->
  diverse p -> diverse q -> pool_size p = pool_size q -> length p <= length q ->
  fin (estimate fl (pool_size q) (Z.of_nat (length q)) iterations) ->
  (password_level fl p iterations <= password_level fl q iterations)%Z.
Proof.
  intros fl le fin M p q it I Dp Dq E L Fi. rewrite (proj1 (C44_exact fl p it) Dp), (proj1 (C44_exact fl q it) Dq). apply (m_int _ _ _ M); [exact Fi|]. rewrite E. unfold estimate.
  apply (m_log2 _ _ _ M), (m_mul _ _ _ M); [exact I|]. apply (m_pow2 _ _ _ M), (m_sub _ _ _ M), (m_log2 _ _ _ M), (m_pow _ _ _ M); [|lia].
  apply pool_pos. intros ->. destruct Dq as [_ (l & _ & IL & X)]. cbn in X. destruct l as [|b l]; [cbn in X; lia|]. destruct (proj1 (IL b) (or_introl eq_refl)) as [[] _].
Qed.

(** ** Overflow *)
(** The largest passwords: [inf] is what math.Pow gives from 2^1024 on, and converting it to an int gives a negative number (amd64). *)
Record overflowing (fl : floats) (inf : F fl) : Prop := mkOver {
  o_pow : forall a n, (2 ^ 1024 <= a ^ n)%Z -> f_pow fl (f_of fl a) (f_of fl n) = inf;
  o_log2 : f_log2 fl inf = inf; o_sub : f_sub fl inf (f_of fl 1) = inf; o_pow2 : f_pow fl (f_of fl 2) inf = inf; o_mul : forall n, (0 < n)%Z -> f_mul fl inf (f_of fl n) = inf;
  o_int : (f_int fl inf < 0)%Z }.
Definition letters52 : bytes := lit "abcdefghijklmnopqrstuvwxyzABCDEFGHIJKLMNOPQRSTUVWXYZ".
Definition long_pw : bytes := letters52 ++ letters52 ++ letters52 ++ firstn 24 letters52.
Lemma diverse_check pw : (forallb (few pw) all_chars && (blenZ pw <? 4 * Z.of_nat (length (present pw all_chars)))%Z)%bool = true <-> diverse pw.
Proof.
  rewrite andb_true_iff, forallb_forall, Z.ltb_lt. unfold blenZ. split.
  - intros [A B]. split; [intros b P; apply few_iff, A; now apply in_all|]. exists (present pw all_chars). split; [apply NoDup_filter, all_nodup|]. split; [intro b; unfold present; rewrite filter_In, count_pos, in_all; tauto|lia].
  - intros [A (l & ND & IL & L)]. split; [intros b I; apply few_iff, A; now apply in_all|]. assert (length l <= length (present pw all_chars)); [|lia]. apply NoDup_incl_length; [exact ND|]. intros b I. unfold present. rewrite filter_In, count_pos, in_all. apply IL in I. tauto.
Qed.
(** A password of 180 letters that keeps the rules is refused, for every minimum that is not negative. *)
Theorem C44_overflow_refuted : forall fl inf, overflowing fl inf ->
  diverse long_pw /\ pool_size long_pw = 52%Z /\ length long_pw = 180
  /\ forall min, (0 <= min)%Z -> create_password fl long_pw long_pw min = None.
Proof.
  intros fl inf O. assert (D : diverse long_pw) by (apply diverse_check; vm_compute; reflexivity). assert (P : pool_size long_pw = 52%Z) by (vm_compute; reflexivity). assert (L : length long_pw = 180) by reflexivity.
  split; [exact D|]. split; [exact P|]. split; [exact L|]. intros min M. unfold create_password. rewrite (proj1 (C44_exact fl long_pw 20000) D), P, L. unfold estimate.
  rewrite (o_pow _ _ O) by (apply Z.leb_le; vm_compute; reflexivity). rewrite (o_log2 _ _ O), (o_sub _ _ O), (o_pow2 _ _ O), (o_mul _ _ O), (o_log2 _ _ O) by lia.
  pose proof (o_int _ _ O). assert (f_int fl inf <? min = true)%Z as -> by (apply Z.ltb_lt; lia). reflexivity.
Qed.
(** Appending characters can take away all strength, and characters outside of printable ASCII are not held to the rules: in [e_acute] 40 of
    56 bytes are one repeated character. *)
Theorem C44_longer_refuted : forall fl, exists p q, diverse p /\ (forall it, password_level fl (p ++ q) it = (-1)%Z) /\ pool_size (p ++ q) = pool_size p.
Proof.
  intro fl. exists (firstn 26 letters52), (repeat Coq.Init.Byte.x61 10). split; [apply diverse_check; vm_compute; reflexivity|]. split; [|vm_compute; reflexivity].
  intro it. apply (C44_exact fl). rewrite <- diverse_check. vm_compute. discriminate.
Qed.
Definition e_acute : bytes := firstn 16 letters52 ++ concat (repeat [Coq.Init.Byte.xc3; Coq.Init.Byte.xa9] 20).
Theorem C44_other_chars_refuted : diverse e_acute /\ length e_acute = 56.
Proof. split; [apply diverse_check; vm_compute; reflexivity|reflexivity]. Qed.

(** ** An arithmetic that meets all of this: whole numbers, and infinity from 2^1024 on *)
Definition zcap (z : Z) : option Z := if (z <? 2 ^ 1024)%Z then Some z else None.
Definition zfl : floats := {| F := option Z; f_of := Some;
  f_pow := fun a b => match a, b with Some x, Some y => zcap (x ^ y) | _, _ => None end;
  f_log2 := option_map Z.log2;
  f_sub := fun a b => match a, b with Some x, Some y => Some (x - y)%Z | _, _ => None end;
  f_mul := fun a b => match a, b with Some x, Some y => zcap (x * y) | _, _ => None end;
  f_int := fun a => match a with Some x => x | None => (- 2 ^ 63)%Z end |}.
Definition zle (a b : option Z) : Prop := match a, b with Some x, Some y => (x <= y)%Z | _, None => True | None, Some _ => False end.
Lemma zcap_mono x y : (x <= y)%Z -> zle (zcap x) (zcap y).
Proof. intro L. unfold zcap, zle. destruct (y <? 2 ^ 1024)%Z eqn:Y; [|destruct (x <? 2 ^ 1024)%Z; exact I]. apply Z.ltb_lt in Y. assert ((x <? 2 ^ 1024)%Z = true) as -> by (apply Z.ltb_lt; lia). exact L. Qed.
Theorem C44_hypotheses_met : monotone zfl zle (fun x => x <> None) /\ overflowing zfl None
  /\ (let p := firstn 30 letters52 in let q := firstn 40 letters52 in diverse p /\ diverse q /\ pool_size p = pool_size q
       /\ estimate zfl (pool_size q) (Z.of_nat (length q)) 20000 <> None /\ password_level zfl p 20000 = 184%Z /\ create_password zfl q q 128 = Some q).
Proof.
  split; [|split].
  - split; cbn [F f_of f_pow f_log2 f_sub f_mul f_int zfl].
    + intros a x y A L. apply zcap_mono, Z.pow_le_mono_r; lia.
    + intros [x|] [y|] L; cbn [zle] in *; try contradiction; try (destruct (zcap _); exact I); try exact I. apply zcap_mono. destruct (Z.ltb_spec y 0); [rewrite !Z.pow_neg_r by lia; lia|]. destruct (Z.ltb_spec x 0); [rewrite Z.pow_neg_r by lia; lia|]. apply Z.pow_le_mono_r; lia.
    + intros [x|] [y|] L; cbn in *; auto. now apply Z.log2_le_mono.
    + intros [x|] [y|] L; cbn in *; auto. lia.
    + intros [x|] [y|] n N L; cbn [zle] in *; try contradiction; try (destruct (zcap _); exact I); try exact I. apply zcap_mono. nia.
    + intros [x|] [y|] Fi L; cbn in *; congruence || lia || contradiction.
  - split; cbn [F f_of f_pow f_log2 f_sub f_mul f_int zfl]; try reflexivity. intros a n L. unfold zcap. apply Z.ltb_ge in L. now rewrite L.
  - cbn zeta. split; [apply diverse_check; vm_compute; reflexivity|]. split; [apply diverse_check; vm_compute; reflexivity|]. split; [vm_compute; reflexivity|]. split; [vm_compute; discriminate|]. split; vm_compute; reflexivity.
Qed.
