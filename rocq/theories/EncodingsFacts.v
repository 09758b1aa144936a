(** Facts about the text encodings. *)
From Coq Require Import Init.Byte.
From Verif Require Import Prelude PreludeFacts.
From Verif Require Export Encodings.

Ltac Zify.zify_post_hook ::= Z.to_euclidean_division_equations.

(** ** hex *)
Lemma small_all (P : N -> bool) k n : forallb P (map N.of_nat (seq 0 k)) = true -> (n < N.of_nat k)%N -> P n = true.
Proof.
  intros H L. rewrite forallb_forall in H. apply H. apply in_map_iff. exists (N.to_nat n). split; [lia|]. apply in_seq. lia.
Qed.
Lemma hex_val_digit n : (n < 16)%N -> hex_val (hex_digit n) = Some n.
Proof.
  intro L. assert (E : match hex_val (hex_digit n) with Some m => (m =? n)%N | None => false end = true).
  { apply (small_all (fun n => match hex_val (hex_digit n) with Some m => (m =? n)%N | None => false end) 16 n); [vm_compute; reflexivity|lia]. }
  destruct (hex_val (hex_digit n)); [|discriminate]. apply N.eqb_eq in E. now subst.
Qed.
Lemma hex_round_trip l : hex_decode (hex_encode l) = Ok l.
Proof.
  induction l as [|b l IH]; [reflexivity|]. cbn [hex_encode hex_decode]. pose proof (b2n_lt b) as B.
  rewrite !hex_val_digit by lia. rewrite IH. cbn [bind].
  assert (E : (b2n b / 16 * 16 + b2n b mod 16 = b2n b)%N) by lia. rewrite E, n2b_b2n. reflexivity.
Qed.

(** ** base64 *)
Lemma b64_val_digit url n : (n < 64)%N -> b64_val url (b64_digit url n) = Some n.
Proof.
  intro L. set (P := fun n => match b64_val url (b64_digit url n) with Some m => (m =? n)%N | None => false end).
  assert (E : P n = true) by (apply (small_all P 64 n); [destruct url; vm_compute; reflexivity|lia]). unfold P in E.
  destruct (b64_val url (b64_digit url n)); [|discriminate]. apply N.eqb_eq in E. now subst.
Qed.
Lemma b64_digit_plain url n : (n < 64)%N -> is_newline (b64_digit url n) = false.
Proof.
  intro L. set (P := fun n => negb (is_newline (b64_digit url n))).
  assert (E : P n = true) by (apply (small_all P 64 n); [destruct url; vm_compute; reflexivity|lia]). unfold P in E. now apply negb_true_iff in E.
Qed.
(** Induction in steps of three. *)
Lemma list3_ind {A} (P : list A -> Prop) : P [] -> (forall a, P [a]) -> (forall a b, P [a; b]) ->
  (forall a b c l, P l -> P (a :: b :: c :: l)) -> forall l, P l.
Proof.
  intros H0 H1 H2 H3. fix F 1. intro l. destruct l as [|a [|b [|c l]]]; [exact H0|apply H1|apply H2|apply H3, F].
Qed.
Lemma b64_groups_small l : Forall (fun n => (n < 64)%N) (b64_groups l).
Proof.
  induction l as [|a|a b|a b c l IH] using list3_ind; cbn [b64_groups]; repeat constructor; try assumption;
    pose proof (b2n_lt a); try pose proof (b2n_lt b); try pose proof (b2n_lt c); lia.
Qed.
Lemma n2b_eq n b : n = b2n b -> n2b n = b.
Proof. intros ->. apply n2b_b2n. Qed.
Lemma b64_bytes_groups l : b64_bytes (b64_groups l) = Ok l.
Proof.
  induction l as [|a|a b|a b c l IH] using list3_ind; cbn [b64_groups b64_bytes]; [reflexivity|..].
  - pose proof (b2n_lt a). rewrite (n2b_eq _ a) by lia. reflexivity.
  - pose proof (b2n_lt a). pose proof (b2n_lt b). rewrite (n2b_eq _ a), (n2b_eq _ b) by lia. reflexivity.
  - pose proof (b2n_lt a). pose proof (b2n_lt b). pose proof (b2n_lt c). rewrite IH. cbn [bind].
    rewrite (n2b_eq _ a), (n2b_eq _ b), (n2b_eq _ c) by lia. reflexivity.
Qed.
Lemma b64_round_trip url l : b64_decode url (b64_encode url l) = Ok l.
Proof.
  unfold b64_decode, b64_encode. transitivity (b64_bytes (b64_groups l)); [|apply b64_bytes_groups]. pose proof (b64_groups_small l) as S. revert S. generalize (b64_groups l) as ds. intros ds S.
  assert (E : mapM (fun b => of_option EOther (b64_val url b)) (filter (fun b => negb (is_newline b)) (map (b64_digit url) ds)) = Ok ds).
  { induction S as [|d ds Hd S IH]; [reflexivity|]. cbn [map filter]. rewrite b64_digit_plain by assumption. cbn [negb mapM].
    rewrite b64_val_digit by assumption. cbn [of_option bind]. rewrite IH. reflexivity. }
  rewrite E. reflexivity.
Qed.

(** ** base58 *)
Lemma b58_val_digit n : (n < 58)%N -> b58_val (b58_digit n) = Some n.
Proof.
  intro L. set (P := fun n => match b58_val (b58_digit n) with Some m => (m =? n)%N | None => false end).
  assert (E : P n = true) by (apply (small_all P 58 n); [vm_compute; reflexivity|lia]). unfold P in E.
  destruct (b58_val (b58_digit n)); [|discriminate]. apply N.eqb_eq in E. now subst.
Qed.
Lemma value_acc base l a : fold_left (fun a d => a * base + d)%N l a = (a * base ^ N.of_nat (length l) + value base l)%N.
Proof.
  unfold value. revert a. induction l as [|d l IH]; intro a; cbn [fold_left length].
  - rewrite N.pow_0_r. lia.
  - rewrite IH, (IH (0 * base + d)%N). rewrite Nat2N.inj_succ, N.pow_succ_r'. lia.
Qed.
Lemma value_cons base d l : value base (d :: l) = (d * base ^ N.of_nat (length l) + value base l)%N.
Proof. unfold value at 1. cbn [fold_left]. rewrite value_acc. reflexivity. Qed.
Lemma value_app base l m : value base (l ++ m) = (value base l * base ^ N.of_nat (length m) + value base m)%N.
Proof. unfold value at 1. rewrite fold_left_app, value_acc. reflexivity. Qed.
Lemma value_zeros base n l : value base (repeat 0%N n ++ l) = value base l.
Proof. induction n as [|n IH]; [reflexivity|]. cbn [repeat app]. rewrite value_cons, IH. lia. Qed.
Lemma value_bound base l : (1 < base)%N -> Forall (fun d => (d < base)%N) l -> (value base l < base ^ N.of_nat (length l))%N.
Proof.
  intros B F. induction F as [|d l Hd F IH]; [cbn; lia|]. rewrite value_cons. cbn [length]. rewrite Nat2N.inj_succ, N.pow_succ_r'.
  set (p := (base ^ N.of_nat (length l))%N) in *. nia.
Qed.
Lemma digits_aux_spec fuel base n acc : (1 < base)%N -> (n < 2 ^ N.of_nat fuel)%N ->
  exists ds, digits_aux fuel base n acc = ds ++ acc /\ value base ds = n /\ Forall (fun d => (d < base)%N) ds /\ leading 0 ds = 0.
Proof.
  intros B. revert n acc. induction fuel as [|f IH]; intros n acc L; cbn [digits_aux].
  - exists []. cbn in L. repeat split; [cbn; lia|constructor].
  - destruct (N.eqb_spec n 0) as [->|NZ]; [exists []; repeat split; constructor|].
    rewrite Nat2N.inj_succ, N.pow_succ_r' in L.
    destruct (IH (n / base)%N ((n mod base)%N :: acc)) as (ds & E & V & F & Z).
    { apply N.div_lt_upper_bound; [lia|]. set (p := (2 ^ N.of_nat f)%N) in *. nia. }
    exists (ds ++ [(n mod base)%N]). rewrite E, <- app_assoc. split; [reflexivity|]. split; [|split].
    + rewrite value_app, V. cbn [length]. change (N.of_nat 1) with 1%N. rewrite N.pow_1_r. unfold value. cbn [fold_left]. pose proof (N.div_mod n base). lia.
    + apply Forall_app. split; [exact F|]. constructor; [apply N.mod_lt; lia|constructor].
    + destruct ds as [|d ds]; [|cbn in *; destruct (d =? 0)%N; [discriminate|reflexivity]].
      cbn in V. cbn. destruct (N.eqb_spec (n mod base) 0) as [M|M]; [|reflexivity]. pose proof (N.div_mod n base). lia.
Qed.
Lemma digits_spec base n : (1 < base)%N ->
  value base (digits base n) = n /\ Forall (fun d => (d < base)%N) (digits base n) /\ leading 0 (digits base n) = 0.
Proof.
  intro B. unfold digits. destruct (digits_aux_spec (N.to_nat (N.size n)) base n [] B) as (ds & E & V & F & Z).
  - rewrite N2Nat.id. apply N.size_gt.
  - rewrite app_nil_r in E. rewrite E. auto.
Qed.
(** A number has one representation without leading zeros. *)
Lemma leading_lower base l : (1 < base)%N -> leading 0 l = 0 -> l <> [] -> (base ^ N.of_nat (length l - 1) <= value base l)%N.
Proof.
  intros B Z NE. destruct l as [|d l]; [congruence|]. cbn in Z. destruct (N.eqb_spec d 0); [discriminate|]. rewrite value_cons. cbn [length].
  replace (S (length l) - 1) with (length l) by lia. set (p := (base ^ N.of_nat (length l))%N). nia.
Qed.
Lemma value_inj base l m : (1 < base)%N -> Forall (fun d => (d < base)%N) l -> Forall (fun d => (d < base)%N) m ->
  length l = length m -> value base l = value base m -> l = m.
Proof.
  intros B F. revert m. induction F as [|d l Hd F IH]; intros m G EL EV; destruct m as [|e m]; try discriminate; [reflexivity|].
  inversion G as [|? ? He G']; subst. injection EL as EL. rewrite !value_cons, <- EL in EV.
  pose proof (value_bound base l B F). pose proof (value_bound base m B G'). rewrite <- EL in *.
  set (p := (base ^ N.of_nat (length l))%N) in *. assert (d = e) by nia. subst. f_equal. apply IH; auto. lia.
Qed.
Lemma pow_mono base a b : (1 < base)%N -> a <= b -> (base ^ N.of_nat a <= base ^ N.of_nat b)%N.
Proof. intros. apply N.pow_le_mono_r; lia. Qed.
Lemma canonical base l m : (1 < base)%N -> Forall (fun d => (d < base)%N) l -> Forall (fun d => (d < base)%N) m ->
  leading 0 l = 0 -> leading 0 m = 0 -> value base l = value base m -> l = m.
Proof.
  intros B F G Z1 Z2 EV. apply (value_inj base); auto. 
  pose proof (value_bound base l B F) as U1. pose proof (value_bound base m B G) as U2.
  destruct (Nat.lt_trichotomy (length l) (length m)) as [L|[L|L]]; [|exact L|].
  - assert (NE : m <> []) by (destruct m; [cbn in L; lia|congruence]). pose proof (leading_lower base m B Z2 NE).
    pose proof (pow_mono base (length l) (length m - 1) B ltac:(lia)). lia.
  - assert (NE : l <> []) by (destruct l; [cbn in L; lia|congruence]). pose proof (leading_lower base l B Z1 NE).
    pose proof (pow_mono base (length m) (length l - 1) B ltac:(lia)). lia.
Qed.
Lemma split_leading l : exists r, l = repeat 0%N (leading 0 l) ++ r /\ leading 0 r = 0.
Proof.
  induction l as [|d l (r & E & Z)]; [exists []; auto|]. cbn [leading]. destruct (N.eqb_spec d 0) as [->|NZ].
  - exists r. cbn [repeat app]. split; [congruence|exact Z].
  - exists (d :: l). split; [reflexivity|]. cbn. now apply N.eqb_neq in NZ as ->.
Qed.
Lemma leading_app n r : leading 0 r = 0 -> leading 0 (repeat 0%N n ++ r) = n.
Proof. intro Z. induction n as [|n IH]; cbn; auto. Qed.
Lemma rebase_round_trip b1 b2 l : (1 < b1)%N -> (1 < b2)%N -> Forall (fun d => (d < b1)%N) l -> rebase b2 b1 (rebase b1 b2 l) = l.
Proof.
  intros B1 B2 F. destruct (split_leading l) as (r & E & Z). unfold rebase. destruct (digits_spec b2 (value b1 l) B2) as (V & G & Z2).
  rewrite (leading_app _ _ Z2), value_zeros, V. destruct (digits_spec b1 (value b1 l) B1) as (V' & G' & Z').
  rewrite E at 3. f_equal. apply (canonical b1); auto.
  - rewrite E in F. now apply Forall_app in F as [_ F].
  - rewrite V'. rewrite E at 1. apply value_zeros.
Qed.
Lemma rebase_small b1 b2 l : (1 < b2)%N -> Forall (fun d => (d < b2)%N) (rebase b1 b2 l).
Proof.
  intro B. unfold rebase. apply Forall_app. split; [|apply (digits_spec b2 _ B)]. apply Forall_forall. intros x Hx. apply repeat_spec in Hx. lia.
Qed.
Lemma b58_round_trip l : l <> [] -> b58_decode (b58_encode l) = Ok l.
Proof.
  intro NE. unfold b58_decode, b58_encode.
  assert (S : Forall (fun d => (d < 256)%N) (map b2n l)) by (apply Forall_map, Forall_forall; intros; apply b2n_lt).
  pose proof (rebase_round_trip 256 58 (map b2n l) ltac:(lia) ltac:(lia) S) as RT. pose proof (rebase_small 256 58 (map b2n l) ltac:(lia)) as RS.
  set (ds := rebase 256 58 (map b2n l)) in *.
  assert (ND : ds <> []).
  { intro E. rewrite E in RT. unfold rebase in RT. cbn in RT. destruct l; [congruence|discriminate]. }
  destruct (map b58_digit ds) as [|x xs] eqn:EM; [destruct ds; [congruence|discriminate]|]. rewrite <- EM. clear x xs EM.
  assert (E : mapM (fun b => of_option EOther (b58_val b)) (map b58_digit ds) = Ok ds).
  { clear RT ND. induction RS as [|d ds Hd RS IH]; [reflexivity|]. cbn [map mapM]. rewrite b58_val_digit by assumption. cbn [of_option bind]. rewrite IH. reflexivity. }
  rewrite E. cbn [bind]. rewrite RT, map_map. f_equal. clear. induction l as [|b l IH]; cbn; [reflexivity|]. now rewrite n2b_b2n, IH.
Qed.
