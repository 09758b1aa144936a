(** Lemmas about the wire format, the file format and the associated data. *)
From Verif Require Export ContainerFacts Letter.

(** ** Wire format *)

(** Sizes a Go process can hold, and a uint8 version. *)
Record letter_fits (l : letter) : Prop := {
  lf_version : (l_version l < 256)%N;
  lf_suite : fits (l_suite l);
  lf_nonce : fits (l_nonce l);
  lf_data : fits (l_data l);
  lf_mac : fits (l_mac l);
  lf_keys : Forall (fun s => fits (seal_scheme s) /\ fits (seal_id s) /\ fits (seal_value s)) (l_keys l);
  lf_nkeys : (N.of_nat (length (l_keys l)) < 2 ^ 63)%N
}.

(** What the wire format carries of a letter. *)
Definition wire_view (l : letter) : letter :=
  mkLetter (l_version l) (if (0 <? l_version l)%N then l_suite l else [])
    (l_nonce l) (map (fun s => mkSeal [] (seal_id s) (seal_value s)) (l_keys l))
    (l_data l) (l_mac l) [] (l_apply l).

Lemma get_seals_spec ks r :
  Forall (fun s => fits (seal_scheme s) /\ fits (seal_id s) /\ fits (seal_value s)) ks ->
  get_seals (length ks) (concat (map wire_seal ks) ++ r)
  = Ok (map (fun s => mkSeal [] (seal_id s) (seal_value s)) ks, r).
Proof.
  induction 1 as [|s ks (_ & Hi & Hv) _ IH]; cbn [get_seals length map concat app]; [reflexivity|].
  unfold wire_seal at 1. rewrite <- !app_assoc, get_block_block by easy. cbn [bind].
  rewrite get_block_block by easy. cbn [bind]. rewrite IH. reflexivity.
Qed.

Lemma flags_lt l : (wire_flags l < 128)%N.
Proof. unfold wire_flags. destruct (0 <? l_version l)%N, (nonempty (l_keys l)), (l_apply l); cbn; lia. Qed.
Lemma flags_bits l :
  N.testbit (wire_flags l) 0 = (0 <? l_version l)%N /\
  N.testbit (wire_flags l) 1 = nonempty (l_keys l) /\
  N.testbit (wire_flags l) 2 = l_apply l.
Proof. unfold wire_flags. destruct (0 <? l_version l)%N, (nonempty (l_keys l)), (l_apply l); cbn; auto. Qed.

Lemma from_to_wire w l r :
  letter_fits l -> (length (l_keys l) <= 255) ->
  w = 2 \/ ((l_version l < 128)%N /\ length (l_keys l) <= 127) ->
  letter_from_wire w (to_wire l ++ r) = Ok (wire_view l, r).
Proof.
  intros [Hver Hs Hn Hd Hm Hk _] Hlen Hw. unfold letter_from_wire, get_setup, get_keys, to_wire.
  rewrite <- !app_assoc. rewrite get_n8_small by lia. cbn [bind N.eqb negb Pos.eqb].
  pose proof (flags_lt l). rewrite get_n64_uvarint by lia. cbn [bind].
  destruct (flags_bits l) as (F0 & F1 & F2). rewrite F0, F1, F2.
  assert (Hn8 : forall n x, (n < 256)%N -> (w = 2 \/ (n < 128)%N) ->
             get_n8 w (uvarint n ++ x) = Ok (n, x)).
  { intros n x H1 [->|H2]; [now apply get_n8_two | now apply get_n8_small]. }
  assert (Hver' : (0 <? l_version l)%N = false -> l_version l = 0%N) by (intro; lia).
  unfold wire_view.
  destruct (0 <? l_version l)%N eqn:EV; [|rewrite (Hver' eq_refl)];
    [rewrite <- !app_assoc, Hn8 by (try easy; tauto); cbn [bind]; rewrite get_block_block by easy|];
    cbn [bind fst snd app];
    (destruct (l_keys l) as [|k ks] eqn:EK;
     [|cbn [nonempty]; rewrite <- ?app_assoc, Hn8 by (try (destruct Hw; [left|right]); lia); cbn [bind];
       rewrite Nat2N.id, get_seals_spec by easy]);
    cbn [bind nonempty app map]; rewrite ?get_block_block by easy; cbn [bind];
    rewrite ?get_block_block by easy; cbn [bind];
    rewrite ?get_block_block by easy; reflexivity.
Qed.

Lemma from_to_wire_many w l r :
  letter_fits l -> w = 2 \/ (l_version l < 128)%N ->
  255 < length (l_keys l) ->
  letter_from_wire w (to_wire l ++ r) = Err EVarint.
Proof.
  intros [Hver Hs Hn Hd Hm Hk _] Hw Hlen. unfold letter_from_wire, get_setup, get_keys, to_wire.
  rewrite <- !app_assoc. rewrite get_n8_small by lia. cbn [bind N.eqb negb Pos.eqb].
  pose proof (flags_lt l). rewrite get_n64_uvarint by lia. cbn [bind].
  destruct (flags_bits l) as (F0 & F1 & F2). rewrite F0, F1, F2.
  assert (Hn8 : forall n x, (n < 256)%N -> (w = 2 \/ (n < 128)%N) ->
             get_n8 w (uvarint n ++ x) = Ok (n, x)).
  { intros n x H1 [->|H2]; [now apply get_n8_two | now apply get_n8_small]. }
  assert (EK : nonempty (l_keys l) = true) by (destruct (l_keys l); cbn in *; [lia|easy]).
  rewrite EK.
  destruct (0 <? l_version l)%N eqn:EV;
    [rewrite <- !app_assoc, Hn8 by (try easy; tauto); cbn [bind]; rewrite get_block_block by easy|];
    cbn [bind fst snd app]; rewrite <- ?app_assoc, get_n8_big by lia; reflexivity.
Qed.

Lemma get_seals_mono n c ks r x : get_seals n c = Ok (ks, r) -> get_seals n (c ++ x) = Ok (ks, r ++ x).
Proof.
  revert c ks r; induction n as [|n IH]; intros c ks r H; cbn [get_seals] in *.
  - injection H as <- <-; reflexivity.
  - apply bind_ok in H as ((id & c1) & H1 & H). apply bind_ok in H as ((v & c2) & H2 & H).
    apply bind_ok in H as ((k & c3) & H3 & H). injection H as <- <-.
    rewrite (get_block_mono _ _ _ x H1); cbn [bind]. rewrite (get_block_mono _ _ _ x H2); cbn [bind].
    rewrite (IH _ _ _ H3). reflexivity.
Qed.

Lemma from_wire_mono w c l r x :
  w <= 2 -> letter_from_wire w c = Ok (l, r) -> letter_from_wire w (c ++ x) = Ok (l, r ++ x).
Proof.
  intros Hw H. unfold letter_from_wire in *.
  apply bind_ok in H as ((v & c1) & H1 & H). rewrite (get_n8_mono _ _ _ _ x Hw H1); cbn [bind].
  destruct (negb (v =? 1)%N); [discriminate|].
  apply bind_ok in H as ((f & c2) & H2 & H). rewrite (get_n64_mono _ _ _ x H2); cbn [bind].
  apply bind_ok in H as ((vs & c3) & H3 & H).
  assert (get_setup w f (c2 ++ x) = Ok (vs, c3 ++ x)) as ->.
  { unfold get_setup in *. destruct (N.testbit f 0).
    - apply bind_ok in H3 as ((n & c4) & H4 & H3). apply bind_ok in H3 as ((s & c5) & H5 & H3).
      injection H3 as <- <-. rewrite (get_n8_mono _ _ _ _ x Hw H4); cbn [bind].
      rewrite (get_block_mono _ _ _ x H5); reflexivity.
    - injection H3 as <- <-; reflexivity. }
  cbn [bind]. apply bind_ok in H as ((ks & c4) & H4 & H).
  assert (get_keys w f (c3 ++ x) = Ok (ks, c4 ++ x)) as ->.
  { unfold get_keys in *. destruct (N.testbit f 1).
    - apply bind_ok in H4 as ((n & c5) & H5 & H4).
      rewrite (get_n8_mono _ _ _ _ x Hw H5); cbn [bind]. now apply get_seals_mono.
    - injection H4 as <- <-; reflexivity. }
  cbn [bind].
  apply bind_ok in H as ((nn & c5) & H5 & H). rewrite (get_block_mono _ _ _ x H5); cbn [bind].
  apply bind_ok in H as ((d & c6) & H6 & H). rewrite (get_block_mono _ _ _ x H6); cbn [bind].
  apply bind_ok in H as ((m & c7) & H7 & H). rewrite (get_block_mono _ _ _ x H7); cbn [bind].
  injection H as <- <-. reflexivity.
Qed.

Lemma wire_prefix_rejected w l p x :
  letter_fits l -> length (l_keys l) <= 255 ->
  (w = 2 \/ (w <= 2 /\ (l_version l < 128)%N /\ length (l_keys l) <= 127)) ->
  to_wire l = p ++ x -> x <> [] -> forall l', letter_from_wire_data w p <> Ok l'.
Proof.
  intros Hf Hl Hw Hp Hx l' H. unfold letter_from_wire_data in H.
  apply bind_ok in H as ((l1 & r) & H & _).
  assert (Hw2 : w <= 2) by lia.
  apply (from_wire_mono _ _ _ _ x Hw2) in H. rewrite <- Hp in H.
  assert (Hw3 : w = 2 \/ ((l_version l < 128)%N /\ length (l_keys l) <= 127)) by tauto.
  pose proof (from_to_wire w l [] Hf Hl Hw3) as E. rewrite app_nil_r in E.
  rewrite E in H. injection H as _ H. destruct r; cbn in H; congruence.
Qed.

(** ** File format *)

Lemma file_round_trip w dump load l :
  (forall l0 h, dump l0 = Ok h -> load (h ++ [n2b 10]) = Ok l0 /\ fits (h ++ [n2b 10])) ->
  fits (l_data l) ->
  forall c, fst (to_file_format dump l) = Ok c ->
  letter_from_file_format w load c = Ok l.
Proof.
  intros Hlaw Hd c H. unfold to_file_format in H.
  destruct (dump (set_data l [])) as [h|e|] eqn:E; cbn [fst] in H; try discriminate.
  assert (c = uvarint 1 ++ block (h ++ [n2b 10]) ++ block (l_data l)) by congruence. subst c.
  destruct (Hlaw _ _ E) as [Hl Hh].
  unfold letter_from_file_format. rewrite get_n8_small by lia. cbn [bind N.eqb negb Pos.eqb].
  rewrite get_block_block by easy. cbn [bind]. rewrite Hl. cbn [bind].
  rewrite <- (app_nil_r (block (l_data l))), get_block_block by easy. cbn [bind].
  destruct l; reflexivity.
Qed.

(** ** Associated data *)

Definition opt_field (tag : N) (b : bytes) : bytes :=
  if nonempty b then uvarint tag ++ block b else [].

Lemma opt_field_inj tag a b r s :
  (tag < 128)%N -> fits a -> fits b ->
  hd_error r <> Some (n2b tag) -> hd_error s <> Some (n2b tag) ->
  opt_field tag a ++ r = opt_field tag b ++ s -> a = b /\ r = s.
Proof.
  intros Ht Ha Hb Hr Hs H. unfold opt_field in H. rewrite uvarint_small in H by easy.
  destruct a as [|x a], b as [|y b]; cbn [nonempty app] in H.
  - easy.
  - subst r. now destruct Hr.
  - subst s. now destruct Hs.
  - injection H as H. apply block_inj in H; easy.
Qed.

Lemma n2b_neq a b : (a < 256)%N -> (b < 256)%N -> a <> b -> n2b a <> n2b b.
Proof.
  intros Ha Hb Hn H. apply (f_equal b2n) in H. rewrite !b2n_n2b, !N.mod_small in H by lia. easy.
Qed.

Lemma hd_opt tag b r : (tag < 128)%N ->
  hd_error (opt_field tag b ++ r) = if nonempty b then Some (n2b tag) else hd_error r.
Proof.
  intro H. unfold opt_field. destruct b; cbn [nonempty app]; [reflexivity|].
  rewrite uvarint_small by easy. reflexivity.
Qed.

Lemma ad_seal_opt s :
  ad_seal s = opt_field 16 (seal_scheme s) ++ opt_field 17 (seal_id s) ++ opt_field 18 (seal_value s).
Proof. reflexivity. Qed.

Definition no_tag (r : bytes) : Prop :=
  hd_error r <> Some (n2b 16) /\ hd_error r <> Some (n2b 17) /\ hd_error r <> Some (n2b 18).

Definition seal_fits (s : seal) : Prop := fits (seal_scheme s) /\ fits (seal_id s) /\ fits (seal_value s).

Lemma some_neq (a b : byte) : a <> b -> Some a <> Some b.
Proof. congruence. Qed.

Ltac tag_neq := apply some_neq, n2b_neq; lia.

Lemma ad_seal_inj s1 s2 r1 r2 :
  seal_fits s1 -> seal_fits s2 -> no_tag r1 -> no_tag r2 ->
  ad_seal s1 ++ r1 = ad_seal s2 ++ r2 -> s1 = s2 /\ r1 = r2.
Proof.
  intros (F1 & F2 & F3) (G1 & G2 & G3) (N1 & N2 & N3) (M1 & M2 & M3) H.
  rewrite !ad_seal_opt, <- !app_assoc in H.
  apply opt_field_inj in H as [E1 H]; try easy; try lia;
    [|rewrite !hd_opt by lia; destruct (nonempty (seal_id s1)), (nonempty (seal_value s1)); try easy; tag_neq
     |rewrite !hd_opt by lia; destruct (nonempty (seal_id s2)), (nonempty (seal_value s2)); try easy; tag_neq].
  apply opt_field_inj in H as [E2 H]; try easy; try lia;
    [|rewrite !hd_opt by lia; destruct (nonempty (seal_value s1)); try easy; tag_neq
     |rewrite !hd_opt by lia; destruct (nonempty (seal_value s2)); try easy; tag_neq].
  apply opt_field_inj in H as [E3 H]; try easy; try lia.
  destruct s1, s2; cbn in *; subst; easy.
Qed.

(** Same with a present value in both seals: whatever follows. *)
Lemma ad_seal_inj_value s1 s2 r1 r2 :
  seal_fits s1 -> seal_fits s2 -> seal_value s1 <> [] -> seal_value s2 <> [] ->
  ad_seal s1 ++ r1 = ad_seal s2 ++ r2 -> s1 = s2 /\ r1 = r2.
Proof.
  intros (F1 & F2 & F3) (G1 & G2 & G3) V1 V2 H.
  rewrite !ad_seal_opt, <- !app_assoc in H.
  assert (N1 : nonempty (seal_value s1) = true) by (destruct (seal_value s1); easy).
  assert (N2 : nonempty (seal_value s2) = true) by (destruct (seal_value s2); easy).
  apply opt_field_inj in H as [E1 H]; try easy; try lia;
    [|rewrite !hd_opt, N1 by lia; destruct (nonempty (seal_id s1)); tag_neq
     |rewrite !hd_opt, N2 by lia; destruct (nonempty (seal_id s2)); tag_neq].
  apply opt_field_inj in H as [E2 H]; try easy; try lia;
    [|rewrite !hd_opt, N1 by lia; tag_neq
     |rewrite !hd_opt, N2 by lia; tag_neq].
  unfold opt_field in H. rewrite N1, N2, <- !app_assoc in H.
  apply uvarint_inj in H as [_ H]; try lia. apply block_inj in H as [E3 H]; try easy.
  destruct s1, s2; cbn in *; subst; easy.
Qed.

Lemma hd_ad_seals i ks r : i + length ks <= 16 -> no_tag r -> no_tag (ad_seals i ks ++ r).
Proof.
  destruct ks as [|s ks]; cbn [ad_seals length app]; intros H Hr; [assumption|].
  rewrite uvarint_small by lia. cbn [app]. unfold no_tag; cbn [hd_error].
  repeat split; tag_neq.
Qed.

Lemma ad_seals_inj i k1 k2 r1 r2 :
  length k1 = length k2 -> i + length k1 <= 16 -> no_tag r1 -> no_tag r2 ->
  Forall seal_fits k1 -> Forall seal_fits k2 ->
  ad_seals i k1 ++ r1 = ad_seals i k2 ++ r2 -> k1 = k2 /\ r1 = r2.
Proof.
  revert i k2; induction k1 as [|s k1 IH]; intros i [|t k2]; cbn [length ad_seals]; try easy.
  intros Hl Hi T1 T2 F1 F2 H. inversion F1; subst. inversion F2; subst.
  rewrite <- !app_assoc in H.
  apply uvarint_inj in H as [_ H]; try lia.
  apply ad_seal_inj in H as [-> H]; try easy; try (apply hd_ad_seals; auto; lia).
  apply (IH (S i)) in H as [-> ->]; auto; lia.
Qed.

Lemma ad_seals_inj_value i k1 k2 r1 r2 :
  length k1 = length k2 -> (N.of_nat (i + length k1) < 2 ^ 64)%N ->
  Forall seal_fits k1 -> Forall seal_fits k2 ->
  Forall (fun s => seal_value s <> []) k1 -> Forall (fun s => seal_value s <> []) k2 ->
  ad_seals i k1 ++ r1 = ad_seals i k2 ++ r2 -> k1 = k2 /\ r1 = r2.
Proof.
  revert i k2; induction k1 as [|s k1 IH]; intros i [|t k2]; cbn [length ad_seals]; try easy.
  intros Hl Hi F1 F2 V1 V2 H. inversion F1; subst. inversion F2; subst.
  inversion V1; subst. inversion V2; subst. rewrite <- !app_assoc in H.
  apply uvarint_inj in H as [_ H]; try lia.
  apply ad_seal_inj_value in H as [-> H]; try easy.
  apply (IH (S i)) in H as [-> ->]; auto; lia.
Qed.

(** The header part of a letter: everything the associated data covers. *)
Definition header (l : letter) : N * bytes * bytes * list seal :=
  (l_version l, l_suite l, l_nonce l, l_keys l).

(** Number of keys for which the index cannot be confused with a field ID, or
    every key carries a value. *)
Definition keys_unambiguous (l : letter) : Prop :=
  length (l_keys l) <= 16 \/ Forall (fun s => seal_value s <> []) (l_keys l).

Definition ver_field (v : N) : bytes := if (0 <? v)%N then uvarint 1 ++ uvarint v else [].
Definition keys_field (ks : list seal) : bytes :=
  if nonempty ks then uvarint 4 ++ uvarint (N.of_nat (length ks)) ++ ad_seals 0 ks else [].

Lemma assoc_data_fields l :
  assoc_data l = ver_field (l_version l) ++ opt_field 2 (l_suite l) ++ opt_field 3 (l_nonce l)
                 ++ keys_field (l_keys l).
Proof. reflexivity. Qed.

Lemma hd_keys_field ks r :
  hd_error (keys_field ks ++ r) = if nonempty ks then Some (n2b 4) else hd_error r.
Proof. destruct ks; cbn [keys_field nonempty app]; [reflexivity|]. rewrite uvarint_small by lia. reflexivity. Qed.

Lemma ver_field_inj v1 v2 r1 r2 :
  (v1 < 256)%N -> (v2 < 256)%N -> hd_error r1 <> Some (n2b 1) -> hd_error r2 <> Some (n2b 1) ->
  ver_field v1 ++ r1 = ver_field v2 ++ r2 -> v1 = v2 /\ r1 = r2.
Proof.
  intros H1 H2 N1 N2 H. unfold ver_field in H. rewrite (uvarint_small 1) in H by lia.
  destruct (N.ltb_spec 0 v1), (N.ltb_spec 0 v2); cbn [app] in H.
  - injection H as H. apply uvarint_inj in H; lia || easy.
  - subst r2. now destruct N2.
  - subst r1. now destruct N1.
  - split; [lia|easy].
Qed.

Lemma keys_field_inj k1 k2 r1 r2 :
  (N.of_nat (length k1) < 2 ^ 63)%N -> (N.of_nat (length k2) < 2 ^ 63)%N ->
  Forall seal_fits k1 -> Forall seal_fits k2 ->
  (length k1 <= 16 \/ (Forall (fun s => seal_value s <> []) k1 /\ Forall (fun s => seal_value s <> []) k2)) ->
  no_tag r1 -> no_tag r2 -> hd_error r1 <> Some (n2b 4) -> hd_error r2 <> Some (n2b 4) ->
  keys_field k1 ++ r1 = keys_field k2 ++ r2 -> k1 = k2 /\ r1 = r2.
Proof.
  intros L1 L2 F1 F2 Hu T1 T2 T3 T4 H. unfold keys_field in H. rewrite (uvarint_small 4) in H by lia.
  destruct (nonempty k1) eqn:E1, (nonempty k2) eqn:E2; cbn [app] in H.
  - injection H as H. rewrite <- !app_assoc in H. apply uvarint_inj in H as [HL H]; try lia.
    apply Nat2N.inj in HL. destruct Hu as [Hu|[V1 V2]].
    + apply (ad_seals_inj 0) in H; auto; lia.
    + apply (ad_seals_inj_value 0) in H; auto; cbn [Nat.add]; lia.
  - subst r2. now destruct T4.
  - subst r1. now destruct T3.
  - destruct k1, k2; easy.
Qed.

Lemma assoc_data_app_inj l1 l2 r1 r2 :
  letter_fits l1 -> letter_fits l2 ->
  (length (l_keys l1) <= 16 \/ (Forall (fun s => seal_value s <> []) (l_keys l1) /\
                               Forall (fun s => seal_value s <> []) (l_keys l2))) ->
  (forall n, (n < 5 \/ 16 <= n <= 18)%N -> hd_error r1 <> Some (n2b n)) ->
  (forall n, (n < 5 \/ 16 <= n <= 18)%N -> hd_error r2 <> Some (n2b n)) ->
  assoc_data l1 ++ r1 = assoc_data l2 ++ r2 -> header l1 = header l2 /\ r1 = r2.
Proof.
  intros [V1 S1 N1 _ _ K1 L1] [V2 S2 N2 _ _ K2 L2] Hu R1 R2 H.
  rewrite !assoc_data_fields, <- !app_assoc in H.
  assert (A : forall l r, (forall n, (n < 5 \/ 16 <= n <= 18)%N -> hd_error r <> Some (n2b n)) ->
     hd_error (opt_field 2 (l_suite l) ++ opt_field 3 (l_nonce l) ++ keys_field (l_keys l) ++ r) <> Some (n2b 1)).
  { intros l r Hr. rewrite !hd_opt, hd_keys_field by lia.
    destruct (nonempty (l_suite l)), (nonempty (l_nonce l)), (nonempty (l_keys l)); try tag_neq; apply Hr; lia. }
  assert (B : forall l r, (forall n, (n < 5 \/ 16 <= n <= 18)%N -> hd_error r <> Some (n2b n)) ->
     hd_error (opt_field 3 (l_nonce l) ++ keys_field (l_keys l) ++ r) <> Some (n2b 2)).
  { intros l r Hr. rewrite !hd_opt, hd_keys_field by lia.
    destruct (nonempty (l_nonce l)), (nonempty (l_keys l)); try tag_neq; apply Hr; lia. }
  assert (C : forall l r, (forall n, (n < 5 \/ 16 <= n <= 18)%N -> hd_error r <> Some (n2b n)) ->
     hd_error (keys_field (l_keys l) ++ r) <> Some (n2b 3)).
  { intros l r Hr. rewrite hd_keys_field. destruct (nonempty (l_keys l)); try tag_neq; apply Hr; lia. }
  assert (T : forall r, (forall n, (n < 5 \/ 16 <= n <= 18)%N -> hd_error r <> Some (n2b n)) -> no_tag r).
  { intros r Hr. repeat split; apply Hr; lia. }
  apply ver_field_inj in H as [E1 H]; auto.
  apply opt_field_inj in H as [E2 H]; auto; try lia.
  apply opt_field_inj in H as [E3 H]; auto; try lia.
  apply keys_field_inj in H as [E4 H]; auto; try (apply R1 || apply R2; lia).
  split; [|assumption]. unfold header. congruence.
Qed.

Lemma assoc_data_header_inj l1 l2 :
  letter_fits l1 -> letter_fits l2 ->
  (length (l_keys l1) <= 16 \/ (Forall (fun s => seal_value s <> []) (l_keys l1) /\
                               Forall (fun s => seal_value s <> []) (l_keys l2))) ->
  assoc_data l1 = assoc_data l2 -> header l1 = header l2.
Proof.
  intros F1 F2 Hu H. destruct (assoc_data_app_inj l1 l2 [] [] F1 F2 Hu); try easy.
  now rewrite !app_nil_r.
Qed.

(** What is signed: [ad] is nil or the associated data (core.go:122, 193, 315). *)
Lemma assoc_signing_data_eq l ad :
  ad = [] \/ ad = assoc_data l -> assoc_signing_data l ad = assoc_data l ++ opt_field 5 (l_mac l).
Proof.
  intro H. unfold assoc_signing_data, opt_field. cbv zeta.
  destruct H as [->| ->]; cbn [nonempty];
    [|destruct (assoc_data l); cbn [nonempty]];
    (destruct (nonempty (l_mac l)); rewrite ?app_nil_r; reflexivity).
Qed.

Lemma signed_content_inj l1 l2 ad1 ad2 :
  letter_fits l1 -> letter_fits l2 ->
  (length (l_keys l1) <= 16 \/ (Forall (fun s => seal_value s <> []) (l_keys l1) /\
                               Forall (fun s => seal_value s <> []) (l_keys l2))) ->
  (ad1 = [] \/ ad1 = assoc_data l1) -> (ad2 = [] \/ ad2 = assoc_data l2) ->
  length (l_data l1) = length (l_data l2) ->
  l_data l1 ++ assoc_signing_data l1 ad1 = l_data l2 ++ assoc_signing_data l2 ad2 ->
  l_data l1 = l_data l2 /\ header l1 = header l2 /\ l_mac l1 = l_mac l2.
Proof.
  intros F1 F2 Hu A1 A2 Hlen H. apply app_inv_length in H as [HD H]; [|assumption].
  rewrite !assoc_signing_data_eq in H by assumption.
  assert (M : forall m n, (n < 5 \/ 16 <= n <= 18)%N -> hd_error (opt_field 5 m) <> Some (n2b n)).
  { intros m n Hn. rewrite <- (app_nil_r (opt_field 5 m)), hd_opt by lia. destruct (nonempty m); [tag_neq|easy]. }
  apply assoc_data_app_inj in H as [HH H]; auto.
  split; [assumption|]. split; [assumption|].
  rewrite <- (app_nil_r (opt_field 5 (l_mac l1))), <- (app_nil_r (opt_field 5 (l_mac l2))) in H.
  apply opt_field_inj in H as [HM _]; auto; try lia; try easy; [apply F1|apply F2].
Qed.

(** ** Forms used by the property theorems, and witnesses *)

Lemma C01_lemma w l :
  letter_fits l -> length (l_keys l) <= 255 ->
  (w = 2 \/ ((l_version l < 128)%N /\ length (l_keys l) <= 127)) ->
  exists l', letter_from_wire_data w (to_wire l) = Ok l'
    /\ l_version l' = l_version l /\ l_nonce l' = l_nonce l /\ l_data l' = l_data l
    /\ l_mac l' = l_mac l /\ l_apply l' = l_apply l
    /\ map (fun s => (seal_id s, seal_value s)) (l_keys l') = map (fun s => (seal_id s, seal_value s)) (l_keys l)
    /\ (l_version l <> 0%N -> l_suite l' = l_suite l)
    /\ l_sigs l' = [].
Proof.
  intros Hf Hl Hw. exists (wire_view l). unfold letter_from_wire_data.
  rewrite <- (app_nil_r (to_wire l)), from_to_wire by assumption. cbn [bind].
  unfold wire_view; cbn. repeat split; auto.
  - rewrite map_map. apply map_ext. reflexivity.
  - intro Hv. destruct (N.ltb_spec 0 (l_version l)); [reflexivity|lia].
Qed.

Lemma C01_stream_lemma w l r :
  letter_fits l -> length (l_keys l) <= 255 ->
  (w = 2 \/ ((l_version l < 128)%N /\ length (l_keys l) <= 127)) ->
  exists l', letter_from_wire w (to_wire l ++ r) = Ok (l', r) /\ letter_from_wire_data w (to_wire l) = Ok l'
    /\ letter_from_wire_data w (to_wire l ++ r) = Ok l'.
Proof.
  intros Hf Hl Hw. exists (wire_view l). split; [now apply from_to_wire|]. split; [|unfold letter_from_wire_data; now rewrite from_to_wire].
  unfold letter_from_wire_data. rewrite <- (app_nil_r (to_wire l)), from_to_wire by assumption. reflexivity.
Qed.

Lemma C01_many_keys_lemma : exists l, letter_fits l /\ l_version l = 1%N /\ length (l_keys l) = 256 /\
  forall w, letter_from_wire_data w (to_wire l) = Err EVarint.
Proof.
  set (l := mkLetter 1 (lit "w1") (lit "nonce") (repeat (mkSeal [] (lit "rcpt") (lit "key")) 256) (lit "x") [] [] false).
  assert (Hf : letter_fits l).
  { split; try (apply fitsb_fits; reflexivity); try reflexivity.
    apply Forall_forall. intros s Hs. apply repeat_spec in Hs as ->. repeat split; apply fitsb_fits; reflexivity. }
  exists l. split; [exact Hf|]. split; [reflexivity|]. split; [reflexivity|].
  intro w. unfold letter_from_wire_data. rewrite <- (app_nil_r (to_wire l)), from_to_wire_many; auto.
  right. reflexivity.
Qed.

Definition sample_letter : letter :=
  mkLetter 1 (lit "v1") (lit "nonce!") [mkSeal [] (lit "alice") (lit "pub"); mkSeal [] (lit "bob") []]
    (lit "ciphertext") (lit "mac") [mkSeal (lit "Ed25519") (lit "carol") (lit "sig")] true.

Lemma sample_letter_ok : let l := sample_letter in
  letter_fits l /\ length (l_keys l) <= 255 /\ (l_version l < 128)%N /\ length (l_keys l) <= 127
  /\ letter_from_wire_data 2 (to_wire l) = Ok (set_sigs l []).
Proof.
  cbv zeta. split; [|split; [cbn; lia|split; [reflexivity|split; [cbn; lia|reflexivity]]]].
  split; try (apply fitsb_fits; reflexivity); try reflexivity.
  repeat constructor; apply fitsb_fits; reflexivity.
Qed.

Lemma sample_prefix : exists p x, to_wire sample_letter = p ++ x /\ x <> [] /\ p <> [].
Proof.
  exists (firstn 30 (to_wire sample_letter)), (skipn 30 (to_wire sample_letter)).
  rewrite firstn_skipn. repeat split; discriminate.
Qed.

Lemma file_unchanged dump l c : fst (to_file_format dump l) = Ok c -> snd (to_file_format dump l) = l.
Proof. unfold to_file_format. destruct (dump (set_data l [])); cbn; try discriminate. intros _. now destruct l. Qed.

Lemma C03_refuted_lemma : exists dump l e,
  fst (to_file_format dump l) = Err e /\ l_data l <> [] /\ l_data (snd (to_file_format dump l)) = [].
Proof. exists (fun _ => Err EOther), (set_data l_empty (lit "secret")), EOther. repeat split. discriminate. Qed.

Lemma C03_sample : exists dump load : _,
  (forall l0 h, dump l0 = Ok h -> load (h ++ [n2b 10]) = Ok l0 /\ fits (h ++ [n2b 10]))
  /\ exists c, fst (to_file_format dump (set_data l_empty (lit "content"))) = Ok c.
Proof.
  exists (fun l => match l_data l, l_keys l, l_sigs l, l_suite l, l_nonce l, l_mac l, l_version l, l_apply l with
                   | [], [], [], [], [], [], 0%N, false => Ok (lit "{}") | _, _, _, _, _, _, _, _ => Err EOther end),
         (fun _ => Ok l_empty).
  split.
  - intros l0 h H. destruct l0 as [v su n k d m s a]; cbn in H.
    destruct d; [|discriminate]. destruct k; [|discriminate]. destruct s; [|discriminate].
    destruct su; [|discriminate]. destruct n; [|discriminate]. destruct m; [|discriminate].
    destruct v; [|discriminate]. destruct a; [discriminate|]. injection H as <-.
    split; [reflexivity|]. apply fitsb_fits; reflexivity.
  - eexists. reflexivity.
Qed.

Lemma header_eq l1 l2 : header l1 = header l2 ->
  l_version l1 = l_version l2 /\ l_suite l1 = l_suite l2 /\ l_nonce l1 = l_nonce l2 /\ l_keys l1 = l_keys l2.
Proof. unfold header. intro H. injection H; auto. Qed.

Lemma C04_lemma l1 l2 :
  letter_fits l1 -> letter_fits l2 ->
  (length (l_keys l1) <= 16 \/
   (Forall (fun s => seal_value s <> []) (l_keys l1) /\ Forall (fun s => seal_value s <> []) (l_keys l2))) ->
  assoc_data l1 = assoc_data l2 ->
  l_version l1 = l_version l2 /\ l_suite l1 = l_suite l2 /\ l_nonce l1 = l_nonce l2 /\ l_keys l1 = l_keys l2.
Proof. intros. apply header_eq. now apply assoc_data_header_inj. Qed.

Lemma C04_refuted_lemma : exists l1 l2,
  letter_fits l1 /\ letter_fits l2 /\ length (l_keys l1) = 17 /\ length (l_keys l2) = 17
  /\ l_keys l1 <> l_keys l2 /\ assoc_data l1 = assoc_data l2.
Proof.
  set (e := mkSeal [] [] []).
  set (t := repeat (n2b 65) 15).
  exists (set_keys l_empty (repeat e 15 ++ [e; mkSeal (t ++ [n2b 16]) [] []])).
  exists (set_keys l_empty (repeat e 15 ++ [mkSeal (n2b 16 :: t) [] []; e])).
  split; [|split; [|split; [reflexivity|split; [reflexivity|split; [discriminate|reflexivity]]]]].
  all: split; try (apply fitsb_fits; reflexivity); try reflexivity.
  all: cbn; repeat constructor; apply fitsb_fits; reflexivity.
Qed.

Lemma C04_sample : letter_fits sample_letter /\ length (l_keys sample_letter) <= 16
  /\ assoc_data sample_letter <> assoc_data (set_keys sample_letter []).
Proof. split; [apply sample_letter_ok|]. split; [cbn; lia|discriminate]. Qed.

Lemma C05_refuted_lemma : exists l1 l2,
  letter_fits l1 /\ letter_fits l2 /\ l_apply l1 <> l_apply l2
  /\ to_wire l1 <> to_wire l2
  /\ l_data l1 = l_data l2 /\ l_mac l1 = l_mac l2
  /\ assoc_data l1 = assoc_data l2
  /\ forall ad, assoc_signing_data l1 ad = assoc_signing_data l2 ad.
Proof.
  set (f b := mkLetter 0 [] (lit "nonce") [] (lit "ciphertext") [] [] b).
  assert (Hf : forall b, letter_fits (f b)).
  { intro b. split; try (apply fitsb_fits; reflexivity); try reflexivity. constructor. }
  exists (f true), (f false). split; [apply Hf|]. split; [apply Hf|].
  split; [discriminate|]. split; [discriminate|]. repeat split.
Qed.

Lemma C06_lemma l1 l2 ad1 ad2 :
  letter_fits l1 -> letter_fits l2 ->
  (length (l_keys l1) <= 16 \/
   (Forall (fun s => seal_value s <> []) (l_keys l1) /\ Forall (fun s => seal_value s <> []) (l_keys l2))) ->
  (ad1 = [] \/ ad1 = assoc_data l1) -> (ad2 = [] \/ ad2 = assoc_data l2) ->
  length (l_data l1) = length (l_data l2) ->
  l_data l1 ++ assoc_signing_data l1 ad1 = l_data l2 ++ assoc_signing_data l2 ad2 ->
  l_data l1 = l_data l2
  /\ (l_version l1 = l_version l2 /\ l_suite l1 = l_suite l2 /\ l_nonce l1 = l_nonce l2 /\ l_keys l1 = l_keys l2)
  /\ l_mac l1 = l_mac l2.
Proof.
  intros F1 F2 Hu A1 A2 Hl H. destruct (signed_content_inj l1 l2 ad1 ad2 F1 F2 Hu A1 A2 Hl H) as (E1 & E2 & E3).
  split; [assumption|]. split; [now apply header_eq|assumption].
Qed.

Lemma uvarint_length n : (length (uvarint n) <= 10)%nat.
Proof.
  unfold uvarint. assert (forall f m, length (uvarint_aux f m) <= S f) as H; [|apply (H 9)].
  induction f as [|f IH]; intro m; cbn [uvarint_aux]; [cbn; lia|].
  destruct (m <? 128)%N; cbn [length]; [lia|]. specialize (IH (m / 128)%N). lia.
Qed.

(** The signed letter (data [d1], nonce [nonce]) reads as data [d] with another
    nonce and a MAC. *)
Lemma C06_refuted_lemma d nonce :
  (blen nonce < 2 ^ 32)%N -> nonce <> [] -> (blen d < 2 ^ 32)%N ->
  exists l1 l2, letter_fits l1 /\ letter_fits l2
    /\ l_data l1 <> l_data l2
    /\ l_version l1 = 1%N /\ l_suite l1 = lit "sign_v1" /\ l_nonce l1 = nonce /\ l_keys l1 = [] /\ l_mac l1 = []
    /\ l_data l2 = d
    /\ l_version l2 = 1%N /\ l_suite l2 = lit "sign_v1" /\ l_keys l2 = []
    /\ l_data l1 ++ assoc_signing_data l1 [] = l_data l2 ++ assoc_signing_data l2 [].
Proof.
  intros Hn Hne Hd.
  set (h := mkLetter 1 (lit "sign_v1") nonce [] [] [] [] false).
  set (tail := assoc_data h).
  set (h2 := mkLetter 1 (lit "sign_v1") (lit "n") [] [] [] [] false).
  exists (mkLetter 1 (lit "sign_v1") nonce [] (d ++ assoc_data h2 ++ uvarint 5 ++ uvarint (blen tail)) [] [] false).
  exists (mkLetter 1 (lit "sign_v1") (lit "n") [] d tail [] false).
  assert (Ht : (blen tail < 2 ^ 33)%N).
  { unfold tail, assoc_data, h; cbn [l_version l_suite l_nonce l_keys nonempty].
    destruct nonce as [|x nc]; [easy|]. cbn [nonempty].
    change (0 <? 1)%N with true. cbv iota.
    assert (nonempty (lit "sign_v1") = true) as -> by reflexivity.
    remember (x :: nc) as nn eqn:En. clear En Hne.
    unfold block. pose proof (uvarint_length (blen nn)). unfold blen in *.
    rewrite !app_length.
    assert (length (uvarint 1) = 1)%nat by reflexivity. assert (length (uvarint 2) = 1)%nat by reflexivity.
    assert (length (uvarint 3) = 1)%nat by reflexivity.
    assert (length (uvarint (N.of_nat (length (lit "sign_v1")))) = 1)%nat by reflexivity.
    assert (length (lit "sign_v1") = 7)%nat by reflexivity.
    assert (length (@nil byte) = 0)%nat by reflexivity. lia. }
  assert (Hlt : (2 ^ 33 < 2 ^ 63)%N) by reflexivity.
  repeat split; cbn [l_version l_suite l_nonce l_keys l_data l_mac l_sigs]; try reflexivity;
    try (apply fitsb_fits; reflexivity); try constructor; try (unfold fits; lia).
  - unfold fits. pose proof (uvarint_length (blen tail)). unfold blen in *. rewrite !app_length.
    assert (length (assoc_data h2) = 14)%nat by reflexivity. assert (length (uvarint 5) = 1)%nat by reflexivity. lia.
  - intro H. rewrite <- (app_nil_r d) in H at 2. apply app_inv_head in H. discriminate.
  - rewrite !assoc_signing_data_eq by auto. unfold opt_field. cbn [l_mac nonempty].
    change (assoc_data (mkLetter 1 (lit "sign_v1") nonce [] (d ++ assoc_data h2 ++ uvarint 5 ++ uvarint (blen tail)) [] [] false)) with tail.
    change (assoc_data (mkLetter 1 (lit "sign_v1") (lit "n") [] d tail [] false)) with (assoc_data h2).
    rewrite app_nil_r.
    assert (nonempty tail = true) as -> by (unfold tail, assoc_data; reflexivity).
    unfold block. rewrite <- !app_assoc. reflexivity.
Qed.
