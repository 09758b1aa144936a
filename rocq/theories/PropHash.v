(** Property theorems C34-C36: labeled hashes. *)
From Coq Require Import Init.Byte.
From Verif Require Import Prelude PreludeFacts Container ContainerFacts EncodingsFacts Lhash SpecHash.
Ltac Zify.zify_post_hook ::= Z.to_euclidean_division_equations.

(** The model's size table is the specified one. *)
Lemma alg_size_table a s : alg_size a = Some s <-> exists name, In (name, a, 8 * N.to_nat s) hash_table.
Proof.
  split.
  - intro E.
    assert (B : (a < 33)%N) by (destruct (N.lt_ge_cases a 33) as [L|L]; [exact L|exfalso; revert E; unfold alg_size; destruct a as [|p]; [discriminate|]; do 6 (destruct p; try discriminate; try lia)]).
    set (P := fun n => match alg_size n with Some s => existsb (fun x => match x with (_, k, b) => (k =? n)%N && (b =? 8 * N.to_nat s) end) hash_table | None => true end).
    assert (HP : P a = true) by (apply (small_all P 33 a); [vm_compute; reflexivity|lia]).
    unfold P in HP. rewrite E in HP. apply existsb_exists in HP as [[[n k] b] [I X]]. apply andb_prop in X as [X Y].
    apply N.eqb_eq in X. apply Nat.eqb_eq in Y. subst. eauto.
  - intros [name I].
    assert (F : Forall (fun x => match x with (_, k, b) => option_map (fun s => 8 * N.to_nat s) (alg_size k) = Some b end) hash_table) by (repeat constructor).
    rewrite Forall_forall in F. specialize (F _ I). cbv beta iota in F. destruct (alg_size a) as [t|]; [|discriminate].
    injection F as F. f_equal. lia.
Qed.
Lemma alg_size_supported a : supported a <-> alg_size a <> None.
Proof.
  split.
  - intros (name & bits & I). assert (F : Forall (fun x => match x with (_, k, _) => alg_size k <> None end) hash_table) by (repeat constructor; discriminate).
    rewrite Forall_forall in F. exact (F _ I).
  - destruct (alg_size a) as [s|] eqn:E; [|congruence]. apply alg_size_table in E as [n I]. intros _. now exists n, (8 * N.to_nat s).
Qed.
Lemma digest_of_alg_size a d : digest_of_alg a d <-> alg_size a = Some (blen d).
Proof.
  unfold digest_of_alg, blen. split.
  - intros (n & b & I & L). apply alg_size_table. exists n. rewrite Nat2N.id. now rewrite L.
  - intro E. apply alg_size_table in E as [n I]. rewrite Nat2N.id in I. eauto.
Qed.
Lemma digest_small a d : digest_of_alg a d -> (a < 128)%N /\ (blen d < 128)%N.
Proof.
  intros (n & b & I & L). assert (F : Forall (fun x => match x with (_, k, b) => (k < 128)%N /\ b < 1024 end) hash_table) by (repeat constructor; apply Nat.ltb_lt; reflexivity).
  rewrite Forall_forall in F. destruct (F _ I) as [A B]. split; [exact A|]. unfold blen. lia.
Qed.

Lemma get_n64_leb c v r : get_n64 c = Ok (v, r) -> exists e, c = e ++ r /\ leb128 e v.
Proof.
  unfold get_n64. generalize 9. intro f. revert c v r. induction f as [|f IH]; intros c v r; destruct c as [|b c]; cbn [get_n64_aux]; try discriminate.
  - destruct (N.ltb_spec (b2n b) 2); [|discriminate]. intros [= <- <-]. exists [b]. split; [reflexivity|]. constructor. lia.
  - destruct (N.ltb_spec (b2n b) 128).
    + intros [= <- <-]. exists [b]. split; [reflexivity|]. now constructor.
    + intro E. apply bind_ok in E as ([v' r'] & E1 & [= <- <-]). destruct (IH _ _ _ E1) as (e & -> & L). exists (b :: e). split; [reflexivity|]. now constructor.
Qed.

(** ** C34: binary form *)

(** The bytes of a well-formed hash load as the same hash. *)
Theorem C34_round_trip : forall alg digest,
  digest_of_alg alg digest -> lh_load (lh_bytes (LH alg digest)) = Ok (LH alg digest).
Proof.
  intros alg digest D. destruct (digest_small _ _ D) as [A B]. unfold lh_load, lh_bytes. cbn [lh_alg lh_digest].
  rewrite get_n64_uvarint by lia. cbn [bind]. rewrite <- (app_nil_r (block digest)), get_block_block by (unfold fits; lia). cbn [bind].
  apply digest_of_alg_size in D. now rewrite D, N.eqb_refl.
Qed.
Print Assumptions C34_round_trip.

(** Every hash a program can hold is well formed: those made by digesting data and those loaded. *)
Theorem C34_made_well_formed : forall H, hash_family H ->
  (forall alg data h, lh_of H alg data = Ok h -> lh_alg h = alg /\ lh_digest h = H alg data /\ digest_of_alg alg (lh_digest h))
  /\ (forall alg data, supported alg -> lh_of H alg data = Ok (LH alg (H alg data)))
  /\ (forall alg data, ~ supported alg -> lh_of H alg data = Panic).
Proof.
  intros H F. repeat apply conj.
  - intros alg data h E. unfold lh_of in E. destruct (alg_size alg) as [s|] eqn:S; [|discriminate]. injection E as <-. cbn. repeat split.
    apply F. apply alg_size_supported. congruence.
  - intros alg data S. apply alg_size_supported in S. unfold lh_of. destruct (alg_size alg); congruence.
  - intros alg data S. unfold lh_of. destruct (alg_size alg) eqn:E; [|reflexivity]. exfalso. apply S, alg_size_supported. congruence.
Qed.
Print Assumptions C34_made_well_formed.

(** What Load accepts: exactly a supported number, the length of its digest, that many bytes and nothing else. *)
Theorem C34_load_exact : forall raw,
  lh_load raw <> Panic
  /\ forall h, lh_load raw = Ok h ->
       digest_of_alg (lh_alg h) (lh_digest h)
       /\ exists a n, raw = a ++ n ++ lh_digest h /\ leb128 a (lh_alg h) /\ leb128 n (N.of_nat (length (lh_digest h))).
Proof.
  intro raw. split.
  - unfold lh_load. assert (N64 : forall c, get_n64 c <> Panic).
    { unfold get_n64. generalize 9. intro f. induction f as [|f IH]; intros [|b c]; cbn [get_n64_aux]; try discriminate.
      - destruct (b2n b <? 2)%N; discriminate.
      - destruct (b2n b <? 128)%N; [discriminate|]. specialize (IH c). destruct (get_n64_aux f c) as [[v r]| |]; cbn; congruence. }
    pose proof (N64 raw). destruct (get_n64 raw) as [[v c]| |]; cbn [bind]; try congruence.
    unfold get_block. pose proof (N64 c). destruct (get_n64 c) as [[n c1]| |]; cbn [bind]; try congruence.
    unfold get_bytes. destruct (2 ^ 63 <=? n)%N; cbn [bind]; [|destruct (blen c1 <? n)%N; cbn [bind]; [discriminate|]].
    + destruct c1; [|discriminate]. destruct (alg_size v); [|discriminate]. destruct (_ =? _)%N; discriminate.
    + destruct (skipn _ c1); [|discriminate]. destruct (alg_size v); [|discriminate]. destruct (_ =? _)%N; discriminate.
  - intros h E. unfold lh_load in E. apply bind_ok in E as ([alg c1] & E1 & E). apply bind_ok in E as ([d c2] & E2 & E).
    destruct c2; [|discriminate]. destruct (alg_size alg) as [s|] eqn:S; [|discriminate]. destruct (N.eqb_spec (blen d) s) as [L|]; [|discriminate].
    injection E as <-. cbn [lh_alg lh_digest]. subst s. assert (D : digest_of_alg alg d) by now apply digest_of_alg_size.
    split; [exact D|]. unfold get_block in E2. apply bind_ok in E2 as ([n c3] & E2 & E3).
    apply get_n64_leb in E1 as (a & -> & LA). apply get_n64_leb in E2 as (e & -> & LE). exists a, e.
    unfold get_bytes in E3. destruct (N.leb_spec (2 ^ 63) n) as [G|G].
    + injection E3 as <- ->. cbn in S. destruct D as (nm & b & I & LD). assert (F : Forall (fun x => match x with (_, _, b) => 0 < b end) hash_table) by (repeat constructor; apply Nat.ltb_lt; reflexivity).
      rewrite Forall_forall in F. specialize (F _ I). cbn in *. lia.
    + destruct (N.ltb_spec (blen c3) n) as [L'|L']; [discriminate|]. injection E3 as E3 E4.
      assert (c3 = d) by (rewrite <- (firstn_skipn (N.to_nat n) c3), E3, E4, app_nil_r; reflexivity). subst c3.
      split; [reflexivity|]. split; [exact LA|]. 
      assert (N.to_nat n = length d).
      { unfold blen in L'. pose proof (f_equal (@length byte) E4) as X. rewrite skipn_length in X. cbn in X. lia. }
      now replace (N.of_nat (length d)) with n by lia.
Qed.
Print Assumptions C34_load_exact.

(** Unknown algorithm, wrong digest length, trailing bytes, truncation. *)
Theorem C34_rejects :
  (forall alg digest, (alg < 2 ^ 64)%N -> fits digest -> ~ supported alg -> exists e, lh_load (lh_bytes (LH alg digest)) = Err e)
  /\ (forall alg digest, (alg < 2 ^ 64)%N -> fits digest -> ~ digest_of_alg alg digest -> exists e, lh_load (lh_bytes (LH alg digest)) = Err e)
  /\ (forall alg digest x, digest_of_alg alg digest -> x <> [] -> exists e, lh_load (lh_bytes (LH alg digest) ++ x) = Err e)
  /\ (forall alg digest p x, digest_of_alg alg digest -> x <> [] -> lh_bytes (LH alg digest) = p ++ x -> exists e, lh_load p = Err e).
Proof.
  assert (W : forall alg digest, (alg < 2 ^ 64)%N -> fits digest -> ~ digest_of_alg alg digest -> exists e, lh_load (lh_bytes (LH alg digest)) = Err e).
  { intros alg digest A Fi D. unfold lh_load, lh_bytes. cbn [lh_alg lh_digest].
    rewrite get_n64_uvarint by lia. cbn [bind]. rewrite <- (app_nil_r (block digest)), get_block_block by assumption. cbn [bind].
    rewrite digest_of_alg_size in D. destruct (alg_size alg) as [s|]; [|eauto]. destruct (N.eqb_spec (blen digest) s); [congruence|eauto]. }
  repeat apply conj.
  - intros alg digest A Fi U. apply W; auto. intros (n & b & I & _). apply U. now exists n, b.
  - exact W.
  - intros alg digest x D NE. destruct (digest_small _ _ D) as [A B]. unfold lh_load, lh_bytes. cbn [lh_alg lh_digest].
    rewrite <- app_assoc, get_n64_uvarint by lia. cbn [bind]. rewrite get_block_block by (unfold fits; lia). cbn [bind].
    destruct x; [congruence|eauto].
  - intros alg digest p x D NE E. destruct (digest_small _ _ D) as [A B]. pose proof (C34_load_exact p) as [NP EX].
    destruct (lh_load p) as [h| |] eqn:L; [exfalso|eauto|congruence].
    unfold lh_load in L. apply bind_ok in L as ([a1 c1] & E1 & L). apply bind_ok in L as ([d1 c2] & E2 & L).
    pose proof (get_n64_mono _ _ _ x E1) as M1. rewrite <- E in M1. unfold lh_bytes in M1. cbn [lh_alg lh_digest] in M1.
    rewrite get_n64_uvarint in M1 by lia. injection M1 as <- M1.
    pose proof (get_block_mono _ _ _ x E2) as M2. rewrite <- M1, <- (app_nil_r (block digest)), get_block_block in M2 by (unfold fits; lia).
    injection M2 as _ M2. destruct c2; [|discriminate]. cbn in M2. congruence.
Qed.
Print Assumptions C34_rejects.

(** Load is not injective on bytes: a padded number is accepted, so two byte strings can be the same hash. *)
Theorem C34_noncanonical_accepted : exists raw h, lh_load raw = Ok h /\ lh_bytes h <> raw.
Proof.
  exists ([n2b 137; n2b 0; n2b 32] ++ repeat (n2b 7) 32), (LH 9 (repeat (n2b 7) 32)). split; [vm_compute; reflexivity|vm_compute; discriminate].
Qed.
Print Assumptions C34_noncanonical_accepted.

Definition toy_hash (alg : N) (data : bytes) : bytes :=
  match alg_size alg with Some s => repeat (n2b (fold_left (fun a b => a * 3 + b2n b)%N data alg)) (N.to_nat s) | None => [] end.
Lemma toy_hash_family : hash_family toy_hash.
Proof.
  intros alg data S. apply alg_size_supported in S. apply digest_of_alg_size. unfold toy_hash. destruct (alg_size alg) as [s|]; [|congruence].
  unfold blen. rewrite repeat_length. f_equal. lia.
Qed.
Example C34_hypotheses_met : hash_family toy_hash /\ supported 27 /\ digest_of_alg 27 (toy_hash 27 (lit "abc"))
  /\ ~ supported 7 /\ ~ digest_of_alg 9 (toy_hash 27 (lit "abc")).
Proof.
  repeat apply conj.
  - apply toy_hash_family.
  - apply alg_size_supported. discriminate.
  - apply toy_hash_family, alg_size_supported. discriminate.
  - rewrite alg_size_supported. now vm_compute.
  - rewrite digest_of_alg_size. now vm_compute.
Qed.

(** ** C35: text forms *)
Theorem C35_text_round_trip : forall alg digest, digest_of_alg alg digest ->
  let h := LH alg digest in
  lh_from_hex (lh_hex h) = Ok h /\ lh_from_base64 (lh_base64 h) = Ok h /\ lh_from_base58 (lh_base58 h) = Ok h.
Proof.
  intros alg digest D h. pose proof (C34_round_trip _ _ D) as RT. fold h in RT.
  assert (NE : lh_bytes h <> []). { unfold lh_bytes. destruct (uvarint (lh_alg h)) eqn:E; [now apply uvarint_ne in E|discriminate]. }
  unfold lh_from_hex, lh_hex, lh_from_base64, lh_base64, lh_from_base58, lh_base58.
  rewrite hex_round_trip, b64_round_trip, (b58_round_trip _ NE). cbn [bind]. auto.
Qed.
Print Assumptions C35_text_round_trip.

(** The text forms use only the characters of their alphabets: lower-case hex digits, URL-safe characters, base58 characters. *)
Theorem C35_text_alphabets : forall alg digest, let h := LH alg digest in
  (forall c, In c (lh_hex h) -> In c (lit "0123456789abcdef"))
  /\ (forall c, In c (lh_base64 h) -> In c (lit "ABCDEFGHIJKLMNOPQRSTUVWXYZabcdefghijklmnopqrstuvwxyz0123456789-_"))
  /\ (forall c, In c (lh_base58 h) -> In c (lit "123456789ABCDEFGHJKLMNPQRSTUVWXYZabcdefghijkmnopqrstuvwxyz")).
Proof.
  intros alg digest h. repeat apply conj; intro c.
  - unfold lh_hex. generalize (lh_bytes h). intro l. induction l as [|b l IH]; [intros []|]. cbn [hex_encode]. pose proof (b2n_lt b).
    intros [<-|[<-|I]]; [| |auto]; apply (nth_In hex_alphabet); change (length hex_alphabet) with 16; lia.
  - unfold lh_base64, b64_encode. intro I. apply in_map_iff in I as (n & <- & I). pose proof (b64_groups_small (lh_bytes h)) as F.
    rewrite Forall_forall in F. apply F in I. apply (nth_In (b64_alphabet true)). change (length (b64_alphabet true)) with 64. lia.
  - unfold lh_base58, b58_encode. intro I. apply in_map_iff in I as (n & <- & I). pose proof (rebase_small 256 58 (map b2n (lh_bytes h)) ltac:(lia)) as F.
    rewrite Forall_forall in F. apply F in I. apply (nth_In b58_alphabet). change (length b58_alphabet) with 58. lia.
Qed.
Print Assumptions C35_text_alphabets.

(** What the From functions accept besides: base64 text may be broken into lines anywhere (CR and LF are skipped), hex digits
    may have either case; any other character that is not in the alphabet makes the text unreadable. *)
Definition line_break (c : byte) : bool := match c with x0a | x0d => true | _ => false end.
Lemma index_of_in b l n : index_of b l = Some n -> In b l.
Proof.
  revert n. induction l as [|x l IH]; intro n; [discriminate|]. cbn [index_of]. destruct (byte_eqb x b) eqn:EB; [left; now apply byte_eqb_eq|].
  destruct (index_of b l) as [m|]; [|discriminate]. intros _. right. eapply IH. reflexivity.
Qed.
Lemma mapM_index (l : bytes) (alphabet : bytes) ds : mapM (fun b => of_option EOther (index_of b alphabet)) l = Ok ds -> forall c, In c l -> In c alphabet.
Proof.
  intro H. apply mapM_ok_Forall2 in H. induction H as [|b d l ds E F IH]; [intros c []|]. intros c [<-|I]; [|auto].
  destruct (index_of b alphabet) as [n|] eqn:X; [|discriminate]. eapply index_of_in, X.
Qed.
Theorem C35_line_breaks : forall s t,
  filter (fun c => negb (line_break c)) s = filter (fun c => negb (line_break c)) t -> lh_from_base64 s = lh_from_base64 t.
Proof.
  intros s t E. unfold lh_from_base64, b64_decode.
  assert (N : forall c, is_newline c = line_break c) by (intro c; destruct c; reflexivity).
  assert (F : forall l, filter (fun c => negb (is_newline c)) l = filter (fun c => negb (line_break c)) l).
  { intro l. apply filter_ext. intro c. now rewrite N. }
  now rewrite !F, E.
Qed.
Print Assumptions C35_line_breaks.
Theorem C35_foreign_characters : forall s h,
  (lh_from_hex s = Ok h -> forall c, In c s -> In c (lit "0123456789abcdefABCDEF"))
  /\ (lh_from_base64 s = Ok h -> forall c, In c s -> In c (lit "ABCDEFGHIJKLMNOPQRSTUVWXYZabcdefghijklmnopqrstuvwxyz0123456789-_") \/ line_break c = true)
  /\ (lh_from_base58 s = Ok h -> forall c, In c s -> In c (lit "123456789ABCDEFGHJKLMNPQRSTUVWXYZabcdefghijkmnopqrstuvwxyz")).
Proof.
  intros s h. split; [|split]; intro H.
  - apply bind_ok in H as (raw & D & _). revert raw D.
    assert (V : forall c n, hex_val c = Some n -> In c (lit "0123456789abcdefABCDEF")).
    { intros c n E. assert (G : match hex_val c with Some _ => existsb (byte_eqb c) (lit "0123456789abcdefABCDEF") | None => true end = true) by (destruct c; reflexivity).
      rewrite E in G. apply existsb_exists in G as (x & I & X). apply byte_eqb_eq in X as ->; exact I. }
    assert (G : forall n s, length s <= n -> forall raw, hex_decode s = Ok raw -> forall c, In c s -> In c (lit "0123456789abcdefABCDEF")).
    { induction n as [|n IH]; intros [|a [|b r]] L raw D c I; try (destruct I); try discriminate; try (cbn in L; lia).
      - cbn [hex_decode] in D. destruct (hex_val a) as [x|] eqn:EA; [|discriminate]. subst. eapply V, EA.
      - cbn [hex_decode] in D. destruct (hex_val a) as [x|] eqn:EA; [|discriminate]. destruct (hex_val b) as [y|] eqn:EB; [|discriminate].
        apply bind_ok in D as (t & D & _). destruct H as [<-|I]; [eapply V, EB|]. apply (IH r) with (raw := t); [cbn in L; lia|exact D|exact I]. }
    exact (G (length s) s (le_n _)).
  - apply bind_ok in H as (raw & D & _). unfold b64_decode in D. apply bind_ok in D as (ds & D & _). intros c I.
    destruct (line_break c) eqn:LB; [now right|left]. apply (mapM_index _ _ _ D). apply filter_In. split; [exact I|]. destruct c; try discriminate LB; reflexivity.
  - apply bind_ok in H as (raw & D & _). unfold b58_decode in D. destruct s as [|b s]; [discriminate|]. apply bind_ok in D as (ds & D & _).
    exact (mapM_index _ _ _ D).
Qed.
Print Assumptions C35_foreign_characters.
Example C35_line_breaks_met : let h := LH 9 (repeat (n2b 7) 32) in
  let broken := firstn 20 (lh_base64 h) ++ [x0d; x0a] ++ skipn 20 (lh_base64 h) ++ [x0a] in
  broken <> lh_base64 h /\ lh_from_base64 broken = Ok h /\ lh_from_base64 (x20 :: lh_base64 h) = Err EOther.
Proof. split; [vm_compute; discriminate|]. split; vm_compute; reflexivity. Qed.

Example C35_hypotheses_met : let h := LH 25 (repeat (n2b 0) 31 ++ [n2b 200]) in
  digest_of_alg (lh_alg h) (lh_digest h) /\ lh_from_base58 (lh_base58 h) = Ok h.
Proof. split; [apply digest_of_alg_size; vm_compute; reflexivity|vm_compute; reflexivity]. Qed.

(** ** C36: comparisons *)
Theorem C36_equal : forall a b,
  lh_equal a b = true <-> lh_alg a = lh_alg b /\ lh_digest a = lh_digest b.
Proof.
  intros a b. unfold lh_equal. rewrite andb_true_iff, N.eqb_eq, bytes_eqb_eq. reflexivity.
Qed.
Print Assumptions C36_equal.

(** Equal is the equality of the binary forms. *)
Theorem C36_equal_bytes : forall a b,
  digest_of_alg (lh_alg a) (lh_digest a) -> digest_of_alg (lh_alg b) (lh_digest b) ->
  (lh_equal a b = true <-> lh_bytes a = lh_bytes b).
Proof.
  intros [a1 d1] [a2 d2] D1 D2. cbn [lh_alg lh_digest] in *. rewrite C36_equal. cbn [lh_alg lh_digest]. split.
  - intros [-> ->]. reflexivity.
  - intro E. pose proof (C34_round_trip _ _ D1) as R1. pose proof (C34_round_trip _ _ D2) as R2. rewrite E in R1. rewrite R1 in R2. injection R2 as -> ->. auto.
Qed.
Print Assumptions C36_equal_bytes.

Theorem C36_matches : forall H h data, hash_family H -> supported (lh_alg h) ->
  exists b, lh_matches H h data = Ok b /\ (b = true <-> H (lh_alg h) data = lh_digest h).
Proof.
  intros H h data F S. unfold lh_matches. apply alg_size_supported in S. unfold lh_of. destruct (alg_size (lh_alg h)) eqn:E; [|congruence]. cbn [bind].
  eexists. split; [reflexivity|]. rewrite C36_equal. cbn. split; [intros [_ X]; now symmetry|intro X; auto].
Qed.
Print Assumptions C36_matches.

(** A digest matches the data it was made of; two different inputs that match one hash are a collision of its algorithm. *)
Theorem C36_matches_own : forall H alg data h, lh_of H alg data = Ok h -> lh_matches H h data = Ok true.
Proof.
  intros H alg data h E. unfold lh_matches. assert (A : lh_alg h = alg) by (unfold lh_of in E; destruct (alg_size alg); [injection E as <-; reflexivity|discriminate]).
  rewrite A, E. cbn. f_equal. apply C36_equal. auto.
Qed.
Print Assumptions C36_matches_own.
Theorem C36_matches_collision : forall H h d1 d2,
  lh_matches H h d1 = Ok true -> lh_matches H h d2 = Ok true -> d1 = d2 \/ (d1 <> d2 /\ H (lh_alg h) d1 = H (lh_alg h) d2).
Proof.
  intros H h d1 d2 E1 E2. destruct (bytes_eq_dec d1 d2) as [|N]; [auto|right]. split; [exact N|].
  unfold lh_matches, lh_of in *. destruct (alg_size (lh_alg h)); [|discriminate]. cbn [bind] in *. injection E1 as E1. injection E2 as E2.
  apply C36_equal in E1 as [_ E1]. apply C36_equal in E2 as [_ E2]. cbn in *. congruence.
Qed.
Print Assumptions C36_matches_collision.
(** EqualRaw is equality of the bare digest. *)
Theorem C36_equal_raw : forall a digest, lh_equal_raw a digest = true <-> lh_digest a = digest.
Proof. intros a digest. unfold lh_equal_raw. apply bytes_eqb_eq. Qed.
Print Assumptions C36_equal_raw.
Example C36_hypotheses_met : hash_family toy_hash /\ supported 9 /\ lh_matches toy_hash (LH 9 (toy_hash 9 (lit "data"))) (lit "data") = Ok true
  /\ lh_matches toy_hash (LH 9 (toy_hash 9 (lit "data"))) (lit "Data") = Ok false.
Proof. repeat apply conj; [apply toy_hash_family|apply alg_size_supported; discriminate|vm_compute; reflexivity..]. Qed.
