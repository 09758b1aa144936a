(** C40, C41: checksums in text files. *)
From Coq Require Import Init.Byte.
From Verif Require Import Prelude PreludeFacts Container Encodings EncodingsFacts Lhash SpecHash PropHash SpecText Text TextFacts.

Definition short_lines (data : bytes) : Prop := exists ls, lines_of data ls /\ Forall short_line ls.
(** The checksum text [t] is the checksum of [content]. *)
Definition checksum_of (H : N -> bytes -> bytes) (t content : bytes) : Prop :=
  exists h, lh_from_base58 t = Ok h /\ H (lh_alg h) content = lh_digest h.

Lemma short_lines_scan data : short_lines data <-> scan data = Ok (raw_lines [] data).
Proof.
  split.
  - intros (ls & L & F). apply scan_iff. apply lines_of_iff in L. subst. split; [apply lines_of_raw|exact F].
  - intro E. apply scan_iff in E. exists (raw_lines [] data). exact E.
Qed.
Lemma not_short_scan data : scan data <> Ok (raw_lines [] data) -> scan data = Err EOther.
Proof. unfold scan. destruct forallb; congruence. Qed.
Lemma from_base58_alg t h : lh_from_base58 t = Ok h -> alg_size (lh_alg h) <> None.
Proof.
  unfold lh_from_base58. intro E. apply bind_ok in E as (raw & _ & E). unfold lh_load in E. apply bind_ok in E as ([alg c1] & _ & E). apply bind_ok in E as ([d c2] & _ & E).
  cbn in E. destruct c2; [|discriminate]. destruct (alg_size alg) eqn:A; [|discriminate].
  destruct (_ =? _)%N; [|discriminate]. injection E as <-. cbn. congruence.
Qed.
Lemma check_line_iff H c m : check_line H c m = Ok tt <-> checksum_of H (checksum_text m) c.
Proof.
  unfold check_line, checksum_of. destruct (lh_from_base58 (checksum_text m)) as [h|e| ] eqn:E.
  - unfold lh_matches, lh_of. apply from_base58_alg in E. destruct (alg_size (lh_alg h)); [|congruence]. cbn. unfold lh_equal. cbn. rewrite N.eqb_refl. cbn.
    destruct (bytes_eqb (lh_digest h) (H (lh_alg h) c)) eqn:B; split; try discriminate.
    + intros _. apply bytes_eqb_eq in B. eauto.
    + reflexivity.
    + intros (h' & [= <-] & X). rewrite X, bytes_eqb_refl in B. discriminate.
  - split; [discriminate|]. intros (h & X & _). discriminate.
  - split; [discriminate|]. intros (h & X & _). discriminate.
Qed.
Lemma check_line_cases H c m : check_line H c m = Ok tt \/ check_line H c m = Err EChecksumMismatch.
Proof.
  unfold check_line. destruct (lh_from_base58 (checksum_text m)) as [h|e| ] eqn:E; auto.
  unfold lh_matches, lh_of. apply from_base58_alg in E. destruct (alg_size (lh_alg h)); [|congruence]. cbn. destruct (lh_equal _ _); auto.
Qed.
Lemma iterM_check H c l : (iterM (check_line H c) l = Ok tt /\ forall m, In m l -> checksum_of H (checksum_text m) c)
  \/ (iterM (check_line H c) l = Err EChecksumMismatch /\ exists m, In m l /\ ~ checksum_of H (checksum_text m) c).
Proof.
  induction l as [|m l IH]; cbn [iterM]; [left; split; [reflexivity|intros m []]|].
  destruct (check_line_cases H c m) as [E|E]; rewrite E; cbn [bind].
  - destruct IH as [[E2 A]|[E2 (n & I & N)]]; rewrite E2.
    + left. split; [reflexivity|]. intros n [<-|I]; [now apply check_line_iff|auto].
    + right. split; [reflexivity|]. exists n. split; [now right|exact N].
  - right. split; [reflexivity|]. exists m. split; [now left|]. rewrite <- check_line_iff. congruence.
Qed.
Lemma has_checksum_iff sign data t : has_checksum sign data t <->
  exists m, In m (filter is_checksum_line (metas_of sign data)) /\ checksum_text m = t.
Proof.
  unfold has_checksum. split.
  - intros (ls & l & L & I & C). apply lines_of_iff in L. subst ls. apply checksum_line_iff in C as (M & C & T). exists (trim_space (trim_prefix sign l)). split; [|exact T].
    apply filter_In. split; [|exact C]. unfold metas_of. apply in_map_iff. exists l. split; [reflexivity|]. apply filter_In. auto.
  - intros (m & I & T). apply filter_In in I as [I C]. unfold metas_of in I. apply in_map_iff in I as (l & <- & I). apply filter_In in I as [I M].
    exists (raw_lines [] data), l. split; [apply lines_of_raw|]. split; [exact I|]. apply checksum_line_iff. auto.
Qed.

(** ** C41: verification is sound, and exact. *)
Theorem C41_verify_exact : forall H data sign,
  verify_text_checksum H data sign = Ok tt <->
  short_lines data
  /\ exists content, content_of sign data content
     /\ (exists t, has_checksum sign data t)
     /\ forall t, has_checksum sign data t -> checksum_of H t content.
Proof.
  intros H data sign. rewrite short_lines_scan. unfold verify_text_checksum. destruct (scan data) as [ls|e| ] eqn:S.
  2,3: (unfold text_split; rewrite S; cbn; split; [discriminate|intros [X _]; discriminate]).
  assert (S' : scan data = Ok (raw_lines [] data)) by (rewrite S; f_equal; apply scan_iff in S as [S _]; now apply lines_of_iff).
  rewrite (text_split_eq _ _ _ S). cbn [bind]. rewrite <- S, S'. clear S S' ls. set (c := trim_space (body_of sign data)).
  destruct (iterM_check H c (filter is_checksum_line (metas_of sign data))) as [[E A]|[E (m & I & N)]]; rewrite E; cbn [bind].
  - destruct (filter is_checksum_line (metas_of sign data)) as [|m ms] eqn:F.
    + split; [discriminate|]. intros (_ & c' & _ & (t & X) & _). apply has_checksum_iff in X as (m & I & _). rewrite F in I. destruct I.
    + split; [intros _; split; [reflexivity|]|reflexivity]. exists c. split; [now apply content_of_iff|]. split.
      * exists (checksum_text m). apply has_checksum_iff. exists m. split; [rewrite F; now left|reflexivity].
      * intros t X. apply has_checksum_iff in X as (n & I & <-). rewrite F in I. auto.
  - split; [discriminate|]. intros (_ & c' & C & _ & A). exfalso. apply N. apply content_of_iff in C. fold c in C. subst c'. apply A. apply has_checksum_iff. eauto.
Qed.

(** What the errors say. *)
Theorem C41_errors : forall H data sign, short_lines data ->
  (verify_text_checksum H data sign = Err EChecksumMissing <-> forall t, ~ has_checksum sign data t)
  /\ (verify_text_checksum H data sign = Err EChecksumMismatch <->
      exists content t, content_of sign data content /\ has_checksum sign data t /\ ~ checksum_of H t content).
Proof.
  intros H data sign S. apply short_lines_scan in S. unfold verify_text_checksum. rewrite (text_split_eq _ _ _ S). cbn [bind]. set (c := trim_space (body_of sign data)).
  destruct (iterM_check H c (filter is_checksum_line (metas_of sign data))) as [[E A]|[E (m & I & N)]]; rewrite E; cbn [bind].
  - destruct (filter is_checksum_line (metas_of sign data)) as [|m ms] eqn:F.
    + assert (NO : forall t, ~ has_checksum sign data t) by (intros t X; apply has_checksum_iff in X as (m & I & _); rewrite F in I; destruct I).
      split; [split; [intros _; exact NO|reflexivity]|]. split; [discriminate|]. intros (c' & t & _ & X & _). now apply NO in X.
    + split.
      * split; [discriminate|]. intro NO. exfalso. apply (NO (checksum_text m)). apply has_checksum_iff. exists m. split; [rewrite F; now left|reflexivity].
      * split; [discriminate|]. intros (c' & t & C & X & N). exfalso. apply content_of_iff in C. fold c in C. subst c'. apply N.
        apply has_checksum_iff in X as (n & I & <-). rewrite F in I. auto.
  - split.
    + split; [discriminate|]. intro NO. exfalso. apply (NO (checksum_text m)). apply has_checksum_iff. eauto.
    + split; [intros _|reflexivity]. exists c, (checksum_text m). split; [now apply content_of_iff|]. split; [apply has_checksum_iff; eauto|exact N].
Qed.

(** Two verified files with a common checksum have the same content, or a digest function collides. *)
Theorem C41_same_checksum : forall H d1 d2 sign t c1 c2,
  verify_text_checksum H d1 sign = Ok tt -> verify_text_checksum H d2 sign = Ok tt ->
  has_checksum sign d1 t -> has_checksum sign d2 t -> content_of sign d1 c1 -> content_of sign d2 c2 ->
  c1 = c2 \/ (c1 <> c2 /\ exists alg, supported alg /\ H alg c1 = H alg c2).
Proof.
  intros H d1 d2 sign t c1 c2 V1 V2 T1 T2 C1 C2. apply C41_verify_exact in V1 as (_ & k1 & K1 & _ & A1). apply C41_verify_exact in V2 as (_ & k2 & K2 & _ & A2).
  apply content_of_iff in C1, C2, K1, K2. subst k1 k2. rewrite C1 in A1. rewrite C2 in A2. destruct (A1 _ T1) as (h & E1 & M1). destruct (A2 _ T2) as (h' & E2 & M2).
  assert (h' = h) by congruence. subst h'. destruct (bytes_eqb c1 c2) eqn:E; [left; now apply bytes_eqb_eq|]. right.
  split; [intros ->; rewrite bytes_eqb_refl in E; discriminate|]. exists (lh_alg h). split; [apply alg_size_supported; now apply (from_base58_alg t)|congruence].
Qed.

(** ** C40: an added checksum verifies. *)

(** Edges of white space runes. *)
Lemma space_first p : In p space_runes -> exists x r, p = x :: r /\ In x [x09; x0a; x0b; x0c; x0d; x20; xc2; xe1; xe2; xe3].
Proof.
  intro I. repeat (destruct I as [<-|I]; [eexists _, _; split; [reflexivity|cbn; tauto]|]). destruct I.
Qed.
Lemma space_last p : In p space_runes -> exists x r, p = r ++ [x] /\ (b2n x <= 32 \/ 127 < b2n x)%N.
Proof.
  intro I. assert (F : forallb (fun p => match rev p with [] => false | x :: _ => (b2n x <=? 32) || (127 <? b2n x) end)%N space_runes = true) by (vm_compute; reflexivity).
  rewrite forallb_forall in F. apply F in I. destruct (rev p) as [|x r] eqn:E; [discriminate|]. exists x, (rev r). split; [|apply orb_prop in I as [I|I]; [left; now apply N.leb_le|right; now apply N.ltb_lt]].
  rewrite <- (rev_involutive p), E. reflexivity.
Qed.
Definition graphic (b : byte) : Prop := (32 < b2n b < 127)%N.
Lemma graphic_not_first b : graphic b -> ~ In b [x09; x0a; x0b; x0c; x0d; x20; xc2; xe1; xe2; xe3].
Proof. intros G I. repeat (destruct I as [<-|I]; [unfold graphic in G; cbn in G; lia|]). destruct I. Qed.
Lemma trimmed_edges x y l z : graphic x -> graphic y -> l = x :: z -> (exists w, l = w ++ [y]) -> trimmed l.
Proof.
  intros GX GY E [w W] p r I. split; intro X.
  - destruct (space_first p I) as (a & t & -> & A). rewrite E in X. injection X as -> _. now apply graphic_not_first in A.
  - destruct (space_last p I) as (a & t & -> & A). rewrite W, app_assoc in X. apply app_inj_tail in X as [_ ->]. unfold graphic in GY. lia.
Qed.
Lemma blank_not_graphic b x r : blank b -> b = x :: r -> ~ graphic x.
Proof.
  intros (ws & W & E) E2 G. destruct ws as [|w ws]; [subst; discriminate|]. destruct (space_first w) as (y & t & -> & Y); [apply W; now left|].
  rewrite E2 in E. cbn in E. injection E as -> _. now apply graphic_not_first in Y.
Qed.
(** Graphic characters at the start of [y] stay, and are at the start of the result. *)
Lemma trim_graphic p x : p <> [] -> Forall graphic p -> exists x' b, blank b /\ x = x' ++ b /\ trim_space (p ++ x) = p ++ x'.
Proof.
  intros NE G. destruct (trim_decomp (p ++ x)) as (a & b & A & B & E & T). set (t := trim_space (p ++ x)) in *.
  destruct a as [|c a].
  2:{ exfalso. destruct p as [|d p]; [congruence|]. cbn in E. injection E as -> _. inversion G; subst. now apply (blank_not_graphic _ _ _ A eq_refl). }
  cbn in E. apply app_eq_app in E as [m [[E1 E2]|[E1 E2]]].
  - destruct m as [|c m].
    + rewrite app_nil_r in E1. cbn in E2. exists [], b. rewrite app_nil_r. split; [exact B|]. split; [now rewrite E2|now rewrite <- E1].
    + exfalso. rewrite Forall_forall in G. apply (blank_not_graphic _ _ _ B E2). apply G. rewrite E1. apply in_or_app. right. now left.
  - exists m, b. auto.
Qed.
Lemma newline_blank_le le : le = [x0a] \/ le = [x0d; x0a] -> blank le.
Proof.
  intros [->| ->]; [apply blank_one; cbn; tauto|]. exists [[x0d]; [x0a]]. split; [|reflexivity]. intros w [<-|[<-|[]]]; cbn; tauto.
Qed.
Lemma space_blank : blank [x20].
Proof. apply blank_one. cbn. tauto. Qed.

(** A metadata entry: trimmed, no line break in it, starts with the key prefix. *)
Definition entry (m : bytes) : Prop := trimmed m /\ ~ In x0a m /\ exists r, m = key_prefix ++ r.
Lemma key_graphic : Forall graphic key_prefix.
Proof. repeat constructor; cbn; lia. Qed.
Lemma metas_entries sign data m : In m (metas_of sign data) -> entry m.
Proof.
  intro I. unfold metas_of in I. apply in_map_iff in I as (l & <- & I). apply filter_In in I as [I M]. apply has_prefix_true in M as [r ->].
  unfold meta_prefix in *. rewrite <- !app_assoc in *. rewrite trim_prefix_app. split; [apply trim_space_trimmed|].
  destruct (trim_graphic key_prefix r) as (r' & b & B & -> & E); [discriminate|apply key_graphic|].
  assert (E2 : trim_space (lit " " ++ key_prefix ++ r' ++ b) = key_prefix ++ r').
  { apply trim_eq; [|rewrite <- E; apply trim_space_trimmed]. exists [x20], b. split; [apply space_blank|]. split; [exact B|]. now rewrite <- !app_assoc. }
  rewrite E2. split; [|now exists r'].
  intro NL. assert (T : trimmed (key_prefix ++ r')) by (rewrite <- E; apply trim_space_trimmed).
  (* a line has its line break at the end only *)
  pose proof (lines_of_raw data) as (w & t & EL & F & TT & _). rewrite EL in I. apply in_app_or in I as [I|I].
  - rewrite Forall_forall in F. destruct (F _ I) as (v & V & EV). rewrite (app_assoc key_prefix), (app_assoc (lit " ")), (app_assoc sign) in EV. set (h := sign ++ lit " " ++ key_prefix ++ r') in *.
    assert (NH : In x0a h) by (unfold h; apply in_or_app; right; apply in_or_app; right; exact NL).
    replace ((sign ++ lit " " ++ key_prefix ++ r') ++ b) with (h ++ b) in EV by reflexivity.
    apply app_eq_app in EV as [u [[EH EB]|[EH EB]]].
    + destruct u as [|y u]; [rewrite app_nil_r in EH; subst v; contradiction|]. destruct u; [|destruct b; discriminate].
      cbn in EB. injection EB as <- EB. destruct (exists_last (l := key_prefix ++ r')) as (k & z & K); [discriminate|].
      unfold h in EH. rewrite K, !app_assoc in EH. apply app_inj_tail in EH as [_ ->]. destruct (T [x0a] k) as [_ X]; [cbn; tauto|]. now apply X.
    + apply V. rewrite EH. apply in_or_app. now left.
  - destruct TT as [->|(u & -> & _ & N)]; [destruct I|]. destruct I as [->|[]]. apply N. apply in_or_app. right. apply in_or_app. right. rewrite app_assoc. apply in_or_app. now left.
Qed.

Lemma base58_graphic c : In c (lit "123456789ABCDEFGHJKLMNPQRSTUVWXYZabcdefghijkmnopqrstuvwxyz") -> graphic c /\ ~ In c (lit ":= ").
Proof.
  intro I. assert (F : forallb (fun c => ((32 <? b2n c) && (b2n c <? 127))%N && negb (existsb (byte_eqb c) (lit ":= "))) (lit "123456789ABCDEFGHJKLMNPQRSTUVWXYZabcdefghijkmnopqrstuvwxyz") = true) by (vm_compute; reflexivity).
  rewrite forallb_forall in F. apply F in I. apply andb_prop in I as [A B]. apply andb_prop in A as [A1 A2]. apply N.ltb_lt in A1, A2. split; [split; assumption|].
  intro J. apply existsb_byte in J. rewrite J in B. discriminate.
Qed.
(** The new entry. *)
Section New.
Variable H : N -> bytes -> bytes.
Variable c : bytes.
Hypothesis HF : hash_family H.
Definition new_hash : lhash := LH BLAKE2b_256 (H BLAKE2b_256 c).
Definition new_meta : bytes := checksum_key ++ lit ": " ++ lh_base58 new_hash.
Lemma new_digest : digest_of_alg BLAKE2b_256 (H BLAKE2b_256 c).
Proof. apply HF. apply alg_size_supported. discriminate. Qed.
Lemma new_nonempty : lh_base58 new_hash <> [].
Proof.
  intro E. destruct (C35_text_round_trip _ _ new_digest) as (_ & _ & R). cbn zeta in R. fold new_hash in R. rewrite E in R. unfold lh_from_base58 in R. cbn in R. discriminate.
Qed.
Lemma new_chars x : In x (lh_base58 new_hash) -> graphic x /\ ~ In x (lit ":= ").
Proof. intro I. apply base58_graphic. now apply (C35_text_alphabets BLAKE2b_256 (H BLAKE2b_256 c)). Qed.
Lemma new_last : exists w y, lh_base58 new_hash = w ++ [y] /\ graphic y /\ ~ In y (lit ":= ").
Proof.
  destruct (exists_last new_nonempty) as (w & y & E). exists w, y. split; [exact E|]. apply new_chars. rewrite E. apply in_or_app. right. now left.
Qed.
Lemma new_entry : entry new_meta.
Proof.
  destruct new_last as (w & y & E & G & N). split; [|split].
  - apply (trimmed_edges (match new_meta with x :: _ => x | [] => x00 end) y new_meta (tl new_meta)); [unfold graphic; cbn; lia|exact G|reflexivity|].
    exists (checksum_key ++ lit ": " ++ w). unfold new_meta. rewrite E. now rewrite <- !app_assoc.
  - unfold new_meta. intro I. apply in_app_or in I as [I|I]; [revert I; cbn; intuition discriminate|]. apply in_app_or in I as [I|I]; [revert I; cbn; intuition discriminate|].
    apply new_chars in I as [I _]. unfold graphic in I. cbn in I. lia.
  - eexists. unfold new_meta, checksum_key. rewrite <- app_assoc. reflexivity.
Qed.
Lemma new_text : checksum_text new_meta = lh_base58 new_hash.
Proof.
  destruct new_last as (w & y & E & G & N). unfold checksum_text, new_meta. rewrite trim_prefix_app.
  replace (trim_space (lit ": " ++ lh_base58 new_hash)) with (lit ": " ++ lh_base58 new_hash).
  2:{ symmetry. apply trim_eq; [exists [], []; split; [apply blank_nil|]; split; [apply blank_nil|]; now rewrite app_nil_r|].
      eapply (trimmed_edges x3a y); [unfold graphic; cbn; lia|exact G|reflexivity|]. exists (lit ": " ++ w). rewrite E. now rewrite <- app_assoc. }
  apply strips_to_iff. split; [exists (lit ": "), []|split].
  - split; [cbn; tauto|]. split; [intros ? []|]. now rewrite app_nil_r.
  - intros x r X. apply new_chars. rewrite X. now left.
  - intros x r X. apply new_chars. rewrite X. apply in_or_app. right. now left.
Qed.
Lemma new_ok : checksum_of H (checksum_text new_meta) c.
Proof. rewrite new_text. exists new_hash. split; [apply C35_text_round_trip; apply new_digest|reflexivity]. Qed.
Lemma new_is_checksum : is_checksum_line new_meta = true.
Proof. apply has_prefix_true. eexists. reflexivity. Qed.
End New.

Definition is_le (le : bytes) : Prop := le = [x0a] \/ le = [x0d; x0a].
Lemma line_end_is data : is_le (line_end data).
Proof. unfold line_end, is_le. destruct (find_sub [x0a] data) as [[[|x a] b]|]; auto. destruct (has_suffix _ _); auto. Qed.
Definition mline (sign le m : bytes) : bytes := sign ++ lit " " ++ m ++ le.
Lemma mline_complete sign le m : ~ In x0a sign -> is_le le -> entry m -> complete_line (mline sign le m).
Proof.
  intros S L (_ & N & _). unfold mline. destruct L as [->| ->].
  - exists (sign ++ lit " " ++ m). split; [now rewrite <- !app_assoc|]. intro I. apply in_app_or in I as [I|I]; [auto|]. apply in_app_or in I as [[I|[]]|I]; [discriminate|auto].
  - exists (sign ++ lit " " ++ m ++ [x0d]). split; [now rewrite <- !app_assoc|]. intro I. apply in_app_or in I as [I|I]; [auto|]. apply in_app_or in I as [[I|[]]|I]; [discriminate|].
    apply in_app_or in I as [I|[I|[]]]; [auto|discriminate].
Qed.
Lemma mline_meta sign le m : entry m -> has_prefix (meta_prefix sign) (mline sign le m) = true.
Proof. intros (_ & _ & r & ->). apply has_prefix_true. exists (r ++ le). unfold mline, meta_prefix. now rewrite <- !app_assoc. Qed.
Lemma mline_trim sign le m : is_le le -> entry m -> trim_space (trim_prefix sign (mline sign le m)) = m.
Proof.
  intros L (T & _ & _). unfold mline. rewrite trim_prefix_app. apply trim_eq; [|exact T]. exists [x20], le. split; [apply space_blank|]. split; [now apply newline_blank_le|reflexivity].
Qed.
Lemma meta_text_lines sign le metas : meta_text metas sign le = concat (map (mline sign le) metas).
Proof. reflexivity. Qed.

(** The lines of a text with a line break added. *)
Lemma nonmeta_ext sign t le : is_le le -> has_prefix (meta_prefix sign) t = false -> has_prefix (meta_prefix sign) (t ++ le) = false.
Proof.
  intros L N. destruct (has_prefix (meta_prefix sign) (t ++ le)) eqn:E; [|reflexivity]. exfalso. apply has_prefix_true in E as [r E]. apply app_eq_app in E as [m [[E1 E2]|[E1 E2]]].
  - assert (X : has_prefix (meta_prefix sign) t = true) by (apply has_prefix_true; eauto). congruence.
  - destruct m as [|x m]; [rewrite app_nil_r in E1; rewrite <- E1 in N; unfold has_prefix in N; rewrite <- (app_nil_r (meta_prefix sign)) in N at 2; rewrite strip_prefix_app in N; discriminate|].
    destruct (exists_last (l := x :: m)) as (w & z & W); [discriminate|]. rewrite W in E1, E2. assert (Z : z = x2d).
    { unfold meta_prefix in E1. change (lit " " ++ key_prefix) with (lit " jess" ++ [x2d]) in E1. rewrite !app_assoc in E1. apply app_inj_tail in E1 as [_ E1]. now symmetry. }
    subst z. assert (I : In x2d le) by (rewrite E2; apply in_or_app; left; apply in_or_app; right; now left). destruct L as [->| ->]; cbn in I; intuition discriminate.
Qed.
Lemma nonmeta_nil sign : has_prefix (meta_prefix sign) [] = false.
Proof. destruct (has_prefix (meta_prefix sign) []) eqn:E; [|reflexivity]. apply has_prefix_true in E as [r E]. unfold meta_prefix in E. destruct sign; discriminate. Qed.
Definition nonmeta (sign : bytes) (ls : list bytes) : Prop := forall x, In x ls -> has_prefix (meta_prefix sign) x = false.
Lemma nonmeta_app_le sign y le : is_le le -> nonmeta sign (raw_lines [] y) ->
  nonmeta sign (raw_lines [] (y ++ le)) /\ raw_lines [] (y ++ le) = head_lines [] y ++ [tail_line [] y ++ le].
Proof.
  intros L N. assert (E : raw_lines [] (y ++ le) = head_lines [] y ++ [tail_line [] y ++ le]).
  { rewrite raw_lines_app. f_equal. destruct L as [->| ->]; cbn [raw_lines]; cbn; [reflexivity|]. now rewrite <- app_assoc. }
  split; [|exact E]. rewrite E. intros x I. rewrite raw_lines_split in N. apply in_app_or in I as [I|[<-|[]]]; [apply N; apply in_or_app; now left|].
  apply nonmeta_ext; [exact L|]. destruct (tail_line [] y) as [|c cs]; [apply nonmeta_nil|]. apply N. apply in_or_app. right. now left.
Qed.
Lemma filter_all {A} (f : A -> bool) l : (forall x, In x l -> f x = true) -> filter f l = l.
Proof. induction l as [|x l IH]; intro N; [reflexivity|]. cbn. rewrite (N x) by now left. f_equal. apply IH. intros; apply N; now right. Qed.
Lemma filter_none {A} (f : A -> bool) l : (forall x, In x l -> f x = false) -> filter f l = [].
Proof. induction l as [|x l IH]; intro N; [reflexivity|]. cbn. rewrite (N x) by now left. apply IH. intros; apply N; now right. Qed.

Lemma resplit sign out L1 L2 metas le c : is_le le -> (forall m, In m metas -> entry m) ->
  raw_lines [] out = L1 ++ map (mline sign le) metas ++ L2 -> nonmeta sign L1 -> nonmeta sign L2 -> trim_space (concat L1 ++ concat L2) = c ->
  trim_space (body_of sign out) = c /\ metas_of sign out = metas.
Proof.
  intros L EM E N1 N2 T. unfold body_of, metas_of. rewrite E, !filter_app.
  assert (M : forall x, In x (map (mline sign le) metas) -> has_prefix (meta_prefix sign) x = true) by (intros x I; apply in_map_iff in I as (m & <- & I); apply mline_meta; auto).
  rewrite (filter_all _ L1), (filter_all _ L2), (filter_none _ (map _ _)).
  2:{ intros x I. now rewrite (M x I). } 2:{ intros x I. now rewrite (N2 x I). } 2:{ intros x I. now rewrite (N1 x I). }
  rewrite (filter_none _ L1), (filter_none _ L2), (filter_all _ (map _ _)) by assumption. split.
  - rewrite app_nil_l, concat_app. exact T.
  - rewrite app_nil_l, app_nil_r, map_map. rewrite <- (map_id metas) at 2. apply map_ext_in. intros m I. apply mline_trim; auto.
Qed.

Lemma split_comment_spec sign ls a r : split_comment sign ls = (a, Some r) -> exists l1 l2, ls = l1 ++ l2 /\ l2 <> [] /\ a = concat l1 /\ r = concat l2.
Proof.
  revert a r. induction ls as [|l ls IH]; intros a r; cbn [split_comment]; [discriminate|]. destruct (has_prefix sign l).
  - destruct (split_comment sign ls) as [a' b'] eqn:E. intros [= <- ->]. destruct (IH _ _ eq_refl) as (l1 & l2 & -> & NE & -> & ->). exists (l :: l1), l2. auto.
  - intros [= <- <-]. exists [], (l :: ls). repeat split; discriminate || reflexivity.
Qed.
Lemma split_comment_none sign ls a : split_comment sign ls = (a, None) -> forall l, In l ls -> has_prefix sign l = true.
Proof.
  revert a. induction ls as [|l ls IH]; intros a; cbn [split_comment]; [intros _ l []|]. destruct (has_prefix sign l) eqn:P; [|discriminate].
  destruct (split_comment sign ls) as [a' b'] eqn:E. intros [= _ ->] x [<-|I]; [exact P|]. eapply IH; eauto.
Qed.
(** All lines but the last are complete. *)
Lemma lines_front y l1 l2 : raw_lines [] y = l1 ++ l2 -> l2 <> [] -> Forall complete_line l1 /\ raw_lines [] (concat l2) = l2.
Proof.
  intros E NE. pose proof E as E0. destruct (lines_shape y []) as (w & t & E2 & F & NT & _); [intros []|]. rewrite E2 in E.
  assert (FL : Forall complete_line l1).
  { destruct t as [|x t]; [rewrite app_nil_r in E; subst w; now apply Forall_app in F|]. destruct (exists_last NE) as (l3 & z & ->). rewrite app_assoc in E.
    apply app_inj_tail in E as [-> _]. now apply Forall_app in F. }
  split; [exact FL|]. apply (app_inv_head l1). rewrite <- closed_lines_raw by exact FL. etransitivity; [|exact E0]. f_equal. etransitivity; [|exact (raw_lines_concat y [])]. rewrite E0. symmetry. apply concat_app.
Qed.

Lemma text_add_shape c metas sign p out : ~ In x0a sign -> nonmeta sign (raw_lines [] c) -> (forall m, In m metas -> entry m) -> trimmed c ->
  p <> OtherPlacement ->
  (p = AfterComment \/ p = DefaultPlacement -> c = [] \/ exists l, In l (raw_lines [] c) /\ has_prefix sign l = false) ->
  text_add_meta c metas sign p = Ok out ->
  exists L1 L2, raw_lines [] out = L1 ++ map (mline sign (line_end c)) metas ++ L2 /\ nonmeta sign L1 /\ nonmeta sign L2 /\ trim_space (concat L1 ++ concat L2) = c.
Proof.
  intros NS NM EM T NO PL A. set (le := line_end c) in *. assert (LE : is_le le) by apply line_end_is.
  assert (CM : Forall complete_line (map (mline sign le) metas)) by (apply Forall_forall; intros x I; apply in_map_iff in I as (m & <- & I); apply mline_complete; auto).
  assert (TE : forall e, blank e -> trim_space (c ++ e) = c) by (intros e B; apply trim_eq; [exists [], e; split; [apply blank_nil|]; split; [exact B|reflexivity]|exact T]).
  pose proof (newline_blank_le _ LE) as BL.
  assert (TOP : out = meta_text metas sign le ++ c ++ le ->
    exists L1 L2, raw_lines [] out = L1 ++ map (mline sign le) metas ++ L2 /\ nonmeta sign L1 /\ nonmeta sign L2 /\ trim_space (concat L1 ++ concat L2) = c).
  { intros ->. exists [], (raw_lines [] (c ++ le)). rewrite meta_text_lines, closed_lines_raw by exact CM. split; [reflexivity|]. split; [intros x []|].
    split; [now apply nonmeta_app_le|]. cbn. rewrite raw_lines_concat. cbn. now apply TE. }
  assert (AC : (c = [] \/ exists l, In l (raw_lines [] c) /\ has_prefix sign l = false) ->
    (do ls <- scan c; let (a, b) := split_comment sign ls in Ok (a ++ meta_text metas sign le ++ match b with Some r => r | None => [] end ++ le)) = Ok out ->
    exists L1 L2, raw_lines [] out = L1 ++ map (mline sign le) metas ++ L2 /\ nonmeta sign L1 /\ nonmeta sign L2 /\ trim_space (concat L1 ++ concat L2) = c).
  { intros G X. apply bind_ok in X as (ls & S & X). apply scan_iff in S as [S _]. apply lines_of_iff in S. subst ls.
    destruct (split_comment sign (raw_lines [] c)) as [a [r|]] eqn:SC; injection X as <-.
    - apply split_comment_spec in SC as (l1 & l2 & E & NE & -> & ->). destruct (lines_front _ _ _ E NE) as [F1 E2].
      exists l1, (raw_lines [] (concat l2 ++ le)). rewrite meta_text_lines, !closed_lines_raw by assumption. split; [reflexivity|].
      split; [intros x I; apply NM; rewrite E; apply in_or_app; now left|].
      split; [apply nonmeta_app_le; [exact LE|]; rewrite E2; intros x I; apply NM; rewrite E; apply in_or_app; now right|].
      assert (EC : concat l1 ++ concat l2 = c).
      { etransitivity; [|exact (raw_lines_concat c [])]. rewrite E. symmetry. apply concat_app. }
      rewrite raw_lines_concat. cbn [app]. rewrite app_assoc, EC. now apply TE.
    - destruct G as [->|(l & I & P)]; [|rewrite (split_comment_none _ _ _ SC l I) in P; discriminate]. cbn in SC. injection SC as <-. apply TOP. reflexivity. }
  destruct p; cbn in A.
  - injection A as <-. apply TOP. reflexivity.
  - injection A as <-. exists (raw_lines [] (c ++ le ++ le)), []. assert (L1 : nonmeta sign (raw_lines [] (c ++ le)) /\ raw_lines [] (c ++ le) = head_lines [] c ++ [tail_line [] c ++ le]) by now apply nonmeta_app_le.
    destruct L1 as [N1 E1]. assert (C1 : Forall complete_line (raw_lines [] (c ++ le))).
    { rewrite E1. destruct (lines_shape c []) as (w & t & _ & F & NT & -> & ->); [intros []|]. apply Forall_app. split; [exact F|]. constructor; [|constructor].
      destruct LE as [->| ->]; [exists t; auto|]. exists (t ++ [x0d]). split; [now rewrite <- app_assoc|]. intro I. apply in_app_or in I as [I|[I|[]]]; [auto|discriminate]. }
    assert (E2 : raw_lines [] ((c ++ le) ++ le) = raw_lines [] (c ++ le) ++ raw_lines [] le).
    { rewrite <- (raw_lines_concat (c ++ le) []) at 1. cbn [app]. now rewrite closed_lines_raw. }
    assert (E3 : raw_lines [] le = [le]) by (destruct LE as [->| ->]; reflexivity).
    assert (C2 : Forall complete_line (raw_lines [] ((c ++ le) ++ le))).
    { rewrite E2. apply Forall_app. split; [exact C1|]. rewrite E3. constructor; [|constructor]. destruct LE as [->| ->]; [exists []|exists [x0d]]; split; auto. intros [I|[]]. discriminate. }
    rewrite (app_assoc c le le). split; [|split; [|split]].
    + rewrite app_nil_r, (app_assoc c le (le ++ _)), (app_assoc (c ++ le) le). rewrite <- (raw_lines_concat ((c ++ le) ++ le) []) at 1. cbn [app]. rewrite closed_lines_raw by exact C2.
      f_equal. rewrite meta_text_lines, <- (app_nil_r (concat _)), closed_lines_raw by exact CM. cbn. now rewrite app_nil_r.
    + rewrite E2. intros x I. apply in_app_or in I as [I|I]; [now apply N1|]. rewrite E3 in I. destruct I as [<-|[]]. apply (nonmeta_ext sign []); [exact LE|apply nonmeta_nil].
    + intros x [].
    + cbn. rewrite app_nil_r, raw_lines_concat. cbn. rewrite <- app_assoc. apply TE. now apply blank_app.
  - apply AC; [|exact A]. apply PL. now left.
  - apply AC; [|exact A]. apply PL. now right.
  - congruence.
Qed.

(** The lines of a part of a text lie in the lines of the text. *)
Lemma sub_line a y b h : In h (raw_lines [] y) -> exists u v, In (u ++ h ++ v) (raw_lines [] (a ++ y ++ b)).
Proof.
  intro I. assert (NE : y ++ b <> []) by (destruct y; [destruct I|discriminate]).
  destruct (lines_of_prefix y b h I) as [v V]. destruct (raw_lines_cur (y ++ b) (tail_line [] a) NE) as (g & t & E1 & E2). rewrite E1 in V. destruct V as [V|V].
  - exists (tail_line [] a), v. rewrite raw_lines_app, E2. apply in_or_app. right. left. congruence.
  - exists [], v. rewrite raw_lines_app, E2. apply in_or_app. right. now right.
Qed.
Lemma short_lines_iff data : short_lines data <-> Forall short_line (raw_lines [] data).
Proof. unfold short_lines. split; [intros (ls & L & F); apply lines_of_iff in L; now subst|]. intro F. exists (raw_lines [] data). split; [apply lines_of_raw|exact F]. Qed.
Lemma short_part a y b : short_lines (a ++ y ++ b) -> short_lines y.
Proof.
  rewrite !short_lines_iff, !Forall_forall. intros F h I. destruct (sub_line a y b h I) as (u & v & J). specialize (F _ J). unfold short_line in *.
  destruct F as [F1 F2]. unfold blen in *. rewrite !app_length in F1. split; [lia|]. destruct F2 as [F2|F2]; [left; rewrite !app_length in F2; lia|].
  destruct (N.eq_dec (N.of_nat (length h)) 65536) as [E|E]; [|left; lia]. right. destruct u as [|? u]; [|cbn [length] in F1; lia]. destruct v; [|cbn [length] in F1; lia].
  rewrite app_nil_r in F2. exact F2.
Qed.
Lemma short_filter f data : short_lines data -> short_lines (concat (filter f (raw_lines [] data))).
Proof. rewrite !short_lines_iff, filter_lines, !Forall_forall. intros F x I. apply filter_In in I as [I _]. auto. Qed.

(** AddTextFileChecksum succeeds exactly on files with short lines. *)
Theorem C40_add_total : forall H data sign p, (exists out, add_text_checksum H data sign p = Ok out) <-> short_lines data.
Proof.
  intros H data sign p. split.
  - intros [out E]. apply short_lines_scan. unfold add_text_checksum, text_split in E. destruct (scan data) as [ls|e| ] eqn:S; [|discriminate|discriminate]. f_equal.
    apply scan_iff in S as [S _]. now apply lines_of_iff in S.
  - intro S. pose proof (proj1 (short_lines_scan _) S) as SC. unfold add_text_checksum. rewrite (text_split_eq _ _ _ SC). cbn [bind].
    assert (SB : scan (trim_space (body_of sign data)) = Ok (raw_lines [] (trim_space (body_of sign data)))).
    { apply short_lines_scan. destruct (trim_decomp (body_of sign data)) as (a & b & _ & _ & E & _). apply (short_part a _ b). rewrite <- E. now apply short_filter. }
    unfold lh_of. cbn [alg_size BLAKE2b_256 bind]. unfold text_add_meta. rewrite SB. cbn [bind]. destruct p; eauto; destruct (split_comment sign _); eauto.
Qed.

(** The placements that exist; for the placement after a comment the file must hold something else than comment. *)
Definition placeable (p : placement) (sign content : bytes) : Prop :=
  match p with
  | Top | Bottom => True
  | AfterComment | DefaultPlacement => content = [] \/ exists ls l, lines_of content ls /\ In l ls /\ ~ exists r, l = sign ++ r
  | OtherPlacement => False
  end.
Theorem C40_add_then_verify : forall H data sign p content out,
  hash_family H -> ~ In newline sign -> content_of sign data content -> ~ meta_line sign content ->
  placeable p sign content ->
  add_text_checksum H data sign p = Ok out -> short_lines out ->
  (verify_text_checksum H out sign = Ok tt <-> (forall t, has_checksum sign data t -> checksum_of H t content))
  /\ content_of sign out content
  /\ (forall t, has_checksum sign data t -> has_checksum sign out t)
  /\ (exists h, h = LH checksum_alg (H checksum_alg content) /\ has_checksum sign out (lh_base58 h)).
Proof.
  intros H data sign p content out HF NS C NM PL A SO. pose proof (proj1 (C40_add_total H data sign p) (ex_intro _ _ A)) as SD.
  pose proof (proj1 (short_lines_scan _) SD) as SC. pose proof (proj1 (content_of_iff _ _ _) C) as CE. unfold add_text_checksum in A. rewrite (text_split_eq _ _ _ SC) in A. cbn [bind] in A. rewrite CE in A.
  unfold lh_of in A. cbn [alg_size BLAKE2b_256 bind] in A. change (LH 25 (H 25%N content)) with (new_hash H content) in A. fold (new_meta H content) in A.
  set (metas := compact (sort (metas_of sign data ++ [new_meta H content]))) in *.
  assert (IM : forall m, In m metas <-> In m (metas_of sign data) \/ m = new_meta H content).
  { intro m. unfold metas. rewrite compact_In, sort_In, in_app_iff. cbn. intuition congruence. }
  assert (EM : forall m, In m metas -> entry m) by (intros m I; apply IM in I as [I| ->]; [now apply metas_entries in I|now apply new_entry]).
  assert (T : trimmed content) by (rewrite <- CE; apply trim_space_trimmed).
  assert (N0 : nonmeta sign (raw_lines [] content)).
  { intros x I. rewrite <- CE in I. refine (trimmed_lines (meta_prefix sign) (body_of sign data) _ _ x I).
    - intros y J. unfold body_of in J. rewrite filter_lines in J. apply filter_In in J as [_ J]. now apply negb_true_iff in J.
    - rewrite CE. destruct (has_prefix (meta_prefix sign) content) eqn:E; [|reflexivity]. now apply meta_line_iff in E. }
  destruct (text_add_shape content metas sign p out) as (L1 & L2 & E & N1 & N2 & TC); auto.
  { intros ->. exact PL. }
  { intro X. assert (PL' : content = [] \/ exists ls l, lines_of content ls /\ In l ls /\ ~ exists r, l = sign ++ r) by (destruct X as [-> | ->]; exact PL).
    destruct PL' as [P|(ls & l & L & I & P)]; [now left|]. right. apply lines_of_iff in L. subst ls. exists l. split; [exact I|]. rewrite <- has_prefix_true in P. now destruct (has_prefix sign l). }
  destruct (resplit sign out L1 L2 metas (line_end content) content) as [R1 R2]; auto using line_end_is.
  assert (HC : forall t, has_checksum sign out t <-> exists m, In m (filter is_checksum_line metas) /\ checksum_text m = t) by (intro t; rewrite has_checksum_iff, R2; reflexivity).
  assert (KEEP : forall t, has_checksum sign data t -> has_checksum sign out t).
  { intros t X. apply has_checksum_iff in X as (m & I & E2). apply filter_In in I as [I F]. apply HC. exists m. split; [|exact E2]. apply filter_In. split; [apply IM; now left|exact F]. }
  assert (NEW : has_checksum sign out (lh_base58 (new_hash H content))).
  { apply HC. exists (new_meta H content). split; [apply filter_In; split; [apply IM; now right|apply new_is_checksum]|now apply new_text]. }
  assert (CO : content_of sign out content) by now apply content_of_iff.
  split; [|split; [exact CO|split; [exact KEEP|exists (new_hash H content); split; [reflexivity|exact NEW]]]].
  rewrite C41_verify_exact. split.
  { intros (_ & c' & C' & _ & ALL) t X. apply content_of_iff in C'. rewrite C' in R1. subst c'. now apply ALL, KEEP. }
  intro OLD. split; [exact SO|]. exists content. split; [exact CO|]. split; [eauto|]. intros t X. apply HC in X as (m & I & <-). apply filter_In in I as [I F].
  apply IM in I as [I| ->]; [|now apply new_ok]. apply OLD. apply has_checksum_iff. exists m. split; [now apply filter_In|reflexivity].
Qed.


(** The YAML functions: the same with YAML's comment sign. *)
Theorem C41_yaml : forall H data,
  verify_yaml_checksum H data = Ok tt <->
  short_lines data
  /\ exists content, content_of (lit "#") data content
     /\ (exists t, has_checksum (lit "#") data t)
     /\ forall t, has_checksum (lit "#") data t -> checksum_of H t content.
Proof. intros. apply C41_verify_exact. Qed.
Print Assumptions C41_yaml.
Theorem C40_yaml : forall H data p content out,
  hash_family H -> content_of (lit "#") data content -> ~ meta_line (lit "#") content -> placeable p (lit "#") content ->
  add_yaml_checksum H data p = Ok out -> short_lines out ->
  (verify_yaml_checksum H out = Ok tt <-> (forall t, has_checksum (lit "#") data t -> checksum_of H t content))
  /\ content_of (lit "#") out content
  /\ (forall t, has_checksum (lit "#") data t -> has_checksum (lit "#") out t)
  /\ has_checksum (lit "#") out (lh_base58 (LH checksum_alg (H checksum_alg content))).
Proof.
  intros H data p content out HF C NM PL A SO. assert (NS : ~ In newline (lit "#")) by (intros [X|[]]; discriminate X).
  destruct (C40_add_then_verify H data (lit "#") p content out HF NS C NM PL A SO) as (V & CO & OLD & h & -> & NEW). auto.
Qed.
Print Assumptions C40_yaml.
(** Without the conditions it fails: a file of comments only (its checksum joins the last comment and is not found);
    an old checksum (kept, does not match); a metadata line that is hidden by white space at the start of the file;
    a placement that does not exist (the result is empty: the text is lost). *)
Definition nl : bytes := [x0a].
Theorem C40_refuted :
  (exists out, add_text_checksum toy_hash (lit "# comment") (lit "#") AfterComment = Ok out /\ verify_text_checksum toy_hash out (lit "#") = Err EChecksumMissing)
  /\ (exists out out2, add_text_checksum toy_hash (lit "key: value") (lit "#") Top = Ok out
       /\ verify_text_checksum toy_hash out (lit "#") = Ok tt
       /\ add_text_checksum toy_hash (out ++ lit "more") (lit "#") Top = Ok out2 /\ verify_text_checksum toy_hash out2 (lit "#") = Err EChecksumMismatch)
  /\ (exists out, add_text_checksum toy_hash (lit " # jess-note" ++ nl ++ lit "key: value") (lit "#") Top = Ok out /\ verify_text_checksum toy_hash out (lit "#") = Err EChecksumMismatch)
  /\ add_text_checksum toy_hash (lit "key: value") (lit "#") OtherPlacement = Ok [].
Proof.
  split; [|split; [|split]].
  - eexists. split; [vm_compute; reflexivity|vm_compute; reflexivity].
  - eexists. eexists. split; [vm_compute; reflexivity|]. split; [vm_compute; reflexivity|]. split; [vm_compute; reflexivity|vm_compute; reflexivity].
  - eexists. split; [vm_compute; reflexivity|vm_compute; reflexivity].
  - vm_compute. reflexivity.
Qed.

(** The hypotheses of the theorems are met. *)
Definition sample_text : bytes := lit "# A comment" ++ nl ++ lit "key: value" ++ nl ++ lit "# jess-note: kept" ++ nl ++ lit "more: yes" ++ nl.
Example C40_hypotheses_met : exists content out,
  hash_family toy_hash /\ ~ In newline (lit "#") /\ content_of (lit "#") sample_text content /\ ~ meta_line (lit "#") content
  /\ placeable AfterComment (lit "#") content /\ add_text_checksum toy_hash sample_text (lit "#") AfterComment = Ok out /\ short_lines out
  /\ verify_text_checksum toy_hash out (lit "#") = Ok tt
  /\ verify_text_checksum toy_hash (lit "x" ++ out) (lit "#") = Err EChecksumMismatch.
Proof.
  exists (trim_space (body_of (lit "#") sample_text)). eexists. split; [apply toy_hash_family|]. split; [intros [X|[]]; discriminate|]. split; [now apply content_of_iff|].
  split; [rewrite meta_line_iff; vm_compute; discriminate|]. split.
  { right. exists (raw_lines [] (trim_space (body_of (lit "#") sample_text))), (lit "key: value" ++ nl). split; [apply lines_of_raw|]. split; [vm_compute; tauto|].
    rewrite <- has_prefix_true. vm_compute. discriminate. }
  split; [vm_compute; reflexivity|]. split; [apply short_lines_scan; vm_compute; reflexivity|]. split; vm_compute; reflexivity.
Qed.
Example C41_hypotheses_met : exists out t, add_text_checksum toy_hash sample_text (lit "#") Bottom = Ok out
  /\ verify_text_checksum toy_hash out (lit "#") = Ok tt /\ has_checksum (lit "#") out t.
Proof.
  eexists _, _. split; [vm_compute; reflexivity|]. split; [vm_compute; reflexivity|]. apply has_checksum_iff. eexists. split; [left; vm_compute; reflexivity|reflexivity].
Qed.
Print Assumptions C40_add_then_verify.
Print Assumptions C41_verify_exact.
