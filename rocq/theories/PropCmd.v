(** C45: the verify command. *)
From Verif Require Import Prelude PreludeFacts Requirements Tools Crypto Letter Session Core Envelope Lhash Search Armor FileSig SpecFile PropFile Report Cmd SpecCmd.

Lemma has_suffix_iff p l : Search.has_suffix p l = true <-> exists a, l = a ++ p.
Proof.
  unfold has_suffix, has_prefix. destruct (strip_prefix (rev p) (rev l)) as [r|] eqn:E.
  - apply strip_prefix_some in E. split; [intros _|reflexivity]. exists (rev r). rewrite <- (rev_involutive l), E, rev_app_distr, rev_involutive. reflexivity.
  - split; [discriminate|]. intros [a ->]. rewrite strip_prefix_none in E. exfalso. apply (E (rev a)). apply rev_app_distr.
Qed.
Lemma trim_suffix_app p a : Search.trim_suffix p (a ++ p) = a.
Proof. unfold trim_suffix, trim_prefix. rewrite rev_app_distr, strip_prefix_app. apply rev_involutive. Qed.
Lemma trim_suffix_none p l : (forall a, l <> a ++ p) -> Search.trim_suffix p l = l.
Proof.
  intro N. unfold trim_suffix, trim_prefix. destruct (strip_prefix (rev p) (rev l)) as [r|] eqn:E; [|apply rev_involutive]. apply strip_prefix_some in E. exfalso. apply (N (rev r)).
  rewrite <- (rev_involutive l), E, rev_app_distr, rev_involutive. reflexivity.
Qed.
Lemma suffix_dec p (l : bytes) : (exists a, l = a ++ p) \/ (forall a, l <> a ++ p).
Proof.
  destruct (Search.has_suffix p l) eqn:E; [left; now apply has_suffix_iff|]. right. intros a ->. assert (has_suffix p (a ++ p) = true) by (apply has_suffix_iff; eauto). congruence.
Qed.
Lemma is_letter_iff f : is_letter f = true <-> letter_name f.
Proof.
  unfold is_letter. rewrite orb_true_iff, bytes_eqb_eq, has_suffix_iff. split; [intros [->|[a ->]]; constructor|]. intros [|a]; [left; reflexivity|right; now exists a].
Qed.
Lemma not_letter f : is_letter f = false <-> ~ letter_name f.
Proof. rewrite <- is_letter_iff. destruct (is_letter f); split; congruence. Qed.
Lemma sig_not_letter a : ~ letter_name (a ++ lit ".sig").
Proof.
  intro L. inversion L as [E|b E].
  - apply (f_equal (@length byte)) in E. rewrite app_length in E. cbn in E. lia.
  - apply (f_equal (@rev byte)) in E. rewrite !rev_app_distr in E. discriminate E.
Qed.
Lemma base_sig a : base (a ++ lit ".sig") = a.
Proof. apply trim_suffix_app. Qed.

Section P.
Variables (c : config) (cr : crypto) (w : world) (H : N -> bytes -> bytes).
Variables (load : bytes -> option raw_letter) (load_fd : bytes -> option filedata).
Variable parse_letter : bytes -> outcome raw_letter.
Variables (glob : bytes -> option (list bytes)) (stat : bytes -> option stat_info) (walk : bytes -> list (bytes * bool)).
Variables (contents : bytes -> option bytes) (stdin : bytes) (confirm : bytes -> option bool) (names : bytes -> option (option bytes)).
Variables (metadata : list (bytes * bytes)) (requirements : option reqs) (d : nat).
Notation vletter := (verify_letter c cr w parse_letter stat contents stdin confirm names metadata requirements d).
Notation vsig := (verify_sig c cr w H load load_fd contents stdin names metadata d).
Notation vfy := (verify c cr w H load load_fd parse_letter stat contents stdin confirm names metadata requirements d).
Notation chk := (check c cr w H load load_fd parse_letter stat contents stdin confirm names metadata requirements d).
Notation vst := (visit c cr w H load load_fd parse_letter stat contents stdin confirm names metadata requirements d).
Notation gthr := (go_through c cr w H load load_fd parse_letter stat walk contents stdin confirm names metadata requirements d).
Notation cmd := (verify_cmd c cr w H load load_fd parse_letter glob stat walk contents stdin confirm names metadata requirements d).
Notation lgen := (letter_genuine c cr w parse_letter contents stdin requirements d).
Notation fgen := (file_genuine c cr w H load load_fd contents metadata d).
Notation vd := (verified c cr w H load load_fd parse_letter contents stdin metadata requirements d).
Notation tgt := (target glob stat walk).

Lemma vletter_ok silent f x : letter_name f -> vletter silent f = Ok x -> lgen f \/ declined stat confirm f.
Proof using Type.
  intros L E. unfold verify_letter in E. destruct (match metadata with [] => true | _ => false end); [|discriminate]. cbn [guard bind] in E.
  assert (R : verify_letter_rest c cr w parse_letter contents stdin names requirements d silent f = Ok x -> lgen f).
  { clear E. unfold verify_letter_rest. intro E. apply bind_ok in E as (data & D & E). apply bind_ok in E as (r & P & E). apply bind_ok in E as ([] & V & E).
    exists data, r. split; [|split; [exact P|exact V]]. change stdio with (lit "-") in D. destruct (bytes_eqb f (lit "-")); [now injection D|]. destruct (contents f); [now injection D as ->|discriminate]. }
  destruct (bytes_eqb f stdio); [auto|]. destruct (stat f) as [i|] eqn:S; [|discriminate]. cbn [of_option bind] in E. destruct (st_size i >? warn_size)%Z eqn:Z; [|auto].
  destruct (confirm f) as [[]|] eqn:C; [auto| |discriminate]. right. split; [exact L|]. split; [|exact C]. exists i. split; [exact S|]. apply Z.gtb_lt in Z. apply Z.lt_gt. exact Z.
Qed.
Lemma vsig_ok silent f x : f <> lit "-" -> vsig silent f = Ok x -> fgen f.
Proof using Type.
  intros NS E. unfold verify_sig in E. change stdio with (lit "-") in E. destruct (bytes_eqb f (lit "-")) eqn:B; [apply bytes_eqb_eq in B; congruence|]. clear B.
  apply bind_ok in E as ([results e] & V & E). destruct e; [discriminate|]. change ext_sig with (lit ".sig") in *.
  destruct (contents (f ++ lit ".sig")) as [text|] eqn:T; [|discriminate].
  destruct (contents f) as [data|] eqn:D; [|destruct (proj2 (proj2 (C39_nothing_to_verify c cr w H load load_fd (FromFile None) metadata d)) _ _ _ V); discriminate].
  destruct (C39_verify_exact _ _ _ _ _ _ _ _ _ _ _ _ V) as (X & _). destruct (proj1 X eq_refl) as (X1 & X2 & X3). exists data, text, (fst (parse_sig_file load text)).
  split; [exact D|]. split; [exact T|]. split; [destruct (parse_sig_file load text); cbn in *; congruence|]. auto.
Qed.
(** What [verify] looked at and found good. *)
Definition goods (silent : bool) (f : bytes) : Prop := exists x, (if is_letter f then vletter silent f else vsig silent (base f)) = Ok x.
Notation good := (goods true).
Lemma good_verified silent f : f <> lit "-.sig" -> goods silent f -> vd f \/ declined stat confirm f.
Proof using Type.
  intros NS [x G]. destruct (is_letter f) eqn:L.
  - apply is_letter_iff in L. destruct (vletter_ok _ _ _ L G) as [X|X]; [left; now apply V_letter|now right].
  - apply not_letter in L. left. destruct (suffix_dec (lit ".sig") f) as [[a ->]|N].
    + rewrite base_sig in G. apply (V_sig _ _ _ _ _ _ _ _ _ _ _ _ _ a); [exact L|reflexivity|]. apply (vsig_ok silent _ x); [|exact G]. intros ->. now apply NS.
    + unfold base in G. rewrite trim_suffix_none in G by exact N. apply V_file; [exact L|exact N|]. apply (vsig_ok silent _ x); [|exact G]. intros ->. apply L. constructor.
Qed.
Definition aliases (t x : bytes) : Prop := if is_letter t then x = t else x = base t \/ x = base t ++ lit ".sig".
Lemma verify_step silent seen f ok seen' ls : vfy silent seen f = Ok (ok, seen', ls) ->
  (existsb (bytes_eqb f) seen = true /\ ok = true /\ seen' = seen /\ ls = [])
  \/ (existsb (bytes_eqb f) seen = false /\ (ok = true <-> goods silent f) /\ (forall x, In x seen' <-> aliases f x \/ In x seen)
      /\ let g := if is_letter f then f else base f in silent = true -> if ok then exists by_, ls = [LOk g by_] else ls = [LFail g]).
Proof using Type.
  intro E. unfold verify in E. destruct (existsb (bytes_eqb f) seen) eqn:SE; [injection E as <- <- <-; auto|]. right. split; [reflexivity|]. unfold goods, aliases. destruct (is_letter f) eqn:L.
  - destruct (vletter silent f) as [[by_ p]|y|]; [| |discriminate]; injection E as <- <- <-; (split; [split; [intro X; first [discriminate X|eexists; reflexivity]|intros [z X]; first [discriminate X|reflexivity]]|]); (split; [intro x0; cbn; split; intros [X|X]; auto|]); intros ->; [eauto|reflexivity].
  - destruct (vsig silent (base f)) as [[by_ p]|y|]; [| |discriminate]; injection E as <- <- <-; (split; [split; [intro X; first [discriminate X|eexists; reflexivity]|intros [z X]; first [discriminate X|reflexivity]]|]);
      (split; [intro x0; cbn; change ext_sig with (lit ".sig"); split; [intros [X|[X|X]]; auto|intros [[X|X]|X]; auto]|]); intros ->; [eauto|reflexivity].
Qed.

(** ** What a run has established *)
Section Run.
Variable args : list bytes.
Record inv (t : tally) : Prop := {
  inv_seen : forall x, In x (ta_seen t) -> exists f, tgt args f /\ aliases f x /\ (ta_fails t = 0 -> good f) }.
Definition settled (t : tally) (f : bytes) : Prop := exists f', tgt args f' /\ aliases f' f /\ (ta_fails t = 0 -> good f').
Lemma check_step t f t' : tgt args f -> inv t -> chk t f = Ok t' ->
  inv t' /\ settled t' f /\ ta_fails t <= ta_fails t' /\ ta_warns t' = ta_warns t /\ (forall x, In x (ta_seen t) -> In x (ta_seen t')).
Proof using Type.
  intros T I E. unfold check in E. apply bind_ok in E as ([[ok seen] ls] & V & E). injection E as <-. cbn [ta_fails ta_warns ta_seen].
  destruct (verify_step _ _ _ _ _ _ V) as [(SE & -> & -> & _)|(SE & G & N & _)].
  - split; [constructor; exact (inv_seen _ I)|]. split; [|auto]. apply existsb_exists in SE as (x & X & SE). apply bytes_eqb_eq in SE. subst x. exact (inv_seen _ I f X).
  - assert (F : (if ok then ta_fails t else S (ta_fails t)) = 0 -> good f /\ ta_fails t = 0) by (destruct ok; [intro Z; split; [now apply G|exact Z]|discriminate]).
    split; [|split; [|split; [destruct ok; lia|split; [reflexivity|intros x X; apply N; now right]]]].
    + constructor. cbn [ta_seen ta_fails]. intros x X. apply N in X as [X|X]; [exists f; split; [exact T|]; split; [exact X|intro Z; now apply F]|].
      destruct (inv_seen _ I x X) as (f' & A & B & C). exists f'. split; [exact A|]. split; [exact B|]. intro Z. apply C. now apply F.
    + exists f. split; [exact T|]. split; [|intro Z; now apply F]. unfold aliases. destruct (is_letter f) eqn:L; [reflexivity|]. destruct (suffix_dec (lit ".sig") f) as [[a ->]|NN]; [right; now rewrite base_sig|left; unfold base; symmetry; now apply trim_suffix_none].
Qed.
Lemma settled_mono t t' f : settled t f -> ta_fails t <= ta_fails t' -> settled t' f.
Proof using Type. intros (f' & A & B & C) L. exists f'. split; [exact A|]. split; [exact B|]. intro Z. apply C. lia. Qed.
Lemma visit_step entries : forall t t', (forall p, In (p, false) entries -> (exists a, p = a ++ lit ".sig" \/ p = a ++ lit ".letter") -> tgt args p) -> inv t -> vst entries t = Ok t' ->
  inv t' /\ ta_fails t <= ta_fails t' /\ ta_warns t <= ta_warns t'
  /\ (forall p, In (p, false) entries -> (exists a, p = a ++ lit ".sig" \/ p = a ++ lit ".letter") -> settled t' p)
  /\ (ta_warns t' = 0 -> forall p, ~ In (p, true) entries).
Proof using Type.
  induction entries as [|[p e] entries IH]; intros t t' T I E; cbn [visit] in E; [injection E as <-; repeat split; auto; [apply (inv_seen _ I)|intros ? []]|].
  destruct e.
  - destruct (IH (warn t p) t') as (A & B & C & D & F); [intros q Q; apply T; now right|constructor; exact (inv_seen _ I)|exact E|]. cbn in B, C. split; [exact A|]. split; [exact B|]. split; [lia|]. split; [intros q [Q|Q]; [discriminate|now apply D]|]. lia.
  - destruct (has_suffix ext_sig p || has_suffix ext_letter p) eqn:S.
    + apply bind_ok in E as (t1 & C1 & E). assert (TP : tgt args p).
      { apply T; [now left|]. apply orb_true_iff in S as [S|S]; apply has_suffix_iff in S as [a ->]; exists a; auto. }
      destruct (check_step t p t1 TP I C1) as (I1 & S1 & L1 & W1 & _). destruct (IH t1 t') as (A & B & C & D & F); [intros q Q; apply T; now right|exact I1|exact E|].
      split; [exact A|]. split; [lia|]. split; [lia|]. split; [intros q [Q|Q] K; [injection Q as <-; now apply (settled_mono t1)|now apply D]|]. intros Z q [Q|Q]; [discriminate|now apply (F Z q)].
    + destruct (IH t t') as (A & B & C & D & F); [intros q Q; apply T; now right|exact I|exact E|]. split; [exact A|]. split; [exact B|]. split; [exact C|]. split; [|intros Z q [Q|Q]; [discriminate|now apply (F Z q)]].
      intros q [Q|Q] K; [|now apply D]. injection Q as <-. exfalso. apply orb_false_iff in S as [S1 S2]. destruct K as [a [->| ->]]; [assert (has_suffix ext_sig (a ++ lit ".sig") = true) by (apply has_suffix_iff; now exists a); congruence|assert (has_suffix ext_letter (a ++ lit ".letter") = true) by (apply has_suffix_iff; now exists a); congruence].
Qed.
Definition file_settled (t : tally) (f : bytes) : Prop := exists i, stat f = Some i
  /\ (st_dir i = false -> settled t f)
  /\ (st_dir i = true -> (forall p, ~ In (p, true) (walk f)) /\ forall p, In (p, false) (walk f) -> (exists a, p = a ++ lit ".sig" \/ p = a ++ lit ".letter") -> settled t p).
Lemma go_step files : forall t t', (forall f, In f files -> matched glob args f) -> inv t -> gthr files t = Ok t' ->
  inv t' /\ ta_fails t <= ta_fails t' /\ ta_warns t <= ta_warns t' /\ (ta_warns t' = 0 -> forall f, In f files -> file_settled t' f).
Proof using Type.
  induction files as [|f files IH]; intros t t' M I E; cbn [go_through] in E; [injection E as <-; repeat split; auto; [apply (inv_seen _ I)|intros _ ? []]|].
  destruct (stat f) as [i|] eqn:S.
  - apply bind_ok in E as (t1 & C1 & E). assert (MF : matched glob args f) by (apply M; now left).
    assert (X : inv t1 /\ ta_fails t <= ta_fails t1 /\ ta_warns t <= ta_warns t1 /\ (ta_warns t1 = 0 -> file_settled t1 f)).
    { destruct (st_dir i) eqn:D.
      - destruct (visit_step _ t t1 (fun p P K => T_in _ _ _ _ p f i MF S D P K) I C1) as (A & B & C & F & G). split; [exact A|]. split; [exact B|]. split; [exact C|]. intro Z. exists i. split; [exact S|]. split; [congruence|]. intros _. split; [exact (G Z)|exact F].
      - destruct (check_step t f t1 (T_file _ _ _ _ f i MF S D) I C1) as (A & B & C & F & _). split; [exact A|]. split; [exact C|]. split; [lia|]. intros _. exists i. split; [exact S|]. split; [auto|congruence]. }
    destruct X as (I1 & L1 & W1 & S1). destruct (IH t1 t') as (A & B & C & F); [intros q Q; apply M; now right|exact I1|exact E|]. split; [exact A|]. split; [lia|]. split; [lia|].
    intros Z g [<-|G]; [|now apply F]. destruct S1 as (i' & S' & X1 & X2); [lia|]. exists i'. split; [exact S'|]. split; [intro Y; apply (settled_mono t1); [now apply X1|exact B]|]. intro Y. destruct (X2 Y) as [X3 X4]. split; [exact X3|]. intros p P K. apply (settled_mono t1); [now apply X4|exact B].
  - destruct (IH (warn t f) t') as (A & B & C & F); [intros q Q; apply M; now right|constructor; exact (inv_seen _ I)|exact E|]. cbn in B, C. split; [exact A|]. split; [exact B|]. split; [lia|]. lia.
Qed.
Lemma settled_good t f : ta_fails t = 0 -> settled t f -> ~ shadowed glob stat walk args f -> good f.
Proof using Type.
  intros Z (f' & T & N & G) NS. specialize (G Z). unfold aliases in N. destruct (is_letter f') eqn:L; [now subst|]. assert (E : (exists a, f' = a ++ lit ".sig") \/ (forall a, f' <> a ++ lit ".sig")) by apply suffix_dec.
  assert (X : forall b, base b = base f' -> is_letter b = false -> good b) by (intros b B LB; unfold goods in *; rewrite L in G; now rewrite LB, B).
  destruct N as [->| ->]; [|apply X; [apply base_sig|apply not_letter, sig_not_letter]].
  destruct E as [[a ->]|E]; [|unfold base; rewrite trim_suffix_none by exact E; exact G]. rewrite base_sig in *. destruct (is_letter a) eqn:LA.
  - exfalso. apply NS. split; [exact T|]. apply is_letter_iff in LA. inversion LA; [exists []|exists a0]; auto.
  - apply X; [|exact LA]. destruct (suffix_dec (lit ".sig") a) as [[b ->]|NN]; [|unfold base; now apply trim_suffix_none]. exfalso. apply NS. split; [exact T|]. exists b. auto.
Qed.
End Run.
Lemma resolve_matched args : forall files, resolve glob args = Ok files -> (forall f, In f files <-> matched glob args f) /\ forall a, In a args -> glob a <> None.
Proof using Type.
  induction args as [|a args IH]; intros files E; cbn [resolve] in E; [injection E as <-; split; [|intros ? []]; split; [intros []|intros (x & m & [] & _)]|].
  apply bind_ok in E as (m & M & E). destruct (glob a) as [m'|] eqn:G; [injection M as ->|discriminate]. apply bind_ok in E as (l & R & E). injection E as <-. destruct (IH _ R) as [A B]. split; [|intros x [<-|X]; [congruence|auto]].
  intro f. rewrite in_app_iff, A. split.
  - intros [F|(x & m' & X & Y)]; [exists a, m; repeat split; auto; now left|exists x, m'; split; [now right|exact Y]].
  - intros (x & m' & [<-|X] & Y & F); [left; congruence|right; exists x, m'; auto].
Qed.

(** If the command ends with success, every file it was to check was verified, except for letters the user declined to load;
    everything matched could be read, and so could the directories.  A single pattern has a match.  Not covered: files that
    the command takes for already verified ([shadowed]), and the data file called "-". *)
Theorem C45_success : forall args lines, cmd args = Ok lines ->
  (forall t, tgt args t -> ~ shadowed glob stat walk args t -> t <> lit "-.sig" -> vd t \/ declined stat confirm t)
  /\ (forall a, In a args -> glob a <> None) /\ (forall a, args = [a] -> glob a <> Some [])
  /\ (forall f, matched glob args f -> exists i, stat f = Some i /\ (st_dir i = true -> forall p, ~ In (p, true) (walk f))).
Proof using Type.
  intros args lines E.
  assert (B : forall l, bulk c cr w H load load_fd parse_letter glob stat walk contents stdin confirm names metadata requirements d args = Ok l ->
    (forall t, tgt args t -> ~ shadowed glob stat walk args t -> t <> lit "-.sig" -> vd t \/ declined stat confirm t) /\ (forall a, In a args -> glob a <> None)
    /\ (forall f, matched glob args f -> exists i, stat f = Some i /\ (st_dir i = true -> forall p, ~ In (p, true) (walk f)))).
  { clear E. intros l E. unfold bulk in E. apply bind_ok in E as (files & R & E). apply bind_ok in E as (t & G & E). destruct (resolve_matched _ _ R) as [M NG].
    destruct (go_step args files (mkTally 0 0 [] []) t) as (I & _ & _ & S); [intros f F; now apply M|constructor; intros x []|exact G|].
    destruct (ta_fails t) eqn:F0; [|discriminate]. destruct (ta_warns t) eqn:W0; [|discriminate]. specialize (S eq_refl). split; [|split; [exact NG|]].
    - intros x T NS NN. apply (good_verified true); [exact NN|]. apply (settled_good args t); [exact F0| |exact NS]. destruct T as [i MT ST DT|f i MT ST DT P K].
      + destruct (S x) as (i' & S' & X & _); [now apply M|]. apply X. congruence.
      + destruct (S f) as (i' & S' & _ & X); [now apply M|]. assert (i' = i) by congruence. subst i'. destruct (X DT) as [_ Y]. now apply Y.
    - intros f MF. destruct (S f) as (i & S' & _ & X); [now apply M|]. exists i. split; [exact S'|]. intro Y. now apply X. }
  destruct args as [|a [|a' args']]; cbn [verify_cmd] in E; [destruct (B lines E) as (B1 & B2 & B3); repeat split; auto; discriminate| |destruct (B lines E) as (B1 & B2 & B3); repeat split; auto; discriminate].
  destruct (glob a) as [m|] eqn:G; [|discriminate]. cbn [of_option bind] in E. destruct m as [|f [|f' m]]; [discriminate| |].
  2:{ destruct (B lines E) as (B1 & B2 & B3). repeat split; auto. intros a0 X. injection X as <-. congruence. }
  destruct (stat f) as [i|] eqn:S; [|discriminate]. cbn [of_option bind] in E. destruct (st_dir i) eqn:D.
  { destruct (B lines E) as (B1 & B2 & B3). repeat split; auto. intros a0 X. injection X as <-. congruence. }
  apply bind_ok in E as ([[ok seen] ls] & V & E). cbn [fst] in E. destruct ok; [|discriminate]. destruct (verify_step _ _ _ _ _ _ V) as [(X & _)|(_ & X & _)]; [discriminate X|].
  assert (MM : forall g, matched glob [a] g -> g = f). { intros g (x & m & [<-|[]] & Y & Z). rewrite G in Y. injection Y as <-. destruct Z as [<-|[]]; reflexivity. }
  split; [|split; [intros x [<-|[]]; congruence|split; [intros x Y; injection Y as <-; congruence|]]].
  - intros t [i' MT ST DT|g i' MT ST DT _ _] _ NN; apply MM in MT; [subst t|congruence]. apply (good_verified false); [exact NN|]. now apply X.
  - intros g MG. apply MM in MG. subst g. exists i. split; [exact S|congruence].
Qed.
(** A line "[ OK ]" is printed only for a letter that is genuine or declined, and for a file that is genuine (or called "-") -
    also when the command fails in the end. *)
Theorem C45_ok_lines : forall files t t', gthr files t = Ok t' -> forall f by_, In (LOk f by_) (ta_lines t') ->
  In (LOk f by_) (ta_lines t) \/ letter_name f /\ (lgen f \/ declined stat confirm f) \/ fgen f \/ f = lit "-".
Proof using Type.
  set (Q := fun f : bytes => letter_name f /\ (lgen f \/ declined stat confirm f) \/ fgen f \/ f = lit "-").
  assert (S1 : forall t f t', chk t f = Ok t' -> forall g by_, In (LOk g by_) (ta_lines t') -> In (LOk g by_) (ta_lines t) \/ Q g).
  { intros t f t' E g by_ I. unfold check in E. apply bind_ok in E as ([[ok seen] ls] & V & E). injection E as <-. cbn [ta_lines] in I. apply in_app_iff in I as [I|I]; [now left|]. right.
    destruct (verify_step _ _ _ _ _ _ V) as [(_ & _ & _ & ->)|(_ & G & _ & LS)]; [destruct I|]. specialize (LS eq_refl). destruct ok; [|rewrite LS in I; destruct I as [I|[]]; discriminate I].
    destruct LS as [by' ->]. destruct I as [I|[]]. injection I as <- <-. destruct (proj1 G eq_refl) as [x GF].
    unfold Q. destruct (is_letter f) eqn:L; [left; apply is_letter_iff in L; split; [exact L|now apply (vletter_ok true f x)]|]. right. destruct (bytes_eqb (base f) (lit "-")) eqn:B; [right; now apply bytes_eqb_eq|]. left. apply (vsig_ok true _ x); [|exact GF]. intro X. rewrite X in B. discriminate B. }
  assert (S2 : forall entries t t', vst entries t = Ok t' -> forall g by_, In (LOk g by_) (ta_lines t') -> In (LOk g by_) (ta_lines t) \/ Q g).
  { induction entries as [|[p e] entries IH]; intros t t' E g by_ I; cbn [visit] in E; [injection E as <-; now left|]. destruct e.
    - destruct (IH _ _ E g _ I) as [X|X]; [|now right]. cbn in X. apply in_app_iff in X as [X|[X|[]]]; [now left|discriminate].
    - destruct (_ || _); [|exact (IH _ _ E g _ I)]. apply bind_ok in E as (t1 & C1 & E). destruct (IH _ _ E g _ I) as [X|X]; [exact (S1 _ _ _ C1 g _ X)|now right]. }
  induction files as [|f files IH]; intros t t' E g by_ I; cbn [go_through] in E; [injection E as <-; now left|]. destruct (stat f) as [i|].
  - apply bind_ok in E as (t1 & C1 & E). destruct (IH _ _ E g _ I) as [X|X]; [|now right]. destruct (st_dir i); [exact (S2 _ _ _ C1 g _ X)|exact (S1 _ _ _ C1 g _ X)].
  - destruct (IH _ _ E g _ I) as [X|X]; [|now right]. cbn in X. apply in_app_iff in X as [X|[X|[]]]; [now left|discriminate].
Qed.

(** ** The other direction *)
(** An entry of a letter's signatures that can be printed: not null, and its signet, if the trust store has it, has a name. *)
Definition printable (s : option seal) : Prop := exists v, s = Some v /\ names (seal_id v) <> Some None.
Inductive passes (f : bytes) : Prop :=
  | P_letter data r : letter_name f -> metadata = [] -> (f <> lit "-" -> exists i, stat f = Some i /\ (st_size i <= 12000000)%Z) ->
      (if bytes_eqb f (lit "-") then data = stdin else contents f = Some data) -> parse_letter data = Ok r ->
      letter_verify c suite_registry tool_registry hash_registry cr w (Some match requirements with Some q => q | None => [Integrity; SenderAuthentication] end) r d = Ok tt ->
      (forall s, In s (rw_sigs r) -> printable s) -> passes f
  | P_file text : ~ letter_name f -> base f <> lit "-" -> fgen (base f) -> contents (base f ++ lit ".sig") = Some text ->
      (forall r s, In r (fst (parse_sig_file load text)) -> In s (rw_sigs r) -> printable s) -> passes f.
Lemma signers_ok l : (forall s, In s l -> printable s) -> exists by_, mapM (signer names) l = Ok by_.
Proof using Type.
  induction l as [|s l IH]; intro N; cbn [mapM]; [eauto|]. destruct (N s (or_introl eq_refl)) as (v & -> & NM). destruct IH as [by_ IH]; [intros x X; apply N; now right|]. rewrite IH. cbn [signer].
  destruct (names (seal_id v)) as [[n|]|]; [|now elim NM|]; cbn [bind]; eauto.
Qed.
Lemma report_ok l f g : (forall r fd s, In (r, fd) l -> In s (rw_sigs r) -> printable s) -> exists t, format_signatures names f g (map shown_of l) = Ok t.
Proof using Type.
  intro N. assert (B : forall x, In x l -> exists t, format_signature names (shown_of x) = Ok t).
  { intros [r fd] I. unfold format_signature. cbn [shown_of sh_sigs fst]. destruct (signers_ok (rw_sigs r)) as [by_ E]; [intros s S; now apply (N r fd)|]. rewrite E. cbn [bind]. eauto. }
  unfold format_signatures. destruct l as [|x [|y [|z l]]]; cbn [map bind]; [eauto| | |eauto].
  - destruct (B x (or_introl eq_refl)) as [t E]. rewrite E. cbn [bind]. eauto.
  - destruct (B x (or_introl eq_refl)) as [t E]. destruct (B y (or_intror (or_introl eq_refl))) as [t' E']. cbn [mapM]. rewrite E, E'. cbn [bind]. eauto.
Qed.
Lemma passes_good silent f : passes f -> goods silent f.
Proof using Type.
  intros [data r L MD SZ D P V S|text L NB G T S]; unfold goods.
  - assert (LT : is_letter f = true) by now apply is_letter_iff. rewrite LT. assert (R : exists x, verify_letter_rest c cr w parse_letter contents stdin names requirements d silent f = Ok x).
    { unfold verify_letter_rest. change stdio with (lit "-"). assert (X : of_option EOther (if bytes_eqb f (lit "-") then Some stdin else contents f) = Ok data) by (destruct (bytes_eqb f (lit "-")); [now rewrite D|now rewrite D]).
      rewrite X. cbn [bind]. rewrite P. cbn [bind]. change (req_remove (req_remove newRequirements Confidentiality) RecipientAuthentication) with [Integrity; SenderAuthentication]. rewrite V. cbn [bind]. destruct (signers_ok _ S) as [by_ E]. rewrite E. cbn [bind]. eauto. }
    unfold verify_letter. rewrite MD. cbn [guard bind]. change stdio with (lit "-"). destruct (bytes_eqb f (lit "-")) eqn:B; [exact R|]. destruct SZ as (i & SI & Z); [intros ->; discriminate B|]. rewrite SI. cbn [of_option bind].
    destruct (st_size i >? warn_size)%Z eqn:Q; [|exact R]. apply Z.gtb_lt in Q. exfalso. exact (Z.lt_irrefl _ (Z.lt_le_trans _ _ _ Q Z)).
  - apply not_letter in L. rewrite L. unfold verify_sig. change stdio with (lit "-"). change ext_sig with (lit ".sig"). destruct (bytes_eqb (base f) (lit "-")) eqn:B; [apply bytes_eqb_eq in B; congruence|].
    destruct G as (data & text' & letters & D & T' & PS & NE & G). assert (text' = text) by congruence. subst text'. rewrite D, T.
    destruct (C39_verify_complete c cr w H load load_fd metadata d data text) as [results E]; [now rewrite PS|now rewrite PS|rewrite PS; exact G|]. rewrite E. cbn [bind]. rewrite PS in *. cbn [fst] in *.
    destruct silent.
    + destruct (signers_ok (flat_map rw_sigs letters)) as [by_ Y]; [intros s I; apply in_flat_map in I as (r & I1 & I2); now apply (S r)|]. rewrite Y. cbn [bind]. eauto.
    + destruct (report_ok (combine letters (map fst results)) (base f) (base f ++ lit ".sig")) as [t Y]; [intros r fd s I; apply in_combine_l in I; now apply S|]. rewrite Y. cbn [bind]. eauto.
Qed.
Lemma verify_good silent seen f : goods silent f -> exists seen' ls, vfy silent seen f = Ok (true, seen', ls).
Proof using Type.
  intro G. unfold verify. destruct (existsb _ seen); [eauto|]. destruct G as [[by_ ls] G]. destruct (is_letter f); rewrite G; eauto.
Qed.
(** If every pattern is well-formed, a single pattern matches, all matches and directories can be read and every file to check
    passes, the command ends with success. *)
Theorem C45_complete : forall args, (forall a, In a args -> glob a <> None) -> (forall a, args = [a] -> glob a <> Some []) ->
  (forall f, matched glob args f -> exists i, stat f = Some i /\ (st_dir i = true -> forall p, ~ In (p, true) (walk f))) ->
  (forall t, tgt args t -> passes t) -> exists lines, cmd args = Ok lines.
Proof using Type.
  intros args NG NE NS P.
  assert (C1 : forall t f, tgt args f -> exists t', chk t f = Ok t' /\ ta_fails t' = ta_fails t /\ ta_warns t' = ta_warns t).
  { intros t f T. destruct (verify_good true (ta_seen t) f (passes_good true f (P f T))) as (seen & ls & E). unfold check. rewrite E. cbn [bind]. eexists. split; [reflexivity|]. split; reflexivity. }
  assert (V1 : forall entries t, (forall p, ~ In (p, true) entries) -> (forall p, In (p, false) entries -> (exists a, p = a ++ lit ".sig" \/ p = a ++ lit ".letter") -> tgt args p) ->
     exists t', vst entries t = Ok t' /\ ta_fails t' = ta_fails t /\ ta_warns t' = ta_warns t).
  { induction entries as [|[p e] entries IH]; intros t N T; cbn [visit]; [eauto|]. destruct e; [exfalso; apply (N p); now left|].
    assert (IH' : forall t, exists t', vst entries t = Ok t' /\ ta_fails t' = ta_fails t /\ ta_warns t' = ta_warns t) by (intro t0; apply IH; [intros q Q; apply (N q); now right|intros q Q; apply T; now right]).
    destruct (_ || _) eqn:S; [|apply IH']. destruct (C1 t p) as (t1 & E1 & F1 & W1); [apply T; [now left|]; apply orb_true_iff in S as [S|S]; apply has_suffix_iff in S as [a ->]; exists a; auto|].
    rewrite E1. cbn [bind]. destruct (IH' t1) as (t2 & E2 & F2 & W2). exists t2. split; [exact E2|]. split; congruence. }
  assert (G1 : forall files t, (forall f, In f files -> matched glob args f) -> exists t', gthr files t = Ok t' /\ ta_fails t' = ta_fails t /\ ta_warns t' = ta_warns t).
  { induction files as [|f files IH]; intros t M; cbn [go_through]; [eauto|]. assert (MF : matched glob args f) by (apply M; now left). destruct (NS f MF) as (i & S & W). rewrite S.
    assert (X : exists t1, (if st_dir i then vst (walk f) t else chk t f) = Ok t1 /\ ta_fails t1 = ta_fails t /\ ta_warns t1 = ta_warns t).
    { destruct (st_dir i) eqn:D; [apply V1; [now apply W|intros p I K; now apply (T_in _ _ _ _ p f i)]|apply C1; now apply (T_file _ _ _ _ f i)]. }
    destruct X as (t1 & E1 & F1 & W1). rewrite E1. cbn [bind]. destruct (IH t1) as (t2 & E2 & F2 & W2); [intros q Q; apply M; now right|]. exists t2. split; [exact E2|]. split; congruence. }
  assert (R1 : forall l, (forall a, In a l -> glob a <> None) -> exists files, resolve glob l = Ok files).
  { induction l as [|a l IH]; intro N; cbn [resolve]; [eauto|]. destruct (glob a) as [m|] eqn:E; [|exfalso; apply (N a); [now left|exact E]]. destruct IH as [fs IH]; [intros x X; apply N; now right|]. rewrite IH. cbn. eauto. }
  assert (B : exists lines, bulk c cr w H load load_fd parse_letter glob stat walk contents stdin confirm names metadata requirements d args = Ok lines).
  { unfold bulk. destruct (R1 args NG) as [files R]. rewrite R. cbn [bind]. destruct (resolve_matched _ _ R) as [M _]. destruct (G1 files (mkTally 0 0 [] [])) as (t & E & F & W); [intros f I; now apply M|]. rewrite E. cbn [bind]. rewrite F, W. cbn. eauto. }
  destruct args as [|a [|a' args']]; cbn [verify_cmd]; [exact B| |exact B]. destruct (glob a) as [m|] eqn:G; [|exfalso; apply (NG a); [now left|exact G]]. cbn [of_option bind]. destruct m as [|f [|f' m]]; [exfalso; now apply (NE a)| |exact B].
  assert (MF : matched glob [a] f) by (exists a, [f]; repeat split; [now left|exact G|now left]). destruct (NS f MF) as (i & S & W). rewrite S. cbn [of_option bind]. destruct (st_dir i) eqn:D; [exact B|].
  destruct (verify_good false [] f) as (seen & ls & E); [apply passes_good, P; now apply (T_file _ _ _ _ f i)|]. rewrite E. cbn. eauto.
Qed.
(** A letter on stdin cannot be verified, unless there is a file called "-". *)
Theorem C45_stdin_refuted : glob (lit "-") = Some [] -> cmd [lit "-"] = Err EOther.
Proof using Type. intro G. cbn [verify_cmd]. rewrite G. reflexivity. Qed.
End P.

(** ** Concrete cases *)
From Verif Require Import Toy PropLetter PropHash PropArmor ArmorFacts SpecArmor SpecHash.
Section Cases.
Let files : list (bytes * bytes) :=
  [ (lit "x", lit "x"); (lit "x.sig", toy_sig_file 1); (lit "m.letter", lit "m"); (lit "bad.letter", lit "?"); (lit "bad.letter.sig", toy_sig_file 1) ].
Let contents (f : bytes) : option bytes := if bytes_eqb f (lit "bad.letter.sig") then Some (armor_text [n2b 1] ++ [Coq.Init.Byte.x0a]) else assoc f files.
Let letters : list letter := [signed_file (lit "x"); signed_file (lit "?")].
Let parse (data : bytes) : outcome raw_letter :=
  if bytes_eqb data (lit "m") then Ok (raw (toy_close (lit "sign_v1") [] [toy_signet "alice" "Ed25519" 5] [] (lit "hello"))) else Err EOther.
Let stat (f : bytes) : option stat_info :=
  if bytes_eqb f (lit "dir") then Some (mkStat true 0) else match contents f with Some _ => Some (mkStat false (if bytes_eqb f (lit "bad.letter") then 99000000 else 10)) | None => None end.
Let walk (f : bytes) : list (bytes * bool) := [(lit "dir", false); (lit "m.letter", false); (lit "x", false); (lit "x.sig", false)].
Let glob (a : bytes) : option (list bytes) := match stat a with Some _ => Some [a] | None => Some [] end.
Let cmd (confirm : bytes -> option bool) := verify_cmd default_config toy alice_store toy_hash (toy_letters letters) toy_fd_load parse glob stat walk contents [] confirm (fun _ => Some (Some (lit "Alice"))) [] None 0.
Let vd := verified default_config toy alice_store toy_hash (toy_letters letters) toy_fd_load parse contents [] [] None 0.

Let by_alice : list bytes := [lit "Alice (alice)"].

Example C45_hypotheses_met : cmd (fun _ => None) [lit "dir"; lit "x"] = Ok [LOk (lit "m.letter") by_alice; LOk (lit "x") by_alice]
  /\ cmd (fun _ => Some true) [lit "x"; lit "bad.letter"] = Err EOther.
Proof. split; vm_compute; reflexivity. Qed.
Lemma bad_letter : ~ vd (lit "bad.letter").
Proof.
  intros [_ (data & r & D & P & _)|N _ _|a N _ _]; [|apply N; exact (LN_ext (lit "bad"))..].
  change (bytes_eqb (lit "bad.letter") (lit "-")) with false in D. cbv match in D. assert (X : contents (lit "bad.letter") = Some (lit "?")) by (vm_compute; reflexivity). rewrite X in D. injection D as <-. vm_compute in P. discriminate P.
Qed.
(** A big letter that is not loaded counts as verified. *)
Theorem C45_declined_refuted : cmd (fun _ => Some false) [lit "bad.letter"] = Ok [] /\ cmd (fun _ => Some false) [lit "x"; lit "bad.letter"] = Ok [LOk (lit "x") by_alice; LOk (lit "bad.letter") []] /\ ~ vd (lit "bad.letter").
Proof. split; [vm_compute; reflexivity|]. split; [vm_compute; reflexivity|exact bad_letter]. Qed.
(** A pattern that matches nothing is not noticed, if it is not the only one. *)
Theorem C45_missing_refuted : cmd (fun _ => None) [lit "x"; lit "gone.letter"] = Ok [LOk (lit "x") by_alice] /\ glob (lit "gone.letter") = Some [] /\ cmd (fun _ => None) [lit "gone.letter"] = Err EOther.
Proof. split; [vm_compute; reflexivity|]. split; vm_compute; reflexivity. Qed.
(** A letter file is not verified if its own signature file was verified before. *)
Theorem C45_shadowed_refuted : cmd (fun _ => None) [lit "bad.letter.sig"; lit "bad.letter"] = Ok [LOk (lit "bad.letter") by_alice] /\ ~ vd (lit "bad.letter").
Proof. split; [vm_compute; reflexivity|exact bad_letter]. Qed.
(** A verified letter or file crashes the command if the trust store has its signer without the information a
    signet carries, and so the rest is not verified. *)
Theorem C45_nameless_signer_refuted :
  let cmd' := verify_cmd default_config toy alice_store toy_hash (toy_letters letters) toy_fd_load parse glob stat walk contents [] (fun _ => None) (fun _ => Some None) [] None 0 in
  (exists t, cmd (fun _ => None) [lit "x"] = Ok [LText t]) /\ cmd' [lit "x"] = Panic
  /\ (exists t, cmd (fun _ => None) [lit "m.letter"] = Ok [LText t]) /\ cmd' [lit "m.letter"] = Panic
  /\ cmd (fun _ => None) [lit "x"; lit "m.letter"] = Ok [LOk (lit "x") by_alice; LOk (lit "m.letter") by_alice] /\ cmd' [lit "x"; lit "m.letter"] = Panic.
Proof.
  cbv zeta. split; [exists (match cmd (fun _ => None) [lit "x"] with Ok [LText t] => t | _ => [] end); vm_compute; reflexivity|]. split; [vm_compute; reflexivity|].
  split; [exists (match cmd (fun _ => None) [lit "m.letter"] with Ok [LText t] => t | _ => [] end); vm_compute; reflexivity|]. split; [vm_compute; reflexivity|]. split; vm_compute; reflexivity. Qed.
End Cases.
Print Assumptions C45_nameless_signer_refuted.
Print Assumptions C45_success.
Print Assumptions C45_complete.
