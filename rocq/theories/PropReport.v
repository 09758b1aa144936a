(** C66: what the verify command prints. *)
From Coq Require Import Init.Byte Sorting.Sorted Sorting.Permutation.
From Verif Require Import Prelude PreludeFacts Requirements Tools Crypto Letter Session SpecSession Core Envelope Lhash Encodings Search Armor FileSig SpecFile PropFile Report Cmd SpecCmd PropCmd SpecReport.
From Verif Require Import SuiteFacts PropSession PropTrip SpecOpen PropOpen PropLetter.

(** ** The order of the metadata *)
Lemma key_ltb_iff a : forall b, key_ltb a b = true <-> before a b.
Proof.
  induction a as [|x a IH]; intros [|y b]; cbn [key_ltb]; (split; [intro E|intro E]); try discriminate E; try solve [inversion E]; [constructor|reflexivity| |].
  - destruct (b2n x <? b2n y)%N eqn:L; [apply B_here; now apply N.ltb_lt|]. destruct (b2n y <? b2n x)%N eqn:G; [discriminate|]. apply N.ltb_ge in L, G.
    assert (EQ : x = y) by (apply b2n_inj; lia). subst y. apply B_later. now apply IH.
  - inversion E as [|? ? ? ? L|? ? ? L]; subst.
    + apply N.ltb_lt in L. now rewrite L.
    + rewrite N.ltb_irrefl. now apply IH.
Qed.
Lemma before_irrefl a : ~ before a a.
Proof. induction a as [|x a IH]; intro B; inversion B; subst; [lia|contradiction]. Qed.
Lemma before_trans a b : before a b -> forall c, before b c -> before a c.
Proof.
  induction 1 as [y b|x y a b L|x a b B IH]; intros c C; inversion C; subst; try constructor; try assumption; [lia|now apply IH].
Qed.
Lemma before_total a : forall b, a = b \/ before a b \/ before b a.
Proof.
  induction a as [|x a IH]; intros [|y b]; [now left|right; left; constructor|right; right; constructor|].
  destruct (N.lt_trichotomy (b2n x) (b2n y)) as [L|[L|L]]; [right; left; now constructor| |right; right; now constructor].
  apply b2n_inj in L. subst y. destruct (IH b) as [->|[B|B]]; [now left|right; left; now constructor|right; right; now constructor].
Qed.

Notation sorted := (StronglySorted (fun a b : bytes * bytes => before (fst a) (fst b))).
Lemma put_in e l x : In x (put_entry e l) <-> x = e \/ In x l.
Proof.
  induction l as [|y l IH]; cbn [put_entry]; [cbn; intuition congruence|]. destruct (key_ltb _ _); cbn [In]; [intuition congruence|]. rewrite IH. cbn. intuition congruence.
Qed.
Lemma put_sorted e l : sorted l -> (forall x, In x l -> fst x <> fst e) -> sorted (put_entry e l).
Proof.
  induction l as [|y l IH]; intros S N; cbn [put_entry]; [constructor; constructor|]. inversion S as [|? ? S' F]; subst. destruct (key_ltb (fst e) (fst y)) eqn:K.
  - apply key_ltb_iff in K. constructor; [exact S|]. constructor; [exact K|]. rewrite Forall_forall in *. intros z Z. apply (before_trans _ _ K). now apply F.
  - constructor; [apply IH; [exact S'|intros x X; apply N; now right]|]. rewrite Forall_forall in *. intros z Z. apply put_in in Z as [->|Z]; [|now apply F].
    destruct (before_total (fst y) (fst e)) as [Q|[Q|Q]]; [exfalso; apply (N y); [now left|exact Q]|exact Q|]. apply key_ltb_iff in Q. rewrite Q in K. discriminate K.
Qed.
Lemma sort_in l x : In x (sort_entries l) <-> In x l.
Proof. induction l as [|e l IH]; cbn [sort_entries]; [reflexivity|]. rewrite put_in, IH. cbn [In]. split; intros [A|A]; auto. Qed.
Lemma sort_sorted l : NoDup (map fst l) -> sorted (sort_entries l).
Proof.
  induction l as [|e l IH]; intro N; cbn [sort_entries]; [constructor|]. inversion N as [|? ? A B]; subst. apply put_sorted; [now apply IH|]. intros x X E. apply (proj1 (sort_in _ _)) in X. apply A. apply (in_map fst) in X. rewrite E in X. exact X.
Qed.
Lemma mem_iff k (seen : list bytes) : existsb (bytes_eqb k) seen = true <-> In k seen.
Proof.
  rewrite existsb_exists. split; [intros (x & X & E); apply bytes_eqb_eq in E; now subst|intro X; exists k; split; [exact X|apply bytes_eqb_eq; reflexivity]].
Qed.
Lemma entries_in m : forall seen k v, In (k, v) (entries_but seen m) <-> meta_has m k v /\ ~ In k seen.
Proof.
  induction m as [|[k0 v0] m IH]; intros seen k v; cbn [entries_but].
  - split; [intros []|]. intros [(pre & post & E & _) _]. destruct pre; discriminate E.
  - destruct (existsb (bytes_eqb k0) seen) eqn:M.
    + apply mem_iff in M. rewrite IH. split; intros [(pre & post & E & N) NS]; (split; [|exact NS]).
      * exists ((k0, v0) :: pre), post. split; [now rewrite E|]. intros v' [X|X]; [injection X as -> ->; contradiction|now apply (N v')].
      * destruct pre as [|y pre]; [injection E as E1 _ _; subst k0; contradiction|]. injection E as E1 E2. exists pre, post. split; [exact E2|]. intros v' X. apply (N v'). now right.
    + assert (M' : ~ In k0 seen) by (intro X; apply mem_iff in X; rewrite X in M; discriminate M). cbn [In]. rewrite IH. split.
      * intros [E|[(pre & post & E & N) NS]]; [injection E as <- <-; split; [exists [], m; split; [reflexivity|intros ? []]|exact M']|].
        split; [|intro X; apply NS; now right]. exists ((k0, v0) :: pre), post. split; [now rewrite E|]. intros v' [X|X]; [injection X as -> ->; apply NS; now left|now apply (N v')].
      * intros [(pre & post & E & N) NS]. destruct pre as [|y pre]; [injection E as E1 E1' _; left; congruence|]. injection E as E1 E2. right. split; [exists pre, post; split; [exact E2|]; intros v' X; apply (N v'); now right|].
        intros [X|X]; [|contradiction]. subst k0. apply (N v0). rewrite <- E1. now left.
Qed.
Lemma entries_nodup m : forall seen, NoDup (map fst (entries_but seen m)).
Proof.
  induction m as [|[k v] m IH]; intro seen; cbn [entries_but]; [constructor|]. destruct (existsb _ seen); [apply IH|]. cbn [map fst]. constructor; [|apply IH].
  intro X. apply in_map_iff in X as ([k' v'] & E & X). cbn in E. subst k'. apply entries_in in X as [_ X]. apply X. now left.
Qed.
Lemma listed_entries m : listed m (sort_entries (map_entries m)).
Proof.
  split; [|apply sort_sorted, entries_nodup]. intros k v. rewrite sort_in. unfold map_entries. rewrite entries_in. split; [now intros [X _]|]. intro X. split; [exact X|intros []].
Qed.
Lemma sorted_unique l : forall l', sorted l -> sorted l' -> (forall x, In x l <-> In x l') -> l = l'.
Proof.
  induction l as [|x l IH]; intros [|y l'] S S' E; [reflexivity|exfalso; apply (E y); now left|exfalso; apply (E x); now left|].
  inversion S as [|? ? S1 F1]; inversion S' as [|? ? S2 F2]; subst. rewrite Forall_forall in F1, F2.
  assert (X : x = y).
  { destruct (proj1 (E x) (or_introl eq_refl)) as [X|X]; [now symmetry|]. destruct (proj2 (E y) (or_introl eq_refl)) as [Y|Y]; [exact Y|].
    exfalso. apply (before_irrefl (fst x)). exact (before_trans _ _ (F1 _ Y) _ (F2 _ X)). }
  subst y. f_equal. apply IH; [exact S1|exact S2|]. intro z. split; intro Z.
  - destruct (proj1 (E z) (or_intror Z)) as [<-|Q]; [|exact Q]. exfalso. exact (before_irrefl _ (F1 _ Z)).
  - destruct (proj2 (E z) (or_intror Z)) as [<-|Q]; [|exact Q]. exfalso. exact (before_irrefl _ (F2 _ Z)).
Qed.

(** Whatever order a Go map is ranged over in, sorting its entries by key gives the same list: the one of [listed].  ([s] is
    sorted as sort.Sort leaves it: no later entry is less than an earlier one.) *)
Theorem C66_any_order : forall m entries ranged s, listed m entries -> NoDup ranged -> (forall k v, In (k, v) ranged <-> meta_has m k v) -> Permutation ranged s ->
  (forall i j x y, i < j -> nth_error s i = Some x -> nth_error s j = Some y -> ~ before (fst y) (fst x)) -> s = entries.
Proof.
  intros m entries ranged s [L1 L2] ND R P S. assert (NS : NoDup s) by exact (Permutation_NoDup P ND).
  assert (I : forall k v, In (k, v) s <-> meta_has m k v). { intros k v. rewrite <- R. split; apply Permutation_in; [now symmetry|exact P]. }
  assert (F : forall k v v', meta_has m k v -> meta_has m k v' -> v = v').
  { intros k v v' A B. apply assoc_has in A, B. congruence. }
  apply sorted_unique; [|exact L2|intros [k v]; rewrite I, L1; reflexivity].
  assert (K : forall x y, In x s -> In y s -> fst x = fst y -> x = y). { intros [k v] [k' v'] A B E. cbn in E. subst k'. f_equal. apply (F k); now apply I. }
  clear L1 L2 R P I F ND. induction s as [|x s IH]; [constructor|]. inversion NS as [|? ? NX NS']; subst. constructor.
  - apply IH; [intros i j y z L A B; apply (S (Datatypes.S i) (Datatypes.S j)); [lia|exact A|exact B]|exact NS'|intros y z A B; apply K; now right].
  - apply Forall_forall. intros y Y. destruct (before_total (fst x) (fst y)) as [E|[E|E]]; [|exact E|].
    + exfalso. apply NX. rewrite (K x y); [exact Y|now left|now right|exact E].
    + exfalso. apply In_nth_error in Y as [j J]. exact (S 0 (Datatypes.S j) x y (Nat.lt_0_succ j) eq_refl J E).
Qed.
Print Assumptions C66_any_order.

(** ** The signers *)
(** Opening or verifying a letter with success says that each of its signatures is genuine, whatever the suite. *)
Theorem C66_signers_genuine : forall c cr w req r d data, callbacks_keep_scheme w ->
  letter_open c suite_registry tool_registry hash_registry cr w req r d = Ok data \/ letter_verify c suite_registry tool_registry hash_registry cr w req r d = Ok tt ->
  forall s, In s (rw_sigs r) -> exists v, s = Some v /\ signature_genuine cr w r v.
Proof.
  intros c cr w req r d data K RUN s0 I.
  assert (X : exists e s, letter_envelope suite_registry req r = Ok e /\ correspondence c suite_registry tool_registry hash_registry cr w e = Ok s).
  { unfold letter_open, letter_verify in RUN. destruct (letter_envelope _ req r) as [e| |]; cbn [bind] in RUN; [|destruct RUN; discriminate..].
    exists e. destruct (correspondence _ _ _ _ _ _ e) as [s| |]; cbn [bind] in RUN; [|destruct RUN; discriminate..]. now exists s. }
  destruct X as (e & s & EE & EC). destruct (letter_envelope_ok _ _ _ EE) as (su & G & E1 & _ & _ & _ & EV & _ & ESE & _ & _ & EO).
  pose proof (get_suite_in _ _ G) as HI. unfold correspondence in EC. destruct (prepare _ _ _ _ e) as [[e'| |] q] eqn:EP; cbn [bind fst] in EC; [|discriminate..].
  destruct (prepare_ok _ _ _ _ _ EP) as (su' & a & b & d' & q1 & q2 & q3 & LS & -> & _ & P2 & _ & _).
  unfold load_suite in LS. rewrite E1 in LS. injection LS as <-. rewrite EO, ESE in P2.
  destruct (registered_few su HI) as (_ & _ & DT).
  assert (NKEY : forall sg, In sg (map (refer (l_version (rw_letter r))) (seals_of (rw_sigs r))) -> sg_key sg = [])
    by (intros sg Hsg; apply in_map_iff in Hsg as (? & <- & _); reflexivity).
  destruct (prep_signets_ok _ _ _ _ _ _ _ K NKEY P2) as [F2 _].
  assert (NE : exists n, In n b). { destruct b as [|n b']; [|exists n; now left]. inversion F2 as [Z|]. rewrite EV in I. destruct (seals_of (rw_sigs r)); [destruct I|discriminate Z]. }
  destruct NE as [n Hn].
  destruct (senders_served _ _ _ _ _ _ EC eq_refl DT) as [SV _]. cbn [set_signets e_senders] in SV.
  assert (ST : exists t, suite_tool tool_registry su t /\ t_purpose t = PSigning).
  { assert (TN : forall t, In t tool_registry -> t_name t <> []).
    { assert (C : forallb (fun t => nonempty (t_name t)) tool_registry = true) by reflexivity. rewrite forallb_forall in C. intros t T Z. specialize (C t T). rewrite Z in C. discriminate C. }
    destruct (C07_no_signet_unused _ _ _ _ _ _ _ EC eq_refl TN DT) as (_ & Y & _). destruct (Y n Hn) as (t & T1 & T2 & _). now exists t. }
  destruct ST as (t & ST & TP). destruct (C11_letter_signatures_trusted c cr w req r d data su t K G ST TP RUN) as (g & vs & h & W & RS & _ & _ & V).
  rewrite RS in I. apply in_map_iff in I as (v & <- & Iv). exists v. split; [reflexivity|]. destruct (V v Iv) as (n' & p & A1 & A2 & _ & A3 & A4). exists g, n', p, h. rewrite A2. auto.
Qed.
Print Assumptions C66_signers_genuine.

(** ** The texts *)
Lemma ok_inj {A} (a b : A) : Ok a = Ok b -> a = b.
Proof. now injection 1. Qed.
Lemma entries_nil m l : listed m l -> (l = [] <-> map_entries m = []).
Proof.
  intros [A _]. split; intro E.
  - destruct (map_entries m) as [|[k v] r] eqn:M; [reflexivity|]. assert (I : In (k, v) (entries_but [] m)) by (fold (map_entries m); rewrite M; now left). apply entries_in in I as [I _]. apply A in I. rewrite E in I. destruct I.
  - destruct l as [|[k v] r]; [reflexivity|]. assert (I : meta_has m k v) by (apply A; now left). assert (J : In (k, v) (entries_but [] m)) by (apply entries_in; split; [exact I|intros []]). fold (map_entries m) in J. rewrite E in J. destruct J.
Qed.
Lemma text_app a b : text_of (a ++ b) = text_of a ++ text_of b.
Proof. unfold text_of. now rewrite map_app, concat_app. Qed.
Lemma text_map {A} (f : A -> bytes) l : text_of (map f l) = concat (map (fun x => ln (f x)) l).
Proof. unfold text_of, ln. now rewrite map_map. Qed.
Lemma meta_text m :
  match map_entries m with [] => [] | es => [x0a] ++ ln (lit "Metadata:") ++ concat (map (fun kv => ln (lit "    " ++ fst kv ++ lit ": " ++ snd kv)) (sort_entries es)) end
  = text_of (meta_lines (sort_entries (map_entries m))).
Proof.
  pose proof (listed_entries m) as LE. destruct (map_entries m) as [|e es] eqn:M; [reflexivity|]. destruct (sort_entries (e :: es)) as [|e' es'] eqn:SE; [pose proof (proj1 (entries_nil _ _ LE) eq_refl) as Z; rewrite M in Z; discriminate Z|].
  unfold meta_lines. rewrite text_app, text_map. unfold text_of. cbn [map concat]. rewrite app_nil_r. reflexivity.
Qed.
Section P.
Variables (c : config) (cr : crypto) (w : world) (H : N -> bytes -> bytes).
Variables (load : bytes -> option raw_letter) (load_fd : bytes -> option filedata).
Variable parse_letter : bytes -> outcome raw_letter.
Variables (glob : bytes -> option (list bytes)) (stat : bytes -> option stat_info) (walk : bytes -> list (bytes * bool)).
Variables (contents : bytes -> option bytes) (stdin : bytes) (confirm : bytes -> option bool) (names : bytes -> option (option bytes)).
Variables (metadata : list (bytes * bytes)) (requirements : option reqs) (d : nat).
Notation vletter := (verify_letter c cr w parse_letter stat contents stdin confirm names metadata requirements d).
Notation vsig := (verify_sig c cr w H load load_fd contents stdin names metadata d).
Notation vfy := (verify c cr w H load load_fd parse_letter stat contents stdin confirm names metadata requirements d).
Notation chk := (check c cr w H load load_fd parse_letter stat contents stdin confirm names metadata requirements d).
Notation vst := (visit c cr w H load load_fd parse_letter stat contents stdin confirm names metadata requirements d).
Notation gthr := (go_through c cr w H load load_fd parse_letter stat walk contents stdin confirm names metadata requirements d).
Notation cmd := (verify_cmd c cr w H load load_fd parse_letter glob stat walk contents stdin confirm names metadata requirements d).

(** The letter in [f] is genuine and signed by [by_]. *)
Definition letter_by (f : bytes) (by_ : list bytes) : Prop :=
  exists data r, (if bytes_eqb f (lit "-") then data = stdin else contents f = Some data) /\ parse_letter data = Ok r
    /\ letter_verify c suite_registry tool_registry hash_registry cr w
         (Some match requirements with Some q => q | None => [Integrity; SenderAuthentication] end) r d = Ok tt
    /\ signed_by names [r] by_.
(** [letters] are the letters of the signature file of [f], and each is a valid signature of [f], with the file data [fds]. *)
Definition file_letters (f : bytes) (letters : list raw_letter) (fds : list filedata) : Prop :=
  exists data text, contents f = Some data /\ contents (f ++ lit ".sig") = Some text /\ parse_sig_file load text = (letters, false)
    /\ letters <> [] /\ Forall2 (signature_of c cr w H load_fd metadata d data) letters fds.

Lemma signers_shown l by_ : mapM (signer names) l = Ok by_ -> Forall2 (fun s t => exists v, s = Some v /\ printed_as names v t) l by_.
Proof using Type.
  intro E. apply mapM_ok_Forall2 in E. induction E as [|[v|] t l by_ E F IH]; [constructor| |discriminate E]. constructor; [|exact IH]. exists v. split; [reflexivity|]. unfold signer in E.
  destruct (names (seal_id v)) as [[n|]|] eqn:N; [|discriminate E|]; injection E as <-; [now apply S_name|now apply S_id].
Qed.
Lemma shown_signers l by_ : Forall2 (fun s t => exists v, s = Some v /\ printed_as names v t) l by_ -> mapM (signer names) l = Ok by_.
Proof using Type.
  induction 1 as [|s t l by_ (v & -> & E) F IH]; [reflexivity|]. cbn [mapM]. rewrite IH. cbn [signer]. inversion E as [N|n N]; rewrite N; reflexivity.
Qed.
Lemma vletter_by silent f by_ ls : letter_name f -> vletter silent f = Ok (by_, ls) ->
  (declined stat confirm f /\ by_ = [] /\ ls = [])
  \/ (metadata = [] /\ letter_by f by_ /\ ls = if silent then [] else [LText (text_of [lit "Verification: OK"; lit "Signed By: " ++ join (lit ", ") by_])]).
Proof using Type.
  intros L E. unfold verify_letter in E. destruct metadata as [|kv md]; [|discriminate E]. cbn [guard bind] in E.
  assert (R : verify_letter_rest c cr w parse_letter contents stdin names requirements d silent f = Ok (by_, ls) ->
    letter_by f by_ /\ ls = if silent then [] else [LText (text_of [lit "Verification: OK"; lit "Signed By: " ++ join (lit ", ") by_])]).
  { clear E. unfold verify_letter_rest. intro E. apply bind_ok in E as (data & D & E). apply bind_ok in E as (r & P & E). apply bind_ok in E as ([] & V & E). apply bind_ok in E as (by' & S & E). injection E as <- <-. split.
    - exists data, r. split; [|split; [exact P|split; [exact V|]]].
      + change stdio with (lit "-") in D. destruct (bytes_eqb f (lit "-")); [now injection D|]. destruct (contents f); [now injection D as ->|discriminate].
      + unfold signed_by. cbn [flat_map]. rewrite app_nil_r. now apply signers_shown.
    - destruct silent; [reflexivity|]. unfold text_of. cbn [map concat]. rewrite app_nil_r. reflexivity. }
  destruct (bytes_eqb f stdio); [right; split; [reflexivity|auto]|]. destruct (stat f) as [i|] eqn:S; [|discriminate]. cbn [of_option bind] in E. destruct (st_size i >? warn_size)%Z eqn:Z; [|right; split; [reflexivity|auto]].
  destruct (confirm f) as [[]|] eqn:C; [right; split; [reflexivity|auto]| |discriminate]. injection E as <- <-. left. split; [|auto]. split; [exact L|]. split; [|exact C]. exists i. split; [exact S|]. apply Z.gtb_lt in Z. apply Z.lt_gt. exact Z.
Qed.
Lemma block_report r fd t : (exists h, lh_load (fd_hash fd) = Ok h) -> format_signature names (shown_of (r, fd)) = Ok t -> report names r fd t.
Proof using Type.
  intros [h LH] E. unfold format_signature in E. cbn [shown_of sh_error sh_sigs sh_hash sh_meta fst snd] in E. rewrite LH in E. apply bind_ok in E as (by_ & B & E). apply bind_ok in B as (l & B & B'). apply ok_inj in B', E. subst by_ t.
  exists l, h, (sort_entries (map_entries (fd_meta fd))). split; [unfold signed_by; cbn [flat_map]; rewrite app_nil_r; now apply signers_shown|]. split; [exact LH|]. pose proof (listed_entries (fd_meta fd)) as LE. split; [exact LE|].
  rewrite meta_text. rewrite !text_app, text_map. generalize (text_of (meta_lines (sort_entries (map_entries (fd_meta fd))))).
  generalize (concat (map (fun s => ln (lit "Signed By: " ++ s)) l)). intros x y. unfold text_of. cbn [map concat]. rewrite !app_nil_r. unfold ln. generalize (lit "Verification: OK") (lit "Hash Alg: ") (lit "Hash Sum: "). intros. rewrite <- !app_assoc. reflexivity.
Qed.
Lemma vsig_by silent f by_ ls : f <> lit "-" -> vsig silent f = Ok (by_, ls) ->
  exists letters fds, file_letters f letters fds
    /\ if silent then signed_by names letters by_ /\ ls = [] else by_ = [] /\ exists t, reports names f letters fds t /\ ls = [LText t].
Proof using Type.
  intros NS E. unfold verify_sig in E. change stdio with (lit "-") in E. destruct (bytes_eqb f (lit "-")) eqn:B; [apply bytes_eqb_eq in B; congruence|]. clear B.
  apply bind_ok in E as ([results e] & V & E). destruct e; [discriminate|]. change ext_sig with (lit ".sig") in *.
  destruct (contents (f ++ lit ".sig")) as [text|] eqn:T; [|discriminate].
  destruct (contents f) as [data|] eqn:D; [|destruct (proj2 (proj2 (C39_nothing_to_verify c cr w H load load_fd (FromFile None) metadata d)) _ _ _ V); discriminate].
  destruct (C39_verify_exact _ _ _ _ _ _ _ _ _ _ _ _ V) as (X & Y & _). destruct (proj1 X eq_refl) as (X1 & X2 & _). destruct (Y eq_refl) as (fds & F & RE). clear X Y V. cbv zeta in E.
  destruct (parse_sig_file load text) as [letters warn] eqn:P. cbn [fst snd] in *. subst warn.
  exists letters, fds. split; [exists data, text; auto|].
  destruct silent; [apply bind_ok in E as (by' & S & E); injection E as <- <-; split; [now apply signers_shown|reflexivity]|].
  apply bind_ok in E as (t & S & E). injection E as <- <-. split; [reflexivity|]. exists t. split; [|reflexivity].
  rewrite RE, map_map in S. cbn [fst] in S. rewrite map_id in S. clear RE.
  assert (LD : forall r fd, In (r, fd) (combine letters fds) -> exists h, lh_load (fd_hash fd) = Ok h).
  { intros r fd I. assert (G : forall A B (R : A -> B -> Prop) l l' a b, Forall2 R l l' -> In (a, b) (combine l l') -> R a b).
    { clear. intros A B R l l' a b F. induction F as [|x y l l' R1 F IH]; intros []; [injection H as <- <-; exact R1|auto]. }
    destruct (G _ _ _ _ _ _ _ F I) as (_ & _ & _ & h & L & _). now exists h. }
  unfold format_signatures in S. apply bind_ok in S as (body & B & S). apply ok_inj in S. subst t. exists body. split.
  { f_equal. destruct f as [|f0 f']; [reflexivity|]. unfold text_of. cbn [map concat]. rewrite !app_nil_r. reflexivity. }
  destruct F as [|r1 fd1 letters fds F1 F]; [now elim X1|]. destruct F as [|r2 fd2 letters fds F2 F].
  - cbn [combine map] in B. now apply block_report; [apply (LD r1); now left|].
  - destruct F as [|r3 fd3 letters fds F3 F]; cbn [combine map] in B, LD; [|now injection B].
    cbn [mapM] in B. apply bind_ok in B as (l & B & E). apply bind_ok in B as (x1 & B1 & B). apply bind_ok in B as (l2 & B & B'). apply bind_ok in B as (x2 & B2 & B). cbn [bind] in B.
    apply bind_ok in B1 as (b1 & B1 & B1'). apply bind_ok in B2 as (b2 & B2 & B2'). apply ok_inj in E, B, B', B1', B2'. subst.
    exists b1, b2. split; [apply block_report; [apply (LD r1); now left|exact B1]|]. split; [apply block_report; [apply (LD r2); right; now left|exact B2]|].
    unfold text_of. cbn [map concat]. rewrite !app_nil_r. rewrite <- !app_assoc. reflexivity.
Qed.

Lemma data_base f g : data_file f g -> base f = g.
Proof using Type. intros [->|[-> N]]; [apply base_sig|now apply trim_suffix_none]. Qed.

(** Verifying one file: with exit status 0 each letter of its signature file is a valid signature of it, and exactly the
    report about them is printed. *)
Theorem C66_verify_file : forall a f g i lines, glob a = Some [f] -> stat f = Some i -> st_dir i = false -> ~ letter_name f -> data_file f g -> g <> lit "-" ->
  cmd [a] = Ok lines -> exists letters fds t, file_letters g letters fds /\ reports names g letters fds t /\ lines = [LText t].
Proof using Type.
  intros a f g i lines G S D L B NG E. cbn [verify_cmd] in E. rewrite G in E. cbn [of_option bind] in E. rewrite S in E. cbn [of_option bind] in E. rewrite D in E. apply bind_ok in E as ([[ok seen] ls] & V & E).
  unfold verify in V. cbn [existsb] in V. apply not_letter in L. rewrite L, (data_base _ _ B) in V. cbv zeta in V. destruct (vsig false g) as [[by_ ls']| |] eqn:VS; [| |discriminate V]; injection V as <- <- <-; [|discriminate E]. injection E as <-.
  destruct (vsig_by false g _ _ NG VS) as (letters & fds & F & -> & t & R & ->). exists letters, fds, t. auto.
Qed.
(** Verifying one letter. *)
Theorem C66_verify_letter : forall a f i lines, glob a = Some [f] -> stat f = Some i -> st_dir i = false -> letter_name f -> cmd [a] = Ok lines ->
  (declined stat confirm f /\ lines = [])
  \/ exists by_, letter_by f by_ /\ lines = [LText (text_of [lit "Verification: OK"; lit "Signed By: " ++ join (lit ", ") by_])].
Proof using Type.
  intros a f i lines G S D L E. cbn [verify_cmd] in E. rewrite G in E. cbn [of_option bind] in E. rewrite S in E. cbn [of_option bind] in E. rewrite D in E. apply bind_ok in E as ([[ok seen] ls] & V & E).
  unfold verify in V. cbn [existsb] in V. assert (L' : is_letter f = true) by now apply is_letter_iff. rewrite L' in V. destruct (vletter false f) as [[by_ ls']| |] eqn:VS; [| |discriminate V]; injection V as <- <- <-; [|discriminate E]. injection E as <-.
  destruct (vletter_by false f _ _ L VS) as [(DC & _ & ->)|(_ & LB & ->)]; [now left|]. right. exists by_. auto.
Qed.
(** Several files: a line "[ OK ]" names the signers of the letter, or all signers of all letters of the signature file, in
    order, and these letters are verified.  This also holds when the command fails in the end. *)
Definition ok_line (f : bytes) (by_ : list bytes) : Prop :=
  (letter_name f /\ (declined stat confirm f /\ by_ = [] \/ letter_by f by_))
  \/ (exists letters fds, file_letters f letters fds /\ signed_by names letters by_)
  \/ f = lit "-".
Theorem C66_ok_lines : forall files t t', gthr files t = Ok t' -> forall f by_, In (LOk f by_) (ta_lines t') -> In (LOk f by_) (ta_lines t) \/ ok_line f by_.
Proof using Type.
  assert (S1 : forall t f t', chk t f = Ok t' -> forall g by_, In (LOk g by_) (ta_lines t') -> In (LOk g by_) (ta_lines t) \/ ok_line g by_).
  { intros t f t' E g by_ I. unfold check in E. apply bind_ok in E as ([[ok seen] ls] & V & E). injection E as <-. cbn [ta_lines] in I. apply in_app_iff in I as [I|I]; [now left|]. right.
    unfold verify in V. destruct (existsb _ _); [injection V as <- <- <-; destruct I|]. destruct (is_letter f) eqn:L.
    - destruct (vletter true f) as [[by' ls']| |] eqn:VS; [| |discriminate V]; injection V as <- <- <-; destruct I as [I|[]]; [|discriminate I]. injection I as <- <-. apply is_letter_iff in L. left. split; [exact L|].
      destruct (vletter_by true f _ _ L VS) as [(DC & -> & _)|(_ & LB & _)]; auto.
    - cbv zeta in V. destruct (vsig true (base f)) as [[by' ls']| |] eqn:VS; [| |discriminate V]; injection V as <- <- <-; destruct I as [I|[]]; [|discriminate I]. injection I as <- <-. right.
      destruct (bytes_eqb (base f) (lit "-")) eqn:B; [right; now apply bytes_eqb_eq|]. left. destruct (vsig_by true (base f) by' ls') as (letters & fds & F & SB & _); [intro X; rewrite X in B; discriminate B|exact VS|]. exists letters, fds. auto. }
  assert (S2 : forall entries t t', vst entries t = Ok t' -> forall g by_, In (LOk g by_) (ta_lines t') -> In (LOk g by_) (ta_lines t) \/ ok_line g by_).
  { induction entries as [|[p e] entries IH]; intros t t' E g by_ I; cbn [visit] in E; [injection E as <-; now left|]. destruct e.
    - destruct (IH _ _ E g _ I) as [X|X]; [|now right]. cbn in X. apply in_app_iff in X as [X|[X|[]]]; [now left|discriminate].
    - destruct (_ || _); [|exact (IH _ _ E g _ I)]. apply bind_ok in E as (t1 & C1 & E). destruct (IH _ _ E g _ I) as [X|X]; [exact (S1 _ _ _ C1 g _ X)|now right]. }
  induction files as [|f files IH]; intros t t' E g by_ I; cbn [go_through] in E; [injection E as <-; now left|]. destruct (stat f) as [i|].
  - apply bind_ok in E as (t1 & C1 & E). destruct (IH _ _ E g _ I) as [X|X]; [|now right]. destruct (st_dir i); [exact (S2 _ _ _ C1 g _ X)|exact (S1 _ _ _ C1 g _ X)].
  - destruct (IH _ _ E g _ I) as [X|X]; [|now right]. cbn in X. apply in_app_iff in X as [X|[X|[]]]; [now left|discriminate].
Qed.
(** Everybody named in a line "[ OK ]" made a genuine signature in one of the letters, and is named as the trust store names the
    signer.  (For a report: C66_signers_genuine with the letters of C66_verify_file.) *)
Theorem C66_named_signers : forall f by_ n, callbacks_keep_scheme w -> In n by_ ->
  letter_by f by_ \/ (exists letters fds, file_letters f letters fds /\ signed_by names letters by_) ->
  exists r v, In (Some v) (rw_sigs r) /\ signature_genuine cr w r v /\ printed_as names v n
    /\ ((exists data, (if bytes_eqb f (lit "-") then data = stdin else contents f = Some data) /\ parse_letter data = Ok r)
        \/ (exists text, contents (f ++ lit ".sig") = Some text /\ In r (fst (parse_sig_file load text)))).
Proof using Type.
  intros f by_ n K I.
  assert (G : forall letters, signed_by names letters by_ -> exists r v, In r letters /\ In (Some v) (rw_sigs r) /\ printed_as names v n).
  { intros letters SB. unfold signed_by in SB. revert I. assert (Q : forall s, In s (flat_map rw_sigs letters) -> exists r, In r letters /\ In s (rw_sigs r)) by (intros s S; apply in_flat_map in S; exact S).
    induction SB as [|s t l by_ (v & -> & P) F IH]; intro I; [destruct I|]. destruct I as [->|I]; [destruct (Q (Some v) (or_introl eq_refl)) as (r & R1 & R2); exists r, v; auto|]. apply IH; [intros s S; apply Q; now right|exact I]. }
  intros [(data & r & D & P & V & SB)|(letters & fds & (data & text & D & T & P & NE & F) & SB)]; destruct (G _ SB) as (r' & v & R & Iv & PA).
  - destruct R as [<-|[]]. exists r, v. split; [exact Iv|]. destruct (C66_signers_genuine c cr w _ r d [] K (or_intror V) (Some v) Iv) as (v' & E & SG). injection E as <-. split; [exact SG|]. split; [exact PA|]. left. now exists data.
  - exists r', v. split; [exact Iv|]. assert (O : exists fd, signature_of c cr w H load_fd metadata d data r' fd).
    { clear -F R. induction F as [|x y l l' R1 F IH]; [destruct R|]. destruct R as [->|R]; [now exists y|now apply IH]. }
    destruct O as (fd & _ & (o & O) & _). destruct (C66_signers_genuine c cr w _ r' d o K (or_introl O) (Some v) Iv) as (v' & E & SG). injection E as <-. split; [exact SG|]. split; [exact PA|]. right. exists text. split; [exact T|]. now rewrite P.
Qed.
End P.
Print Assumptions C66_verify_file.
Print Assumptions C66_verify_letter.
Print Assumptions C66_ok_lines.
Print Assumptions C66_named_signers.

(** ** Concrete cases *)
From Verif Require Import Toy PropHash PropArmor ArmorFacts SpecArmor SpecHash.
Section Cases.
Let files (n : nat) : list (bytes * bytes) := [ (lit "x", lit "x"); (lit "x.sig", toy_sig_file n); (lit "m.letter", lit "m") ].
Let contents (n : nat) (f : bytes) : option bytes := assoc f (files n).
Let letters : list letter := [signed_file (lit "x"); signed_file (lit "x"); signed_file (lit "x")].
Let parse (data : bytes) : outcome raw_letter :=
  if bytes_eqb data (lit "m") then Ok (raw (toy_close (lit "sign_v1") [] [toy_signet "alice" "Ed25519" 5; toy_signet "carol" "Ed25519" 6] [] (lit "hello"))) else Err EOther.
Let stat (n : nat) (f : bytes) : option stat_info := match contents n f with Some _ => Some (mkStat false 10) | None => None end.
Let glob (n : nat) (a : bytes) : option (list bytes) := match stat n a with Some _ => Some [a] | None => Some [] end.
Let names (id : bytes) : option (option bytes) := if bytes_eqb id (lit "alice") then Some (Some (lit "Alice")) else None.
Let store : world := toy_world [toy_recipient "alice" "Ed25519" 5; toy_recipient "carol" "Ed25519" 6].
Let cmd (meta : list (bytes * bytes)) (n : nat) := verify_cmd default_config toy store toy_hash (toy_letters letters) (fun d => match d with _ :: r => Some (FD r meta []) | [] => None end)
  parse (glob n) (stat n) (fun _ => []) (contents n) [] (fun _ => None) names [] None 0.
Let sum : bytes := lit "Hash Sum: " ++ hex_encode (toy_hash 32 (lit "x")).
Let block (rest : list bytes) : list bytes := [lit "Verification: OK"; []; lit "Signed By: Alice (alice)"; []; lit "Hash Alg: BLAKE3"; sum] ++ rest.
Let tail : list bytes := [[]; lit "File: x"; lit "Sig:  x.sig"].

(** One signature with two entries of metadata, two signatures, a letter signed by two, and several files. *)
Example C66_hypotheses_met :
  cmd [(lit "version", lit "1"); (lit "id", lit "a"); (lit "id", lit "b")] 1 [lit "x"] = Ok [LText (text_of (block [[]; lit "Metadata:"; lit "    id: a"; lit "    version: 1"] ++ tail))]
  /\ cmd [] 2 [lit "x.sig"] = Ok [LText (text_of ([lit "2 Signatures:"; []; []] ++ block [[]; []] ++ [lit "2 Signatures:"; []; []] ++ block [[]; []] ++ tail))]
  /\ cmd [] 1 [lit "m.letter"] = Ok [LText (text_of [lit "Verification: OK"; lit "Signed By: Alice (alice), carol"])]
  /\ cmd [] 3 [lit "m.letter"; lit "x"] = Ok [LOk (lit "m.letter") [lit "Alice (alice)"; lit "carol"]; LOk (lit "x") [lit "Alice (alice)"; lit "Alice (alice)"; lit "Alice (alice)"]]
  /\ callbacks_keep_scheme store.
Proof.
  split; [vm_compute; reflexivity|]. split; [vm_compute; reflexivity|]. split; [vm_compute; reflexivity|]. split; [vm_compute; reflexivity|]. split; intros; discriminate.
Qed.
(** With three signatures the report says nothing about any of them. *)
Theorem C66_three_signatures_refuted : cmd [] 3 [lit "x"] = Ok [LText (text_of tail)].
Proof. vm_compute. reflexivity. Qed.
(** The report does not say who wrote its lines: with a line break in a metadata value, or in the name of a signer, it names a
    signer that did not sign. *)
Theorem C66_forged_line_refuted : forall bob, bob = lit "Signed By: Bob (bob)" ->
  cmd [(lit "id", lit "7" ++ [x0a] ++ bob)] 1 [lit "x"] = Ok [LText (text_of (block [[]; lit "Metadata:"; lit "    id: 7"; bob] ++ tail))].
Proof. intros bob ->. vm_compute. reflexivity. Qed.
End Cases.
Print Assumptions C66_three_signatures_refuted.
