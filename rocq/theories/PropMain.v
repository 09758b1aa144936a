(** C67: the global flags. *)
From Coq Require Import Init.Byte.
From Verif Require Import PreludeFacts Letter Requirements Tools Crypto Session SpecSession SuiteFacts Core Envelope Toy PropReq PropSession PropLetter SpecPost Post PropPost FileSig SpecFile Armor PropFile PropFileTrip
  Lhash SpecHash PropHash Search TrustStore Report Cmd SpecCmd PropCmd CmdFiles SpecCmdFiles PropCmdFiles CmdSign SpecCmdSign PropCmdSign Main SpecMain.

Lemma given_3 a b c : let x := match a with [] => match b with [] => c | _ => b end | _ => a end in
  (x <> [] /\ first_given [a; b; c] x) \/ (x = [] /\ none_given [a; b; c]).
Proof.
  cbv zeta. destruct a as [|y a]; [destruct b as [|y b]; [destruct c as [|y c]|]|].
  - right. split; [reflexivity|]. intros y [<-|[<-|[<-|[]]]]; reflexivity.
  - left. split; [discriminate|]. exists [[]; []], []. split; [reflexivity|]. split; [discriminate|]. intros z [<-|[<-|[]]]; reflexivity.
  - left. split; [discriminate|]. exists [[]], [c]. split; [reflexivity|]. split; [discriminate|]. intros z [<-|[]]; reflexivity.
  - left. split; [discriminate|]. exists [], [b; c]. split; [reflexivity|]. split; [discriminate|]. intros z [].
Qed.
Lemma first_unique l x y : first_given l x -> first_given l y -> x = y.
Proof.
  intros (a & b & -> & NX & EA) (a' & b' & E & NY & EA'). revert a' E EA'. induction a as [|z a IH]; intros [|z' a'] E EA'; cbn in E; injection E as E1 E2.
  - exact E1.
  - subst z'. elim NX. apply EA'. now left.
  - subst y. elim NY. apply EA. now left.
  - apply (IH (fun y I => EA y (or_intror I)) a' E2). intros w I. apply EA'. now right.
Qed.
Lemma first_not_none l x : first_given l x -> none_given l -> False.
Proof. intros (a & b & -> & N & _) X. apply N, X, in_elt. Qed.
Lemma removed_iff no a : removed no a <-> exists b, In b no /\ attr_letter a = Some b.
Proof.
  unfold removed, attr_letter, abbreviation. split; intros (b & I & E); exists b; (split; [exact I|]); revert E;
    destruct a as [|[[[|p|]|[|p|]|]|[[|p|]|[|p|]|]|]]; cbn; intro E; try discriminate E; try (injection E as <-; reflexivity); try (injection E as E; rewrite <- E; reflexivity).
Qed.

Section P.
Variables (env : bytes -> option bytes) (stat : path -> option bool) (ring_works : bytes -> bool).
Notation the_store := (the_store env stat ring_works).
Notation start := (start env stat ring_works).
Lemma pick_iff fl st : pick_store env stat ring_works fl = Ok st <-> the_store fl st.
Proof using Type.
  unfold pick_store.
  assert (G : forall v k1 k2, let x := flag_or_env env v k1 k2 in (x <> [] /\ first_given [v; lookup_env env k1; lookup_env env k2] x) \/ (x = [] /\ none_given [v; lookup_env env k1; lookup_env env k2])) by (intros v k1 k2; pose proof (given_3 v (lookup_env env k1) (lookup_env env k2)) as Q; unfold flag_or_env; destruct v; [destruct (lookup_env env k1)|]; exact Q).
  pose proof (G (fl_ring fl) (lit "JESS_TS_KEYRING") (lit "JESS_TSKEYRING")) as G2. specialize (G (fl_dir fl) (lit "JESS_TS_DIR") (lit "JESS_TSDIR")). cbv zeta in G, G2.
  change [fl_dir fl; lookup_env env (lit "JESS_TS_DIR"); lookup_env env (lit "JESS_TSDIR")] with (directories env fl) in G.
  change [fl_ring fl; lookup_env env (lit "JESS_TS_KEYRING"); lookup_env env (lit "JESS_TSKEYRING")] with (keyrings env fl) in G2.
  revert G G2. generalize (flag_or_env env (fl_dir fl) (lit "JESS_TS_DIR") (lit "JESS_TSDIR")) (flag_or_env env (fl_ring fl) (lit "JESS_TS_KEYRING") (lit "JESS_TSKEYRING")). intros d n G G2.
  destruct d as [|b d].
  - destruct G as [[X _]|[_ ND]]; [now elim X|]. destruct n as [|b n].
    + destruct G2 as [[X _]|[_ NR]]; [now elim X|]. split; [intro E; injection E as <-; now apply No_store|]. intros [d F S|n X F W|X Y]; [elim (first_not_none _ _ F ND)|elim (first_not_none _ _ F NR)|reflexivity].
    + destruct G2 as [[_ F]|[X _]]; [|discriminate X]. unfold new_ring_store. destruct (ring_works (b :: n)) eqn:W; cbn [bind].
      * split; [intro E; injection E as <-; now apply In_ring|]. intros [d F' S|n' X F' W'|X Y]; [elim (first_not_none _ _ F' ND)| |elim (first_not_none _ _ F Y)]. now rewrite (first_unique _ _ _ F F').
      * split; [discriminate|]. intros [d F' S|n' X F' W'|X Y]; [elim (first_not_none _ _ F' ND)| |elim (first_not_none _ _ F Y)]. rewrite (first_unique _ _ _ F' F), W in W'. discriminate W'.
  - destruct G as [[_ F]|[X _]]; [|discriminate X]. unfold new_dir_store. destruct (stat (clean_path (b :: d))) as [[|]|] eqn:S; cbn [bind].
    + split; [intro E; injection E as <-; now apply In_dir|]. intros [d' F' S'|n' X F' W'|X Y]; [|elim (first_not_none _ _ F X)..]. now rewrite (first_unique _ _ _ F F').
    + split; [discriminate|]. intros [d' F' S'|n' X F' W'|X Y]; [|elim (first_not_none _ _ F X)..]. rewrite (first_unique _ _ _ F' F), S in S'. discriminate S'.
    + split; [discriminate|]. intros [d' F' S'|n' X F' W'|X Y]; [|elim (first_not_none _ _ F X)..]. rewrite (first_unique _ _ _ F' F), S in S'. discriminate S'.
Qed.
Lemma no_given no q : no <> [] -> parse_no_spec no = Ok q -> the_requirements no (Some q).
Proof using Type.
  intros N P. pose proof (C25_parse_no_spec no) as X. rewrite P in X. destruct X as (A & _ & B). apply Given; [exact N| |].
  - intros b I. destruct (A b I) as (a & E). unfold attr_letter in E. unfold spec_char. revert E. destruct a as [|[[[|p|]|[|p|]|]|[[|p|]|[|p|]|]|]]; cbn; intro E; try discriminate E; injection E as <-; auto 6.
  - intro a. rewrite B, removed_iff. reflexivity.
Qed.
Lemma no_parses no : (forall b, In b no -> spec_char b) -> exists q, parse_no_spec no = Ok q.
Proof using Type.
  intro A. pose proof (C25_parse_no_spec no) as X. destruct (parse_no_spec no) as [q| |]; [eauto| |elim X]. exfalso. destruct X as (b & I & X). destruct (A b I) as [E|[E|[E|[E|[]]]]]; [apply (X 0%N)|apply (X 1%N)|apply (X 2%N)|apply (X 3%N)]; rewrite <- E; reflexivity.
Qed.
Lemma settings_of fl : the_settings fl (let c := if (0 <? fl_level fl)%Z then set_min_level (fl_level fl) default_config else default_config in if (0 <? fl_keysize fl)%Z then set_default_ks (fl_keysize fl) c else c).
Proof using Type.
  cbv zeta. unfold the_settings. destruct (Z.ltb_spec 0 (fl_level fl)), (Z.ltb_spec 0 (fl_keysize fl)); cbn; auto 10.
Qed.

(** A command that starts has the store, the requirements and the settings that the flags and the environment ask for. *)
Theorem C67_start : forall fl k st rq c, start fl k = Ok (st, rq, c) ->
  the_store fl st /\ the_requirements (fl_no fl) rq /\ the_settings fl c /\ (st = None -> In k [Open; Export; Backup; Import; Checksum; List; Version]).
Proof using Type.
  intros fl k st rq c E. unfold Main.start in E. apply bind_ok in E as ([[st' rq'] c'] & I & E). unfold init_global_flags in I. apply bind_ok in I as (st'' & P & I). apply bind_ok in I as (rq'' & R & I). injection I as <- <- <-. cbn [fst] in E.
  assert (X : st'' = st /\ rq'' = rq /\ (let c := if (0 <? fl_level fl)%Z then set_min_level (fl_level fl) default_config else default_config in if (0 <? fl_keysize fl)%Z then set_default_ks (fl_keysize fl) c else c) = c /\ (st = None -> requires_store k = false)).
  { destruct st'' as [s|]; [injection E as <- <- <-; split; [reflexivity|split; [reflexivity|split; [reflexivity|discriminate]]]|]. destruct (requires_store k); [discriminate E|]. injection E as <- <- <-. auto. }
  destruct X as (-> & -> & <- & K). split; [now apply pick_iff|]. split; [|split; [apply settings_of|]].
  - destruct (fl_no fl) as [|b no] eqn:N; [injection R as <-; now apply Not_given|]. apply bind_ok in R as (q & R & Q). injection Q as <-. apply no_given; [discriminate|exact R].
  - intro Z. specialize (K Z). destruct k; try discriminate K; cbn; auto 8.
Qed.
(** And it starts whenever it can: the first store that is named can be used, or none is named and none is needed. *)
Theorem C67_starts : forall fl k st, the_store fl st -> (forall b, In b (fl_no fl) -> spec_char b) ->
  (st = None -> ~ In k [Close; Configure; Generate; Manage; Sign; Verify]) -> exists rq c, start fl k = Ok (st, rq, c).
Proof using Type.
  intros fl k st P A K. apply pick_iff in P. unfold Main.start, init_global_flags. rewrite P. cbn [bind].
  assert (R : exists rq, match fl_no fl with [] => Ok None | _ :: _ => do q <- parse_no_spec (fl_no fl); Ok (Some q) end = Ok rq).
  { destruct (fl_no fl) as [|b no]; [eauto|]. destruct (no_parses (b :: no) A) as [q Q]. rewrite Q. cbn [bind]. eauto. }
  destruct R as [rq R]. rewrite R. cbn [bind fst]. destruct st as [s|]; [eauto|]. specialize (K eq_refl). destruct k; cbn [requires_store]; eauto; elim K; cbn; auto 8.
Qed.
Theorem C67_no_panic : forall fl k, start fl k <> Panic.
Proof using Type.
  intros fl k. unfold Main.start, init_global_flags, pick_store, new_dir_store, new_ring_store. cbv zeta.
  generalize (flag_or_env env (fl_dir fl) (lit "JESS_TS_DIR") (lit "JESS_TSDIR")) (flag_or_env env (fl_ring fl) (lit "JESS_TS_KEYRING") (lit "JESS_TSKEYRING")). intros d n.
  pose proof (C25_parse_no_spec (fl_no fl)) as X.
  assert (Y : forall o : outcome (option trust_store), o <> Panic -> (do s <- (do st <- o; do rq <- match fl_no fl with [] => Ok None | _ => do q <- parse_no_spec (fl_no fl); Ok (Some q) end;
     Ok (st, rq, if (0 <? fl_keysize fl)%Z then set_default_ks (fl_keysize fl) (if (0 <? fl_level fl)%Z then set_min_level (fl_level fl) default_config else default_config) else if (0 <? fl_level fl)%Z then set_min_level (fl_level fl) default_config else default_config));
     match fst (fst s) with None => if requires_store k then Err EOther else Ok s | Some _ => Ok s end) <> Panic).
  { intros o N. destruct o as [st| |]; [|cbn [bind]; discriminate|now elim N]. cbn [bind]. assert (Q : exists z, match fl_no fl with [] => Ok None | _ :: _ => do q <- parse_no_spec (fl_no fl); Ok (Some q) end = z /\ z <> Panic).
    { eexists. split; [reflexivity|]. destruct (fl_no fl) as [|b no]; [discriminate|]. destruct (parse_no_spec (b :: no)); [cbn [bind]; discriminate|cbn [bind]; discriminate|elim X]. }
    destruct Q as (z & -> & NZ). destruct z as [rq| |]; [|cbn [bind]; discriminate|now elim NZ]. cbn [bind fst]. destruct st; [discriminate|]. destruct (requires_store k); discriminate. }
  apply Y. destruct d; [destruct n; [discriminate|]; destruct (ring_works _); cbn [bind]; discriminate|]. destruct (stat _) as [[|]|]; cbn [bind]; discriminate.
Qed.
(** The flags cannot be used: the first store that is named cannot, or none is named but needed, or --no has another letter. *)
Definition unusable (fl : flags) (k : command) : Prop :=
  (forall st, ~ the_store fl st) \/ (the_store fl None /\ In k [Close; Configure; Generate; Manage; Sign; Verify]) \/ (exists b, In b (fl_no fl) /\ ~ spec_char b).
Theorem C67_refused : forall fl k, unusable fl k -> exists x, start fl k = Err x.
Proof using Type.
  intros fl k U. pose proof (C67_no_panic fl k) as NP. destruct (start fl k) as [[[st rq] c]| |] eqn:E; [|eauto|now elim NP]. exfalso. destruct (C67_start _ _ _ _ _ E) as (A & B & _ & K). destruct U as [U|[[U I]|(b & I & N)]].
  - exact (U st A).
  - assert (X : st = None) by (apply (proj2 (pick_iff fl st)) in A; apply (proj2 (pick_iff fl None)) in U; congruence). specialize (K X). cbn in I, K. destruct k; intuition discriminate.
  - destruct B as [Z|q _ Z _]; [rewrite Z in I; destruct I|]. now apply N, Z.
Qed.
End P.
Print Assumptions C67_start.
Print Assumptions C67_starts.
Print Assumptions C67_no_panic.
Print Assumptions C67_refused.

(** ** What the flags mean for letters *)
Lemma correspondence_level c cr w e su s level : (0 < level)%Z -> c_min_level c = level -> load_suite suite_registry e = Ok su ->
  correspondence c suite_registry tool_registry hash_registry cr w e = Ok s -> at_level cr level su s.
Proof.
  intros P M L CO. destruct (correspondence_inv _ _ _ _ _ _ _ _ CO) as (su' & a & b & d & L' & NS & _). rewrite L in L'. injection L' as <-.
  destruct (C08_level_floor _ _ _ _ _ _ NS) as (su' & E & A & _ & B & D). assert (su' = su) by (cbn in E; congruence). subst su'.
  assert (F : forall e', level_floor c e' = level) by (intro e'; unfold level_floor; rewrite M; destruct (Z.ltb_spec 0 level); [reflexivity|lia]). rewrite F in *.
  split; [exact A|]. split; [exact B|]. intros i sg X. destruct (D i sg X) as (l & R & [Z|(_ & Z & _)]); eauto.
Qed.
Lemma envelope_suite req r e : letter_envelope suite_registry req r = Ok e -> exists su, get_suite suite_registry (l_suite (rw_letter r)) = Some su /\ load_suite suite_registry e = Ok su
  /\ forall q, req = Some q -> incl q (su_provides su).
Proof.
  intro E. destruct (letter_envelope_ok _ _ _ E) as (su & G & S & _). exists su. split; [exact G|]. split; [unfold load_suite; rewrite S; reflexivity|].
  intros q ->. unfold letter_envelope in E. apply bind_ok in E as (? & _ & E). apply bind_ok in E as (? & _ & E). apply bind_ok in E as (su' & G' & E). rewrite G in G'. injection G' as <-. apply bind_ok in E as (u & R & _). now apply req_check_ok in R.
Qed.
Lemma run_level c cr w req r level : (0 < level)%Z -> c_min_level c = level ->
  (exists d data, letter_open c suite_registry tool_registry hash_registry cr w req r d = Ok data) \/ (exists d, letter_verify c suite_registry tool_registry hash_registry cr w req r d = Ok tt) ->
  letter_at c cr w level r.
Proof.
  intros P M RUN. assert (X : exists e s, letter_envelope suite_registry req r = Ok e /\ correspondence c suite_registry tool_registry hash_registry cr w e = Ok s).
  { destruct RUN as [(d & data & E)|(d & E)]; unfold letter_open, letter_verify in E; apply bind_ok in E as (e & EE & E); apply bind_ok in E as (s & ES & _); eauto. }
  destruct X as (e & s & EE & ES). destruct (envelope_suite _ _ _ EE) as (su & G & L & _). exists req, e, su, s. split; [exact G|]. split; [exact EE|]. split; [exact ES|]. eapply correspondence_level; eassumption.
Qed.
Lemma settings_level fl c : the_settings fl c -> (0 < fl_level fl)%Z -> c_min_level c = fl_level fl.
Proof. intros [[(_ & X & _)|(X & _)] _] P; [exact X|lia]. Qed.

Section Commands.
Variables (env : bytes -> option bytes) (stat : path -> option bool) (ring_works : bytes -> bool).
Variables (cr : crypto) (signets : trust_store -> bytes -> bool -> outcome signet) (envelopes : trust_store -> bytes -> outcome envelope).
Variables (ask_new : signet -> Z -> outcome signet) (ask : signet -> outcome signet).
Notation the_store := (the_store env stat ring_works).
Notation asking := (asking signets ask_new ask).
Notation silent := (silent signets).

(** verify asks for no password, whatever the letter wants. *)
Lemma silent_prep reg st level : forall l recipients, snd (prep_signets reg cr (silent st) level recipients l) = [].
Proof using Type.
  induction l as [|sg l IH]; intro rc; [reflexivity|]. cbn [prep_signets]. cbv zeta.
  assert (F : forall b lv, fill_password (silent st) sg b lv = (Ok sg, [])) by (intros [] lv; reflexivity).
  destruct (nonempty (sg_key sg)); [|destruct (bytes_eqb (sg_scheme sg) scheme_pw); [rewrite F|]].
  - destruct (prep_loaded reg cr sg) as [n| |]; [|reflexivity..]. specialize (IH rc). destruct (prep_signets reg cr (silent st) level rc l) as [y q]. exact IH.
  - cbn [other]. specialize (IH rc). destruct (prep_signets reg cr (silent st) level rc l) as [y q]. exact IH.
  - destruct (bind _ _) as [n| |]; [|reflexivity..]. specialize (IH (if bytes_eqb (sg_scheme sg) scheme_key then false else rc)). destruct (prep_signets reg cr (silent st) level _ l) as [y q]. exact IH.
Qed.
Theorem C67_verify_asks_nothing : forall st sreg reg e, snd (prepare sreg reg cr (silent st) e) = [].
Proof using Type.
  intros st sreg reg e. unfold prepare. destruct (load_suite sreg e) as [su| |]; [|reflexivity..].
  pose proof (silent_prep reg st (su_level su) (e_secrets e) (e_opening e)) as A. destruct (prep_signets _ _ _ _ _ (e_secrets e)) as [[a| |] q1]; [|exact A..].
  pose proof (silent_prep reg st (su_level su) (e_senders e) (e_opening e)) as B. destruct (prep_signets _ _ _ _ _ (e_senders e)) as [[b| |] q2]; cbn [snd] in *; [|now rewrite A, B..].
  pose proof (silent_prep reg st (su_level su) (e_recipients e) (negb (e_opening e))) as D. destruct (prep_signets _ _ _ _ _ (e_recipients e)) as [[d| |] q3]; cbn [snd] in *; now rewrite A, B, D.
Qed.
(** With flags that cannot be used, every command ends in an error without an effect. *)
Theorem C67_refuses : forall fl,
  (unusable env stat ring_works fl Open -> forall sy parse d output args, exists x, jess_open env stat ring_works cr signets ask_new ask fl sy parse d output args = (Err x, []))
  /\ (unusable env stat ring_works fl Close -> forall sy dump full d output args, exists x, jess_close env stat ring_works cr signets envelopes ask_new ask fl sy dump full d output args = (Err x, []))
  /\ (unusable env stat ring_works fl Sign -> forall sy H dump dump_fd names metadata rest full d output args, exists x,
        jess_sign env stat ring_works cr signets envelopes ask_new ask fl sy H dump dump_fd names metadata rest full d output args = (Err x, []))
  /\ (unusable env stat ring_works fl Verify -> forall H load load_fd parse glob statf walk contents stdin confirm names metadata d args, exists x,
        jess_verify env stat ring_works cr signets fl H load load_fd parse glob statf walk contents stdin confirm names metadata d args = Err x).
Proof using Type.
  intro fl. split; [|split; [|split]]; intro U; destruct (C67_refused _ _ _ _ _ U) as [x E]; intros; exists x.
  - unfold jess_open, launch. now rewrite E.
  - unfold jess_close, launch. now rewrite E.
  - unfold jess_sign, launch. now rewrite E.
  - unfold jess_verify. now rewrite E.
Qed.
(** open: whatever is written or printed is the plaintext of a letter at the level, whose suite provides every attribute that was
    not removed. *)
Theorem C67_open : forall fl sy parse d output args r es, jess_open env stat ring_works cr signets ask_new ask fl sy parse d output args = (r, es) ->
  nothing sy es
  \/ exists st rq c f data l plain su, the_store fl st /\ the_requirements (fl_no fl) rq /\ the_settings fl c
       /\ args = [f] /\ reads sy f data /\ parse data = Ok l /\ authentic c cr (asking st) parse rq d data plain
       /\ get_suite suite_registry (l_suite (rw_letter l)) = Some su
       /\ (forall a, (a < 4)%N -> ~ removed (fl_no fl) a -> In a (su_provides su))
       /\ ((0 < fl_level fl)%Z -> letter_at c cr (asking st) (fl_level fl) l).
Proof using Type.
  clear envelopes. intros fl sy parse d output args r es E. unfold jess_open, launch in E. destruct (start env stat ring_works fl Open) as [[[st rq] c]| |] eqn:ST; [|injection E as _ <-; left; split; reflexivity..].
  destruct (C67_start _ _ _ _ _ _ _ _ ST) as (A1 & A2 & A3 & _).
  destruct (C57_open_any_point _ _ _ _ _ _ _ _ _ _ _ es [] E) as [N|(f & out & data & plain & part & more & -> & _ & RD & GN & _)]; [now rewrite app_nil_r|now left|]. right.
  destruct GN as (l & P & O). pose proof O as O'. unfold letter_open in O'. apply bind_ok in O' as (e & EE & _). destruct (envelope_suite _ _ _ EE) as (su & G & _ & Q). specialize (Q _ eq_refl).
  exists st, rq, c, f, data, l, plain, su. split; [exact A1|]. split; [exact A2|]. split; [exact A3|]. split; [reflexivity|]. split; [exact RD|]. split; [exact P|]. split; [exists l; auto|]. split; [exact G|]. split.
  - intros a LT NR. apply Q. destruct A2 as [_|q _ _ QA]; [|apply QA; auto]. destruct a as [|[[|[]|]|[|[]|]|]]; cbn; auto; try lia; destruct p; lia.
  - intro PL. eapply run_level; [exact PL|exact (settings_level fl c A3 PL)|left; eauto].
Qed.
(** close and sign: whatever is written was made with an envelope of the trust store, at the level. *)
Theorem C67_close : forall fl sy dump full d output args r es, jess_close env stat ring_works cr signets envelopes ask_new ask fl sy dump full d output args = (r, es) ->
  nothing sy es
  \/ exists st rq c f name e su s, the_store fl (Some st) /\ the_requirements (fl_no fl) rq /\ the_settings fl c
       /\ args = [f; lit "with"; name] /\ envelopes st name = Ok e /\ load_suite suite_registry e = Ok su
       /\ correspondence c suite_registry tool_registry hash_registry cr (asking (Some st)) e = Ok s
       /\ ((0 < fl_level fl)%Z -> at_level cr (fl_level fl) su s).
Proof using Type.
  intros fl sy dump full d output args r es E. unfold jess_close, launch in E. destruct (start env stat ring_works fl Close) as [[[st rq] c]| |] eqn:ST; [|injection E as _ <-; left; split; reflexivity..].
  destruct (C67_start _ _ _ _ _ _ _ _ ST) as (A1 & A2 & A3 & A4).
  destruct (C58_close_any_point _ _ _ _ _ _ _ _ _ _ _ _ es [] E) as [N|(f & name & out & data & text & part & more & -> & _ & RD & GN & _)]; [now rewrite app_nil_r|now left|]. right.
  destruct GN as (e & s & l & q & GE & CO & _). destruct st as [st|]; [|discriminate GE]. destruct (correspondence_inv _ _ _ _ _ _ _ _ CO) as (su & _ & _ & _ & L & _).
  exists st, rq, c, f, name, e, su, s. split; [exact A1|]. split; [exact A2|]. split; [exact A3|]. split; [reflexivity|]. split; [exact GE|]. split; [exact L|]. split; [exact CO|].
  intro PL. eapply correspondence_level; [exact PL|exact (settings_level fl c A3 PL)|exact L|exact CO].
Qed.
Theorem C67_sign : forall fl sy H dump dump_fd names metadata rest full d output args r es, hash_family H ->
  jess_sign env stat ring_works cr signets envelopes ask_new ask fl sy H dump dump_fd names metadata rest full d output args = (r, es) ->
  nothing sy es
  \/ exists st rq c f name e su s, the_store fl (Some st) /\ the_requirements (fl_no fl) rq /\ the_settings fl c
       /\ args = [f; lit "with"; name] /\ envelopes st name = Ok e /\ load_suite suite_registry e = Ok su
       /\ correspondence c suite_registry tool_registry hash_registry cr (asking (Some st)) e = Ok s
       /\ ((0 < fl_level fl)%Z -> at_level cr (fl_level fl) su s).
Proof using Type.
  intros fl sy H dump dump_fd names metadata rest full d output args r es HF E. unfold jess_sign, launch in E. destruct (start env stat ring_works fl Sign) as [[[st rq] c]| |] eqn:ST; [|injection E as _ <-; left; split; reflexivity..].
  destruct (C67_start _ _ _ _ _ _ _ _ ST) as (A1 & A2 & A3 & A4).
  destruct (C65_any_point _ _ _ _ _ _ _ _ _ _ _ _ _ _ _ _ _ es [] HF E) as [N|(f & name & out & text & fd & part & more & -> & _ & M & _)]; [now rewrite app_nil_r|now left|]. right.
  destruct M as (e & data & sr & GE & _ & _ & SF). destruct st as [st|]; [|discriminate GE].
  unfold sign_file in SF. apply bind_ok in SF as (su & L & SF). apply bind_ok in SF as (alg & _ & SF). apply bind_ok in SF as (ct & _ & SF). apply bind_ok in SF as (h & _ & SF). apply bind_ok in SF as (x & SD & _).
  unfold sign_file_data in SD. apply bind_ok in SD as (s & CO & _).
  exists st, rq, c, f, name, e, su, s. split; [exact A1|]. split; [exact A2|]. split; [exact A3|]. split; [reflexivity|]. split; [exact GE|]. split; [exact L|]. split; [exact CO|].
  intro PL. eapply correspondence_level; [exact PL|exact (settings_level fl c A3 PL)|exact L|exact CO].
Qed.
(** verify, exit status 0: each letter looked at (C45 says which) is at the level; the letters given as such have what was not removed -
    without --no, integrity and sender authentication. *)
Theorem C67_verify : forall fl H load load_fd parse glob statf walk contents stdin confirm names metadata d args lines,
  jess_verify env stat ring_works cr signets fl H load load_fd parse glob statf walk contents stdin confirm names metadata d args = Ok lines ->
  exists st rq c, the_store fl (Some st) /\ the_requirements (fl_no fl) rq /\ the_settings fl c
    /\ forall t, target glob statf walk args t -> ~ shadowed glob statf walk args t -> t <> lit "-.sig" -> ~ declined statf confirm t ->
       (exists r, looked_at load parse contents stdin t r)
       /\ forall r, looked_at load parse contents stdin t r ->
            ((0 < fl_level fl)%Z -> letter_at c cr (silent (Some st)) (fl_level fl) r)
            /\ (letter_name t -> exists su, get_suite suite_registry (l_suite (rw_letter r)) = Some su
                  /\ if fl_no fl then In Integrity (su_provides su) /\ In SenderAuthentication (su_provides su)
                     else forall a, (a < 4)%N -> ~ removed (fl_no fl) a -> In a (su_provides su)).
Proof using Type.
  clear envelopes ask_new ask. intros fl H load load_fd parse glob statf walk contents stdin confirm names metadata d args lines E. unfold jess_verify in E. apply bind_ok in E as ([[st rq] c] & ST & E). cbn in E.
  destruct (C67_start _ _ _ _ _ _ _ _ ST) as (A1 & A2 & A3 & A4). destruct st as [st|]; [|specialize (A4 eq_refl); exfalso; cbn in A4; intuition discriminate].
  exists st, rq, c. split; [exact A1|]. split; [exact A2|]. split; [exact A3|]. intros t T SH NS ND.
  destruct (C45_success _ _ _ _ _ _ _ _ _ _ _ _ _ _ _ _ _ _ _ E) as (V & _). destruct (V t T SH NS) as [VD|X]; [|now elim ND]. clear V.
  destruct VD as [LN (data & r & CT & P & LV)|LN NSG (data & text & letters & C1 & C2 & PS & NE & SG)|a LN -> (data & text & letters & C1 & C2 & PS & NE & SG)].
  - split; [exists r; left; split; [exact LN|]; exists data; auto|]. intros r' LA.
    assert (r' = r). { destruct LA as [(_ & data' & CT' & P')|(X & _)]; [|now elim X]. assert (data' = data) by (destruct (bytes_eqb t (lit "-")); congruence). congruence. } subst r'. split.
    + intro PL. eapply run_level; [exact PL|exact (settings_level fl c A3 PL)|right; eauto].
    + intros _. unfold letter_verify in LV. apply bind_ok in LV as (e & EE & _). destruct (envelope_suite _ _ _ EE) as (su & G & _ & Q). specialize (Q _ eq_refl). exists su. split; [exact G|].
      destruct A2 as [X|q NN _ QA]; [rewrite X; split; apply Q; cbn; auto|]. destruct (fl_no fl) as [|b no]; [now elim NN|]. intros a LT NR. apply Q, QA. auto.
  - split.
    + destruct letters as [|r letters]; [now elim NE|]. exists r. right. split; [exact LN|]. exists t, text. split; [right; auto|]. split; [exact C2|]. rewrite PS. now left.
    + intros r LA. destruct LA as [(X & _)|(_ & f & text' & DF & CT' & I)]; [now elim LN|].
      assert (f = t) by (destruct DF as [DF|[DF _]]; [now elim (NSG f)|now symmetry]). subst f. assert (text' = text) by congruence. subst text'. rewrite PS in I. cbn [fst] in I.
      split; [|intro X; now elim LN]. intro PL. destruct (SG r I) as (fd & _ & (o & O) & _). eapply run_level; [exact PL|exact (settings_level fl c A3 PL)|left; eauto].
  - split.
    + destruct letters as [|r letters]; [now elim NE|]. exists r. right. split; [exact LN|]. exists a, text. split; [left; auto|]. split; [exact C2|]. rewrite PS. now left.
    + intros r LA. destruct LA as [(X & _)|(_ & f & text' & DF & CT' & I)]; [now elim LN|].
      assert (f = a). { destruct DF as [DF|[DF DN]]; [now apply app_inv_tail in DF|elim (DN a); reflexivity]. } subst f. assert (text' = text) by congruence. subst text'. rewrite PS in I. cbn [fst] in I.
      split; [|intro X; now elim LN]. intro PL. destruct (SG r I) as (fd & _ & (o & O) & _). eapply run_level; [exact PL|exact (settings_level fl c A3 PL)|left; eauto].
Qed.

(** No suite has a level above 128, so with a higher level nothing can be opened, closed or signed. *)
Lemma level_128 id su : get_suite suite_registry id = Some su -> su_level su = 128%Z.
Proof using Type.
  intro G. assert (A : forallb (fun su => (su_level su =? 128)%Z) suite_registry = true) by (vm_compute; reflexivity). rewrite forallb_forall in A. apply Z.eqb_eq, A. now apply (get_suite_in id).
Qed.
Theorem C67_above_128 : forall fl sy H, hash_family H -> (128 < fl_level fl)%Z ->
  (forall parse d output args r es, jess_open env stat ring_works cr signets ask_new ask fl sy parse d output args = (r, es) -> nothing sy es)
  /\ (forall dump full d output args r es, (forall s n e, envelopes s n = Ok e -> e_suite e = None) -> jess_close env stat ring_works cr signets envelopes ask_new ask fl sy dump full d output args = (r, es) -> nothing sy es)
  /\ (forall dump dump_fd names metadata rest full d output args r es, (forall s n e, envelopes s n = Ok e -> e_suite e = None) ->
        jess_sign env stat ring_works cr signets envelopes ask_new ask fl sy H dump dump_fd names metadata rest full d output args = (r, es) -> nothing sy es).
Proof using Type.
  intros fl sy H HF LV.
  assert (LS : forall e su s, e_suite e = None -> load_suite suite_registry e = Ok su -> at_level cr (fl_level fl) su s -> False).
  { intros e su s N L (A & _). unfold load_suite in L. rewrite N in L. destruct (get_suite suite_registry (e_suite_id e)) as [su'|] eqn:G; [|discriminate L]. cbn in L. injection L as ->. rewrite (level_128 _ _ G) in A. lia. }
  split; [|split].
  - intros parse d output args r es E. destruct (C67_open _ _ _ _ _ _ _ _ E) as [N|(st & rq & c & f & data & l & plain & su & _ & _ & _ & _ & _ & _ & _ & G & _ & X)]; [exact N|].
    destruct X as (req & e & su' & s & G' & _ & _ & A & _); [lia|]. rewrite (level_128 _ _ G') in A. lia.
  - intros dump full d output args r es NS E. destruct (C67_close _ _ _ _ _ _ _ _ _ E) as [N|(st & rq & c & f & name & e & su & s & _ & _ & _ & _ & GE & L & _ & X)]; [exact N|].
    exfalso. apply (LS e su s); [eapply NS; exact GE|exact L|apply X; lia].
  - intros dump dump_fd names metadata rest full d output args r es NS E. destruct (C67_sign _ _ _ _ _ _ _ _ _ _ _ _ _ _ HF E) as [N|(st & rq & c & f & name & e & su & s & _ & _ & _ & _ & GE & L & _ & X)]; [exact N|].
    exfalso. apply (LS e su s); [eapply NS; exact GE|exact L|apply X; lia].
Qed.
End Commands.
Print Assumptions C67_open.
Print Assumptions C67_close.
Print Assumptions C67_sign.
Print Assumptions C67_verify.
Print Assumptions C67_above_128.
Print Assumptions C67_refuses.
Print Assumptions C67_verify_asks_nothing.

(** ** Concrete cases *)
Definition store_of (w : world) (_ : trust_store) (id : bytes) (recipient : bool) : outcome signet := match w_signet w with Some g => g id recipient | None => Err EOther end.
Definition demo_variables (k : bytes) : option bytes := if bytes_eqb k (lit "JESS_TSDIR") then Some (lit "/home/me/trust") else None.
Definition only_trust (p : path) : option bool := if existsb (bytes_eqb (lit "trust")) (p_elems p) then Some true else None.
Definition no_variables (_ : bytes) : option bytes := None.
Definition ok_new (sg : signet) (_ : Z) : outcome signet := ask_password sg.
Notation demo_open fl sy := (jess_open demo_variables only_trust (fun _ => true) toy (store_of (reader_world v1)) ok_new ask_password fl sy note_parse 7 [] [lit "note.letter"]).
Definition no_flags : flags := mkFlags [] [] [] 0 0.

(** The directory of the environment is used, the keyring flag is not; -s 128 --no S opens the note. *)
Example C67_hypotheses_met :
  let fl := mkFlags [] (lit "ring") (lit "S") 128 0 in let sy := demo_system [lit "note.letter"; lit "note"] (one_file 420 (lit "LETTER")) in
  the_store demo_variables only_trust (fun _ => true) fl (Some (DirStore (lit "/home/me/trust")))
  /\ (exists c, start demo_variables only_trust (fun _ => true) fl Open = Ok (Some (DirStore (lit "/home/me/trust")), Some [Confidentiality; Integrity; RecipientAuthentication], c) /\ the_settings fl c)
  /\ exists es, demo_open fl sy = (Ok tt, es) /\ disk_after sy es 2 = Some (File 384 (lit "my secret")).
Proof.
  cbv zeta. split.
  - apply In_dir; [|vm_compute; reflexivity]. exists [[]; []], []. split; [reflexivity|]. split; [discriminate|]. intros y [<-|[<-|[]]]; reflexivity.
  - split; [eexists; split; [reflexivity|]; split; [left|right]; cbn; lia|]. eexists. split; [vm_compute; reflexivity|vm_compute; reflexivity].
Qed.
(** A directory that does not exist is an error, also if a keyring is given; without any store, open starts and close does not. *)
Example C67_starts_met :
  (exists x, start demo_variables only_trust (fun _ => true) (mkFlags (lit "/missing") (lit "ring") [] 0 0) List = Err x)
  /\ start no_variables only_trust (fun _ => true) (mkFlags [] (lit "ring") [] 0 0) Close = Ok (Some (RingStore (lit "ring")), None, default_config)
  /\ start no_variables only_trust (fun _ => true) no_flags Open = Ok (None, None, default_config)
  /\ (exists x, start no_variables only_trust (fun _ => true) no_flags Close = Err x)
  /\ (exists x, start no_variables only_trust (fun _ => true) (mkFlags [] [] (lit "SX") 0 0) Open = Err x).
Proof. split; [eexists; vm_compute; reflexivity|]. split; [vm_compute; reflexivity|]. split; [vm_compute; reflexivity|]. split; [eexists; vm_compute; reflexivity|]. eexists. vm_compute. reflexivity. Qed.
(** --no does not only remove requirements: without it verify asks for integrity and sender authentication, with it for all the
    others too.  A signed letter verifies with no flag, but not with --no R. *)
Definition s1 : suite := suite_named (lit "sign_v1").
Notation demo_verify fl := (jess_verify demo_variables only_trust (fun _ => true) toy (store_of (reader_world s1)) fl toy_hash (fun _ => None) (fun _ => None)
  (fun b => if bytes_eqb b (lit "LETTER") then Ok (raw (closed_by s1 (lit "hello"))) else Err EOther)
  (fun a => Some [a]) (fun _ => Some (mkStat false 6%Z)) (fun _ => []) (fun f => if bytes_eqb f (lit "m.letter") then Some (lit "LETTER") else None) [] (fun _ => None) no_names [] 7 [lit "m.letter"]).
Theorem C67_no_refuted :
  (exists t, demo_verify no_flags = Ok [LText t]) /\ exists x, demo_verify (mkFlags [] [] (lit "R") 0 0) = Err x.
Proof. split; [eexists; vm_compute; reflexivity|]. eexists. vm_compute. reflexivity. Qed.
(** The level flag also lowers the level: a one byte key, and an envelope made for level 128.  Without the flag (and without an
    effect of the command) the key is too weak, with -s 8 the file is closed. *)
Definition weak_key : signet := mkSignet 1 (lit "k") scheme_key [x07] false false None None PNil.
Definition weak_env : envelope := mkEnvelope 1 (lit "weak") (lit "key_v1") None [reference weak_key] [] [] 128 false.
Definition weak_store (_ : trust_store) (id : bytes) (recipient : bool) : outcome signet := if negb recipient && bytes_eqb id (lit "k") then Ok weak_key else Err ESignetNotFound.
Notation demo_close fl sy := (jess_close demo_variables only_trust (fun _ => true) toy weak_store (fun _ _ => Ok weak_env) ok_new ask_password fl sy (fun l => Ok (lit "header")) false 3 [] [lit "a"; lit "with"; lit "weak"]).
Theorem C67_lowered_refuted : let sy := demo_system [lit "a"; lit "a.letter"] (one_file 420 (lit "hello")) in
  (exists x, demo_close no_flags sy = (Err x, []))
  /\ (exists es text, demo_close (mkFlags [] [] [] 8 0) sy = (Ok tt, es) /\ disk_after sy es 2 = Some (File 384 text)).
Proof. cbv zeta. split; [eexists; vm_compute; reflexivity|]. eexists. eexists. split; [vm_compute; reflexivity|vm_compute; reflexivity]. Qed.
(** Without a trust store, `jess export` crashes. *)
Theorem C67_export_refuted : forall body, jess_export no_variables only_trust (fun _ => true) no_flags body [lit "alice"] = Panic.
Proof. intro body. vm_compute. reflexivity. Qed.
Print Assumptions C67_no_refuted.
Print Assumptions C67_lowered_refuted.
