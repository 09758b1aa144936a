(** C65: the sign command. *)
From Coq Require Import Init.Byte.
From Verif Require Import PreludeFacts Letter Requirements Tools Crypto Session SpecSession Core Envelope Toy PropLetter SpecPost Post PropPost Armor SpecArmor FileSig SpecFile PropFile PropFileTrip
  Lhash SpecHash PropHash Encodings Search Report Cmd SpecCmd PropCmd SpecReport PropReport CmdFiles SpecCmdFiles PropCmdFiles CmdSign SpecCmdSign.

Lemma sign_name_iff flag f out : sign_name flag f = Ok out <-> sign_output flag f out.
Proof.
  unfold sign_name, sign_output. change ext_sig with (lit ".sig"). destruct flag as [|b flag].
  - destruct (has_suffix (lit ".sig") f) eqn:S.
    + apply has_suffix_iff in S as [a ->]. split; [discriminate|]. intros [[X _]|(_ & _ & X)]; [now elim X|]. now elim (X a).
    + split.
      * intro E. injection E as <-. right. split; [reflexivity|]. split; [reflexivity|]. intros a ->. assert (X : has_suffix (lit ".sig") (a ++ lit ".sig") = true) by (apply has_suffix_iff; eauto). rewrite X in S. discriminate S.
      * intros [[X _]|(_ & -> & _)]; [now elim X|reflexivity].
  - split; [intro E; injection E as <-; left; split; [discriminate|reflexivity]|]. intros [[_ ->]|(X & _)]; [reflexivity|discriminate X].
Qed.

Section P.
Variables (c : config) (cr : crypto) (w : world) (sy : system) (H : N -> bytes -> bytes).
Variables (dump : letter -> outcome bytes) (dump_fd : filedata -> outcome bytes) (get_envelope : bytes -> outcome envelope).
Variables (names : bytes -> option (option bytes)).
Variables (metadata : list (bytes * bytes)) (rest : bytes) (full : bool) (d : nat).
Notation jess_sign := (sign_cmd c cr w sy H dump dump_fd get_envelope names metadata rest full d).
(** The new text of the signature file, and the file data in it: what filesig.SignFile makes with the envelope [name] for the file
    [f], if the signature file is [out]. *)
Definition makes (name f out text : bytes) (fd : filedata) : Prop :=
  exists e data sr, get_envelope name = Ok e /\ reads sy f data /\ old_signatures sy out sr
    /\ sign_file c cr w H dump dump_fd (FromFile (Some data)) sr e metadata rest full d = Ok (text, fd).

Lemma sign_file_stages src sr e text fd : sign_file c cr w H dump dump_fd src sr e metadata rest full d = Ok (text, fd) ->
  exists data, fst (read_source src) = Some data /\ sr <> SigError.
Proof using Type.
  unfold sign_file. intro E. apply bind_ok in E as (su & _ & E). apply bind_ok in E as (alg & _ & E). destruct (fst (read_source src)) as [data|]; [|discriminate E]. exists data. split; [reflexivity|].
  cbn [of_option bind] in E. apply bind_ok in E as (h & _ & E). apply bind_ok in E as ([l fd'] & _ & E). intros ->. discriminate E.
Qed.
Lemma sign_made name f out e text fd : get_envelope name = Ok e -> sign_file c cr w H dump dump_fd (sign_source sy f) (sign_old sy out) e metadata rest full d = Ok (text, fd) -> makes name f out text fd.
Proof using Type.
  intros G E. destruct (sign_file_stages _ _ _ _ _ E) as (data & R & SE). unfold sign_source in *. destruct (load_file sy f) as [b| |] eqn:L; [|discriminate R..]. injection R as ->. exists e, data, (sign_old sy out). split; [exact G|]. split; [now apply load_file_inv|]. split; [|exact E].
  unfold sign_old, old_signatures in *. destruct (sy_no_read sy out); [now elim SE|]. split; [reflexivity|]. destruct (sy_disk sy (sy_node sy out)) as [[m b|z]|]; [right; eauto|now elim SE|left; auto].
Qed.
Lemma receipt_ok f out fd : out <> [] -> (exists h, lh_load (fd_hash fd) = Ok h) -> exists t, format_signatures names f out [unsigned fd] = Ok t /\ receipt f out fd t.
Proof using Type.
  intros NO [h L]. unfold format_signatures, format_signature, unsigned. cbn [sh_error sh_sigs sh_hash sh_meta bind]. rewrite L. cbn [bind]. eexists. split; [reflexivity|].
  exists h, (sort_entries (map_entries (fd_meta fd))). split; [exact L|]. split; [apply listed_entries|]. rewrite meta_text. rewrite !text_app. generalize (text_of (meta_lines (sort_entries (map_entries (fd_meta fd))))).
  assert (F : forall x y : bytes, match f, out with [], [] => x | _, _ => y end = y) by (intros; destruct f, out; [now elim NO|reflexivity..]). rewrite F. intro x. unfold text_of. cbn [map concat]. rewrite !app_nil_r. unfold ln. generalize (lit "Verification: OK") (lit "Hash Alg: ") (lit "Hash Sum: ") (lit "File: ") (lit "Sig:  "). intros. rewrite <- !app_assoc. reflexivity.
Qed.
Lemma made_hash src sr e text fd : hash_family H -> sign_file c cr w H dump dump_fd src sr e metadata rest full d = Ok (text, fd) -> exists h, lh_load (fd_hash fd) = Ok h.
Proof using Type.
  intros HF SF. unfold sign_file in SF. apply bind_ok in SF as (su & LS & SF). apply bind_ok in SF as (alg & A & SF). apply bind_ok in SF as (content & RC & SF).
  apply bind_ok in SF as (h & EH & SF). apply bind_ok in SF as ([l fd'] & SD & SF).
  assert (F : fd' = fd) by (destruct sr; [|discriminate SF|]; apply bind_ok in SF as (new & _ & SF); now injection SF). subst fd'.
  unfold sign_file_data in SD. apply bind_ok in SD as (s & CO & SD). apply bind_ok in SD as (su' & _ & SD). apply bind_ok in SD as (u & RQC & SD).
  apply bind_ok in SD as (data & DD & SD). apply bind_ok in SD as (l' & CL & SD). injection SD as _ <-. cbn [fd_hash]. exists h.
  pose proof (C34_made_well_formed H HF) as (MW & _). destruct (MW _ _ _ EH) as (HA & HD & HW). destruct h as [a' g']. cbn [lh_alg lh_digest] in *. subst a'. now apply C34_round_trip.
Qed.
Lemma write_any out data r es : write_file sy out 420 data = (r, es) ->
  (es = [] /\ r = Err EOther)
  \/ exists part more, data = part ++ more /\ es = Opened out 420 :: map (Wrote out) part /\ (r = Ok tt -> more = []) /\ (r = Ok tt \/ r = Err EOther) /\ forall z, sy_disk sy (sy_node sy out) <> Some (Special z).
Proof using Type.
  unfold write_file. destruct (sy_no_write sy out); [intro E; injection E as <- <-; auto|]. destruct (sy_disk sy (sy_node sy out)) as [[m old|z]|] eqn:S; [|intro E; injection E as <- <-; auto|].
  all: unfold after; intro E; injection E as <- <-; destruct (feed sy out (Wrote out) data) as [r es] eqn:F; pose proof F as F'; apply feed_inv in F as (part & more & -> & -> & A & B); right; exists part, more; split; [reflexivity|]; split; [reflexivity|]; split; [exact A|]; (split; [|congruence]).
  all: cbn [fst]; destruct r as [[]|x|]; [now left| |now elim B]; right; revert F'; unfold feed; destruct (sy_room sy out) as [n|]; [destruct (n <? _)%nat; [intro X; injection X as <- _; reflexivity|]|]; destruct (sy_no_close sy out); intro X; try discriminate X; injection X as <- _; reflexivity.
Qed.
Lemma holds_events out part shown_ : (forall z, sy_disk sy (sy_node sy out) <> Some (Special z)) -> holds sy out part (Opened out 420 :: map (Wrote out) part ++ map Printed shown_).
Proof using Type.
  intro NS. change (Opened out 420 :: map (Wrote out) part ++ map Printed shown_) with ((Opened out 420 :: map (Wrote out) part) ++ map Printed shown_).
  assert (X : disk_after sy ((Opened out 420 :: map (Wrote out) part) ++ map Printed shown_) = fold_left (apply (sy_node sy)) (map (Wrote out) part) (apply (sy_node sy) (sy_disk sy) (Opened out 420))) by (rewrite run_app, prints_apply; reflexivity).
  unfold holds. rewrite X.
  set (m := match sy_disk sy (sy_node sy out) with Some (File m _) => m | _ => 420%N end).
  destruct (writes_apply sy out part (apply (sy_node sy) (sy_disk sy) (Opened out 420)) m []) as [A B]; [cbn [apply]; apply upd_same|]. split.
  - exists m. split; [exact A|]. subst m. destruct (sy_disk sy (sy_node sy out)) as [[m old|z]|] eqn:E; [left; eauto|now elim (NS z)|right; auto].
  - intros n N. rewrite (B n N). cbn [apply]. now apply upd_other.
Qed.
Lemma events_printed out part shown_ : printed (Opened out 420 :: map (Wrote out) part ++ map Printed shown_) = shown_.
Proof using Type. change (printed (Opened out 420 :: map (Wrote out) part ++ map Printed shown_)) with (printed (map (Wrote out) part ++ map Printed shown_)). now rewrite printed_app, writes_printed, prints_printed. Qed.

(** What a run does, all in all. *)
Lemma sign_inv flag args r es : hash_family H -> jess_sign flag args = (r, es) ->
  (es = [] /\ r <> Ok tt)
  \/ exists f name out text fd part more, args = [f; lit "with"; name] /\ sign_output flag f out /\ makes name f out text fd /\ text = part ++ more
       /\ (forall z, sy_disk sy (sy_node sy out) <> Some (Special z))
       /\ ((r = Err EOther /\ es = Opened out 420 :: map (Wrote out) part)
           \/ (r = Ok tt /\ more = [] /\ exists t, receipt f out fd t /\ es = Opened out 420 :: map (Wrote out) part ++ print sy t)).
Proof using Type.
  intros HF E. unfold sign_cmd in E. destruct args as [|f [|kw [|name [|]]]]; try solve [injection E as <- <-; left; split; [reflexivity|discriminate]].
  destruct (bytes_eqb kw (lit "with")) eqn:K; [|injection E as <- <-; left; split; [reflexivity|discriminate]]. apply bytes_eqb_eq in K. subst kw.
  destruct (get_envelope name) as [e| |] eqn:G; cbn [try] in E; [|injection E as <- <-; left; split; [reflexivity|discriminate]..].
  destruct (sign_name flag f) as [out| |] eqn:N; cbn [try] in E; [|injection E as <- <-; left; split; [reflexivity|discriminate]..]. apply sign_name_iff in N.
  destruct (sign_file c cr w H dump dump_fd (sign_source sy f) (sign_old sy out) e metadata rest full d) as [[text fd]| |] eqn:SF; cbn [try] in E; [|injection E as <- <-; left; split; [reflexivity|discriminate]..]. cbn [fst snd] in E.
  assert (NO : out <> []). { destruct N as [[X ->]|(_ & -> & _)]; [exact X|]. intro X. apply app_eq_nil in X as [_ X]. discriminate X. }
  destruct (receipt_ok f out fd NO (made_hash _ _ _ _ _ HF SF)) as (t & FT & RT). rewrite FT in E. cbn [try] in E.
  destruct (write_file sy out 420 text) as [r' es'] eqn:W. apply write_any in W as [[-> ->]|(part & more & -> & -> & A & B & NS)]; [injection E as <- <-; left; split; [reflexivity|discriminate]|].
  right. exists f, name, out, (part ++ more), fd, part, more. split; [reflexivity|]. split; [exact N|]. split; [now apply (sign_made name f out e)|]. split; [reflexivity|]. split; [exact NS|].
  destruct B as [->| ->]; injection E as <- <-; [right|left; auto]. split; [reflexivity|]. split; [now apply A|]. exists t. auto.
Qed.

(** At any point at which the command may stop, nothing was changed or printed, or the signature file holds a first part of its
    new text - all of it before anything is printed - and no other file is changed. *)
Theorem C65_any_point : forall flag args r es done later, hash_family H -> jess_sign flag args = (r, es) -> es = done ++ later ->
  nothing sy done
  \/ exists f name out text fd part more, args = [f; lit "with"; name] /\ sign_output flag f out /\ makes name f out text fd
       /\ text = part ++ more /\ holds sy out part done
       /\ (printed done = [] \/ more = [] /\ exists t hidden, receipt f out fd t /\ t = printed done ++ hidden).
Proof using Type.
  intros flag args r es done later HF E P. destruct (sign_inv _ _ _ _ HF E) as [[-> _]|(f & name & out & text & fd & part & more & A & N & M & T & NS & Q)].
  - left. symmetry in P. apply app_eq_nil in P as [-> _]. split; reflexivity.
  - destruct done as [|x done]; [left; split; reflexivity|]. right. exists f, name, out, text, fd.
    assert (W : forall p, (exists q, part = p ++ q) -> x :: done = Opened out 420 :: map (Wrote out) p -> exists part more, args = [f; lit "with"; name] /\ sign_output flag f out /\ makes name f out text fd
       /\ text = part ++ more /\ holds sy out part (x :: done) /\ (printed (x :: done) = [] \/ more = [] /\ exists t hidden, receipt f out fd t /\ t = printed (x :: done) ++ hidden)).
    { intros p [q ->] D. exists p, (q ++ more). split; [exact A|]. split; [exact N|]. split; [exact M|]. split; [now rewrite T, app_assoc|]. rewrite D. split.
      - pose proof (holds_events out p [] NS) as Z. cbn [map] in Z. rewrite app_nil_r in Z. exact Z.
      - left. pose proof (events_printed out p []) as Z. cbn [map] in Z. rewrite app_nil_r in Z. exact Z. }
    destruct Q as [[_ ->]|(_ & -> & t & RT & ->)]; injection P as <- P.
    + apply prefix_map in P as (p & q & -> & ->). apply (W p); [eauto|reflexivity].
    + apply prefix_app in P as [[a' P]|(d' & -> & P)].
      * apply prefix_map in P as (p & q & -> & ->). apply (W p); [eauto|reflexivity].
      * unfold print in P. apply prefix_map in P as (p & q & PP & ->). exists part, []. split; [exact A|]. split; [exact N|]. split; [exact M|]. split; [exact T|]. split; [now apply holds_events|]. rewrite events_printed. right. split; [reflexivity|].
        exists t. destruct (sy_room sy stdio) as [n|]; [|exists q; split; [exact RT|exact PP]]. exists (q ++ skipn n t). split; [exact RT|]. rewrite app_assoc, <- PP. symmetry. apply firstn_skipn.
Qed.
(** Exit status 0: the signature file holds all of its new text, and what stdout takes of the receipt is printed. *)
Theorem C65_success : forall flag args es, hash_family H -> jess_sign flag args = (Ok tt, es) ->
  exists f name out text fd t hidden, args = [f; lit "with"; name] /\ sign_output flag f out /\ makes name f out text fd
    /\ holds sy out text es /\ receipt f out fd t /\ t = printed es ++ hidden /\ (sy_room sy (lit "-") = None -> hidden = []).
Proof using Type.
  intros flag args es HF E. destruct (sign_inv _ _ _ _ HF E) as [[_ X]|(f & name & out & text & fd & part & more & A & N & M & T & NS & Q)]; [now elim X|].
  destruct Q as [[X _]|(_ & -> & t & RT & ->)]; [discriminate X|]. rewrite app_nil_r in T. subst part.
  exists f, name, out, text, fd, t, (match sy_room sy (lit "-") with Some n => skipn n t | None => [] end). split; [exact A|]. split; [exact N|]. split; [exact M|]. unfold print. split; [now apply holds_events|]. split; [exact RT|]. rewrite events_printed. change stdio with (lit "-").
  destruct (sy_room sy (lit "-")) as [n|]; [|split; [now rewrite app_nil_r|reflexivity]]. split; [symmetry; apply firstn_skipn|discriminate].
Qed.
(** If nothing stands in the way, the file is signed. *)
Theorem C65_works : forall flag f name out text fd, hash_family H -> sign_output flag f out -> (f = lit "-" \/ sy_no_read sy f = false) -> makes name f out text fd ->
  sy_no_write sy out = false -> (forall n, sy_room sy out = Some n -> (length text <= n)%nat) -> sy_no_close sy out = false ->
  exists es, jess_sign flag [f; lit "with"; name] = (Ok tt, es).
Proof using Type.
  intros flag f name out text fd HF N R (e & data & sr & G & RD & (NR & OS) & SF) NW RM NC. cbn [sign_cmd]. change (bytes_eqb (lit "with") (lit "with")) with true. cbv iota. rewrite G. cbn [try]. rewrite (proj2 (sign_name_iff _ _ _) N). cbn [try].
  assert (L : sign_source sy f = FromFile (Some data)).
  { unfold sign_source, load_file. destruct RD as [[-> E]|(NF & m & D)]; [cbn; now rewrite E|]. destruct R as [R|R]; [now elim NF|]. destruct (bytes_eqb f stdio) eqn:B; [apply bytes_eqb_eq in B; now elim NF|]. now rewrite R, D. }
  assert (O : sign_old sy out = sr). { unfold sign_old. rewrite NR. destruct OS as [[-> D]|(m & old & -> & D)]; now rewrite D. }
  assert (NO : out <> []). { destruct N as [[X ->]|(_ & -> & _)]; [exact X|]. intro X. apply app_eq_nil in X as [_ X]. discriminate X. }
  rewrite L, O, SF. cbn [try fst snd]. destruct (receipt_ok f out fd NO (made_hash _ _ _ _ _ HF SF)) as (t & FT & RT). rewrite FT. cbn [try].
  unfold write_file. rewrite NW. assert (NS : forall z, sy_disk sy (sy_node sy out) <> Some (Special z)) by (destruct OS as [[_ D]|(m & old & _ & D)]; rewrite D; discriminate).
  destruct (sy_disk sy (sy_node sy out)) as [[m b|z]|]; [|now elim (NS z)|]; unfold after; rewrite feed_all by assumption; eexists; reflexivity.
Qed.
End P.
Print Assumptions C65_any_point.
Print Assumptions C65_success.
Print Assumptions C65_works.

(** ** Signing and verifying *)
Lemma open_no_null c cr w req r d data : letter_open c suite_registry tool_registry hash_registry cr w req r d = Ok data -> rw_sigs r = map Some (seals_of (rw_sigs r)).
Proof.
  unfold letter_open. intro E. apply bind_ok in E as (e & EE & _). now destruct (letter_envelope_ok _ _ _ EE) as (su & _ & _ & _ & _ & _ & X & _).
Qed.
(** One user signs a file; another one, who can check the envelope's senders, verifies it by the name of the file or of the
    signature file, with any part of the metadata: exit status 0, and the report has the signed file data. *)
Theorem C65_sign_then_verify : forall c cr w1 w2 sy H load load_fd parse_letter dump dump_fd get_envelope names1 names2 metadata rest full d1 d2 f name e su data es
    glob stat walk stdin confirm required requirements a i,
  crypto_laws cr -> hash_family H ->
  (forall l x, dump l = Ok x -> load x = Some (raw l)) -> (forall g x, dump_fd g = Ok x -> load_fd x = Some g) ->
  get_envelope name = Ok e -> writable c e su -> ~ In Confidentiality (su_provides su) ->
  (forall s, correspondence c suite_registry tool_registry hash_registry cr w1 e = Ok s -> reader cr w2 (s_env s)) ->
  f <> lit "-" -> reads sy f data -> sy_node sy f <> sy_node sy (f ++ lit ".sig") ->
  (forall m old, sy_disk sy (sy_node sy (f ++ lit ".sig")) = Some (File m old) -> exists texts bodies tail, sections_of old texts bodies tail /\ ~ contains begin_line (kept texts tail)) ->
  sign_cmd c cr w1 sy H dump dump_fd get_envelope names1 metadata rest full d1 [] [f; lit "with"; name] = (Ok tt, es) ->
  (forall k v, In (k, v) required -> meta_has metadata k v) -> (forall id, names2 id <> Some None) ->
  glob a = Some [a] -> stat a = Some i -> st_dir i = false -> ~ letter_name a -> data_file a f ->
  exists r fd t, verify_cmd c cr w2 H load load_fd parse_letter glob stat walk (contents_after sy es) stdin confirm names2 required requirements d2 [a] = Ok [LText t]
    /\ reports names2 f [r] [fd] t /\ fd_meta fd = metadata /\ signature_of c cr w2 H load_fd required d2 data r fd.
Proof.
  intros c cr w1 w2 sy H load load_fd parse_letter dump dump_fd get_envelope names1 names2 metadata rest full d1 d2 f name e su data es glob stat walk stdin confirm required requirements a i
    LW HF DL DF G W NC RD NF RF ND SO SG RQ NM GA SA DA LA BA.
  destruct (C65_success _ _ _ _ _ _ _ _ _ _ _ _ _ _ _ _ HF SG) as (f' & name' & out & text & fd & t & hidden & A & N & (e' & data' & sr & G' & RD' & (NR & OS) & SF) & (( m & D1 & _) & D2) & _).
  injection A as <- <-. rewrite G in G'. injection G' as <-. assert (data' = data) by exact (reads_det _ _ _ _ RD' RF). subst data'.
  destruct N as [[X _]|(_ & -> & _)]; [now elim X|]. destruct RF as [[X _]|(_ & m0 & RF)]; [now elim NF|].
  destruct (C55_sign_then_verify c cr w1 w2 H load load_fd dump dump_fd (FromFile (Some data)) data sr e su metadata rest full d1 d2 text fd required LW HF DL DF W NC RD eq_refl) as [V FM]; [|exact SF|exact RQ|].
  { intros old ->. destruct OS as [[X _]|(m1 & old' & X & Y)]; [discriminate X|]. injection X as <-. exact (SO _ _ Y). }
  set (contents := contents_after sy es).
  assert (C1 : contents f = Some data) by (unfold contents, contents_after; rewrite (D2 _ ND), RF; reflexivity).
  assert (C2 : contents (f ++ lit ".sig") = Some text) by (unfold contents, contents_after; rewrite D1; reflexivity).
  destruct (C39_verify_exact _ _ _ _ _ _ _ _ _ _ _ _ V) as (_ & VE & _). destruct (VE eq_refl) as (fds & VL & FE). clear VE. destruct fds as [|fd' [|]]; [discriminate FE| |discriminate FE]. injection FE as <-.
  inversion VL as [|r ? ls ? V1 V2 EL]; subst. inversion V2; subst. clear V2.
  assert (PR : forall s, In s (rw_sigs r) -> printable names2 s).
  { destruct V1 as (_ & (o & O) & _). rewrite (open_no_null _ _ _ _ _ _ _ O). intros s I. apply in_map_iff in I as (v & <- & _). exists v. split; [reflexivity|apply NM]. }
  assert (VS : exists t', verify_sig c cr w2 H load load_fd contents stdin names2 required d2 false f = Ok ([], [LText t'])).
  { unfold verify_sig. change stdio with (lit "-"). change ext_sig with (lit ".sig"). destruct (bytes_eqb f (lit "-")) eqn:B; [apply bytes_eqb_eq in B; now elim NF|]. rewrite C1, C2, V. cbn [bind]. rewrite <- EL. cbn [map fst combine].
    destruct (report_ok names2 [(r, fd)] f (f ++ lit ".sig")) as [t' T]; [intros r' fd' s [X|[]] S; injection X as <- <-; now apply PR|]. cbn [map] in T. rewrite T. cbn [bind]. eauto. }
  destruct VS as [t' VS]. exists r, fd, t'.
  assert (CM : verify_cmd c cr w2 H load load_fd parse_letter glob stat walk contents stdin confirm names2 required requirements d2 [a] = Ok [LText t']).
  { cbn [verify_cmd]. rewrite GA. cbn [of_option bind]. rewrite SA. cbn [of_option bind]. rewrite DA. unfold verify. cbn [existsb]. apply not_letter in LA. rewrite LA, (data_base _ _ BA). cbv zeta. rewrite VS. reflexivity. }
  split; [exact CM|]. destruct (vsig_by c cr w2 H load load_fd contents stdin names2 required d2 false f [] [LText t'] NF VS) as (letters & fds & (dt & tx & E1 & E2 & E3 & _ & E5) & _ & tt' & RP & TT). injection TT as <-.
  assert (tx = text) by congruence. subst tx. rewrite E3 in EL. cbn [fst] in EL. subst letters. inversion E5 as [|? fd2 ? l2 E6 E7]; subst. inversion E7; subst. assert (fd2 = fd) by (destruct E6 as (E6 & _), V1 as (V1 & _); congruence). subst fd2.
  split; [exact RP|]. split; [reflexivity|exact V1].
Qed.
Print Assumptions C65_sign_then_verify.

(** ** Concrete cases *)
Definition sf1 : suite := suite_named (lit "signfile_v1").
Definition sf_envelope (name : bytes) : outcome envelope := if bytes_eqb name (lit "bob") then Ok (post_env sf1) else Err EEnvelopeNotFound.
Definition no_names (_ : bytes) : option (option bytes) := None.
Notation run_sign sy := (sign_cmd default_config toy (writer_world sf1) sy toy_hash (one_dump letter_eqb (closed_by sf1 [x01])) (one_dump filedata_eqb (demo_fd sf1)) sf_envelope no_names demo_meta (lit "now") false 3).
Notation run_verify contents := (verify_cmd default_config toy (reader_world sf1) toy_hash (one_load raw (closed_by sf1 [x01])) (one_load (fun f => f) (demo_fd sf1))
  (fun _ => Err EOther) (fun a => Some [a]) (fun _ => Some (mkStat false 5%Z)) (fun _ => []) contents [] (fun _ => None) no_names demo_meta None 9).
Definition signed_now (sr : sig_read) : bytes :=
  match sign_file default_config toy (writer_world sf1) toy_hash (one_dump letter_eqb (closed_by sf1 [x01])) (one_dump filedata_eqb (demo_fd sf1)) (FromFile (Some (lit "hello"))) sr (post_env sf1) demo_meta (lit "now") false 3 with
  | Ok (t, _) => t | _ => [] end.
Lemma sf1_registered : In sf1 suite_registry.
Proof. apply (get_suite_in (lit "signfile_v1")). vm_compute. reflexivity. Qed.
(** "a" is signed, its signature file has a comment; everything the round trip needs, and the round trip. *)
Example C65_hypotheses_met : let sy := demo_system [lit "a"; lit "a.sig"] (two_files (lit "hello") 384 (lit "# signed")) in
  hash_family toy_hash /\ sf_envelope (lit "bob") = Ok (post_env sf1) /\ writable default_config (post_env sf1) sf1 /\ ~ In Confidentiality (su_provides sf1)
  /\ (forall s, correspondence default_config suite_registry tool_registry hash_registry toy (writer_world sf1) (post_env sf1) = Ok s -> reader toy (reader_world sf1) (s_env s))
  /\ reads sy (lit "a") (lit "hello") /\ sy_node sy (lit "a") <> sy_node sy (lit "a" ++ lit ".sig")
  /\ (forall m old, sy_disk sy (sy_node sy (lit "a" ++ lit ".sig")) = Some (File m old) -> exists texts bodies tail, sections_of old texts bodies tail /\ ~ contains begin_line (kept texts tail))
  /\ sign_output [] (lit "a") (lit "a.sig") /\ ~ letter_name (lit "a.sig") /\ data_file (lit "a.sig") (lit "a")
  /\ exists es t, run_sign sy [] [lit "a"; lit "with"; lit "bob"] = (Ok tt, es) /\ disk_after sy es 2 = Some (File 384 (signed_now (SigText (lit "# signed"))))
       /\ receipt (lit "a") (lit "a.sig") (demo_fd sf1) (printed es)
       /\ run_verify (contents_after sy es) [lit "a.sig"] = Ok [LText t].
Proof.
  cbv zeta. pose proof C54_hypotheses_met as T. rewrite Forall_forall in T. destruct (T sf1 sf1_registered) as (s & l & r & W & CO & RD & _).
  split; [exact (proj1 C55_hypotheses_met)|]. split; [reflexivity|]. split; [exact W|]. split.
  { assert (E : existsb (N.eqb Confidentiality) (su_provides sf1) = false) by (vm_compute; reflexivity). intro I.
    assert (Y : existsb (N.eqb Confidentiality) (su_provides sf1) = true) by (apply existsb_exists; exists Confidentiality; split; [exact I|reflexivity]). rewrite E in Y. discriminate Y. }
  split; [intros s' E; rewrite CO in E; injection E as <-; exact RD|]. split; [right; split; [discriminate|eexists; reflexivity]|]. split; [vm_compute; discriminate|].
  split. { intros m old E. injection E as <- <-. exact (proj1 (proj2 C55_hypotheses_met)). }
  assert (NS : forall a, lit "a" <> a ++ lit ".sig"). { intros [|x [|y a]] E; discriminate E. }
  split; [right; split; [reflexivity|split; [reflexivity|exact NS]]|].
  split. { apply not_letter. vm_compute. reflexivity. }
  split. { left. reflexivity. }
  eexists. eexists. split; [vm_compute; reflexivity|]. split; [vm_compute; reflexivity|]. split; [|vm_compute; reflexivity].
  eexists. eexists. split; [vm_compute; reflexivity|]. split; [exact (listed_entries _)|]. vm_compute. reflexivity.
Qed.
(** Interrupted, the command loses the signatures that were in the signature file. *)
Theorem C65_interrupted_refuted : let sy := demo_system [lit "a"; lit "a.sig"] (two_files (lit "hello") 420 (signed_now SigMissing)) in
  (exists t, run_verify (contents_after sy []) [lit "a"] = Ok [LText t])
  /\ exists done later, run_sign sy [] [lit "a"; lit "with"; lit "bob"] = (Ok tt, done ++ later)
       /\ disk_after sy done 2 = Some (File 420 []) /\ exists x, run_verify (contents_after sy done) [lit "a"] = Err x.
Proof.
  split; [eexists; vm_compute; reflexivity|]. eexists (_ :: []), _. split; [vm_compute; reflexivity|]. split; [vm_compute; reflexivity|]. eexists. vm_compute. reflexivity.
Qed.
(** `jess sign -o - a with bob` does not print the signature: it makes a file called "-". *)
Theorem C65_stdout_refuted : let sy := demo_system [lit "a"; lit "-"] (one_file 384 (lit "hello")) in
  exists es, run_sign sy (lit "-") [lit "a"; lit "with"; lit "bob"] = (Ok tt, es)
    /\ disk_after sy es 2 = Some (File 420 (signed_now SigMissing)) /\ receipt (lit "a") (lit "-") (demo_fd sf1) (printed es).
Proof.
  eexists. split; [vm_compute; reflexivity|]. split; [vm_compute; reflexivity|]. eexists. eexists. split; [vm_compute; reflexivity|]. split; [exact (listed_entries _)|]. vm_compute. reflexivity.
Qed.
(** `jess sign -o a a with bob` changes the signed file itself, without a question: "Verification: OK" is printed, but the file and
    the signature in it do not fit. *)
Theorem C65_same_file_refuted : let sy := demo_system [lit "a"] (one_file 384 (lit "hello")) in
  exists es, run_sign sy (lit "a") [lit "a"; lit "with"; lit "bob"] = (Ok tt, es)
    /\ disk_after sy es 1 = Some (File 384 (signed_now (SigText (lit "hello")))) /\ signed_now (SigText (lit "hello")) <> lit "hello"
    /\ (forall t, t = signed_now (SigText (lit "hello")) -> verify_file default_config toy (reader_world sf1) toy_hash (one_load raw (closed_by sf1 [x01])) (one_load (fun f => f) (demo_fd sf1))
          (FromFile (Some t)) (Some t) demo_meta 9 = Ok ([(demo_fd sf1, false)], true))
    /\ receipt (lit "a") (lit "a") (demo_fd sf1) (printed es).
Proof.
  eexists. split; [vm_compute; reflexivity|]. split; [vm_compute; reflexivity|]. split; [vm_compute; discriminate|]. split; [intros t ->; vm_compute; reflexivity|]. eexists. eexists. split; [vm_compute; reflexivity|]. split; [exact (listed_entries _)|]. vm_compute. reflexivity.
Qed.
Print Assumptions C65_same_file_refuted.
