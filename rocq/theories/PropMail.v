(** C70: from `generate` to the data in the hands of the friend. *)
From Coq Require Import Init.Byte.
From Verif Require Import PreludeFacts Container Letter Requirements Tools Crypto Session SpecSession SessionFacts SessionComplete SessionProps SuiteFacts
  Core CoreSession CoreTrip CoreRound Envelope SpecCore Toy SpecOpen PropHistory PropTrip PropLetter PropSession WireLive PropWire SpecPost Post PropPost SpecWorking SpecClose PropClose
  KeyStore SpecKeyStore PropKeyStore Signets SpecExport PropExport TrustStore SpecStore PropStore CmdKeys PropCmdKeys Wizard SpecWizard Generate SpecGenerate PropGenerate SpecMail.

(** ** Introduction *)
Section Intro.
Variable e : ext.
Variables (cr : crypto) (pb : pubkey e -> bytes) (kb : prvkey e -> bytes).
Variables (dump : sdata -> option bytes) (undump : bytes -> option sdata) (edump : edata -> option bytes) (eundump : bytes -> option edata).
Variables (jdump : sdata -> option bytes) (jundump : bytes -> option sdata) (jedump : edata -> option bytes) (jeundump : bytes -> option edata).
Notation codecs_ok := (fun d => codec_ok dump undump d /\ codec_ok jdump jundump d).

Lemma held_get dir w u d : length u = 16 -> d_id d = uuid_of u -> codec_ok jdump jundump d -> SpecGenerate.holds jdump dir w d ->
  dir_get jundump dir w (uuid_of u) (d_public d) = Ok d.
Proof using Type.
  intros L ID (b & D & _ & U) (b' & D' & R). rewrite D in D'. injection D' as <-. unfold dir_get, load_signet_file. rewrite (proj1 (C64_id u L)).
  unfold signet_path in R. rewrite ID in R. rewrite R. cbn [of_option]. now rewrite U.
Qed.
Lemma usable_loaded l p (s : prvkey e) : generated e l p s -> as_loaded kb s = PKey (kb s).
Proof using Type. destruct 1; reflexivity. Qed.

(** Whoever generates a key pair can hand over the text that `export` prints for it; whoever imports that text has been introduced. *)
Theorem C70_introduction : forall rand gen now writes dirO wO f rs o wO' name scheme dirF wF,
  (forall t n p s, gen t n = Some (p, s) -> exists l, logic_of t = Some l /\ generated e l p s) ->
  (forall i n b, rand i n = Some b -> length b = n) ->
  same_tools cr pb kb gen ->
  g_textonly f = false -> asked f rs name scheme -> scheme <> scheme_pw -> scheme <> scheme_key ->
  (forall id key public, codecs_ok (mkData 1 id scheme key public None (Some (mkInfo name now)) None)) ->
  @generate e dump jdump dirO rand gen now writes f rs wO = (Ok o, wO') ->
  exists id text wF', uuid4 id
    /\ @cmd_export e dump edump jundump jeundump dirO wO' id = Ok text
    /\ @cmd_import e undump eundump jdump jedump dirF wF text = Ok wF'
    /\ introduced cr jundump dirF wF' dirO wO' id scheme
    /\ (forall id' r, id' <> id \/ r <> true -> dir_get jundump dirF wF' id' r = dir_get jundump dirF wF id' r)
    /\ (forall n, dir_get_envelope jeundump suite_registry dirF wF' n = dir_get_envelope jeundump suite_registry dirF wF n)
    /\ forall id' r, id' <> id -> dir_get jundump dirO wO' id' r = dir_get jundump dirO wO id' r.
Proof using Type.
  intros rand gen now writes dirO wO f rs o wO' name scheme dirF wF GO RO [SL SG] TO AS NP NK CO H.
  destruct (C64_saved dump jdump dirO rand gen now writes GO RO f rs wO o wO' TO H) as (_ & name' & scheme' & u & A' & RU & U4 & C).
  assert (EQ : name' = name /\ scheme' = scheme).
  { pose proof (proj1 (asked_exact _ _ _ _) AS) as (a1 & a2 & N1 & S1). pose proof (proj1 (asked_exact _ _ _ _) A') as (b1 & b2 & N2 & S2). rewrite N1 in N2. injection N2 as <- <-. rewrite S1 in S2. now injection S2 as <- _. }
  destruct EQ as [-> ->]. destruct C as [(E & _)|[(E & _)|C]]; [now elim NP|now elim NK|]. destruct C as (pub & prv & key & pkey & G & (LP & (none & LN & UN) & SP) & HP & HQ & OS).
  pose proof (RO _ _ _ RU) as LU. destruct (GO _ _ _ _ G) as (l & LG & GE).
  set (dp := made now u name scheme pkey true) in *. set (ds := made now u name scheme key false) in *.
  pose proof (held_get dirO wO' u dp LU eq_refl (proj2 (CO _ _ _)) HQ) as G1. pose proof (held_get dirO wO' u ds LU eq_refl (proj2 (CO _ _ _)) HP) as G2.
  change (d_public dp) with true in G1. change (d_public ds) with false in G2.
  assert (PS : public_signet (@fresh e dp) pub).
  { split; [exists l, prv; split; [exact LG|exact GE]|]. split; [reflexivity|]. split; [reflexivity|]. right. split; [exact SP|now left]. }
  destruct (C64_id u LU) as (NI & NE & _).
  destruct (C46_export_recipient e dump undump edump eundump jdump jundump jedump jeundump dirO wO' dirF wF (uuid_of u) dp pub G1 eq_refl NE PS ltac:(discriminate) (CO _ _ _)) as (t & wF' & EX & IM & GF & _ & OT & OE).
  exists (uuid_of u), t, wF'. split; [exact U4|]. split; [exact EX|]. split; [exact IM|]. split; [|split; [exact OT|split; [exact OE|]]].
  - exists (pb pub), (kb prv). split; [|split; [|exact (SG _ _ _ _ G)]].
    + exists dp, (as_loaded kb none). split; [exact GF|]. split; [reflexivity|]. split; [reflexivity|]. split; [reflexivity|]. exact (SL _ _ _ _ _ LN).
    + exists ds, (pb pub). split; [exact G2|]. split; [reflexivity|]. split; [reflexivity|]. split; [reflexivity|]. rewrite <- (usable_loaded _ _ _ GE). exact (SL _ _ _ _ _ LP).
  - intros id' r D. unfold dir_get. destruct (nice id') eqn:N'; [|reflexivity]. unfold load_signet_file. rewrite (OS (join_path dirO (storage_id id' r))); [reflexivity|].
    intros d [<-|[<-|[]]] E; apply D; destruct (C33_distinct_files dirO id' r (uuid_of u) (d_public ds) (uuid_of u) (uuid_of u) N' NI NI NI) as [X1 _];
      destruct (C33_distinct_files dirO id' r (uuid_of u) (d_public dp) (uuid_of u) (uuid_of u) N' NI NI NI) as [X2 _].
    + exact (proj1 (X1 E)).
    + exact (proj1 (X2 E)).
Qed.
End Intro.

(** ** Letters *)
Section Letters.
Variables (c : config) (cr : crypto) (jundump : bytes -> option sdata).
Definition shelf (dir : bytes) (w : fs) : option (bytes -> bool -> outcome signet) := w_signet (store_world jundump dir w).

Lemma prep_refs (dir : bytes) (wf : fs) (w : world) level rec l (Q : signet -> bytes -> privkey -> Prop) : w_signet w = shelf dir wf ->
  (forall sg, In sg l -> refers sg /\ sg_scheme sg <> scheme_key /\ sg_scheme sg <> scheme_pw
     /\ (exists t, tools_get tool_registry (sg_scheme sg) = Ok t /\ t_name t = sg_scheme sg /\ uses_signets t = true)
     /\ exists d p k, dir_get jundump dir wf (sg_id sg) rec = Ok d /\ d_id d = sg_id sg /\ d_scheme d = sg_scheme sg /\ d_prot d = None
        /\ cr_load cr (sg_scheme sg) (d_key d) (d_public d) = Ok (p, k) /\ Q sg p k) ->
  exists ns q, prep_signets tool_registry cr w level rec l = (Ok ns, q)
    /\ Forall2 (fun sg n => sg_id n = sg_id sg /\ sg_scheme n = sg_scheme sg /\ exists p, sg_pub n = Some p /\ Q sg p (sg_priv n)) l ns.
Proof using Type.
  intros EW H. apply (prep_all cr w level (fun b => b = rec)); [|reflexivity]. revert H. induction l as [|sg l IH]; intro H; constructor; [|apply IH; intros; apply H; now right].
  intros r ->. destruct (H sg (or_introl eq_refl)) as ((EK & NI) & N1 & N2 & (t & T1 & T2 & T3) & d & p & k & GD & ED & ES & EP & LD & HQ).
  apply (proj2 (bytes_eqb_neq _ _)) in N1, N2. exists (Envelope.set_loaded (signet_of d) p k), [], rec. split; [|split; [reflexivity|]].
  - unfold prep_one. rewrite EK. cbn [nonempty]. rewrite N2, N1. f_equal. f_equal. unfold fetch. destruct (sg_id sg) as [|b0 i0] eqn:EI; [congruence|]. cbn [nonempty negb]. rewrite EW. unfold shelf. cbn [store_world w_signet].
    rewrite GD. cbn [bind other]. cbn [signet_of sg_scheme]. rewrite ES, bytes_eqb_refl, andb_false_r. cbn [bind]. unfold prep_loaded. cbn [signet_of sg_prot sg_scheme]. rewrite EP. cbn [is_some]. rewrite ES, N1, N2. cbn [orb].
    unfold Envelope.load_key. cbn [signet_of sg_pub sg_prot sg_scheme sg_key sg_public]. rewrite EP, ES, T1. cbn [bind]. rewrite T3, T2, LD. reflexivity.
  - cbn. split; [exact ED|]. split; [exact ES|]. exists p. auto.
Qed.

Lemma served_tool su sg t : suite_tool tool_registry su t -> t_name t = sg_scheme sg -> In (t_purpose t) [PKeyExchange; PKeyEncapsulation; PSigning] ->
  sg_scheme sg <> scheme_key /\ sg_scheme sg <> scheme_pw /\ exists t, tools_get tool_registry (sg_scheme sg) = Ok t /\ t_name t = sg_scheme sg /\ uses_signets t = true.
Proof using Type.
  intros (id & _ & T) E P. unfold tools_get in T. destruct (find (fun t => bytes_eqb (t_name t) (fst (parse_tool_id id))) tool_registry) as [t'|] eqn:F; [|discriminate]. injection T as ->.
  pose proof (find_some _ _ F) as [F1 F2]. pose proof (registry_no_secret_names _ F1) as [K1 K2]. rewrite E in K1, K2. split; [exact K1|]. split; [exact K2|].
  exists t. cbn beta in F2. apply (proj1 (bytes_eqb_eq _ _)) in F2. split; [unfold tools_get; now rewrite <- E, F2, F|]. split; [exact E|].
  unfold uses_signets. destruct P as [<-|[<-|[<-|[]]]]; reflexivity.
Qed.

(** An envelope that refers to senders (whose private keys the writer has, and whose public keys the reader has) and
    recipients (the other way round), as many and in as many roles as the suite asks for: the correspondence opens, the
    letter closes, and the reader gets the data and the confirmation of the signatures. *)
Theorem C70_letter : forall dirA wA dirB wB w1 w2 e su full data d1 d2 required,
  crypto_laws cr -> working cr -> writable c e su -> e_opening e = false ->
  w_signet w1 = shelf dirA wA -> w_signet w2 = shelf dirB wB ->
  e_secrets e = [] -> e_senders e ++ e_recipients e <> [] ->
  (forall sg, In sg (e_senders e) -> refers sg /\ introduced cr jundump dirB wB dirA wA (sg_id sg) (sg_scheme sg)) ->
  (forall sg, In sg (e_recipients e) -> refers sg /\ introduced cr jundump dirA wA dirB wB (sg_id sg) (sg_scheme sg)) ->
  signets_served tool_registry su e -> tools_served tool_registry su e ->
  (level_floor c e <= 128)%Z -> ((0 < e_level e)%Z -> (level_floor c e <= e_level e)%Z) ->
  incl (wanted required) (su_provides su) ->
  exists s l r, correspondence c suite_registry tool_registry hash_registry cr w1 e = Ok s
    /\ close_session c cr s full data (rt_start d1 None) = (Ok l, r)
    /\ letter_open c suite_registry tool_registry hash_registry cr w2 required (raw l) d2 = Ok data
    /\ (e_senders e <> [] -> letter_verify c suite_registry tool_registry hash_registry cr w2 required (raw l) d2 = Ok tt).
Proof using Type.
  intros dirA wA dirB wB w1 w2 e su full data d1 d2 required L WK W OP E1 E2 NS SOME HS HR SV TV LF LE RQ.
  pose proof SV as (_ & SV2 & SV3).
  assert (HG : get_suite suite_registry (e_suite_id e) = Some su) by exact (wr_suite _ _ _ W).
  assert (HI : In su suite_registry) by (apply find_some in HG; tauto).
  assert (LS : load_suite suite_registry e = Ok su).
  { unfold load_suite. destruct (wr_cached _ _ _ W) as [-> | ->]; [rewrite HG|]; reflexivity. }
  destruct (prep_refs dirA wA w1 (su_level su) false (e_senders e)
    (fun sg _ k => exists k0 p' n, k = PKey k0 /\ SpecPost.holds w2 (sg_id sg) true n /\ sg_scheme n = sg_scheme sg /\ (exists k', SpecPost.loads cr n p' k') /\ pair_ok cr (sg_scheme sg) p' k0) E1) as (b & qb & PB & FB).
  { intros sg Hs. destruct (HS sg Hs) as (RF & p & k & (d & none & GD & ED & ES & EP & LD) & (d' & p' & GD' & ED' & ES' & EP' & LD') & PO).
    destruct (SV2 sg Hs) as (t & T1 & T2 & T3). destruct (served_tool su sg t T1 T3) as (N1 & N2 & T); [rewrite T2; cbn; auto|]. split; [exact RF|]. split; [exact N1|]. split; [exact N2|]. split; [exact T|].
    exists d', p', (PKey k). split; [exact GD'|]. split; [exact ED'|]. split; [exact ES'|]. split; [exact EP'|]. split; [exact LD'|]. exists k, p, (signet_of d). split; [reflexivity|]. split.
    - unfold SpecPost.holds. rewrite E2. unfold shelf. cbn [store_world w_signet]. eexists. split; [reflexivity|]. cbv beta. rewrite GD. cbn [bind]. split; [reflexivity|]. cbn. now rewrite EP.
    - split; [exact ES|]. split; [|exact PO]. exists none. right. cbn. rewrite ES. auto. }
  destruct (prep_refs dirA wA w1 (su_level su) true (e_recipients e)
    (fun sg p _ => exists k0 p' n, SpecPost.holds w2 (sg_id sg) false n /\ sg_scheme n = sg_scheme sg /\ SpecPost.loads cr n p' (PKey k0) /\ pair_ok cr (sg_scheme sg) p k0) E1) as (r & qr & PR & FR).
  { intros sg Hs. destruct (HR sg Hs) as (RF & p & k & (d & none & GD & ED & ES & EP & LD) & (d' & p' & GD' & ED' & ES' & EP' & LD') & PO).
    destruct (SV3 sg Hs) as (t & T1 & T2 & T3). destruct (served_tool su sg t T1 T3) as (N1 & N2 & T); [destruct T2 as [-> | ->]; cbn; auto|]. split; [exact RF|]. split; [exact N1|]. split; [exact N2|]. split; [exact T|].
    exists d, p, none. split; [exact GD|]. split; [exact ED|]. split; [exact ES|]. split; [exact EP|]. split; [exact LD|]. exists k, p', (signet_of d'). split.
    - unfold SpecPost.holds. rewrite E2. unfold shelf. cbn [store_world w_signet]. eexists. split; [reflexivity|]. cbv beta. rewrite GD'. cbn [bind]. split; [reflexivity|]. cbn. now rewrite EP'.
    - split; [exact ES'|]. split; [|exact PO]. right. cbn. rewrite ES'. auto. }
  set (e' := set_signets e su [] b r).
  assert (BA : forall n, In n b -> exists sg, In sg (e_senders e) /\ sg_id n = sg_id sg /\ sg_scheme n = sg_scheme sg).
  { intros n Hn. destruct (F2_in_r _ _ _ FB n Hn) as (sg & Hs & A1 & A2 & _). eauto. }
  assert (RA : forall n, In n r -> exists sg, In sg (e_recipients e) /\ sg_id n = sg_id sg /\ sg_scheme n = sg_scheme sg).
  { intros n Hn. destruct (F2_in_r _ _ _ FR n Hn) as (sg & Hs & A1 & A2 & _). eauto. }
  assert (SV' : signets_served tool_registry su e').
  { split; [intros sg []|]. split.
    - intros n Hn. destruct (BA n Hn) as (sg & Hs & _ & ->). now apply SV2.
    - intros n Hn. destruct (RA n Hn) as (sg & Hs & _ & ->). now apply SV3. }
  assert (TV' : tools_served tool_registry su e').
  { intros t Ht. specialize (TV t Ht). destruct (t_purpose t); try exact I.
    - destruct TV as (sg & Hs & _). rewrite NS in Hs. destruct Hs.
    - destruct TV as (sg & Hs & ES). destruct (F2_in_l _ _ _ FR sg Hs) as (n & Hn & _ & A2 & _). exists n. split; [exact Hn|congruence].
    - destruct TV as (sg & Hs & ES). destruct (F2_in_l _ _ _ FR sg Hs) as (n & Hn & _ & A2 & _). exists n. split; [exact Hn|congruence].
    - destruct TV as (sg & Hs & ES). destruct (F2_in_l _ _ _ FB sg Hs) as (n & Hn & _ & A2 & _). exists n. split; [exact Hn|congruence]. }
  assert (NKS : ~ has_key_secret e') by (intros (sg & [] & _)).
  assert (NK : su_id su <> lit "key_v1" /\ su_id su <> lit "key_v2").
  { assert (F : forallb (fun su => negb (bytes_eqb (su_id su) (lit "key_v1") || bytes_eqb (su_id su) (lit "key_v2"))
       || forallb (fun id => match tools_get tool_registry (fst (parse_tool_id id)) with Ok t => negb (uses_signets t) | _ => false end) (su_tools su)) suite_registry = true) by (vm_compute; reflexivity).
    rewrite forallb_forall in F. specialize (F su HI).
    assert (X : exists t, suite_tool tool_registry su t /\ uses_signets t = true).
    { destruct (e_senders e) as [|sg q] eqn:EQ; [destruct (e_recipients e) as [|sg q] eqn:EQ'; [now elim SOME|]|].
      - destruct (SV3 sg (or_introl eq_refl)) as (t & T1 & T2 & _). exists t. split; [exact T1|]. unfold uses_signets. destruct T2 as [-> | ->]; reflexivity.
      - destruct (SV2 sg (or_introl eq_refl)) as (t & T1 & T2 & _). exists t. split; [exact T1|]. unfold uses_signets. rewrite T2. reflexivity. }
    destruct X as (t & (id & I1 & I2) & US). apply orb_true_iff in F as [F|F].
    - apply negb_true_iff, orb_false_iff in F as [F1 F2]. split; intro X; [rewrite X in F1; discriminate F1|rewrite X in F2; discriminate F2].
    - rewrite forallb_forall in F. specialize (F id I1). rewrite I2, US in F. discriminate F. }
  destruct (C47_suites_open su c cr e' HI eq_refl LF LE SV' TV') as (s & N & _).
  { assert (A4 : forall a, In a (su_provides su) -> (a < 4)%N).
    { assert (F : forallb (fun su => forallb (fun a => a <? 4)%N (su_provides su)) suite_registry = true) by (vm_compute; reflexivity).
      rewrite forallb_forall in F. specialize (F su HI). rewrite forallb_forall in F. intros a Ha. now apply N.ltb_lt, F. }
    intros a Ha. apply (C47_declared_is_delivered su e' HI); [|now apply A4|exact Ha]. split; [intro X; now elim NKS|]. destruct NK. intros [X|X]; contradiction. }
  { intro X. now elim NKS. }
  { intros sg []. }
  { intros sg []. }
  assert (CO : correspondence c suite_registry tool_registry hash_registry cr w1 e = Ok s).
  { unfold correspondence, prepare. rewrite LS, OP, NS. cbn [prep_signets negb]. rewrite PB, PR. cbn [fst bind]. exact N. }
  pose proof (session_env _ _ _ _ _ _ N) as EE.
  assert (RD : reader cr w2 (s_env s)).
  { rewrite EE. unfold e'. constructor; cbn [set_signets e_secrets e_senders e_recipients app].
    - intros n Hn. apply in_app_or in Hn as [Hn|Hn].
      + destruct (BA n Hn) as (sg & Hs & -> & _). apply (HS sg Hs).
      + destruct (RA n Hn) as (sg & Hs & -> & _). apply (HR sg Hs).
    - left. constructor.
    - intros sg [].
    - intros sg [].
    - intros n Hn. destruct (F2_in_r _ _ _ FR n Hn) as (sg & Hs & A1 & A2 & p & EP & k0 & p' & m & HM & SM & LM & PO).
      exists m, p, p', k0. rewrite A1, A2. auto.
    - intros n Hn. destruct (F2_in_r _ _ _ FB n Hn) as (sg & Hs & A1 & A2 & p & EP & k0 & p' & m & EK & HM & SM & (k' & LM) & PO).
      exists m, p', k0, k'. rewrite A1, A2. auto. }
  destruct (C69_delivered c cr w1 w2 e su s full data d1 d2 required L WK W CO RD) as (l & rr & CL & OK & VF); [intros sg Hs; rewrite EE in Hs; destruct Hs|exact RQ|].
  exists s, l, rr. auto.
Qed.
End Letters.
Print Assumptions C70_introduction.
Print Assumptions C70_letter.

(** ** The whole story *)
Definition letter_to (suite idA idB : bytes) : envelope :=
  mkEnvelope 1 [] suite None [] [mkSignet 1 idA (lit "Ed25519") [] false false None None PNil] [mkSignet 1 idB (lit "ECDH-X25519") [] false false None None PNil] 0 false.
Lemma letter_fits suite su idA idB : suite = lit "v1" \/ suite = lit "v2" -> get_suite suite_registry suite = Some su ->
  signets_served tool_registry su (letter_to suite idA idB) /\ tools_served tool_registry su (letter_to suite idA idB)
  /\ su_provides su = [Confidentiality; Integrity; RecipientAuthentication; SenderAuthentication].
Proof.
  intros S G.
  assert (H : su = suite_named (lit "v1") \/ su = suite_named (lit "v2")).
  { destruct S as [-> | ->]; vm_compute in G; injection G as <-; [left|right]; vm_compute; reflexivity. }
  clear S G. set (e := letter_to suite idA idB).
  assert (SV : forall sg, In sg (e_senders e) -> sg_scheme sg = lit "Ed25519") by (intros sg [<-|[]]; reflexivity).
  assert (SR : forall sg, In sg (e_recipients e) -> sg_scheme sg = lit "ECDH-X25519") by (intros sg [<-|[]]; reflexivity).
  split; [|split].
  - split; [intros sg []|]. split.
    + intros sg Hs. rewrite (SV sg Hs). destruct (tools_get tool_registry (lit "Ed25519")) as [t| |] eqn:T; [|vm_compute in T; discriminate T..]. exists t. split.
      * destruct H as [-> | ->]; [exists (lit "Ed25519(BLAKE2b-256)")|exists (lit "Ed25519(BLAKE3)")]; (split; [vm_compute; auto|exact T]).
      * vm_compute in T. injection T as <-. split; reflexivity.
    + intros sg Hs. rewrite (SR sg Hs). destruct (tools_get tool_registry (lit "ECDH-X25519")) as [t| |] eqn:T; [|vm_compute in T; discriminate T..]. exists t. split.
      * exists (lit "ECDH-X25519"). split; [destruct H as [-> | ->]; vm_compute; auto|exact T].
      * vm_compute in T. injection T as <-. split; [left|]; reflexivity.
  - intros t (id & I1 & I2).
    assert (X : t_purpose t = PKeyExchange /\ t_name t = lit "ECDH-X25519" \/ t_purpose t = PSigning /\ t_name t = lit "Ed25519" \/ t_purpose t = PKeyDerivation \/ t_purpose t = PIntegratedCipher).
    { destruct H as [-> | ->]; vm_compute in I1; repeat (destruct I1 as [<-|I1]; [vm_compute in I2; injection I2 as <-; vm_compute; auto|]); destruct I1. }
    destruct X as [[-> ->]|[[-> ->]|[-> | ->]]]; try exact I.
    + eexists. split; [left; reflexivity|reflexivity].
    + eexists. split; [left; reflexivity|reflexivity].
  - destruct H as [-> | ->]; vm_compute; reflexivity.
Qed.

(** Ann generates a signing key and Ben a key for receiving; they exchange the texts that `export` prints.  Then all letters that
    Ann writes to Ben, signed, with the suites v1 and v2, get to Ben: no step fails. *)
Theorem C70_story : forall e cr (pb : pubkey e -> bytes) (kb : prvkey e -> bytes) dump undump edump eundump jdump jundump jedump jeundump
    randA genA nowA dirA wA fA rsA nameA randB genB nowB dirB wB fB rsB nameB,
  crypto_laws cr -> working cr -> same_tools cr pb kb genA -> same_tools cr pb kb genB ->
  (forall t n p s, genA t n = Some (p, s) -> exists l, logic_of t = Some l /\ generated e l p s) ->
  (forall t n p s, genB t n = Some (p, s) -> exists l, logic_of t = Some l /\ generated e l p s) ->
  (forall n, exists b, randA 1%nat n = Some b) -> (forall i n b, randA i n = Some b -> length b = n) ->
  (forall n, exists b, randB 1%nat n = Some b) -> (forall i n b, randB i n = Some b -> length b = n) ->
  (forall n, genA (lit "Ed25519") n <> None) -> (forall n, genB (lit "ECDH-X25519") n <> None) ->
  g_textonly fA = false -> asked fA rsA nameA (lit "Ed25519") -> g_textonly fB = false -> asked fB rsB nameB (lit "ECDH-X25519") ->
  (forall id scheme key public info, In info [mkInfo nameA nowA; mkInfo nameB nowB] -> let d := mkData 1 id scheme key public None (Some info) None in
     codec_ok dump undump d /\ codec_ok jdump jundump d) ->
  exists wA1 wB1 idA idB textA textB wA2 wB2,
    @generate e dump jdump dirA randA genA nowA (fun _ => true) fA rsA wA = (Ok None, wA1)
    /\ @generate e dump jdump dirB randB genB nowB (fun _ => true) fB rsB wB = (Ok None, wB1)
    /\ @cmd_export e dump edump jundump jeundump dirA wA1 idA = Ok textA /\ @cmd_import e undump eundump jdump jedump dirB wB1 textA = Ok wB2
    /\ @cmd_export e dump edump jundump jeundump dirB wB1 idB = Ok textB /\ @cmd_import e undump eundump jdump jedump dirA wA1 textB = Ok wA2
    /\ forall suite full data d1 d2, suite = lit "v1" \/ suite = lit "v2" ->
       exists s l r, correspondence default_config suite_registry tool_registry hash_registry cr (store_world jundump dirA wA2) (letter_to suite idA idB) = Ok s
         /\ close_session default_config cr s full data (rt_start d1 None) = (Ok l, r)
         /\ letter_open default_config suite_registry tool_registry hash_registry cr (store_world jundump dirB wB2) None (raw l) d2 = Ok data
         /\ letter_verify default_config suite_registry tool_registry hash_registry cr (store_world jundump dirB wB2) None (raw l) d2 = Ok tt.
Proof.
  intros e cr pb kb dump undump edump eundump jdump jundump jedump jeundump randA genA nowA dirA wA fA rsA nameA randB genB nowB dirB wB fB rsB nameB
    L WK STA STB GA GB RA RAL RB RBL NA NB TA AA TB AB CO.
  assert (JT : forall info id scheme key public, In info [mkInfo nameA nowA; mkInfo nameB nowB] -> jdump (mkData 1 id scheme key public None (Some info) None) <> None).
  { intros info id scheme key public Hi X. destruct (CO id scheme key public info Hi) as [_ (b & D & _)]. congruence. }
  destruct (C64_works dump jdump dirA randA genA nowA (fun _ => true) GA RAL fA rsA wA nameA (lit "Ed25519") TA AA) as (wA1 & G1);
    [destruct (RA 16) as (b & ->); discriminate|intros; apply JT; now left|reflexivity|right; right; exists LE; split; [vm_compute; reflexivity|split; [discriminate|apply NA]]|].
  destruct (C64_works dump jdump dirB randB genB nowB (fun _ => true) GB RBL fB rsB wB nameB (lit "ECDH-X25519") TB AB) as (wB1 & G2);
    [destruct (RB 16) as (b & ->); discriminate|intros; apply JT; right; now left|reflexivity|right; right; exists LX; split; [vm_compute; reflexivity|split; [discriminate|apply NB]]|].
  destruct (C70_introduction e cr pb kb dump undump edump eundump jdump jundump jedump jeundump randA genA nowA (fun _ => true) dirA wA fA rsA None wA1 nameA (lit "Ed25519") dirB wB1 GA RAL STA TA AA) as (idA & textA & wB2 & UA & EA & IA & IN1 & OA1 & _);
    [vm_compute; discriminate|vm_compute; discriminate|intros; apply CO; now left|exact G1|].
  destruct (C70_introduction e cr pb kb dump undump edump eundump jdump jundump jedump jeundump randB genB nowB (fun _ => true) dirB wB fB rsB None wB1 nameB (lit "ECDH-X25519") dirA wA1 GB RBL STB TB AB) as (idB & textB & wA2 & UB & EB & IB & IN2 & OB1 & _);
    [vm_compute; discriminate|vm_compute; discriminate|intros; apply CO; right; now left|exact G2|].
  exists wA1, wB1, idA, idB, textA, textB, wA2, wB2. split; [exact G1|]. split; [exact G2|]. split; [exact EA|]. split; [exact IA|]. split; [exact EB|]. split; [exact IB|].
  intros suite full data d1 d2 S.
  assert (HG : exists su, get_suite suite_registry suite = Some su) by (destruct S as [-> | ->]; eexists; vm_compute; reflexivity). destruct HG as (su & HG).
  destruct (letter_fits suite su idA idB S HG) as (SV & TV & PV).
  assert (NID : forall id, uuid4 id -> id <> []) by (intros id [U _] ->; discriminate U).
  assert (KEEP : forall id scheme k dir w w', (forall id' r, id' <> id \/ r <> true -> dir_get jundump dir w' id' r = dir_get jundump dir w id' r) -> forall id0, has_private cr jundump dir w id0 scheme k -> has_private cr jundump dir w' id0 scheme k).
  { intros id scheme k dir w w' O id0 (d & p & GD & R). exists d, p. split; [|exact R]. rewrite O; [exact GD|]. right. discriminate. }
  destruct (C70_letter default_config cr jundump dirA wA2 dirB wB2 (store_world jundump dirA wA2) (store_world jundump dirB wB2) (letter_to suite idA idB) su full data d1 d2 None L WK) as (s & l & r & X1 & X2 & X3 & X4).
  - split; [exact HG|now left|reflexivity|intro X; exact (False_ind _ (Z.lt_irrefl _ X))].
  - reflexivity.
  - reflexivity.
  - reflexivity.
  - reflexivity.
  - discriminate.
  - intros sg [<-|[]]. cbn [sg_id sg_scheme]. split; [split; [reflexivity|now apply NID]|]. destruct IN1 as (p & k & H1 & H2 & H3). exists p, k. split; [exact H1|]. split; [|exact H3]. eapply KEEP; [exact OB1|exact H2].
  - intros sg [<-|[]]. cbn [sg_id sg_scheme]. split; [split; [reflexivity|now apply NID]|]. destruct IN2 as (p & k & H1 & H2 & H3). exists p, k. split; [exact H1|]. split; [|exact H3]. eapply KEEP; [exact OA1|exact H2].
  - exact SV.
  - exact TV.
  - vm_compute. discriminate.
  - intro X. exact (False_ind _ (Z.lt_irrefl _ X)).
  - rewrite PV. intros x Hx. exact Hx.
  - exists s, l, r. split; [exact X1|]. split; [exact X2|]. split; [exact X3|]. apply X4. discriminate.
Qed.
Print Assumptions C70_story.

(** ** A case with all of it: keys of 32 and 64 bytes in the stored forms of the tools *)
Definition mail_pb (p : pubkey demo_ext) : bytes := match p with PubX b | PubE b => b | PubN x y => block (big_bytes x) ++ block (big_bytes y) | PubR p => p end.
Definition mail_kb (s : prvkey demo_ext) : bytes := match s with SX b | SN b | SE b => b | SR k => fst k ++ snd k | _ => [] end.
Definition mail_pair (t : bytes) (b : byte) : option (pubkey demo_ext * prvkey demo_ext) :=
  match logic_of t with
  | Some LX => Some (PubX (repeat b 32), SX (repeat b 32))
  | Some (LN _) => Some (PubN 5 70000, SN [x01])
  | Some LE => Some (PubE (repeat b 32), SE (repeat x09 32 ++ repeat b 32))
  | _ => None
  end.
Definition mail_toy : crypto := {|
  cr_rand := cr_rand toy; cr_hash := cr_hash toy; cr_kdf := cr_kdf toy; cr_stream := cr_stream toy; cr_seal := cr_seal toy; cr_open := cr_open toy;
  cr_mac := cr_mac toy; cr_pwd := cr_pwd toy;
  cr_gen := fun t i => match mail_pair t (n2b (N.of_nat i)) with Some (p, s) => Some (mail_pb p, mail_kb s) | None => None end;
  cr_shared := fun t s p => match logic_of t with Some LE => [x00] | _ => cr_shared toy t s p end;
  cr_encap := fun _ _ _ _ _ => None; cr_unwrap := fun _ _ _ _ => None;
  cr_sign := fun t h s m i => match logic_of t with Some LE => Some (skipn 32 s ++ h ++ m) | _ => None end;
  cr_verify := cr_verify toy;
  cr_load := fun t key public => match @load_keys demo_ext t key public with Ok (p, s) => Ok (mail_pb p, as_loaded mail_kb s) | Err x => Err x | Panic => Panic end;
  cr_store_pub := fun t p => version1 ++ p;
  cr_rsa_bits := cr_rsa_bits toy; cr_pw_level := cr_pw_level toy
|}.
Lemma mail_pair_ok t b p s : mail_pair t b = Some (p, s) -> exists l, logic_of t = Some l /\ generated demo_ext l p s.
Proof.
  unfold mail_pair. destruct (logic_of t) as [[|c| |]|]; [..|discriminate]; try discriminate; intro H; eexists; (split; [reflexivity|]);
    assert (E1 := f_equal (option_map fst) H); assert (E2 := f_equal (option_map snd) H); cbn [option_map fst snd] in E1, E2.
  - assert (PubX (repeat b 32) = p) as <- by congruence. assert (SX (repeat b 32) = s) as <- by congruence. constructor; [apply repeat_length|apply repeat_length|reflexivity].
  - assert (PubN 5 70000 = p) as <- by congruence. assert (SN [x01] = s) as <- by congruence. constructor; [vm_compute; reflexivity..].
  - assert (PubE (repeat b 32) = p) as <- by congruence. assert (SE (repeat x09 32 ++ repeat b 32) = s) as <- by congruence. apply gen_ed25519; apply repeat_length.
Qed.
Lemma mail_store t b p s : mail_pair t b = Some (p, s) -> exists none, load_keys t (version1 ++ mail_pb p) true = Ok (p, none).
Proof.
  intro H. destruct (mail_pair_ok _ _ _ _ H) as (l & L & G). destruct (C26_public demo_ext t l p s L G) as (key & none & S & LD & _). exists none.
  replace (version1 ++ mail_pb p) with key; [exact LD|]. revert S. unfold store_keys. rewrite L. destruct G; unfold store_x, store_n, store_e, store_r, mail_pb; intro E.
  - assert (X := f_equal (fun o => match o with Ok (k, _) => k | _ => [] end) E). cbv beta iota in X. now symmetry.
  - assert (X := f_equal (fun o => match o with Ok (k, _) => k | _ => [] end) E). cbv beta iota in X. now symmetry.
  - assert (X := f_equal (fun o => match o with Ok (k, _) => k | _ => [] end) E). cbv beta iota in X. now symmetry.
  - unfold mail_pair in H. rewrite L in H. discriminate H.
Qed.
Lemma mail_pairs t p k : pair_ok mail_toy t p k -> exists b q s, mail_pair t b = Some (q, s) /\ p = mail_pb q /\ k = mail_kb s.
Proof.
  intros (i & E). change (match mail_pair t (n2b (N.of_nat i)) with Some (p, s) => Some (mail_pb p, mail_kb s) | None => None end = Some (p, k)) in E.
  destruct (mail_pair t (n2b (N.of_nat i))) as [[q s]|] eqn:H; [|discriminate E]. exists (n2b (N.of_nat i)), q, s. split; [exact H|]. split; congruence.
Qed.
Lemma mail_laws : crypto_laws mail_toy.
Proof.
  constructor.
  - exact (law_rand _ toy_laws).
  - exact (law_kdf _ toy_laws).
  - exact (law_stream _ toy_laws).
  - exact (law_aead _ toy_laws).
  - intros t p1 s1 p2 s2 H1 H2. destruct (mail_pairs _ _ _ H1) as (b1 & q1 & k1 & E1 & -> & ->). destruct (mail_pairs _ _ _ H2) as (b2 & q2 & k2 & E2 & -> & ->).
    change (match logic_of t with Some LE => [x00] | _ => cr_shared toy t (mail_kb k1) (mail_pb q2) end = match logic_of t with Some LE => [x00] | _ => cr_shared toy t (mail_kb k2) (mail_pb q1) end).
    revert E1 E2. unfold mail_pair. destruct (logic_of t) as [[|cv| |]|]; intros E1 E2; try discriminate E1; [| |reflexivity].
    + assert (PubX (repeat b1 32) = q1) as <- by congruence. assert (SX (repeat b1 32) = k1) as <- by congruence. assert (PubX (repeat b2 32) = q2) as <- by congruence. assert (SX (repeat b2 32) = k2) as <- by congruence.
      change ([xor_byte b1 b2] = [xor_byte b2 b1]). unfold xor_byte. now rewrite N.lxor_comm.
    + assert (q1 = q2) as <- by congruence. assert (k1 = k2) as <- by congruence. reflexivity.
  - intros t h p s k i w _ E. discriminate E.
  - intros t h p s m i sg H E. destruct (mail_pairs _ _ _ H) as (b & q & k & E1 & -> & ->).
    change (match logic_of t with Some LE => Some (skipn 32 (mail_kb k) ++ h ++ m) | _ => None end = Some sg) in E. change (bytes_eqb (mail_pb q ++ h ++ m) sg = true).
    revert E1 E. unfold mail_pair. destruct (logic_of t) as [[|cv| |]|]; intros E1 E; try discriminate E.
    assert (PubE (repeat b 32) = q) as <- by congruence. assert (SE (repeat x09 32 ++ repeat b 32) = k) as <- by congruence.
    assert (E' : skipn 32 (repeat x09 32 ++ repeat b 32) ++ h ++ m = sg) by (now injection E). rewrite <- E'. apply bytes_eqb_refl.
  - intros t p s H. destruct (mail_pairs _ _ _ H) as (b & q & k & E1 & -> & ->). destruct (mail_store _ _ _ _ E1) as (none & LD). exists (as_loaded mail_kb none).
    change (match @load_keys demo_ext t (version1 ++ mail_pb q) true with Ok (p, s) => Ok (mail_pb p, as_loaded mail_kb s) | Err x => Err x | Panic => Panic end = Ok (mail_pb q, as_loaded mail_kb none)).
    now rewrite LD.
Qed.
Lemma mail_working : working mail_toy.
Proof.
  constructor.
  - exact (wk_rand _ toy_working).
  - exact (wk_kdf _ toy_working).
  - intros t i Ht Hp. cbn [mail_toy cr_gen].
    assert (F : forallb (fun t => negb (purpose_eqb (t_purpose t) PKeyExchange) || match logic_of (t_name t) with Some LX | Some (LN _) => true | _ => false end) tool_registry = true) by (vm_compute; reflexivity).
    rewrite forallb_forall in F. specialize (F t Ht). rewrite Hp in F. cbn [negb purpose_eqb orb] in F. unfold mail_pair. destruct (logic_of (t_name t)) as [[|cv| |]|]; try discriminate F; eauto.
  - intros t k p. change (match logic_of t with Some LE => [x00] | _ => cr_shared toy t k p end <> []). destruct (logic_of t) as [[|cv| |]|]; first [discriminate|apply (wk_shared _ toy_working)].
  - intros h k m i. eexists. reflexivity.
  - exact (wk_pwd _ toy_working).
Qed.

(** A codec for all signets without a password and a signature. *)
Fixpoint esc (b : bytes) : bytes := match b with [] => [x00] | c :: b => x01 :: c :: esc b end.
Fixpoint unesc (b : bytes) : option (bytes * bytes) :=
  match b with
  | x00 :: r => Some ([], r)
  | x01 :: c :: r => match unesc r with Some (a, r') => Some (c :: a, r') | None => None end
  | _ => None
  end.
Definition mail_dump (d : sdata) : option bytes :=
  match d_prot d, d_sig d, d_info d with
  | None, None, Some i => Some (n2b (d_version d) :: (if d_public d then x01 else x00) :: esc (d_id d) ++ esc (d_scheme d) ++ esc (d_key d) ++ esc (in_name i) ++ esc (in_rest i))
  | _, _, _ => None
  end.
Definition mail_undump (b : bytes) : option sdata :=
  match b with
  | v :: p :: r =>
      match unesc r with None => None | Some (id, r) =>
      match unesc r with None => None | Some (scheme, r) =>
      match unesc r with None => None | Some (key, r) =>
      match unesc r with None => None | Some (name, r) =>
      match unesc r with None => None | Some (rest, _) => Some (mkData (b2n v) id scheme key (b2n p =? 1)%N None (Some (mkInfo name rest)) None) end end end end end
  | _ => None
  end.
Lemma unesc_esc b r : unesc (esc b ++ r) = Some (b, r).
Proof. induction b as [|c b IH]; cbn [esc app unesc]; [reflexivity|]. now rewrite IH. Qed.
Lemma mail_codec id scheme key public info : codec_ok mail_dump mail_undump (mkData 1 id scheme key public None (Some info) None).
Proof.
  eexists. split; [reflexivity|]. split; [discriminate|]. unfold mail_undump. cbn [d_id d_scheme d_key d_public d_version]. rewrite !unesc_esc. rewrite <- (app_nil_r (esc (in_rest info))), unesc_esc. destruct public, info; reflexivity.
Qed.
Definition mail_gen (b : byte) (t : bytes) (n : Z) := mail_pair t b.
Lemma mail_same b : same_tools mail_toy mail_pb mail_kb (mail_gen b).
Proof.
  constructor.
  - intros scheme key public p s H. change (match @load_keys demo_ext scheme key public with Ok (p, s) => Ok (mail_pb p, as_loaded mail_kb s) | Err x => Err x | Panic => Panic end = Ok (mail_pb p, as_loaded mail_kb s)). now rewrite H.
  - intros t n p s H. unfold mail_gen in H. exists (N.to_nat (b2n b)). cbn [mail_toy cr_gen]. rewrite N2Nat.id, n2b_b2n, H. reflexivity.
Qed.
(** Ann and Ben, with the same randomness but for their keys (so that even their UUIDs are the same), and empty trust stores. *)
Example C70_hypotheses_met : exists wA1 wB1 idA idB textA textB wA2 wB2,
    @generate demo_ext mail_dump mail_dump (lit "/a") demo_rand (mail_gen x05) (lit "now") (fun _ => true) (mkFlags (lit "Ann") (lit "Ed25519") false 0 0) [] [] = (Ok None, wA1)
    /\ @generate demo_ext mail_dump mail_dump (lit "/b") demo_rand (mail_gen x06) (lit "now") (fun _ => true) (mkFlags (lit "Ben") (lit "ECDH-X25519") false 0 0) [] [] = (Ok None, wB1)
    /\ @cmd_export demo_ext mail_dump (fun _ => None) mail_undump (fun _ => None) (lit "/a") wA1 idA = Ok textA /\ @cmd_import demo_ext mail_undump (fun _ => None) mail_dump (fun _ => None) (lit "/b") wB1 textA = Ok wB2
    /\ @cmd_export demo_ext mail_dump (fun _ => None) mail_undump (fun _ => None) (lit "/b") wB1 idB = Ok textB /\ @cmd_import demo_ext mail_undump (fun _ => None) mail_dump (fun _ => None) (lit "/a") wA1 textB = Ok wA2
    /\ forall suite full data d1 d2, suite = lit "v1" \/ suite = lit "v2" ->
       exists s l r, correspondence default_config suite_registry tool_registry hash_registry mail_toy (store_world mail_undump (lit "/a") wA2) (letter_to suite idA idB) = Ok s
         /\ close_session default_config mail_toy s full data (rt_start d1 None) = (Ok l, r)
         /\ letter_open default_config suite_registry tool_registry hash_registry mail_toy (store_world mail_undump (lit "/b") wB2) None (raw l) d2 = Ok data
         /\ letter_verify default_config suite_registry tool_registry hash_registry mail_toy (store_world mail_undump (lit "/b") wB2) None (raw l) d2 = Ok tt.
Proof.
  assert (GO : forall b t n p s, mail_gen b t n = Some (p, s) -> exists l, logic_of t = Some l /\ generated demo_ext l p s) by (intros b t n p s H; exact (mail_pair_ok t b p s H)).
  eapply (C70_story demo_ext mail_toy mail_pb mail_kb mail_dump mail_undump (fun _ => None) (fun _ => None) mail_dump mail_undump (fun _ => None) (fun _ => None)
    demo_rand (mail_gen x05) (lit "now") (lit "/a") [] (mkFlags (lit "Ann") (lit "Ed25519") false 0 0) [] (lit "Ann")
    demo_rand (mail_gen x06) (lit "now") (lit "/b") [] (mkFlags (lit "Ben") (lit "ECDH-X25519") false 0 0) [] (lit "Ben") mail_laws mail_working (mail_same _) (mail_same _) (GO _) (GO _)).
  - intro n. eexists. reflexivity.
  - intros i n b H. injection H as <-. apply repeat_length.
  - intro n. eexists. reflexivity.
  - intros i n b H. injection H as <-. apply repeat_length.
  - intros n X. vm_compute in X. discriminate X.
  - intros n X. vm_compute in X. discriminate X.
  - reflexivity.
  - exists []. split; [split; [discriminate|left; split; reflexivity]|left; split; [reflexivity|discriminate]].
  - reflexivity.
  - exists []. split; [split; [discriminate|left; split; reflexivity]|left; split; [reflexivity|discriminate]].
  - intros. split; apply mail_codec.
Qed.
