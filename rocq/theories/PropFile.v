(** Property theorems C39: file signatures. *)
From Coq Require Import Init.Byte.
From Verif Require Import Prelude PreludeFacts Requirements Tools Crypto Letter Session Core Envelope EncodingsFacts.
From Verif Require Import Lhash SpecHash PropHash ArmorFacts PropArmor FileSig SpecFile SpecSession SpecOpen Toy PropLetter.

Lemma assoc_has {A} k (l : list (bytes * A)) v : assoc k l = Some v <-> exists pre post, l = pre ++ (k, v) :: post /\ forall v', ~ In (k, v') pre.
Proof.
  induction l as [|[k' v'] l IH]; cbn [assoc].
  - split; [discriminate|]. intros (pre & post & E & _). destruct pre; discriminate.
  - destruct (bytes_eqb k' k) eqn:E.
    + apply bytes_eqb_eq in E. subst. split.
      * intros [= ->]. exists [], l. split; [reflexivity|]. intros v' [].
      * intros (pre & post & X & N). destruct pre as [|p pre]; [now injection X as -> _|]. injection X as <- _. now destruct (N v'); left.
    + apply bytes_eqb_neq in E. rewrite IH. split; intros (pre & post & X & N).
      * subst. exists ((k', v') :: pre), post. split; [reflexivity|]. intros w [[= -> ->]|I]; [congruence|exact (N _ I)].
      * destruct pre as [|p pre]; [injection X as X _; congruence|]. injection X as <- ->. exists pre, post. split; [reflexivity|].
        intros w I. apply (N w). now right.
Qed.
Lemma meta_ok_iff required meta : meta_ok required meta = true <-> forall k v, In (k, v) required -> meta_has meta k v.
Proof.
  unfold meta_ok. rewrite forallb_forall. split.
  - intros F k v I. apply F in I. cbn in I. apply assoc_has. destruct (assoc k meta) as [x|]; [|discriminate]. apply bytes_eqb_eq in I. now subst.
  - intros F [k v] I. apply F, assoc_has in I. cbn. rewrite I. apply bytes_eqb_refl.
Qed.
Lemma file_sig_reqs_eq : file_sig_reqs = [Integrity; SenderAuthentication].
Proof. reflexivity. Qed.

Section File.
Variables (c : config) (cr : crypto) (w : world) (H : N -> bytes -> bytes) (load_fd : bytes -> option filedata) (required : list (bytes * bytes)) (d : nat).
Notation vfd := (verify_file_data c cr w load_fd).
Notation valid := (signature_of c cr w H load_fd required d).

Lemma vfd_ok r fd h data : vfd r required d = Ok (Some fd, Some h) ->
  (valid data r fd <-> H (lh_alg h) data = lh_digest h) /\ alg_size (lh_alg h) <> None /\ load_fd (l_data (rw_letter r)) = Some fd.
Proof.
  unfold verify_file_data. destruct (load_fd _) as [fd'|] eqn:L; [|discriminate].
  rewrite file_sig_reqs_eq. destruct (letter_open _ _ _ _ _ _ _ _ _) as [o| |] eqn:O; [|discriminate..].
  destruct (meta_ok required (fd_meta fd')) eqn:M; [|discriminate]. destruct (lh_load (fd_hash fd')) as [h'| |] eqn:LL; [|discriminate..].
  intros [= -> ->]. pose proof (proj2 (C34_load_exact _) _ LL) as [D _]. apply digest_of_alg_size in D.
  split; [|split; [congruence|reflexivity]]. split.
  - intros (_ & _ & _ & h' & E & X). congruence.
  - intro X. split; [exact L|]. split; [eauto|]. split; [now apply meta_ok_iff|]. eauto.
Qed.
Lemma vfd_bad r o data fd : vfd r required d = Ok (o, None) -> ~ valid data r fd.
Proof.
  unfold verify_file_data. intros E (L & (op & O) & M & h & LL & _). rewrite L in E.
  assert (O' : letter_open c suite_registry tool_registry hash_registry cr w (Some file_sig_reqs) r d = Ok op) by exact O. rewrite O' in E.
  apply meta_ok_iff in M. rewrite M, LL in E. discriminate.
Qed.

(** One result per letter, and what each result means. *)
Lemma verify_all_file sigs data good bad e :
  verify_all c cr w H load_fd sigs required (FromFile (Some data)) d = Ok (good, bad, e) ->
  (e = false <-> forall r, In r sigs -> exists fd, valid data r fd)
  /\ (e = false -> bad = [] /\ Forall2 (valid data) sigs good)
  /\ (forall fd, In fd good -> exists r, In r sigs /\ valid data r fd)
  /\ (forall fd, In fd bad -> exists r, In r sigs /\ load_fd (l_data (rw_letter r)) = Some fd /\ ~ valid data r fd).
Proof.
  revert good bad e. induction sigs as [|r sigs IH]; intros good bad e E; cbn [verify_all] in E.
  - injection E as <- <- <-. repeat split; try easy; try constructor; intros; now constructor.
  - apply bind_ok in E as ([o [h|]] & V & E).
    + destruct o as [fd|].
      * cbn [read_source] in E. apply bind_ok in E as ([[good' bad'] e'] & R & E). destruct (IH _ _ _ R) as (I1 & I2 & I3 & I4).
        destruct (vfd_ok _ _ _ data V) as (VI & AS & LF). unfold lh_of in E. destruct (alg_size (lh_alg h)) eqn:A; [|congruence]. cbn [bind] in E.
        destruct (lh_equal h (LH (lh_alg h) (H (lh_alg h) data))) eqn:Q.
        -- injection E as <- <- <-. apply C36_equal in Q as [_ Q]. cbn in Q. assert (VV : valid data r fd) by (apply VI; now symmetry).
           split; [|split; [|split]].
           ++ rewrite I1. split; [intros G x [<-|X]; [eauto|auto]|intros G x X; apply G; now right].
           ++ intro Z. destruct (I2 Z) as [-> F]. split; [reflexivity|]. now constructor.
           ++ intros x [<-|X]; [exists r; split; [now left|exact VV]|]. destruct (I3 _ X) as (r' & X1 & X2). exists r'. split; [now right|exact X2].
           ++ intros x X. destruct (I4 _ X) as (r' & X1 & X2). exists r'. split; [now right|exact X2].
        -- injection E as <- <- <-. assert (NV : forall f, ~ valid data r f).
           { intros f (L' & O' & M' & h' & LL' & X). assert (f = fd) by congruence. subst f.
             assert (Y : H (lh_alg h) data = lh_digest h). { apply VI. split; [exact L'|]. split; [exact O'|]. split; [exact M'|]. eauto. }
             assert (Z : lh_equal h (LH (lh_alg h) (H (lh_alg h) data)) = true) by (apply C36_equal; cbn; auto). congruence. }
           split; [|split; [|split]].
           ++ split; [discriminate|]. intro G. destruct (G r) as [f F]; [now left|]. now apply NV in F.
           ++ discriminate.
           ++ intros x X. destruct (I3 _ X) as (r' & X1 & X2). exists r'. split; [now right|exact X2].
           ++ intros x [<-|X]; [exists r; split; [now left|]; split; [exact LF|apply NV]|]. destruct (I4 _ X) as (r' & X1 & X2). exists r'. split; [now right|exact X2].
      * exfalso. revert V. unfold verify_file_data. destruct (load_fd _); [|discriminate]. destruct (letter_open _ _ _ _ _ _ _ _ _); [|discriminate..].
        destruct (meta_ok _ _); [|discriminate]. destruct (lh_load _); discriminate.
    + assert (E' : bind (verify_all c cr w H load_fd sigs required (FromFile (Some data)) d)
         (fun x => let '(gb, _) := x in let (good, bad) := (gb : list filedata * list filedata) in Ok (good, match o with Some fd => fd :: bad | None => bad end, true)) = Ok (good, bad, e))
        by (destruct o; exact E). clear E. apply bind_ok in E' as ([[good' bad'] e'] & R & E). injection E as <- <- <-.
      destruct (IH _ _ _ R) as (I1 & I2 & I3 & I4). split; [|split; [|split]].
      * split; [discriminate|]. intro G. destruct (G r) as [f F]; [now left|]. now apply (vfd_bad _ _ data f V) in F.
      * discriminate.
      * intros x X. destruct (I3 _ X) as (r' & X1 & X2). exists r'. split; [now right|exact X2].
      * intros x X. assert (Y : Some x = o \/ In x bad') by (destruct o as [f|]; [destruct X as [<-|X]; auto|auto]). destruct Y as [<-|Y].
        -- exists r. split; [now left|]. split; [|exact (vfd_bad _ _ data x V)]. revert V. unfold verify_file_data. destruct (load_fd _) as [f|]; [|discriminate].
           destruct (letter_open _ _ _ _ _ _ _ _ _); [|congruence..]. destruct (meta_ok _ _); [|congruence]. destruct (lh_load _); congruence.
        -- destruct (I4 _ Y) as (r' & X1 & X2). exists r'. split; [now right|exact X2].
Qed.
(** And it does succeed on valid signatures. *)
Lemma verify_all_complete sigs data : (forall r, In r sigs -> exists fd, valid data r fd) -> exists good, verify_all c cr w H load_fd sigs required (FromFile (Some data)) d = Ok (good, [], false).
Proof.
  induction sigs as [|r sigs IH]; intro G; [eexists; reflexivity|]. destruct IH as [good IH]; [intros x X; apply G; now right|]. destruct (G r) as [fd V]; [now left|]. pose proof V as (L & (op & O) & M & h & LL & Q).
  assert (F : vfd r required d = Ok (Some fd, Some h)).
  { unfold verify_file_data. rewrite L. assert (O' : letter_open c suite_registry tool_registry hash_registry cr w (Some file_sig_reqs) r d = Ok op) by exact O. rewrite O'. apply meta_ok_iff in M. now rewrite M, LL. }
  destruct (vfd_ok _ _ _ data F) as (_ & AS & _). cbn [verify_all]. rewrite F. cbn [bind read_source]. rewrite IH. cbn [bind]. unfold lh_of. destruct (alg_size (lh_alg h)); [|congruence]. cbn [bind].
  assert (Z : lh_equal h (LH (lh_alg h) (H (lh_alg h) data)) = true) by (apply C36_equal; cbn; auto). rewrite Z. eauto.
Qed.
End File.

(** VerifyFile on a readable data file and signature file.  It reports success exactly if the signature file holds
    at least one letter, every section of it can be read, and every letter is a valid signature of the file with
    the required metadata; then there is one result per letter, in order, each without a verification error.
    Whatever it reports, a result without a verification error belongs to a valid signature, and one with an
    error does not. *)
Theorem C39_verify_exact : forall c cr w H load load_fd required d data text results failed,
  verify_file c cr w H load load_fd (FromFile (Some data)) (Some text) required d = Ok (results, failed) ->
  let valid := signature_of c cr w H load_fd required d data in
  let letters := fst (parse_sig_file load text) in
  (failed = false <-> letters <> [] /\ snd (parse_sig_file load text) = false /\ (forall r, In r letters -> exists fd, valid r fd))
  /\ (failed = false -> exists fds, Forall2 valid letters fds /\ results = map (fun fd => (fd, true)) fds)
  /\ (forall fd, In (fd, true) results -> exists r, In r letters /\ valid r fd)
  /\ (forall fd, In (fd, false) results -> exists r, In r letters /\ load_fd (l_data (rw_letter r)) = Some fd /\ ~ valid r fd).
Proof.
  intros c cr w H load load_fd required d data text results failed V valid letters. unfold verify_file in V. subst letters.
  destruct (parse_sig_file load text) as [sigs warn]. cbn [fst snd]. destruct sigs as [|r0 sigs0].
  - injection V as <- <-. (split; [|split; [|split]]); try easy.
  - set (sigs := r0 :: sigs0) in *. apply bind_ok in V as ([[good bad] e] & R & V). injection V as <- <-.
    destruct (verify_all_file _ _ _ _ _ _ _ _ _ _ _ _ R) as (I1 & I2 & I3 & I4). fold valid in I1, I2, I3, I4. split; [|split; [|split]].
    + rewrite orb_false_iff, I1. split; [intros [-> G]; split; [discriminate|auto]|intros (_ & -> & G); auto].
    + intro Z. apply orb_false_iff in Z as [_ Z]. destruct (I2 Z) as [-> F]. exists good. split; [exact F|]. now rewrite app_nil_r.
    + intros fd X. apply in_app_or in X as [X|X]; apply in_map_iff in X as (f & E & X); [|discriminate]. injection E as <-. auto.
    + intros fd X. apply in_app_or in X as [X|X]; apply in_map_iff in X as (f & E & X); [discriminate|]. injection E as <-. auto.
Qed.
Print Assumptions C39_verify_exact.

(** If the signature file holds at least one letter, all sections can be read and all letters are valid signatures, VerifyFile
    succeeds. *)
Theorem C39_verify_complete : forall c cr w H load load_fd required d data text,
  fst (parse_sig_file load text) <> [] -> snd (parse_sig_file load text) = false ->
  (forall r, In r (fst (parse_sig_file load text)) -> exists fd, signature_of c cr w H load_fd required d data r fd) ->
  exists results, verify_file c cr w H load load_fd (FromFile (Some data)) (Some text) required d = Ok (results, false).
Proof.
  intros c cr w H load load_fd required d data text NE W G. unfold verify_file. destruct (parse_sig_file load text) as [sigs warn]. cbn [fst snd] in *. subst warn. destruct sigs as [|r0 sigs0]; [congruence|].
  destruct (verify_all_complete c cr w H load_fd required d (r0 :: sigs0) data G) as [good E]. rewrite E. eexists. reflexivity.
Qed.
Print Assumptions C39_verify_complete.

(** A signature file or data file that cannot be read, or no signature at all, is a failure. *)
Theorem C39_nothing_to_verify : forall c cr w H load load_fd src required d,
  verify_file c cr w H load load_fd src None required d = Ok ([], true)
  /\ (forall text, fst (parse_sig_file load text) = [] -> verify_file c cr w H load load_fd src (Some text) required d = Ok ([], true))
  /\ (forall text results failed, verify_file c cr w H load load_fd (FromFile None) (Some text) required d = Ok (results, failed) ->
        failed = true /\ forall fd, ~ In (fd, true) results).
Proof.
  intros c cr w H load load_fd src required d. repeat apply conj; [reflexivity|..].
  - intros text E. unfold verify_file. destruct (parse_sig_file load text) as [sigs warn]. cbn in E. now subst.
  - intros text results failed V. unfold verify_file in V. destruct (parse_sig_file load text) as [[|r0 sigs0] warn]; [injection V as <- <-; auto|].
    set (sigs := r0 :: sigs0) in *. apply bind_ok in V as ([[good bad] e] & R & V). injection V as <- <-.
    assert (G : forall sigs good bad e, verify_all c cr w H load_fd sigs required (FromFile None) d = Ok (good, bad, e) -> good = [] /\ (sigs <> [] -> e = true)).
    { clear. induction sigs as [|r sigs IH]; intros good bad e E; cbn [verify_all] in E; [injection E as <- <- <-; easy|].
      apply bind_ok in E as ([[fd|] [h|]] & V & E); cbn [read_source] in E; apply bind_ok in E as ([[good' bad'] e'] & R & E); destruct (IH _ _ _ R) as [-> _]; injection E as <- <- <-; auto. }
    destruct (G _ _ _ _ R) as [-> T]. rewrite T by discriminate. split; [apply orb_true_r|]. intros fd X. cbn in X. apply in_map_iff in X as (f & E & _). discriminate.
Qed.
Print Assumptions C39_nothing_to_verify.

(** What a valid signature made with a signing suite gives: at least one signer, all of them known to the trust store,
    and the signers' keys verify the signatures over the very bytes the file data was read from. *)
Theorem C39_signers_trusted : forall c cr w H load_fd required d data r fd su t,
  callbacks_keep_scheme w ->
  signature_of c cr w H load_fd required d data r fd ->
  get_suite suite_registry (l_suite (rw_letter r)) = Some su ->
  suite_tool tool_registry su t -> t_purpose t = PSigning ->
  exists g vs h, w_signet w = Some g /\ rw_sigs r = map Some vs /\ vs <> []
    /\ (exists id, In id (su_tools su) /\ parse_tool_id id = (t_name t, h))
    /\ load_fd (l_data (complete r)) = Some fd
    /\ forall v, In v vs -> exists n p,
         g (seal_id v) true = Ok n /\ sg_scheme n = t_name t
         /\ (sg_pub n = Some p \/ sg_pub n = None /\ exists k, cr_load cr (t_name t) (sg_key n) (sg_public n) = Ok (p, k))
         /\ cr_verify cr (t_name t) h p (cr_hash cr h (l_data (complete r) ++ assoc_signing_data (complete r) (assoc_data (complete r)))) (seal_value v) = true.
Proof.
  intros c cr w H load_fd required d data r fd su t K (L & (o & O) & _) GS ST TP.
  destruct (C11_letter_signatures_trusted c cr w _ r d o su t K GS ST TP (or_introl O)) as (g & vs & h & G1 & G2 & G3 & G4 & G5).
  exists g, vs, h. repeat (split; [assumption|]). intros v Hv. destruct (G5 v Hv) as (n & p & X1 & X2 & _ & X3 & X4). exists n, p. auto.
Qed.
Print Assumptions C39_signers_trusted.

(** Every registered suite that meets the file signature requirements authenticates the sender: with a signing tool,
    or with a key or password. *)

(** ** The toy signature files *)
Definition toy_fd_load (d : bytes) : option filedata := match d with n :: r => Some (FD r [(lit "id", [n])] []) | [] => None end.
Definition signed_file (data : bytes) : letter :=
  toy_close (lit "signfile_v2") [] [toy_signet "alice" "Ed25519" 5] [] (lit "7" ++ lh_bytes (LH 32 (toy_hash 32 data))).
Definition toy_letters (ls : list letter) (d : bytes) : option raw_letter :=
  match d with b :: _ => option_map raw (nth_error ls (N.to_nat (b2n b))) | [] => None end.
Definition toy_sig_file (n : nat) : bytes := concat (map (fun i => armor_text [n2b (N.of_nat i)] ++ [x0a]) (seq 0 n)).
Definition alice_store : world := toy_world [toy_recipient "alice" "Ed25519" 5].

Example C39_hypotheses_met :
  let verify ls src req := verify_file default_config toy alice_store toy_hash (toy_letters ls) toy_fd_load src (Some (toy_sig_file (length ls))) req 0 in
  let fd data := FD (lh_bytes (LH 32 (toy_hash 32 data))) [(lit "id", lit "7")] [] in
  verify [signed_file (lit "x")] (FromFile (Some (lit "x"))) [(lit "id", lit "7")] = Ok ([(fd (lit "x"), true)], false)
  /\ verify [signed_file (lit "x"); signed_file (lit "y")] (FromFile (Some (lit "x"))) [] = Ok ([(fd (lit "x"), true); (fd (lit "y"), false)], true)
  /\ verify [signed_file (lit "x")] (FromFile (Some (lit "x"))) [(lit "id", lit "8")] = Ok ([(fd (lit "x"), false)], true)
  /\ callbacks_keep_scheme alice_store
  /\ exists t su, get_suite suite_registry (l_suite (signed_file (lit "x"))) = Some su /\ suite_tool tool_registry su t /\ t_purpose t = PSigning.
Proof.
  split; [vm_compute; reflexivity|]. split; [vm_compute; reflexivity|]. split; [vm_compute; reflexivity|]. split.
  - split; intros; discriminate.
  - exists (mkTool (lit "Ed25519") PSigning [OManagedHasher] 0 0 128), (suite_named (lit "signfile_v2")). split; [vm_compute; reflexivity|]. split; [|reflexivity].
    exists (lit "Ed25519(BLAKE3)"). split; [left; reflexivity|vm_compute; reflexivity].
Qed.

(** Reading the data from stdin ("-"): every signature after the first is compared with an empty file.  A signature of
    the empty file is accepted beside one of the data, and the file's own second signature is refused. *)
Theorem C39_stdin_refuted : forall data, data = lit "x" ->
  exists w load load_fd text letters,
    fst (parse_sig_file load text) = letters /\ length letters = 2
    /\ (exists results, verify_file default_config toy w toy_hash load load_fd (FromStdin data) (Some text) [] 0 = Ok (results, false))
    /\ exists r, In r letters /\ forall fd, ~ signature_of default_config toy w toy_hash load_fd [] 0 data r fd.
Proof.
  intros data ->. pose (ls := [signed_file (lit "x"); signed_file []]).
  exists alice_store, (toy_letters ls), toy_fd_load, (toy_sig_file 2), (map raw ls). repeat apply conj.
  - vm_compute. reflexivity.
  - reflexivity.
  - eexists. vm_compute. reflexivity.
  - exists (raw (signed_file [])). split; [right; left; reflexivity|].
    intros fd (L & _ & _ & h & LL & X).
    assert (F : toy_fd_load (l_data (rw_letter (raw (signed_file [])))) = Some (FD (lh_bytes (LH 32 (toy_hash 32 []))) [(lit "id", lit "7")] [])) by (vm_compute; reflexivity).
    rewrite F in L. injection L as <-. cbn [fd_hash] in LL.
    assert (F2 : lh_load (lh_bytes (LH 32 (toy_hash 32 []))) = Ok (LH 32 (toy_hash 32 []))) by (vm_compute; reflexivity).
    rewrite F2 in LL. injection LL as <-. vm_compute in X. discriminate.
Qed.
Print Assumptions C39_stdin_refuted.
