(** Property theorems C11 (letters), C12, C13 and C18: Letter.Open, Letter.Verify and
    Envelope.Correspondence with a trust store and password callbacks. *)
From Coq Require Import Init.Byte.
From Verif Require Import CoreOpen LetterFacts SpecOpen SuiteFacts SpecSession SessionFacts SessionComplete SessionProps PropTrip PropOpen CorePanic Toy Envelope.

(** ** C11 for letters *)

(** Password callbacks fill in a password; they do not turn the signet into one of another
    scheme. *)
Definition callbacks_keep_scheme (w : world) : Prop :=
  (forall f sg lv n, w_create w = Some f -> f sg lv = Ok n -> sg_scheme n = sg_scheme sg)
  /\ (forall f sg n, w_get w = Some f -> f sg = Ok n -> sg_scheme n = sg_scheme sg).

Lemma named_scheme st sg : sg_scheme (named st sg) = sg_scheme sg.
Proof. unfold named. repeat match goal with |- context [match ?x with _ => _ end] => destruct x end; reflexivity. Qed.
Lemma fill_scheme w sg b lv n q : callbacks_keep_scheme w -> fill_password w sg b lv = (Ok n, q) -> sg_scheme n = sg_scheme sg.
Proof.
  intros [K1 K2] H. unfold fill_password in H. destruct b.
  - destruct (w_create w) as [f|] eqn:E; injection H as H _; [|now subst]. apply (K1 _ _ _ _ eq_refl) in H. now rewrite H, named_scheme.
  - destruct (w_get w) as [f|] eqn:E; injection H as H _; [|now subst]. apply (K2 _ _ _ eq_refl) in H. now rewrite H, named_scheme.
Qed.
Lemma load_scheme reg cr sg n : load_key reg cr sg = Ok n -> sg_scheme n = sg_scheme sg /\ sg_id n = sg_id sg.
Proof.
  unfold load_key. destruct (sg_pub sg); [now injection 1 as <-|]. destruct (sg_prot sg); [discriminate|].
  destruct (tools_get _ _) as [t| |]; [cbn|discriminate..]. destruct (uses_signets t); [|discriminate].
  destruct (cr_load _ _ _ _) as [[p k]| |]; [cbn|discriminate..]. now injection 1 as <-.
Qed.
Lemma prep_loaded_scheme reg cr sg n : prep_loaded reg cr sg = Ok n -> sg_scheme n = sg_scheme sg.
Proof.
  unfold prep_loaded. destruct (sg_prot sg); [discriminate|]. destruct (_ || _); [now injection 1 as <-|].
  intro H. now apply load_scheme in H.
Qed.
Lemma fetch_ok w sg b n : fetch w sg b = Ok n ->
  exists g, w_signet w = Some g /\ sg_id sg <> [] /\ g (sg_id sg) b = Ok n /\ (sg_scheme sg = [] \/ sg_scheme sg = sg_scheme n).
Proof.
  unfold fetch. destruct (sg_id sg) as [|b0 l] eqn:EI; [discriminate|]. cbn [nonempty negb]. destruct (w_signet w) as [g|]; [|discriminate].
  destruct (g (b0 :: l) b) as [m| |] eqn:EG; cbn; [|discriminate..].
  destruct (sg_scheme sg) eqn:ES; cbn [nonempty andb].
  - injection 1 as <-. exists g. repeat split; auto. discriminate.
  - destruct (bytes_eqb _ _) eqn:EB; cbn; [|discriminate]. injection 1 as <-. exists g. apply bytes_eqb_eq in EB.
    repeat split; auto. discriminate.
Qed.

(** What a prepared signet is, if it came from the trust store. *)
Definition from_store (cr : crypto) (w : world) (b : bool) (sg n' : signet) : Prop :=
  exists g n, w_signet w = Some g /\ g (sg_id sg) b = Ok n /\ (sg_scheme sg = [] \/ sg_scheme sg = sg_scheme n)
    /\ prep_loaded tool_registry cr n = Ok n'.

Lemma prep_signets_ok cr w lv l : forall b ns q,
  callbacks_keep_scheme w ->
  (forall sg, In sg l -> sg_key sg = []) ->
  prep_signets tool_registry cr w lv b l = (Ok ns, q) ->
  Forall2 (fun sg n => sg_scheme sg = [] \/ sg_scheme n = sg_scheme sg) l ns
  /\ ((forall n, In n ns -> sg_scheme n <> scheme_key /\ sg_scheme n <> scheme_pw) ->
      Forall2 (from_store cr w b) l ns).
Proof.
  induction l as [|sg l IH]; intros b ns q K NK H; cbn [prep_signets] in H.
  - injection H as <- _. split; [constructor|]. intros _. constructor.
  - rewrite (NK sg (or_introl eq_refl)) in H. cbn [nonempty] in H. cbv zeta in H.
    assert (NK' : forall s, In s l -> sg_key s = []) by (intros; apply NK; now right).
    destruct (bytes_eqb (sg_scheme sg) scheme_pw) eqn:EP.
    + destruct (fill_password w sg (negb b) lv) as [x a] eqn:EF. destruct x as [n| |]; cbn [other] in H; [|discriminate..].
      destruct (prep_signets _ _ _ _ b l) as [[ns'| |] q'] eqn:ER; cbn in H; [|discriminate..]. injection H as <- _.
      destruct (IH _ _ _ K NK' ER) as [A _]. pose proof (fill_scheme _ _ _ _ _ _ K EF) as ES.
      split; [constructor; auto|]. intro F. exfalso. destruct (F n (or_introl eq_refl)) as [_ F2]. apply F2. rewrite ES.
      now apply bytes_eqb_eq.
    + set (b' := if bytes_eqb (sg_scheme sg) scheme_key then false else b) in *.
      destruct (fetch w sg b') as [n0| |] eqn:EF; cbn [bind] in H; [|discriminate..].
      destruct (prep_loaded tool_registry cr n0) as [n| |] eqn:EL; [|discriminate..].
      destruct (prep_signets _ _ _ _ b' l) as [[ns'| |] q'] eqn:ER; cbn in H; [|discriminate..]. injection H as <- _.
      destruct (IH _ _ _ K NK' ER) as [A B]. destruct (fetch_ok _ _ _ _ EF) as (g & G1 & G2 & G3 & G4).
      pose proof (prep_loaded_scheme _ _ _ _ EL) as ES.
      split; [constructor; [|exact A]; destruct G4 as [G4|G4]; [now left|right; congruence]|].
      intro F. assert (EB : b' = b).
      { unfold b'. destruct (bytes_eqb (sg_scheme sg) scheme_key) eqn:EK; [|reflexivity]. apply bytes_eqb_eq in EK.
        destruct (F n (or_introl eq_refl)) as [F1 _]. exfalso. apply F1. destruct G4 as [G4|G4]; [|congruence].
        rewrite EK in G4. discriminate. }
      rewrite EB in *. constructor.
      * exists g, n0. auto.
      * apply B. intros m Hm. apply F. now right.
Qed.

Lemma prepare_ok cr w e e' q : prepare suite_registry tool_registry cr w e = (Ok e', q) ->
  exists su a b d q1 q2 q3, load_suite suite_registry e = Ok su /\ e' = set_signets e su a b d
    /\ prep_signets tool_registry cr w (su_level su) (e_opening e) (e_secrets e) = (Ok a, q1)
    /\ prep_signets tool_registry cr w (su_level su) (e_opening e) (e_senders e) = (Ok b, q2)
    /\ prep_signets tool_registry cr w (su_level su) (negb (e_opening e)) (e_recipients e) = (Ok d, q3)
    /\ q = q1 ++ q2 ++ q3.
Proof.
  unfold prepare. destruct (load_suite _ e) as [su| |]; [|discriminate..].
  destruct (prep_signets _ _ _ _ _ (e_secrets e)) as [[a| |] q1] eqn:E1; [|discriminate..].
  destruct (prep_signets _ _ _ _ _ (e_senders e)) as [[b| |] q2] eqn:E2; [|discriminate..].
  destruct (prep_signets _ _ _ _ _ (e_recipients e)) as [[d| |] q3] eqn:E3; [|discriminate..].
  injection 1 as <- <-. exists su, a, b, d, q1, q2, q3. repeat split; assumption || reflexivity.
Qed.

Lemma existsb_none (l : list (option seal)) : existsb is_none l = false -> l = map Some (seals_of l).
Proof.
  induction l as [|[x|] l IH]; [reflexivity| |discriminate]. cbn. intro H. f_equal. auto.
Qed.
Lemma get_suite_in id su : get_suite suite_registry id = Some su -> In su suite_registry.
Proof. unfold get_suite. intro H. apply find_some in H. tauto. Qed.

Lemma letter_envelope_ok req r e : letter_envelope suite_registry req r = Ok e ->
  exists su, get_suite suite_registry (l_suite (rw_letter r)) = Some su
  /\ e_suite e = Some su /\ e_version e = l_version (rw_letter r) /\ l_version (rw_letter r) <> 0%N
  /\ rw_keys r = map Some (seals_of (rw_keys r)) /\ rw_sigs r = map Some (seals_of (rw_sigs r))
  /\ e_secrets e = map (refer (l_version (rw_letter r))) (filter is_secret (filter (fun s => nonempty (seal_id s)) (seals_of (rw_keys r))))
  /\ e_senders e = map (refer (l_version (rw_letter r))) (seals_of (rw_sigs r))
  /\ e_recipients e = map (refer (l_version (rw_letter r)))
       (filter (fun s => negb (is_secret s)) (filter (fun s => nonempty (seal_id s)) (seals_of (rw_keys r))))
  /\ e_level e = 0%Z /\ e_opening e = true.
Proof.
  unfold letter_envelope. cbv zeta. destruct (l_version (rw_letter r) =? 0)%N eqn:EV; [discriminate|]. cbn [negb guard bind].
  destruct (nonempty (l_suite (rw_letter r))); [|discriminate]. cbn [guard bind].
  destruct (get_suite suite_registry (l_suite (rw_letter r))) as [su|] eqn:EG; [|discriminate]. cbn [of_option bind].
  destruct (req_check _ _); [|discriminate..]. cbn [bind].
  destruct (existsb is_none (rw_keys r)) eqn:E1; [discriminate|]. destruct (existsb is_none (rw_sigs r)) eqn:E2; [discriminate|].
  cbn [orb]. injection 1 as <-. exists su. cbn. repeat split; auto using existsb_none. now apply N.eqb_neq.
Qed.

Lemma registered_signer : forall su, In su suite_registry -> length (of_purpose PSigning (suite_insts su)) <= 1.
Proof.
  assert (C : forallb (fun su => (length (of_purpose PSigning (suite_insts su)) <=? 1)%nat) suite_registry = true) by (vm_compute; reflexivity).
  rewrite forallb_forall in C. intros su H. specialize (C su H). now apply Nat.leb_le.
Qed.
Lemma registry_no_secret_names t : In t tool_registry -> t_name t <> scheme_key /\ t_name t <> scheme_pw.
Proof.
  assert (C : forallb (fun t => negb (bytes_eqb (t_name t) scheme_key) && negb (bytes_eqb (t_name t) scheme_pw)) tool_registry = true) by reflexivity.
  rewrite forallb_forall in C. intro H. specialize (C t H). apply andb_true_iff in C as [C1 C2].
  split; intro E; rewrite E, bytes_eqb_refl in *; discriminate.
Qed.
Lemma prep_loaded_pub cr n n' t : prep_loaded tool_registry cr n = Ok n' -> sg_scheme n = t_name t -> In t tool_registry ->
  tools_get tool_registry (t_name t) = Ok t ->
  forall p, sg_pub n' = Some p -> sg_pub n = Some p \/ sg_pub n = None /\ exists k, cr_load cr (t_name t) (sg_key n) (sg_public n) = Ok (p, k).
Proof.
  intros H ES Ht TG p HP. unfold prep_loaded in H. destruct (sg_prot n) eqn:EP; [discriminate|].
  destruct (registry_no_secret_names t Ht) as [K1 K2]. rewrite <- ES in K1, K2.
  destruct (bytes_eqb (sg_scheme n) scheme_key) eqn:E1; [apply bytes_eqb_eq in E1; contradiction|].
  destruct (bytes_eqb (sg_scheme n) scheme_pw) eqn:E2; [apply bytes_eqb_eq in E2; contradiction|]. cbn [orb] in H.
  unfold load_key in H. destruct (sg_pub n) eqn:EN; [injection H as <-; left; congruence|]. rewrite EP, ES, TG in H. cbn [bind] in H.
  destruct (uses_signets t); [|discriminate]. destruct (cr_load _ _ _ _) as [[p' k]| |] eqn:EL; [|discriminate..].
  cbn in H. injection H as <-. cbn in HP. injection HP as ->. right. eauto.
Qed.

(** Letter.Open and Letter.Verify under a suite with a signing tool [t] succeed only if the
    letter carries at least one signature, and for every signature in it the trust store's
    recipient signet with that ID exists, is of the tool's scheme, and its public key
    verifies the signature over exactly this letter. *)
Theorem C11_letter_signatures_trusted : forall c cr w req r d data su t,
  callbacks_keep_scheme w ->
  get_suite suite_registry (l_suite (rw_letter r)) = Some su ->
  suite_tool tool_registry su t -> t_purpose t = PSigning ->
  letter_open c suite_registry tool_registry hash_registry cr w req r d = Ok data
    \/ letter_verify c suite_registry tool_registry hash_registry cr w req r d = Ok tt ->
  exists g vs h, w_signet w = Some g /\ rw_sigs r = map Some vs /\ vs <> []
    /\ (exists id, In id (su_tools su) /\ parse_tool_id id = (t_name t, h))
    /\ forall v, In v vs -> exists n p,
         g (seal_id v) true = Ok n /\ sg_scheme n = t_name t
         /\ (seal_scheme v = [] \/ seal_scheme v = t_name t)
         /\ (sg_pub n = Some p \/ sg_pub n = None /\ exists k, cr_load cr (t_name t) (sg_key n) (sg_public n) = Ok (p, k))
         /\ cr_verify cr (t_name t) h p (cr_hash cr h (signed_message (complete r))) (seal_value v) = true.
Proof.
  intros c cr w req r d data su t K GS ST TP H.
  assert (X : exists e s, letter_envelope suite_registry req r = Ok e
     /\ correspondence c suite_registry tool_registry hash_registry cr w e = Ok s
     /\ exists r', open_session c cr s (complete r) (rt_start d None) = (Ok data, r')
        \/ verify_session cr s (complete r) (rt_start d None) = (Ok tt, r')).
  { unfold letter_open, letter_verify in H. destruct (letter_envelope _ req r) as [e| |]; cbn [bind] in H; [|destruct H; discriminate..].
    exists e. destruct (correspondence _ _ _ _ _ _ e) as [s| |]; cbn [bind] in H; [|destruct H; discriminate..]. exists s.
    split; [reflexivity|]. split; [reflexivity|]. destruct H as [H|H].
    - destruct (open_session _ _ _ _ _) as [o r'] eqn:E. cbn in H. subst. exists r'. now left.
    - destruct (verify_session _ _ _ _) as [o r'] eqn:E. cbn in H. subst. exists r'. now right. }
  destruct X as (e & s & EE & EC & r' & RUN). destruct (letter_envelope_ok _ _ _ EE) as (su' & G & E1 & _ & _ & _ & EV & _ & ESE & _ & _ & EO).
  rewrite GS in G. injection G as <-. pose proof (get_suite_in _ _ GS) as HI.
  unfold correspondence in EC. destruct (prepare _ _ _ _ e) as [[e'| |] q] eqn:EP; cbn [bind fst] in EC; [|discriminate..].
  destruct (prepare_ok _ _ _ _ _ EP) as (su' & a & b & d' & q1 & q2 & q3 & LS & -> & _ & P2 & _ & _).
  unfold load_suite in LS. rewrite E1 in LS. injection LS as <-. rewrite EO, ESE in P2.
  destruct (registered_few su HI) as (_ & _ & DT).
  assert (ES2 : e_suite (set_signets e su a b d') = Some su) by reflexivity.
  destruct (senders_served _ _ _ _ _ _ EC ES2 DT) as [SV TS]. cbn [set_signets e_senders] in SV, TS.
  pose proof (registered_insts _ _ _ _ _ EC ES2 HI) as EA.
  pose proof EC as EC0. apply new_session_ok in EC0 as (su' & E & O). rewrite ES2 in E. injection E as <-.
  pose proof (sh_signers _ _ _ (so_shape _ _ _ _ _ _ _ O)) as SS. rewrite EA in SS. pose proof (registered_signer su HI) as L1. rewrite <- SS in L1.
  pose proof EC as EC1. apply new_session_acceptable in EC1 as (su' & E & A). rewrite ES2 in E. injection E as <-.
  pose proof (ac_res _ _ _ _ _ _ _ A) as Hres.
  assert (IT : exists i, In i (s_all s) /\ i_tool i = t).
  { apply (suite_tool_iff _ _ _ _ _ Hres) in ST as (i & Hi & <-). exists i. split; [exact Hi|reflexivity]. }
  destruct IT as (i & Hi & ET).
  assert (IS : In i (s_signers s)).
  { rewrite SS, <- EA. apply of_purpose_In. split; [exact Hi|]. unfold i_purpose. now rewrite ET. }
  destruct (s_signers s) as [|i0 [|]] eqn:ESG; cbn in L1; [destruct IS| |lia]. destruct IS as [->|[]].
  assert (NM : i_name i = t_name t) by (unfold i_name; now rewrite ET).
  pose proof (C11_signatures_in_order _ _ _ _ _ _ _ _ _ _ _ EC ES2 DT ESG RUN) as F2. cbn [set_signets e_senders] in F2.
  assert (NKEY : forall sg, In sg (map (refer (l_version (rw_letter r))) (seals_of (rw_sigs r))) -> sg_key sg = [])
    by (intros sg Hsg; apply in_map_iff in Hsg as (? & <- & _); reflexivity).
  destruct (prep_signets_ok _ _ _ _ _ _ _ K NKEY P2) as [_ FS].
  assert (TR : In t tool_registry /\ tools_get tool_registry (t_name t) = Ok t).
  { destruct ST as (id & _ & TG). unfold tools_get, of_option in *. destruct (find _ tool_registry) as [t'|] eqn:EF in TG; [|discriminate].
    injection TG as ->. pose proof EF as EF'. apply find_some in EF' as [EF1 EF2]. split; [exact EF1|].
    apply bytes_eqb_eq in EF2. rewrite EF2, EF. reflexivity. }
  destruct TR as [Tin TG]. destruct (registry_no_secret_names t Tin) as [NK NP].
  assert (FSC : forall n, In n b -> sg_scheme n = t_name t).
  { intros n Hn. destruct (SV n Hn) as (j & [<-|[]] & EN). congruence. }
  specialize (FS (fun n Hn => conj (fun X => NK (eq_trans (eq_sym (FSC n Hn)) X)) (fun X => NP (eq_trans (eq_sym (FSC n Hn)) X)))).
  destruct (TS i (or_introl eq_refl)) as (sg0 & Hsg0 & _).
  assert (LS : l_sigs (complete r) = seals_of (rw_sigs r)) by reflexivity. rewrite LS in F2.
  set (vs := seals_of (rw_sigs r)) in *.
  destruct (Forall2_In_r _ _ _ _ (so_res _ _ _ _ _ _ _ O) Hi) as (x & Hx & RX).
  exists (match w_signet w with Some g => g | None => fun _ _ => Panic end), vs, (i_arg i).
  assert (G0 : exists g, w_signet w = Some g).
  { destruct (Forall2_In_r _ _ _ _ FS Hsg0) as (y & _ & g & n & G1 & _). eauto. }
  destruct G0 as (g & G0). rewrite G0. split; [reflexivity|]. split; [exact EV|]. split; [|split].
  - intro Z. rewrite Z in F2. inversion F2; subst. now inversion Hsg0.
  - destruct RX as (_ & RX1 & RX2 & _). exists (snd x). split.
    + clear - Hx. revert Hx. generalize 0. induction (su_tools su) as [|y l IH]; cbn; intros n H; [easy|]. destruct H as [<-|H]; [now left|right; eauto].
    + unfold tools_get, of_option in RX1. destruct (find _ tool_registry) as [t'|] eqn:EF in RX1; [|discriminate]. injection RX1 as ->.
      apply find_some in EF as [_ EF]. apply bytes_eqb_eq in EF. fold (i_name i) in EF. rewrite NM in EF. rewrite RX2, EF. apply surjective_pairing.
  - intros v Hv. assert (ALL : Forall2 (fun sg v => exists n', In n' b /\ from_store cr w true sg n'
        /\ sg = refer (l_version (rw_letter r)) v /\ signature_valid cr i n' (complete r) v) (map (refer (l_version (rw_letter r))) vs) vs).
    { clear - FS F2. assert (G : forall us b0, incl b0 b -> Forall2 (from_store cr w true) (map (refer (l_version (rw_letter r))) us) b0 ->
        Forall2 (fun sg v => signature_valid cr i sg (complete r) v) b0 us ->
        Forall2 (fun sg v => exists n', In n' b /\ from_store cr w true sg n'
          /\ sg = refer (l_version (rw_letter r)) v /\ signature_valid cr i n' (complete r) v) (map (refer (l_version (rw_letter r))) us) us).
      { induction us as [|u us IH]; intros b0 INC H1 H2; cbn; [constructor|]. inversion H2; subst. inversion H1; subst. constructor.
        - eexists. split; [apply INC; now left|]. eauto.
        - eapply IH; [|eassumption..]. intros z Hz. apply INC. now right. }
      apply (G vs b); auto using incl_refl. }
    destruct (Forall2_In_r _ _ _ _ ALL Hv) as (sg & Hsg & n' & Hn' & (g' & n & G1 & G2 & G3 & G4) & -> & p & P1 & P2').
    rewrite G0 in G1. injection G1 as <-. cbn [refer sg_id sg_scheme] in G2, G3.
    assert (ESN : sg_scheme n = t_name t).
    { rewrite <- (prep_loaded_scheme _ _ _ _ G4). now apply FSC. }
    exists n, p. split; [exact G2|]. split; [exact ESN|]. split; [destruct G3; [now left|right; congruence]|].
    split; [eapply prep_loaded_pub; eassumption|]. rewrite NM in P2'. exact P2'.
Qed.
Print Assumptions C11_letter_signatures_trusted.

Definition toy_store (l : list signet) (id : bytes) (b : bool) : outcome signet :=
  of_option ESignetNotFound (find (fun n => bytes_eqb (sg_id n) id && Bool.eqb (sg_public n) b) l).
Definition stored (sg : signet) : signet :=
  mkSignet (sg_version sg) (sg_id sg) (sg_scheme sg) (sg_key sg) (sg_public sg) false None None PNil.
Definition toy_world (l : list signet) : world := mkWorld (Some (toy_store (map stored l))) None None.
Definition toy_close (su : bytes) (a b d : list signet) (data : bytes) : letter :=
  match new_session default_config tool_registry hash_registry toy (toy_env (suite_named su) a b d) with
  | Ok s => match fst (close_session default_config toy s false data (rt_start 3 None)) with Ok l => l | _ => l_empty end
  | _ => l_empty
  end.

Example C11_letter_hypotheses_met :
  let l := toy_close (lit "sign_v1") [] [toy_signet "alice" "Ed25519" 5; toy_signet "carol" "Ed25519" 9] [] (lit "hello") in
  let w := toy_world [toy_recipient "alice" "Ed25519" 5; toy_recipient "carol" "Ed25519" 9] in
  let opened w l := letter_open default_config suite_registry tool_registry hash_registry toy w (Some [Integrity; SenderAuthentication]) (raw l) 0 in
  callbacks_keep_scheme w
  /\ (exists su t, get_suite suite_registry (l_suite l) = Some su /\ suite_tool tool_registry su t /\ t_purpose t = PSigning)
  /\ opened w l = Ok (lit "hello")
  /\ letter_verify default_config suite_registry tool_registry hash_registry toy w None (raw l) 0 = Err EOther
  /\ opened w (set_sigs l []) = Err EOther
  /\ opened (toy_world [toy_recipient "alice" "Ed25519" 5; toy_recipient "carol" "Ed25519" 8]) l = Err EOther
  /\ opened (toy_world [toy_recipient "alice" "Ed25519" 5]) l = Err EOther.
Proof.
  cbv zeta. split; [split; discriminate|]. split.
  { eexists (suite_named (lit "sign_v1")), _. split; [vm_compute; reflexivity|].
    split; [exists (lit "Ed25519(BLAKE2b-256)"); split; [vm_compute; auto|vm_compute; reflexivity]|reflexivity]. }
  repeat split; vm_compute; reflexivity.
Qed.

(** ** C12 *)

(** A well-behaved environment: the trust store and the callbacks return, the store gives
    signets of the requested kind, and key loading returns (with a private key for a private
    signet; C26 is about the concrete codecs). *)
Record safe_world (cr : crypto) (w : world) : Prop := {
  sw_load : forall t k b, cr_load cr t k b <> Panic;
  sw_load_priv : forall t k p v, cr_load cr t k false = Ok (p, v) -> exists k', v = PKey k';
  sw_store : forall g id b, w_signet w = Some g -> g id b <> Panic;
  sw_kind : forall g id b n, w_signet w = Some g -> g id b = Ok n ->
              sg_public n = b /\ (b = false -> sg_pub n <> None -> exists k, sg_priv n = PKey k);
  sw_create : forall f sg lv, w_create w = Some f -> f sg lv <> Panic;
  sw_get : forall f sg, w_get w = Some f -> f sg <> Panic
}.

Section C12.
Variables (cr : crypto) (w : world).
Hypothesis SW : safe_world cr w.

Lemma load_key_np sg : load_key tool_registry cr sg <> Panic.
Proof.
  unfold load_key. destruct (sg_pub sg); [discriminate|]. destruct (sg_prot sg); [discriminate|].
  apply bind_np; [unfold tools_get, of_option; destruct (find _ _); discriminate|]. intros t _. destruct (uses_signets t); [|discriminate].
  apply bind_np; [apply (sw_load _ _ SW)|]. intros [p k] _. discriminate.
Qed.
Lemma prep_loaded_np sg : prep_loaded tool_registry cr sg <> Panic.
Proof. unfold prep_loaded. destruct (sg_prot sg); [discriminate|]. destruct (_ || _); [discriminate|apply load_key_np]. Qed.
Lemma fetch_np sg b : fetch w sg b <> Panic.
Proof.
  unfold fetch. destruct (negb _); [discriminate|]. destruct (w_signet w) as [g|] eqn:E; [|discriminate].
  apply bind_np; [apply other_np, (sw_store _ _ SW _ _ _ E)|]. intros n _. destruct (_ && _); discriminate.
Qed.
Lemma fill_np sg b lv : fst (fill_password w sg b lv) <> Panic.
Proof.
  unfold fill_password. destruct b.
  - destruct (w_create w) eqn:E; [apply (sw_create _ _ SW _ _ _ E)|discriminate].
  - destruct (w_get w) eqn:E; [apply (sw_get _ _ SW _ _ E)|discriminate].
Qed.
Lemma prep_signets_np lv l : forall b, fst (prep_signets tool_registry cr w lv b l) <> Panic.
Proof.
  induction l as [|sg l IH]; intro b; cbn [prep_signets]; [discriminate|]. cbv zeta.
  assert (G : forall (x : outcome signet) a b', x <> Panic ->
    fst (match x with
         | Ok n => let '(y, asked') := prep_signets tool_registry cr w lv b' l in (do ns <- y; Ok (n :: ns), a ++ asked')
         | Err e => (Err e, a)
         | Panic => (@Panic (list signet), a)
         end) <> Panic).
  { intros [n| |] a b' H; [|discriminate|congruence]. specialize (IH b'). destruct (prep_signets _ _ _ _ b' l) as [[ns| |] q]; cbn in *; congruence. }
  destruct (nonempty (sg_key sg)); [apply G, prep_loaded_np|]. destruct (bytes_eqb (sg_scheme sg) scheme_pw).
  - pose proof (fill_np sg (negb b) lv) as F. destruct (fill_password w sg (negb b) lv) as [x a]. apply G, other_np, F.
  - apply G, bind_np; [apply fetch_np|]. intros n _. apply prep_loaded_np.
Qed.
Lemma prepare_np e : fst (prepare suite_registry tool_registry cr w e) <> Panic.
Proof.
  unfold prepare. destruct (load_suite suite_registry e) as [su| |] eqn:E; [|discriminate|].
  2:{ unfold load_suite, of_option in E. destruct (e_suite e); [discriminate|]. destruct (get_suite _ _); discriminate. }
  pose proof (prep_signets_np (su_level su) (e_secrets e) (e_opening e)) as P1.
  destruct (prep_signets _ _ _ _ _ (e_secrets e)) as [[a| |] q1]; cbn in *; [|discriminate|congruence].
  pose proof (prep_signets_np (su_level su) (e_senders e) (e_opening e)) as P2.
  destruct (prep_signets _ _ _ _ _ (e_senders e)) as [[b| |] q2]; cbn in *; [|discriminate|congruence].
  pose proof (prep_signets_np (su_level su) (e_recipients e) (negb (e_opening e))) as P3.
  destruct (prep_signets _ _ _ _ _ (e_recipients e)) as [[d| |] q3]; cbn in *; congruence.
Qed.

(** Recipients found while opening have their private key. *)
Lemma prep_private lv l : forall ns q, (forall sg, In sg l -> sg_key sg = [] /\ sg_scheme sg <> scheme_pw) ->
  prep_signets tool_registry cr w lv false l = (Ok ns, q) ->
  length ns = length l /\ forall n, In n ns -> sg_scheme n <> scheme_key -> sg_scheme n <> scheme_pw -> exists k, sg_priv n = PKey k.
Proof.
  induction l as [|sg l IH]; intros ns q NK H; cbn [prep_signets] in H.
  - injection H as <- _. split; [reflexivity|]. intros n [].
  - destruct (NK sg (or_introl eq_refl)) as [K1 K2]. rewrite K1 in H. cbn [nonempty] in H. cbv zeta in H.
    destruct (bytes_eqb (sg_scheme sg) scheme_pw) eqn:EP; [apply bytes_eqb_eq in EP; contradiction|].
    assert (E : (if bytes_eqb (sg_scheme sg) scheme_key then false else false) = false) by (destruct (bytes_eqb (sg_scheme sg) scheme_key); reflexivity). rewrite E in H.
    destruct (fetch w sg false) as [n0| |] eqn:EF; cbn [bind] in H; [|discriminate..].
    destruct (prep_loaded tool_registry cr n0) as [n| |] eqn:EL; [|discriminate..].
    destruct (prep_signets _ _ _ _ false l) as [[ns'| |] q'] eqn:ER; cbn in H; [|discriminate..]. injection H as <- _.
    destruct (IH ns' q') as [IL IP]; [intros; apply NK; now right|reflexivity|]. split; [cbn; congruence|].
    intros m [<-|Hm] N1 N2; [|now apply IP]. destruct (fetch_ok _ _ _ _ EF) as (g & G1 & _ & G3 & _).
    destruct (sw_kind _ _ SW _ _ _ _ G1 G3) as [KP KL]. rewrite (prep_loaded_scheme _ _ _ _ EL) in N1, N2.
    unfold prep_loaded in EL. destruct (sg_prot n0) eqn:EPR; [discriminate|].
    destruct (bytes_eqb (sg_scheme n0) scheme_key) eqn:E1; [apply bytes_eqb_eq in E1; contradiction|].
    destruct (bytes_eqb (sg_scheme n0) scheme_pw) eqn:E2; [apply bytes_eqb_eq in E2; contradiction|]. cbn [orb] in EL.
    unfold load_key in EL. destruct (sg_pub n0) eqn:EN; [injection EL as <-; apply KL; [reflexivity|congruence]|]. rewrite EPR in EL.
    destruct (tools_get _ _) as [t| |]; cbn [bind] in EL; [|discriminate..]. destruct (uses_signets t); [|discriminate].
    rewrite KP in EL. destruct (cr_load cr (t_name t) (sg_key n0) false) as [[p k]| |] eqn:ELD; cbn in EL; [|discriminate..].
    injection EL as <-. cbn. eapply (sw_load_priv _ _ SW). exact ELD.
Qed.
Lemma prep_length lv l : forall b ns q, prep_signets tool_registry cr w lv b l = (Ok ns, q) -> length ns = length l.
Proof.
  induction l as [|sg l IH]; intros b ns q H; cbn [prep_signets] in H; [injection H as <- _; reflexivity|].
  destruct (if nonempty (sg_key sg) then _ else _) as [[x a] b']. destruct x as [n| |]; [|discriminate..].
  destruct (prep_signets _ _ _ _ b' l) as [[ns'| |] q'] eqn:ER; cbn in H; [|discriminate..]. injection H as <- _.
  cbn. f_equal. eapply IH. exact ER.
Qed.

Lemma filter_split {A} (f : A -> bool) l : length (filter f l) + length (filter (fun x => negb (f x)) l) = length l.
Proof. induction l as [|a l IH]; [reflexivity|]. cbn. destruct (f a); cbn; lia. Qed.
Lemma filter_len {A} (f : A -> bool) l : length (filter f l) <= length l.
Proof. induction l as [|a l IH]; [auto|]. cbn. destruct (f a); cbn; lia. Qed.

(** The session that Letter.Open makes for a letter fits that letter. *)
Lemma letter_session_fits c req r e s :
  letter_envelope suite_registry req r = Ok e ->
  correspondence c suite_registry tool_registry hash_registry cr w e = Ok s ->
  (loop scheme_pw (e_secrets (s_env s)) <> [] -> s_pass s <> None)
  /\ (forall sg i, In i (s_kx s ++ s_ke s) -> In sg (loop (i_name i) (e_recipients (s_env s))) -> exists k, sg_priv sg = PKey k)
  /\ seals_used s <= length (l_keys (complete r))
  /\ senders_used s = length (e_senders (s_env s)).
Proof.
  intros EE EC. destruct (letter_envelope_ok _ _ _ EE) as (su & G & E1 & _ & _ & _ & _ & ES & _ & ER & _ & EO).
  pose proof (get_suite_in _ _ G) as HI.
  unfold correspondence in EC. destruct (prepare _ _ _ _ e) as [[e'| |] q] eqn:EP; cbn [bind fst] in EC; [|discriminate..].
  destruct (prepare_ok _ _ _ _ _ EP) as (su' & a & b & d' & q1 & q2 & q3 & LS & -> & P1 & P2 & P3 & _).
  unfold load_suite in LS. rewrite E1 in LS. injection LS as <-. rewrite EO in *. cbn [negb] in P3.
  destruct (registered_few su HI) as (_ & _ & DT).
  assert (ES2 : e_suite (set_signets e su a b d') = Some su) by reflexivity.
  pose proof (session_env _ _ _ _ _ _ EC) as EN.
  pose proof (steps_length _ _ _ _ _ _ EC ES2 DT EN) as SL. pose proof (sig_steps_length _ _ _ _ _ _ EC ES2 DT EN) as SGL.
  assert (SU : seals_used s = length (steps s)).
  { unfold seals_used, steps, steps_of. rewrite !app_length, !map_length.
    assert (X : forall (k : inst -> signet -> kstep) I, length (flat_map (fun i => map (k i) (loop (i_name i) (e_recipients (s_env s)))) I)
       = length (flat_map (fun i => loop (i_name i) (e_recipients (s_env s))) I)).
    { intros k I. induction I as [|i I IH]; [reflexivity|]. cbn. now rewrite !app_length, map_length, IH. }
    rewrite !X. lia. }
  assert (SS : senders_used s = length (sig_steps s)).
  { unfold senders_used, sig_steps. induction (s_signers s) as [|i I IH]; [reflexivity|]. cbn. now rewrite !app_length, map_length, IH. }
  split; [|split; [|split]].
  - intros HP. rewrite EN in HP. pose proof EC as EC1. apply new_session_acceptable in EC1 as (su' & E & A). rewrite ES2 in E. injection E as <-.
    pose proof (acceptable_served _ _ _ _ _ _ _ A registry_names DT) as (SV & _ & _).
    destruct (loop scheme_pw _) as [|sg L] eqn:EL in HP; [congruence|]. assert (Hsg : In sg (loop scheme_pw (e_secrets (set_signets e su a b d')))) by (rewrite EL; now left).
    unfold loop in Hsg. apply filter_In in Hsg as [Hsg HB]. cbn in HB. apply bytes_eqb_eq in HB.
    destruct (SV sg Hsg) as [X|[_ (t & Ht & Hp)]]; [rewrite HB in X; discriminate|].
    apply (suite_tool_iff _ _ _ _ _ (ac_res _ _ _ _ _ _ _ A)) in Ht as (i & Hi & <-).
    pose proof EC as EC0. apply new_session_ok in EC0 as (su' & E & O). rewrite ES2 in E. injection E as <-.
    pose proof (sh_pass _ _ _ (so_shape _ _ _ _ _ _ _ O)) as SP.
    assert (Hof : In i (of_purpose PPassDerivation (s_all s))) by (apply of_purpose_In; auto). rewrite SP in Hof.
    intro Z. rewrite Z in Hof. exact Hof.
  - rewrite EN. cbn [set_signets e_recipients]. rewrite ER in P3. edestruct prep_private as [_ PR]; [|exact P3|].
    { intros sg H. apply in_map_iff in H as (x & <- & H). split; [reflexivity|]. apply filter_In in H as [_ H]. cbn.
      intro Z. unfold is_secret in H. rewrite Z in H. discriminate. }
    intros sg i Hi Hsg. unfold loop in Hsg. apply filter_In in Hsg as [Hsg HB].
    assert (TR : In (i_tool i) tool_registry).
    { pose proof EC as EC0. apply new_session_ok in EC0 as (su' & E & O). rewrite ES2 in E. injection E as <-.
      pose proof (so_shape _ _ _ _ _ _ _ O) as Sh. rewrite (sh_kx _ _ _ Sh), (sh_ke _ _ _ Sh) in Hi.
      assert (Hi' : In i (s_all s)) by (apply in_app_iff in Hi as [Hi|Hi]; apply of_purpose_In in Hi; tauto).
      destruct (Forall2_In_r _ _ _ _ (so_res _ _ _ _ _ _ _ O) Hi') as (x & _ & _ & HG & _).
      unfold tools_get, of_option in HG. destruct (find _ tool_registry) as [t|] eqn:EF in HG; [|discriminate]. injection HG as ->.
      now apply find_some in EF. }
    destruct (registry_no_secret_names _ TR) as [N1 N2]. pose proof (registry_names _ TR) as N0.
    assert (SC : sg_scheme sg = t_name (i_tool i)).
    { unfold i_name in HB. destruct (t_name (i_tool i)); [congruence|]. now apply bytes_eqb_eq in HB. }
    apply PR; [exact Hsg|congruence|congruence].
  - rewrite SU, SL. cbn [set_signets e_secrets e_recipients].
    rewrite (prep_length _ _ _ _ _ P1), (prep_length _ _ _ _ _ P3), ES, ER, !map_length, filter_split.
    cbn [complete set_keys set_sigs l_keys]. apply filter_len.
  - rewrite SS, SGL, EN. reflexivity.
Qed.

(** Whatever is in a letter whose seals are all there, opening and verifying it returns. *)
Theorem C12_complete_letter_never_crashes : forall c req r d,
  ~ In None (rw_keys r) -> ~ In None (rw_sigs r) ->
  letter_open c suite_registry tool_registry hash_registry cr w req r d <> Panic
  /\ letter_verify c suite_registry tool_registry hash_registry cr w req r d <> Panic.
Proof.
  intros c req r d N1 N2.
  assert (EV : letter_envelope suite_registry req r <> Panic).
  { unfold letter_envelope. cbv zeta. apply bind_np; [apply guard_np|intros _ _]. apply bind_np; [apply guard_np|intros _ _].
    apply bind_np; [unfold of_option; destruct (get_suite _ _); discriminate|intros su _].
    apply bind_np; [unfold req_check; destruct (req_missing _ _ _); discriminate|intros _ _].
    assert (Q : forall l : list (option seal), ~ In None l -> existsb is_none l = false).
    { induction l as [|[x|] l IH]; intro N; [reflexivity|cbn; apply IH; intro; apply N; now right|exfalso; apply N; now left]. }
    rewrite (Q _ N1), (Q _ N2). discriminate. }
  assert (CO : forall e, correspondence c suite_registry tool_registry hash_registry cr w e <> Panic).
  { intro e. unfold correspondence. apply bind_np; [apply prepare_np|]. intros. apply new_session_np. apply (sw_load _ _ SW). }
  split.
  - unfold letter_open. apply bind_np; [exact EV|]. intros e Ee. apply bind_np; [apply CO|]. intros s Es.
    destruct (letter_session_fits _ _ _ _ _ Ee Es) as (F1 & F2 & F3 & F4). apply open_session_np; auto. apply (sw_load _ _ SW).
  - unfold letter_verify. apply bind_np; [exact EV|]. intros e Ee. apply bind_np; [apply CO|]. intros s Es.
    destruct (letter_session_fits _ _ _ _ _ Ee Es) as (F1 & F2 & F3 & F4). apply verify_session_np; auto.
Qed.
End C12.
Print Assumptions C12_complete_letter_never_crashes.

(** But a list of seals in a JSON or DSD letter may hold null, and then opening crashes. *)
Theorem C12_null_seal_crashes_refuted :
  letter_open default_config suite_registry tool_registry hash_registry toy (toy_world []) (Some [])
    (mkRaw (mkLetter 1 (lit "v1") (lit "nonce") [] (lit "data") [] [] false) [None] []) 0 = Panic
  /\ letter_verify default_config suite_registry tool_registry hash_registry toy (toy_world []) (Some [])
    (mkRaw (mkLetter 1 (lit "sign_v1") (lit "nonce") [] (lit "data") [] [] false) [] [None]) 0 = Panic.
Proof. split; vm_compute; reflexivity. Qed.
Print Assumptions C12_null_seal_crashes_refuted.

Lemma toy_world_safe l : safe_world toy (toy_world l).
Proof.
  split; cbn.
  - intros t [|] [|]; discriminate.
  - intros t [|x k] p v H; [discriminate|]. injection H as _ <-. eauto.
  - intros g id b H. injection H as <-. unfold toy_store, of_option. destruct (find _ _); discriminate.
  - intros g id b n H. injection H as <-. unfold toy_store, of_option. destruct (find _ _) eqn:E; [|discriminate]. injection 1 as <-.
    apply find_some in E as [E1 E2]. apply andb_true_iff in E2 as [_ E2]. apply eqb_prop in E2. split; [exact E2|].
    apply in_map_iff in E1 as (m & <- & _). cbn. congruence.
  - discriminate.
  - discriminate.
Qed.
(** And a session that was made for one letter crashes on a letter with fewer seals. *)
Theorem C12_other_letter_refuted :
  let e := toy_env (suite_named (lit "rcpt_v1")) [] [] [toy_signet "bob" "ECDH-X25519" 7] in
  exists s l l', new_session default_config tool_registry hash_registry toy e = Ok s
    /\ fst (open_session default_config toy s l (rt_start 0 None)) = Ok (lit "hello")
    /\ (l_version l' = l_version l /\ l_suite l' = l_suite l /\ l_nonce l' = l_nonce l /\ l_data l' = l_data l /\ l_keys l' = [])
    /\ fst (open_session default_config toy s l' (rt_start 0 None)) = Panic.
Proof.
  eexists. pose (s := match new_session default_config tool_registry hash_registry toy
    (toy_env (suite_named (lit "rcpt_v1")) [] [] [toy_signet "bob" "ECDH-X25519" 7]) with Ok s => s | _ => init_session (toy_env (suite_named []) [] [] []) (suite_named []) end).
  pose (l := match fst (close_session default_config toy s false (lit "hello") (rt_start 3 None)) with Ok l => l | _ => l_empty end).
  let v := eval vm_compute in l in exists v, (mkLetter (l_version v) (l_suite v) (l_nonce v) [] (l_data v) (l_mac v) (l_sigs v) (l_apply v)).
  split; [vm_compute; reflexivity|]. split; [vm_compute; reflexivity|]. split; [vm_compute; repeat split; reflexivity|]. vm_compute. reflexivity.
Qed.
Print Assumptions C12_other_letter_refuted.
(** The guarded case is about letters that do open, too. *)
Example C12_hypotheses_met :
  let l := toy_close (lit "v1") [] [toy_signet "alice" "Ed25519" 5] [toy_recipient "bob" "ECDH-X25519" 7] (lit "hello") in
  let w := toy_world [toy_recipient "alice" "Ed25519" 5; toy_signet "bob" "ECDH-X25519" 7] in
  safe_world toy w /\ ~ In None (rw_keys (raw l)) /\ ~ In None (rw_sigs (raw l))
  /\ l_keys l <> [] /\ l_sigs l <> []
  /\ letter_open default_config suite_registry tool_registry hash_registry toy w None (raw l) 0 = Ok (lit "hello").
Proof.
  cbv zeta. split; [apply toy_world_safe|].
  split; [vm_compute; intuition discriminate|]. split; [vm_compute; intuition discriminate|].
  split; [vm_compute; discriminate|]. split; [vm_compute; discriminate|]. vm_compute. reflexivity.
Qed.

(** ** C13 *)

Lemma open_version c cr s l r : r_wire r = None -> l_version l <> 1%N ->
  fst (open_session c cr s l r) = Err EOther /\ fst (verify_session cr s l r) = Err EOther.
Proof.
  intros W V. apply N.eqb_neq in V. unfold open_session, verify_session, mbind, modify, is_wire, gets. cbn [r_wire set_buf set_acc]. rewrite W. cbn [is_none negb].
  rewrite V. split; reflexivity.
Qed.

(** A letter of another version than 1 never gives data, in any session that is not a wire
    session, and neither does Letter.Open, whatever the environment; a letter that names an
    unregistered suite is refused before anything else happens. *)
Theorem C13_unknown_version_or_suite_rejected : forall c sreg reg hreg cr w req r d,
  (l_version (rw_letter r) <> 1%N ->
     (forall s st, r_wire st = None -> fst (open_session c cr s (complete r) st) = Err EOther
                                       /\ fst (verify_session cr s (complete r) st) = Err EOther)
     /\ (forall data, letter_open c sreg reg hreg cr w req r d <> Ok data)
     /\ letter_verify c sreg reg hreg cr w req r d <> Ok tt)
  /\ (get_suite sreg (l_suite (rw_letter r)) = None \/ l_suite (rw_letter r) = [] \/ l_version (rw_letter r) = 0%N ->
      letter_open c sreg reg hreg cr w req r d = Err EOther
      /\ letter_verify c sreg reg hreg cr w req r d = Err EOther
      /\ letter_wire c sreg reg hreg cr w r = Err EOther).
Proof.
  intros c sreg reg hreg cr w req r d. split.
  - intro V. assert (V' : l_version (complete r) <> 1%N) by exact V. split; [intros s st W; now apply open_version|]. split.
    + intro data. unfold letter_open. destruct (letter_envelope _ _ _); cbn [bind]; [|discriminate..]. destruct (correspondence _ _ _ _ _ _ _) as [s| |]; cbn [bind]; [|discriminate..].
      destruct (open_version c cr s (complete r) (rt_start d None) eq_refl V') as [-> _]. discriminate.
    + unfold letter_verify. destruct (letter_envelope _ _ _); cbn [bind]; [|discriminate..]. destruct (correspondence _ _ _ _ _ _ _) as [s| |]; cbn [bind]; [|discriminate..].
      destruct (open_version c cr s (complete r) (rt_start d None) eq_refl V') as [_ ->]. discriminate.
  - intro H. assert (E : forall q, letter_envelope sreg q r = Err EOther).
    { intro q. unfold letter_envelope. cbv zeta. destruct (l_version (rw_letter r) =? 0)%N eqn:EV; [reflexivity|]. cbn [negb guard bind].
      destruct (l_suite (rw_letter r)) as [|x y] eqn:ES; [reflexivity|]. cbn [nonempty guard bind].
      destruct H as [->|[H|H]]; [reflexivity|discriminate|]. rewrite H in EV. discriminate. }
    unfold letter_open, letter_verify, letter_wire. rewrite !E. auto.
Qed.
Print Assumptions C13_unknown_version_or_suite_rejected.
Example C13_hypotheses_met :
  let l := toy_close (lit "key_v1") [toy_secret "k"] [] [] (lit "hello") in
  let w := toy_world [toy_secret "k"] in
  let opened l := letter_open default_config suite_registry tool_registry hash_registry toy w None (raw l) 0 in
  opened l = Ok (lit "hello")
  /\ opened (mkLetter 2 (l_suite l) (l_nonce l) (l_keys l) (l_data l) (l_mac l) (l_sigs l) false) = Err EOther
  /\ get_suite suite_registry (lit "key_v3") = None.
Proof. repeat split; vm_compute; reflexivity. Qed.

(** Wire sessions do not look at the version: a server opens a first message of version 7. *)
Definition wire_client_v7 : envelope :=
  mkEnvelope 7 [] (lit "w1") (Some (suite_named (lit "w1"))) [] [] [toy_recipient "bob" "ECDH-X25519" 7] 0 false.
Definition wire_letter_v7 : letter :=
  match new_session default_config tool_registry hash_registry toy wire_client_v7 with
  | Ok s => match fst (close_session default_config toy s false (lit "hello") (rt_start 3 (Some (wire_start false)))) with Ok l => l | _ => l_empty end
  | _ => l_empty
  end.
Theorem C13_wire_version_refuted :
  l_version wire_letter_v7 = 7%N
  /\ exists s, letter_wire default_config suite_registry tool_registry hash_registry toy
                 (toy_world [toy_signet "bob" "ECDH-X25519" 7]) (raw wire_letter_v7) = Ok s
     /\ fst (open_session default_config toy s wire_letter_v7 (rt_start 0 (Some (wire_start true)))) = Ok (lit "hello").
Proof. split; [vm_compute; reflexivity|]. eexists. split; vm_compute; reflexivity. Qed.
Print Assumptions C13_wire_version_refuted.

(** ** C18 *)

(** A password is missing: a password signet without key. *)
Definition asks_password (sg : signet) : bool := negb (nonempty (sg_key sg)) && bytes_eqb (sg_scheme sg) scheme_pw.
(** A key that is not there and has to be looked up. *)
Definition asks_key (sg : signet) : bool := negb (nonempty (sg_key sg)) && bytes_eqb (sg_scheme sg) scheme_key.
Definition ask (opening : bool) (sg : signet) : question := if opening then AskGet (sg_id sg) else AskCreate (sg_id sg).
Definition prefix_of {A} (p l : list A) : Prop := exists t, l = p ++ t.

Section C18.
Variables (cr : crypto) (w : world).
Hypothesis cb1 : w_create w <> None.
Hypothesis cb2 : w_get w <> None.

Lemma fill_asks sg b lv : snd (fill_password w sg (negb b) lv) = [ask b sg].
Proof. unfold fill_password, ask. destruct b; cbn [negb]; [destruct (w_get w)|destruct (w_create w)]; congruence || reflexivity. Qed.
Lemma prep_asks lv l : forall b, (b = true -> existsb asks_key l = false) ->
  let x := prep_signets tool_registry cr w lv b l in
  prefix_of (snd x) (map (ask b) (filter asks_password l))
  /\ forall ns, fst x = Ok ns -> snd x = map (ask b) (filter asks_password l).
Proof.
  induction l as [|sg l IH]; intros b HB x; unfold x; cbn [prep_signets]; [split; [exists []; reflexivity|reflexivity]|]. cbv zeta.
  assert (HB' : b = true -> existsb asks_key l = false) by (intro E; specialize (HB E); cbn in HB; now apply orb_false_iff in HB).
  destruct (IH b HB') as [[t P] Q]. clear x.
  assert (G : forall (x : outcome signet) a,
    map (ask b) (filter asks_password (sg :: l)) = a ++ map (ask b) (filter asks_password l) ->
    let y := match x with
         | Ok n => let '(y, asked') := prep_signets tool_registry cr w lv b l in (do ns <- y; Ok (n :: ns), a ++ asked')
         | Err e => (Err e, a)
         | Panic => (@Panic (list signet), a)
         end in
    prefix_of (snd y) (map (ask b) (filter asks_password (sg :: l)))
    /\ forall ns, fst y = Ok ns -> snd y = map (ask b) (filter asks_password (sg :: l))).
  { intros x a E. rewrite E. destruct x as [n| |]; cbn [fst snd]; [|split; [eexists; reflexivity|discriminate]..].
    destruct (prep_signets _ _ _ _ b l) as [y q]. cbn [fst snd] in *. rewrite P in *. split.
    - exists t. now rewrite app_assoc.
    - intros ns H. destruct y as [m| |]; cbn in H; [|discriminate..]. f_equal. exact (Q m eq_refl). }
  destruct (nonempty (sg_key sg)) eqn:EK; [apply G; cbn; unfold asks_password at 1; now rewrite EK|].
  destruct (bytes_eqb (sg_scheme sg) scheme_pw) eqn:EP.
  - pose proof (fill_asks sg b lv) as F. destruct (fill_password w sg (negb b) lv) as [y q]. cbn [snd] in F. subst q. apply G.
    cbn. unfold asks_password at 1. rewrite EK, EP. reflexivity.
  - assert (E : (if bytes_eqb (sg_scheme sg) scheme_key then false else b) = b).
    { destruct (bytes_eqb (sg_scheme sg) scheme_key) eqn:E2; [|reflexivity]. destruct b; [|reflexivity].
      specialize (HB eq_refl). cbn in HB. unfold asks_key in HB at 1. rewrite EK, E2 in HB. discriminate. }
    rewrite E. apply G. cbn. unfold asks_password at 1. rewrite EK, EP. reflexivity.
Qed.

(** The user is asked for the missing passwords in the order of the envelope, each once,
    with the create callback when closing and the get callback when opening - if no key has
    to be looked up while opening. *)
Theorem C18_right_question : forall e su,
  load_suite suite_registry e = Ok su ->
  existsb asks_password (e_recipients e) = false ->
  (e_opening e = true -> existsb asks_key (e_secrets e ++ e_senders e) = false) ->
  (e_opening e = false -> existsb asks_key (e_recipients e) = false) ->
  let x := prepare suite_registry tool_registry cr w e in
  let all := map (ask (e_opening e)) (filter asks_password (e_secrets e ++ e_senders e)) in
  prefix_of (snd x) all /\ (forall e', fst x = Ok e' -> snd x = all).
Proof.
  intros e su LS NR HK HR x all. unfold x, all, prepare. rewrite LS, filter_app, map_app.
  assert (K : e_opening e = true -> existsb asks_key (e_secrets e) = false /\ existsb asks_key (e_senders e) = false).
  { intro E. specialize (HK E). rewrite existsb_app in HK. now apply orb_false_iff in HK. }
  assert (NR' : filter asks_password (e_recipients e) = []).
  { clear - NR. induction (e_recipients e) as [|y l IH]; [reflexivity|]. cbn in *. apply orb_false_iff in NR as [-> N]. auto. }
  destruct (prep_asks (su_level su) (e_secrets e) (e_opening e)) as [[t1 P1] Q1]; [intro E; now apply K|].
  destruct (prep_asks (su_level su) (e_senders e) (e_opening e)) as [[t2 P2] Q2]; [intro E; now apply K|].
  destruct (prep_asks (su_level su) (e_recipients e) (negb (e_opening e))) as [[t3 P3] Q3].
  { destruct (e_opening e); [discriminate|auto]. }
  rewrite NR' in *. cbn [map] in *. symmetry in P3. apply app_eq_nil in P3 as [P3 _].
  destruct (prep_signets _ _ _ _ (e_opening e) (e_secrets e)) as [[a| |] q1]; cbn [fst snd] in *.
  2, 3: split; [exists (t1 ++ map (ask (e_opening e)) (filter asks_password (e_senders e))); rewrite P1; now rewrite <- app_assoc|discriminate].
  specialize (Q1 _ eq_refl). rewrite <- Q1. clear P1 t1.
  destruct (prep_signets _ _ _ _ (e_opening e) (e_senders e)) as [[b| |] q2]; cbn [fst snd] in *.
  2, 3: split; [exists t2; rewrite P2; apply app_assoc|discriminate].
  specialize (Q2 _ eq_refl). rewrite <- Q2. clear P2 t2.
  destruct (prep_signets _ _ _ _ (negb (e_opening e)) (e_recipients e)) as [[d| |] q3]; cbn [fst snd] in *; subst q3; rewrite app_nil_r.
  all: split; [exists []; now rewrite app_nil_r|reflexivity || discriminate].
Qed.
End C18.
Print Assumptions C18_right_question.

Definition pw_world : world :=
  mkWorld (Some (toy_store [stored (toy_secret "k")])) (Some (fun sg _ => Ok (mkSignet 1 (sg_id sg) scheme_pw (repeat x42 32) false false None None PNil)))
    (Some (fun sg => Ok (mkSignet 1 (sg_id sg) scheme_pw (repeat x42 32) false false None None PNil))).
Definition pw_refer (id : Coq.Strings.String.string) (scheme : bytes) : signet := mkSignet 1 (lit id) scheme [] false false None None PNil.
Arguments pw_refer id%string_scope.

Example C18_hypotheses_met :
  let e o := mkEnvelope 1 [] (lit "pw_v1") None [pw_refer "p" scheme_pw; pw_refer "q" scheme_pw] [] [] 0 o in
  existsb asks_key (e_secrets (e true)) = false
  /\ snd (prepare suite_registry tool_registry toy pw_world (e true)) = [AskGet (lit "p"); AskGet (lit "q")]
  /\ snd (prepare suite_registry tool_registry toy pw_world (e false)) = [AskCreate (lit "p"); AskCreate (lit "q")].
Proof. repeat split; vm_compute; reflexivity. Qed.

(** A letter sealed with a key and a password: opening it asks to create the password. *)
Theorem C18_create_while_opening_refuted :
  let l := toy_close (lit "pw_v1") [toy_secret "k"; toy_password "p"] [] [] (lit "hello") in
  exists e, letter_envelope suite_registry None (raw l) = Ok e /\ e_opening e = true
    /\ snd (prepare suite_registry tool_registry toy pw_world e) = [AskCreate (lit "p")]
    /\ letter_open default_config suite_registry tool_registry hash_registry toy pw_world None (raw l) 0 = Ok (lit "hello").
Proof. eexists. split; [vm_compute; reflexivity|]. repeat split; vm_compute; reflexivity. Qed.
Print Assumptions C18_create_while_opening_refuted.

(** What the user is shown when asked: the signet [sg'] is [sg] with a name, taken from the trust store if [sg] has none and the
    store knows one. *)
Definition has_name (sg : signet) : Prop := exists i, sg_info sg = Some i /\ in_name i <> [].
Definition shown_as (st : option (bytes -> bool -> outcome signet)) (sg sg' : signet) : Prop :=
  sg_id sg' = sg_id sg /\ sg_scheme sg' = sg_scheme sg /\ sg_key sg' = sg_key sg
  /\ (has_name sg -> sg' = sg)
  /\ (~ has_name sg -> forall g n i, st = Some g -> sg_id sg <> [] -> g (sg_id sg) false = Ok n -> sg_info n = Some i ->
       exists j, sg_info sg' = Some j /\ in_name j = in_name i).
Lemma named_shown st sg : shown_as st sg (named st sg).
Proof.
  assert (HN : match sg_info sg with Some i => nonempty (in_name i) | None => false end = true <-> has_name sg).
  { unfold has_name. destruct (sg_info sg) as [i|]; [|split; [discriminate|intros (i & X & _); discriminate]]. destruct (in_name i) eqn:E; cbn; split; try discriminate; try reflexivity.
    - intros (j & X & Y). injection X as <-. congruence.
    - intros _. exists i. split; [reflexivity|congruence]. }
  unfold shown_as, named. destruct (match sg_info sg with Some i => nonempty (in_name i) | None => false end) eqn:E.
  - repeat split; auto. intros N. exfalso. now apply N, HN.
  - assert (NN : ~ has_name sg) by (intro X; apply HN in X; discriminate).
    destruct st as [g|]; [|repeat split; auto; discriminate].
    destruct (nonempty (sg_id sg)) eqn:EI.
    + destruct (g (sg_id sg) false) as [n|er|] eqn:EG.
      2,3: (repeat split; auto; intros _ g' n' i G _ G2; injection G as <-; rewrite EG in G2; discriminate).
      destruct (sg_info n) as [i|] eqn:EN.
      * destruct (sg_info sg) as [i0|] eqn:ES.
        -- repeat split; [tauto|]. intros _ g' n' i' G _ G2 G3. injection G as <-. rewrite EG in G2. injection G2 as <-. rewrite EN in G3. injection G3 as <-. eexists. split; reflexivity.
        -- repeat split; [tauto|]. intros _ g' n' i' G _ G2 G3. injection G as <-. rewrite EG in G2. injection G2 as <-. rewrite EN in G3. injection G3 as <-. eexists. split; reflexivity.
      * repeat split; auto. intros _ g' n' i' G _ G2 G3. injection G as <-. rewrite EG in G2. injection G2 as <-. congruence.
    + repeat split; auto. intros _ g' n' i' _ X. destruct (sg_id sg); [congruence|discriminate].
Qed.
(** Two callbacks that answer alike when asked properly cannot be told apart. *)
Definition same_answers (w w' : world) (sgs : list signet) : Prop :=
  w_signet w = w_signet w'
  /\ (w_create w = None <-> w_create w' = None) /\ (w_get w = None <-> w_get w' = None)
  /\ forall sg sg', In sg sgs -> sg_scheme sg = scheme_pw -> sg_key sg = [] -> shown_as (w_signet w) sg sg' ->
     (forall f f' level, w_create w = Some f -> w_create w' = Some f' -> f sg' level = f' sg' level)
     /\ (forall f f', w_get w = Some f -> w_get w' = Some f' -> f sg' = f' sg').
Lemma fill_alike w w' sgs sg b lv : same_answers w w' sgs -> In sg sgs -> sg_scheme sg = scheme_pw -> sg_key sg = [] -> fill_password w sg b lv = fill_password w' sg b lv.
Proof.
  intros (ES & NC & NG & A) I S K. destruct (A sg _ I S K (named_shown (w_signet w) sg)) as [A1 A2]. unfold fill_password. rewrite <- ES.
  destruct b.
  - destruct (w_create w) as [f|], (w_create w') as [f'|]; [now rewrite (A1 f f' lv eq_refl eq_refl)|destruct NC as [_ NC]; discriminate (NC eq_refl)|destruct NC as [NC _]; discriminate (NC eq_refl)|reflexivity].
  - destruct (w_get w) as [f|], (w_get w') as [f'|]; [now rewrite (A2 f f' eq_refl eq_refl)|destruct NG as [_ NG]; discriminate (NG eq_refl)|destruct NG as [NG _]; discriminate (NG eq_refl)|reflexivity].
Qed.
Lemma prep_alike reg cr w w' sgs lv : same_answers w w' sgs -> forall l b, incl l sgs -> prep_signets reg cr w lv b l = prep_signets reg cr w' lv b l.
Proof.
  intros A. induction l as [|sg l IH]; intros b I; [reflexivity|]. cbn [prep_signets].
  assert (F : forall q, fetch w sg q = fetch w' sg q) by (intro q; unfold fetch; now rewrite (proj1 A)).
  assert (IL : incl l sgs) by (intros x X; apply I; now right).
  destruct (nonempty (sg_key sg)) eqn:EK; [now rewrite IH by exact IL|].
  destruct (bytes_eqb (sg_scheme sg) scheme_pw) eqn:EP.
  - apply bytes_eqb_eq in EP. assert (K : sg_key sg = []) by (destruct (sg_key sg); [reflexivity|discriminate]).
    rewrite (fill_alike w w' sgs sg (negb b) lv A (I sg (or_introl eq_refl)) EP K). destruct (fill_password w' sg (negb b) lv) as [x q]. now rewrite IH by exact IL.
  - rewrite F, IH by exact IL. reflexivity.
Qed.
Theorem C18_asked_by_name : forall sreg reg cr w w' e,
  same_answers w w' (e_secrets e ++ e_senders e ++ e_recipients e) -> prepare sreg reg cr w e = prepare sreg reg cr w' e.
Proof.
  intros sreg reg cr w w' e A. unfold prepare. destruct (load_suite sreg e) as [su| |]; try reflexivity.
  rewrite (prep_alike reg cr w w' _ (su_level su) A (e_secrets e)) by (apply incl_appl, incl_refl).
  rewrite (prep_alike reg cr w w' _ (su_level su) A (e_senders e)) by (apply incl_appr, incl_appl, incl_refl).
  rewrite (prep_alike reg cr w w' _ (su_level su) A (e_recipients e)) by (apply incl_appr, incl_appr, incl_refl). reflexivity.
Qed.
Print Assumptions C18_asked_by_name.
(** A callback that only answers for a signet with the right name. *)
Definition by_name (sg : signet) : outcome signet :=
  match sg_info sg with
  | Some i => if bytes_eqb (in_name i) (lit "My laptop") then Ok (mkSignet 1 (sg_id sg) scheme_pw (repeat (n2b 66) 32) false false None None PNil) else Err EOther
  | None => Err EOther
  end.
Definition named_store (id : bytes) (b : bool) : outcome signet :=
  Ok (mkSignet 1 id scheme_pw [] false false (Some (mkInfo (lit "My laptop") [])) None PNil).
Example C18_asked_by_name_met :
  let e := toy_env (suite_named (lit "pw_v1")) [mkSignet 1 (lit "pw") scheme_pw [] false false None None PNil] [] [] in
  let answer sg := Ok (mkSignet 1 (sg_id sg) scheme_pw (repeat (n2b 66) 32) false false None None PNil) in
  let w f := mkWorld (Some named_store) (Some (fun sg _ => f sg)) None in
  same_answers (w by_name) (w answer) (e_secrets e ++ e_senders e ++ e_recipients e)
  /\ is_ok (fst (prepare suite_registry tool_registry toy (w by_name) e)) = true.
Proof.
  cbv zeta. split; [|vm_compute; reflexivity]. split; [reflexivity|]. split; [cbn; split; discriminate|]. split; [cbn; tauto|].
  intros sg sg' [<-|[]] _ _ (E1 & E2 & E3 & _ & N). split; [|cbn; discriminate]. intros f f' lv X Y. injection X as <-. injection Y as <-.
  destruct (N (fun H => match H with ex_intro _ i (conj X _) => ltac:(discriminate X) end) _ _ _ eq_refl ltac:(discriminate) eq_refl eq_refl) as (j & J1 & J2).
  unfold by_name. rewrite J1, J2. cbn [in_name]. now rewrite bytes_eqb_refl.
Qed.
