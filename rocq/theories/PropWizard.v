(** Property theorems C62: `jess configure`. *)
From Verif Require Import Prelude PreludeFacts Requirements Tools Crypto Session Core Envelope Signets TrustStore SpecStore PropStore SpecExport PropExport Container Toy Wizard SpecWizard WizardFacts WizardLevel.
From Verif Require Import SpecSession SuiteFacts SpecOpen SpecCore CoreOpen PropTrip Post CorePanic PropLetter.
From Verif Require Text.

Lemma get_suite_in id su : get_suite suite_registry id = Some su -> In su suite_registry.
Proof. unfold get_suite. intro H. now apply find_some in H. Qed.

Section Usable.
Variables (c : config) (cr : crypto) (jundump : bytes -> option sdata) (dir : bytes).

Lemma again_alike l m : Forall2 (again) l m -> Forall2 same_scheme l m.
Proof using Type. induction 1 as [|a b l m H F IH]; constructor; [|exact IH]. destruct H as [->|(S & _ & ->)]; reflexivity. Qed.
Lemma again_secret l m : Forall2 again l m -> Forall2 same_secret l m.
Proof using Type. induction 1 as [|a b l m H F IH]; constructor; [|exact IH]. destruct H as [->|(S & K & ->)]; split; try reflexivity. now rewrite K. Qed.

Lemma final_works w e' s su : orderly jundump dir w -> new_session c tool_registry hash_registry cr e' = Ok s -> e_suite e' = Some su ->
  get_suite suite_registry (e_suite_id e') = Some su -> e_level e' = 0%Z -> s_level s <> 0%Z ->
  Forall (final_ok cr jundump dir w false) (e_secrets e') -> Forall (final_ok cr jundump dir w false) (e_senders e') ->
  Forall (final_ok cr jundump dir w true) (e_recipients e') -> works c cr jundump dir w (saved (with_level e' (s_level s))).
Proof using Type.
  intros OD N ES G L0 LN F1 F2 F3. pose proof (get_suite_in _ _ G) as HI.
  destruct (shape_not_secret c cr e' s su N ES HI) as [NR NS].
  assert (NK : true = true -> Forall (fun n => sg_scheme n <> scheme_key) (e_recipients e')) by (intros _; eapply Forall_impl; [|exact NR]; cbn beta; intros a [A _]; exact A).
  destruct (prep_again cr jundump dir w OD (su_level su) false _ F1 ltac:(intro; discriminate)) as (a & q1 & P1 & A1).
  destruct (prep_again cr jundump dir w OD (su_level su) false _ F2 ltac:(intro; discriminate)) as (b & q2 & P2 & A2).
  destruct (prep_again cr jundump dir w OD (su_level su) true _ F3 NK) as (d & q3 & P3 & A3).
  set (v := saved (with_level e' (s_level s))). set (e2 := set_signets (env_of v) su a b d).
  assert (PR : fst (prepare suite_registry tool_registry cr (store_world jundump dir w) (env_of v)) = Ok e2).
  { unfold prepare, load_suite. assert (E : e_suite (env_of v) = Some su) by exact G. rewrite E.
    change (e_secrets (env_of v)) with (map signet_of (map cleaned_data (e_secrets e'))). change (e_senders (env_of v)) with (map signet_of (map cleaned_data (e_senders e'))).
    change (e_recipients (env_of v)) with (map signet_of (map cleaned_data (e_recipients e'))). change (e_opening (env_of v)) with false. cbn [negb].
    rewrite P1, P2, P3. reflexivity. }
  assert (AL : alike e' e2) by (constructor; [now apply again_secret|now apply again_alike|now apply again_alike]).
  destruct (level_again c cr e' e2 s su N ES eq_refl HI L0 eq_refl LN AL) as ((s2 & N2 & L2) & POS).
  exists s2. unfold correspondence. rewrite PR. cbn [bind]. split; [exact N2|]. split; [exact L2|exact POS].
Qed.

Lemma approved_final n w e0 e1 s : orderly jundump dir w -> sound n e0 -> lists_ok cr jundump dir w e0 -> approved c cr jundump dir w e0 e1 s ->
  exists e' su, e1 = with_level e' (s_level s) /\ new_session c tool_registry hash_registry cr e' = Ok s /\ e_suite e' = Some su
    /\ get_suite suite_registry (e_suite_id e') = Some su /\ e_level e' = 0%Z /\ s_level s <> 0%Z
    /\ Forall (final_ok cr jundump dir w false) (e_secrets e') /\ Forall (final_ok cr jundump dir w false) (e_senders e')
    /\ Forall (final_ok cr jundump dir w true) (e_recipients e').
Proof using Type.
  intros OD (_ & O & S) (K1 & K2 & K3) (e' & P & N & -> & LN). set (ez := with_level e0 0) in *.
  destruct (prepare_level _ _ _ _ _ _ P) as (P1 & P2 & P3 & P4). destruct (prepare_suite _ _ _ _ _ _ P) as (su & LS & ES).
  assert (G : get_suite suite_registry (e_suite_id e') = Some su) by (rewrite P3; apply load_suite_some; [exact S|exact LS]).
  assert (Oz : e_opening ez = false) by exact O.
  destruct (prepare_lists _ _ _ _ _ _ Oz P) as (su' & ES' & Q1 & Q2 & Q3). rewrite ES in ES'. injection ES' as <-.
  destruct (shape_not_secret c cr e' s su N ES (get_suite_in _ _ G)) as [NR NS].
  assert (NK : true = true -> Forall (fun n => sg_scheme n <> scheme_key) (e_recipients e')) by (intros _; eapply Forall_impl; [|exact NR]; cbn beta; intros a [A _]; exact A).
  exists e', su. split; [reflexivity|]. split; [exact N|]. split; [exact ES|]. split; [exact G|]. split; [exact P1|]. split; [exact LN|].
  split; [|split].
  - eapply prep_final; [exact OD|exact K1|exact Q1|intro; discriminate].
  - eapply prep_final; [exact OD|exact K2|exact Q2|intro; discriminate].
  - eapply prep_final; [exact OD|exact K3|exact Q3|exact NK].
Qed.

Lemma final_same w w' b n : (forall id r, dir_get jundump dir w' id r = dir_get jundump dir w id r) -> final_ok cr jundump dir w b n -> final_ok cr jundump dir w' b n.
Proof using Type. intros E [H|(A & B & d & G & P)]; [now left|right]. split; [exact A|]. split; [exact B|]. exists d. rewrite E. auto. Qed.
Lemma orderly_same w w' : (forall id r, dir_get jundump dir w' id r = dir_get jundump dir w id r) -> orderly jundump dir w -> orderly jundump dir w'.
Proof using Type. intros E [A B]. constructor; intros id r d G; rewrite E in G; eauto. Qed.

Lemma approved_works n w w' e0 e1 s : orderly jundump dir w -> (forall id r, dir_get jundump dir w' id r = dir_get jundump dir w id r) ->
  sound n e0 -> lists_ok cr jundump dir w e0 -> approved c cr jundump dir w e0 e1 s -> works c cr jundump dir w' (saved e1).
Proof using Type.
  intros OD E S L A. destruct (approved_final _ _ _ _ _ OD S L A) as (e' & su & -> & N & ES & G & L0 & LN & F1 & F2 & F3).
  assert (T : forall b l, Forall (final_ok cr jundump dir w b) l -> Forall (final_ok cr jundump dir w' b) l).
  { intros b l. apply Forall_impl. intro a. now apply final_same. }
  eapply final_works; eauto using orderly_same.
Qed.

(** Other envelopes' files are not read for signets. *)
Lemma get_other_envelope w w' m : nice m = true -> only_envelope dir w w' m -> forall id r, dir_get jundump dir w' id r = dir_get jundump dir w id r.
Proof using Type.
  intros N O id r. unfold dir_get. destruct (nice id) eqn:E; [|reflexivity]. unfold load_signet_file. rewrite O; [reflexivity|].
  apply (C33_distinct_files dir id r id r m m E E N N).
Qed.
End Usable.

Section Configure.
Variables (c : config) (cr : crypto).
Variables (jundump : bytes -> option sdata) (jedump : edata -> option bytes) (jeundump : bytes -> option edata).
Variable (edump : edata -> option bytes).
Variable (walk : fs -> list (path * bytes)).
Variable (dir : bytes).
Notation conf := (configure c cr jundump jedump jeundump edump walk dir).
Notation edt := (edit c cr jundump jedump edump walk dir).
Notation get_env := (dir_get_envelope jeundump suite_registry dir).

(** The envelope that `configure name` works on. *)
Definition target (w : fs) (name n : bytes) : Prop :=
  (get_env w name = Err EEnvelopeNotFound /\ n = Text.trim_space name /\ n <> [])
  \/ exists v, get_env w name = Ok v /\ n = ev_name v.

Lemma store_only w v w' : dir_store_envelope jedump dir w v = Ok w' -> nice (ev_name v) = true /\ only_envelope dir w w' (ev_name v)
  /\ exists b, jedump v = Some b /\ read w' (envelope_path dir (ev_name v)) = Some b.
Proof using Type.
  unfold dir_store_envelope. destruct (ev_name v) as [|x y] eqn:E; [discriminate|]. destruct (nice (x :: y)) eqn:N; [|discriminate].
  destruct (jedump v) as [b|]; [|discriminate]. intros [= <-]. split; [reflexivity|]. split.
  - intros p P. apply read_write_other. congruence.
  - exists b. split; [reflexivity|apply read_write_same].
Qed.
Lemma delete_only w n w' : dir_delete_envelope dir w n = Ok w' -> nice n = true /\ only_envelope dir w w' n /\ read w' (envelope_path dir n) = None.
Proof using Type.
  unfold dir_delete_envelope. destruct (nice n) eqn:N; [|discriminate]. destruct (read w _); [|discriminate]. intros [= <-].
  split; [reflexivity|]. split; [|apply read_del_same]. intros p P. apply read_del_other. congruence.
Qed.

(** The start of the menu. *)
Lemma select_sound n w sc e rs e' rs' : sound n e -> select_signets jundump walk w sc e rs = Ok (e', rs') ->
  sound n e' /\ exists ids, e' = put_signets sc e (map stub ids).
Proof using Type.
  intros S H. unfold select_signets in H. destruct (candidates jundump walk w sc); [|discriminate H..]. cbn [bind] in H.
  destruct rs as [|[|ls] q]; [discriminate H..|]. destruct (picked _ _ ls) as [ids| |]; [|discriminate H..]. cbn [bind] in H. injection H as <- <-.
  split; [now apply sound_put|]. now exists ids.
Qed.
Lemma select_all_sound n w scs e rs e' rs' : sound n e -> lists_ok cr jundump dir w e -> select_all jundump walk w scs e rs = Ok (e', rs') ->
  sound n e' /\ lists_ok cr jundump dir w e'.
Proof using Type.
  revert e rs. induction scs as [|sc scs IH]; intros e rs S L H; [cbn in H; injection H as <- <-; auto|]. cbn [select_all] in H.
  destruct (select_signets jundump walk w sc e rs) as [[e2 rs2]| |] eqn:E; [|discriminate H..]. cbn [bind] in H.
  destruct (select_sound _ _ _ _ _ _ _ S E) as [S2 (ids & ->)]. eapply IH; [exact S2| |exact H]. now apply lists_put.
Qed.
Lemma new_sound w name rs e rs' : new_envelope jundump walk w name rs = Ok (e, rs') ->
  Text.trim_space name <> [] /\ sound (Text.trim_space name) e /\ lists_ok cr jundump dir w e.
Proof using Type.
  unfold new_envelope. destruct (Text.trim_space name) as [|x y]; [discriminate|]. intro H. split; [discriminate|].
  destruct rs as [|[line|] q]; [discriminate H| |discriminate H].
  assert (EMP : forall su, sound (x :: y) (mkEnvelope 1 (x :: y) su None [] [] [] 0 false) /\ lists_ok cr jundump dir w (mkEnvelope 1 (x :: y) su None [] [] [] 0 false)).
  { intro su. split; [repeat split; now left|]. split; [|split]; left; constructor. }
  destruct (preset line) as [[su scs]|].
  - eapply select_all_sound; [apply EMP|apply EMP|exact H].
  - injection H as <- <-. apply EMP.
Qed.
Lemma env_of_sound v su : get_suite suite_registry (ev_suite v) = Some su -> sound (ev_name v) (env_of v).
Proof using Type. intro G. split; [reflexivity|]. split; [reflexivity|]. now right. Qed.
Lemma get_env_suite w name v : get_env w name = Ok v -> exists su, get_suite suite_registry (ev_suite v) = Some su.
Proof using Type.
  unfold dir_get_envelope. destruct (nice name); [|discriminate]. destruct (read w _); [|discriminate]. unfold load_envelope.
  destruct (jeundump _) as [v'|]; [|discriminate]. cbn [of_option bind]. destruct (get_suite suite_registry (ev_suite v')) as [su|] eqn:G; [|discriminate].
  intros [= <-]. eauto.
Qed.

(** A run is one of the editor, or changes nothing. *)
Lemma configure_cases name args rs w o w' ts rest : conf (name :: args) rs w = (o, w', ts, rest) ->
  (w' = w /\ ts = [] /\ o <> Ok tt)
  \/ exists n e rs', target w name n /\ sound n e /\ edt rs' w e = (o, w', ts, rest)
       /\ ((forall v, get_env w name = Ok v -> Forall (fun d => d_key d = []) (ev_secrets v ++ ev_senders v ++ ev_recipients v)) -> lists_ok cr jundump dir w e).
Proof using Type.
  unfold configure. destruct (nice name) eqn:NN; [|intros [= <- <- <- <-]; left; repeat split; discriminate].
  destruct (get_env w name) as [v|x|] eqn:G.
  - intro H. right. exists (ev_name v), (env_of v), rs. split; [right; now exists v|]. destruct (get_env_suite _ _ _ G) as (su & GS). split; [eapply env_of_sound; exact GS|]. split; [exact H|].
    intro K. specialize (K v eq_refl). apply Forall_app in K as [K1 K]. apply Forall_app in K as [K2 K3].
    assert (F : forall b l, Forall (fun d => d_key d = []) l -> list_ok cr jundump dir w b (map signet_of l)).
    { intros b l F. left. apply Forall_forall. intros y Hy. apply in_map_iff in Hy as (d & <- & Hd). left. rewrite Forall_forall in F. exact (F d Hd). }
    split; [|split]; apply F; assumption.
  - destruct x; try (intros [= <- <- <- <-]; left; repeat split; discriminate).
    destruct (new_envelope jundump walk w name rs) as [[e rs']|x|] eqn:NE.
    + intro H. right. destruct (new_sound _ _ _ _ _ NE) as (T & S & L). exists (Text.trim_space name), e, rs'. split; [left; auto|]. split; [exact S|]. split; [exact H|]. auto.
    + intros [= <- <- <- <-]; left; repeat split; discriminate.
    + intros [= <- <- <- <-]; left; repeat split; discriminate.
  - intros [= <- <- <- <-]; left; repeat split; discriminate.
Qed.

(** C62: only the envelope that is configured changes, and only if the command succeeds; what is saved or printed was checked. *)
Theorem C62_effects : forall name args rs w o w' ts rest, conf (name :: args) rs w = (o, w', ts, rest) ->
  (w' = w \/ (o = Ok tt /\ exists n, target w name n /\ nice n = true /\ only_envelope dir w w' n
               /\ (read w' (envelope_path dir n) = None
                   \/ exists v b, jedump v = Some b /\ read w' (envelope_path dir n) = Some b /\ ev_name v = n /\ passed c cr v)))
  /\ forall t, In t ts -> exists v, target w name (ev_name v) /\ passed c cr v /\ export_envelope edump false v = Ok t.
Proof using Type.
  intros name args rs w o w' ts rest H. destruct (configure_cases _ _ _ _ _ _ _ _ H) as [(-> & -> & _)|(n & e & rs' & T & S & E & _)]; [split; [now left|intros t []]|].
  pose proof (edit_edited c cr jundump jedump edump walk dir w (sound n) (fun e e1 A B => sound_status c cr jundump dir n w e e1 A B) (fun e id su A B => sound_suite n e id su A B)
    (fun e sc cs ids A _ _ => sound_put n e sc _ A) (fun e A => sound_clean n e A) (length rs') rs' e (le_n _) S) as ED. rewrite E in ED. destruct ED as [E1 E2]. split.
  - destruct E1 as [->|(-> & e0 & e1 & S0 & ST & C)]; [now left|]. right. split; [reflexivity|]. exists n. split; [exact T|].
    destruct C as [D|(s & A & SV)].
    + assert (EN : e_name e1 = n) by apply (sound_status _ _ _ _ _ _ _ _ S0 ST). rewrite EN in D. destruct (delete_only _ _ _ D) as (D1 & D2 & D3). split; [exact D1|]. split; [exact D2|now left].
    + destruct (approved_passed _ _ _ _ _ _ _ _ _ S0 A) as [P EN]. destruct (store_only _ _ _ SV) as (D1 & D2 & b & D3 & D4). rewrite EN in *.
      split; [exact D1|]. split; [exact D2|]. right. exists (saved e1), b. auto.
  - intros t Ht. destruct (E2 t Ht) as (e0 & e1 & s & S0 & A & X). destruct (approved_passed _ _ _ _ _ _ _ _ _ S0 A) as [P EN].
    exists (saved e1). rewrite EN. auto.
Qed.

(** C62: what is saved or printed can be used: the envelope is read back, and a session starts with the level it names. *)
Theorem C62_usable : forall name args rs w o w' ts rest, conf (name :: args) rs w = (o, w', ts, rest) -> orderly jundump dir w ->
  (forall v, get_env w name = Ok v -> Forall (fun d => d_key d = []) (ev_secrets v ++ ev_senders v ++ ev_recipients v)) ->
  (w' = w \/ (o = Ok tt /\ exists n, target w name n /\ only_envelope dir w w' n
               /\ (get_env w' n = Err EEnvelopeNotFound \/ exists v, dir_store_envelope jedump dir w v = Ok w' /\ works c cr jundump dir w' v
                                                             /\ (codec_ok jedump jeundump v -> get_env w' n = Ok v))))
  /\ forall t, In t ts -> exists v, target w name (ev_name v) /\ works c cr jundump dir w v /\ export_envelope edump false v = Ok t.
Proof using Type.
  intros name args rs w o w' ts rest H OD BK. destruct (configure_cases _ _ _ _ _ _ _ _ H) as [(-> & -> & _)|(n & e & rs' & T & S & E & L)]; [split; [now left|intros t []]|].
  specialize (L BK). set (I := fun e => sound n e /\ lists_ok cr jundump dir w e).
  pose proof (edit_edited c cr jundump jedump edump walk dir w I
    (fun e e1 A B => conj (sound_status c cr jundump dir n w e e1 (proj1 A) B) (lists_status c cr jundump dir w OD e e1 (proj1 (proj2 (proj1 A))) (proj2 A) B))
    (fun e id su A B => conj (sound_suite n e id su (proj1 A) B) (proj2 A))
    (fun e sc cs ids A _ _ => conj (sound_put n e sc _ (proj1 A)) (lists_put cr jundump dir w e sc ids (proj2 A)))
    (fun e A => conj (sound_clean n e (proj1 A)) (lists_clean cr jundump dir w e)) (length rs') rs' e (le_n _) (conj S L)) as ED. rewrite E in ED. destruct ED as [E1 E2]. split.
  - destruct E1 as [->|(-> & e0 & e1 & [S0 L0] & ST & C)]; [now left|]. right. split; [reflexivity|]. exists n. split; [exact T|].
    destruct C as [D|(s & A & SV)].
    + assert (EN : e_name e1 = n) by apply (sound_status _ _ _ _ _ _ _ _ S0 ST). rewrite EN in D. destruct (delete_only _ _ _ D) as (D1 & D2 & D3). split; [exact D2|].
      left. unfold dir_get_envelope. now rewrite D1, D3.
    + destruct (approved_passed _ _ _ _ _ _ _ _ _ S0 A) as [P EN]. destruct (store_only _ _ _ SV) as (D1 & D2 & b & D3 & D4). rewrite EN in *.
      split; [exact D2|]. right. exists (saved e1). split; [exact SV|]. split.
      * eapply approved_works; [exact OD| |exact S0|exact L0|exact A]. eapply get_other_envelope; [exact D1|exact D2].
      * intros (b' & B1 & _ & B2). unfold dir_get_envelope. rewrite D1, D4. rewrite D3 in B1. injection B1 as <-.
        unfold load_envelope. rewrite B2. cbn [of_option bind]. destruct P as (_ & e2 & s2 & su2 & _ & _ & _ & G & _). now rewrite G.
  - intros t Ht. destruct (E2 t Ht) as (e0 & e1 & s & [S0 L0] & A & X). destruct (approved_passed _ _ _ _ _ _ _ _ _ S0 A) as [P EN].
    exists (saved e1). rewrite EN. split; [exact T|]. split; [|exact X]. eapply approved_works; [exact OD|reflexivity|exact S0|exact L0|exact A].
Qed.

(** ** The signets of the menus *)
Definition right_scheme (sc : scope) : bytes -> Prop :=
  match sc with
  | ScPassword | ScKey | ScSecrets => fun s => s = scheme_pw \/ s = scheme_key
  | ScSender => tool_for [PSigning]
  | ScRecipient => tool_for [PKeyExchange; PKeyEncapsulation]
  end.
Definition public_scope (sc : scope) : bool := match sc with ScRecipient => true | _ => false end.
Lemma decoded_in (l : list bytes) : forall ds d, decode_all jundump l = Some ds -> In d ds -> exists b, In b l /\ jundump b = Some d.
Proof using Type.
  induction l as [|b l IH]; intros ds d H I; cbn in H; [injection H as <-; destruct I|]. destruct (jundump b) as [a|] eqn:B; [|discriminate H]. fold (decode_all jundump l) in H.
  destruct (decode_all jundump l) as [x|]; [|discriminate H]. injection H as <-. destruct I as [<-|I]; [exists b; split; [now left|exact B]|]. destruct (IH x d eq_refl I) as (b' & B1 & B2). exists b'. split; [now right|exact B2].
Qed.
Lemma candidates_stored w sc cs id : candidates jundump walk w sc = Ok cs -> In id (map sg_id cs) -> stored_signet jundump (walk w) (public_scope sc) (right_scheme sc) id.
Proof using Type.
  unfold candidates. rewrite dir_select_eq. destruct (decode_all jundump (signet_files (walk w))) as [ds|] eqn:D; [|discriminate]. cbn [bind]. intros H I.
  assert (X : exists d, In d (chosen (scope_filter sc) (scope_schemes sc) ds) /\ d_id d = id).
  { destruct (chosen _ _ ds) as [|x y]; [discriminate H|]. injection H as <-. apply in_map_iff in I as (sg & <- & I). change (signet_of x :: map signet_of y) with (map signet_of (x :: y)) in I.
    apply in_map_iff in I as (d & <- & I). exists d. auto. }
  destruct X as (d & I' & E). apply filter_In in I' as [ID K]. apply andb_true_iff in K as [K1 K2]. apply scheme_ok_iff in K1. apply kind_ok_iff in K2.
  destruct (decoded_in _ _ _ D ID) as (b & B1 & B2). apply in_map_iff in B1 as ([p b'] & B & B1). cbn in B. subst b'. apply filter_In in B1 as [B1 _].
  exists p, b, d. split; [exact B1|]. split; [exact B2|]. split; [exact E|]. split; [destruct sc; exact K2|].
  assert (NO : forall f, In (d_scheme d) (names_of f) -> exists t, In t tool_registry /\ t_name t = d_scheme d /\ f (t_purpose t) = true).
  { intros f N. apply in_map_iff in N as (t & T1 & T2). apply filter_In in T2 as [T2 T3]. exists t. auto. }
  unfold of_scheme in K1. destruct sc; cbn [scope_schemes right_scheme] in *.
  - destruct K1 as [K1|[K1|[]]]; [discriminate K1|now left].
  - destruct K1 as [K1|[K1|[]]]; [discriminate K1|now right].
  - destruct K1 as [K1|[K1|[K1|[]]]]; [discriminate K1|now left|now right].
  - destruct K1 as [K1|K1]; [vm_compute in K1; discriminate K1|]. destruct (NO _ K1) as (t & T1 & T2 & T3). exists t. split; [exact T1|]. split; [exact T2|]. destruct (t_purpose t); try discriminate T3; [left|right; left]; reflexivity.
  - destruct K1 as [K1|K1]; [vm_compute in K1; discriminate K1|]. destruct (NO _ K1) as (t & T1 & T2 & T3). exists t. split; [exact T1|]. split; [exact T2|]. destruct (t_purpose t); try discriminate T3. left. reflexivity.
Qed.
(** Where the IDs of an envelope come from, when the editor was started with [old]. *)
Definition traced (w : fs) (old e : envelope) : Prop :=
  e_opening e = false
  /\ (forall id, In id (map sg_id (e_secrets e)) -> In id (map sg_id (e_secrets old)) \/ stored_signet jundump (walk w) false (right_scheme ScSecrets) id)
  /\ (forall id, In id (map sg_id (e_senders e)) -> In id (map sg_id (e_senders old)) \/ stored_signet jundump (walk w) false (right_scheme ScSender) id)
  /\ (forall id, In id (map sg_id (e_recipients e)) -> In id (map sg_id (e_recipients old)) \/ stored_signet jundump (walk w) true (right_scheme ScRecipient) id).
Lemma stub_ids l : map sg_id (map stub l) = l.
Proof using Type. induction l as [|x l IH]; [reflexivity|]. cbn [map stub sg_id]. now rewrite IH. Qed.
Lemma cleaned_ids l : map sg_id (map cleaned l) = map sg_id l.
Proof using Type. now rewrite map_map. Qed.
Lemma traced_put w old e sc cs l : traced w old e -> candidates jundump walk w sc = Ok cs ->
  (forall id, In id l -> In id (map sg_id (scope_current sc e)) \/ In id (map sg_id cs)) -> traced w old (put_signets sc e (map stub l)).
Proof using Type.
  intros (O & A & B & D) CD K. pose proof (candidates_stored w sc cs) as CS. destruct sc; cbn [put_signets scope_current] in *; (split; [exact O|]); cbn [with_secrets with_senders with_recipients e_secrets e_senders e_recipients]; rewrite stub_ids.
  all: (split; [|split]); try assumption; intros id I; destruct (K id I) as [X|X]; try (destruct X); auto.
Qed.
Lemma traced_select w scs : forall old e rs e' rs', traced w old e -> select_all jundump walk w scs e rs = Ok (e', rs') -> traced w old e'.
Proof using Type.
  induction scs as [|sc scs IH]; intros old e rs e' rs' T H; [injection H as <- _; exact T|]. cbn [select_all] in H. unfold select_signets in H.
  destruct (candidates jundump walk w sc) as [cs| |] eqn:CD; [|discriminate H..]. cbn [bind] in H. destruct rs as [|[|ls] q]; [discriminate H..|].
  destruct (picked _ _ ls) as [l| |] eqn:PK; [|discriminate H..]. cbn [bind] in H. eapply IH; [|exact H]. eapply traced_put; [exact T|exact CD|exact (picked_known _ _ _ _ PK)].
Qed.
(** C62: what is saved or printed refers only to signets that were in the envelope, or were to be found in the store where the
    scope of the menu says. *)
Theorem C62_known : forall name args rs w o w' ts rest, conf (name :: args) rs w = (o, w', ts, rest) -> orderly jundump dir w ->
  let old := match get_env w name with Ok v => Some v | _ => None end in
  (w' = w \/ (o = Ok tt /\ exists n, target w name n /\
      (read w' (envelope_path dir n) = None \/ exists v, dir_store_envelope jedump dir w v = Ok w' /\ ev_name v = n /\ known_signets jundump (walk w) old v)))
  /\ forall t, In t ts -> exists v, known_signets jundump (walk w) old v /\ export_envelope edump false v = Ok t.
Proof using Type.
  intros name args rs w o w' ts rest H OD old.
  assert (C : (w' = w /\ ts = []) \/ exists n e0 e rs', target w name n /\ sound n e /\ edt rs' w e = (o, w', ts, rest) /\ traced w e0 e /\ (forall v, old = Some v -> e0 = env_of v) /\ (old = None -> ids e0 = ([], [], []))).
  { subst old. unfold configure in H. destruct (nice name) eqn:NN; [|injection H as <- <- <- <-; auto].
    destruct (get_env w name) as [v|x|] eqn:G.
    - right. destruct (get_env_suite _ _ _ G) as (su & GS). exists (ev_name v), (env_of v), (env_of v), rs. split; [right; now exists v|]. split; [eapply env_of_sound; exact GS|]. split; [exact H|].
      split; [|split; [intros v' E; now injection E as <-|discriminate]]. split; [reflexivity|]. auto.
    - destruct x; try (injection H as <- <- <- <-; auto). destruct (new_envelope jundump walk w name rs) as [[e rs']|x|] eqn:NE; [|injection H as <- <- <- <-; auto..].
      right. destruct (new_sound _ _ _ _ _ NE) as (T & S & L). exists (Text.trim_space name), (mkEnvelope 1 (Text.trim_space name) [] None [] [] [] 0 false), e, rs'. split; [left; auto|]. split; [exact S|]. split; [exact H|].
      split; [|split; [discriminate|reflexivity]]. unfold new_envelope in NE. destruct (Text.trim_space name) as [|a b]; [discriminate NE|]. destruct rs as [|[line|] q]; [discriminate NE| |discriminate NE].
      assert (EMP : forall su, traced w (mkEnvelope 1 (a :: b) [] None [] [] [] 0 false) (mkEnvelope 1 (a :: b) su None [] [] [] 0 false)) by (intro su; split; [reflexivity|]; auto).
      destruct (preset line) as [[su scs]|]; [eapply traced_select; [apply EMP|exact NE]|]. injection NE as <- _. apply EMP.
    - injection H as <- <- <- <-. auto. }
  destruct C as [[-> ->]|(n & e0 & e & rs' & T & S & E & TR & OE & ON)]; [split; [now left|intros t []]|].
  assert (ED : edited c cr jundump jedump edump dir w (fun e => sound n e /\ traced w e0 e) (edt rs' w e)).
  { apply (edit_edited c cr jundump jedump edump walk dir w _) with (n := length rs').
    - intros x x1 [A1 A2] B. pose proof (sound_status c cr jundump dir n w x x1 A1 B) as SS. split; [exact SS|]. pose proof (ids_status c cr jundump dir w OD x x1 (proj1 A2) B) as X.
      unfold ids in X. injection X as X1 X2 X3. unfold traced. rewrite X1, X2, X3. split; [exact (proj1 (proj2 SS))|exact (proj2 A2)].
    - intros x id su [A1 A2] B. split; [exact (sound_suite n x id su A1 B)|exact A2].
    - intros x sc cs l [A1 A2] B K. split; [exact (sound_put n x sc _ A1)|exact (traced_put w e0 x sc cs l A2 B K)].
    - intros x [A1 A2]. split; [exact (sound_clean n x A1)|]. unfold traced, clean_env. cbn [e_opening e_secrets e_senders e_recipients]. rewrite !cleaned_ids. exact A2.
    - apply le_n.
    - split; assumption. }
  rewrite E in ED. destruct ED as [E1 E2].
  assert (KN : forall ea eb s, sound n ea /\ traced w e0 ea -> approved c cr jundump dir w ea eb s -> known_signets jundump (walk w) old (saved eb) /\ ev_name (saved eb) = n).
  { intros ea eb s [SA TA] AP. split; [|exact (proj2 (approved_passed _ _ _ _ _ _ _ _ _ SA AP))].
    assert (ST : map sg_id (e_secrets eb) = map sg_id (e_secrets ea) /\ map sg_id (e_senders eb) = map sg_id (e_senders ea) /\ map sg_id (e_recipients eb) = map sg_id (e_recipients ea)).
    { destruct AP as (e' & PR & N & -> & _). assert (ST : status c cr jundump dir w ea = Ok (with_level e' (s_level s))) by (unfold status; now rewrite PR, N).
      pose proof (ids_status c cr jundump dir w OD ea _ (proj1 TA) ST) as X. unfold ids in X. injection X as X1 X2 X3. auto. }
    destruct ST as (S1 & S2 & S3). destruct TA as (_ & A & B & D).
    assert (ID : forall (l : list signet) d, In d (map cleaned_data l) -> In (d_id d) (map sg_id l)).
    { intros l d I. apply in_map_iff in I as (sg & <- & I). cbn. now apply in_map. }
    assert (OLD : forall (f : envelope -> list signet) (g : edata -> list sdata) id, (forall v, f (env_of v) = map signet_of (g v)) -> (ids e0 = ([], [], []) -> map sg_id (f e0) = []) -> In id (map sg_id (f e0)) -> exists o d', old = Some o /\ In d' (g o) /\ d_id d' = id).
    { intros f g id F1 F2 I. destruct old as [v|] eqn:EO.
      - rewrite (OE v eq_refl), F1 in I. apply in_map_iff in I as (sg & <- & I). apply in_map_iff in I as (d & <- & I). exists v, d. auto.
      - rewrite (F2 (ON eq_refl)) in I. destruct I. }
    split; [|split]; intros d I; cbn [saved ev_secrets ev_senders ev_recipients] in I; apply ID in I.
    - rewrite S1 in I. destruct (A _ I) as [X|X]; [left; apply (OLD e_secrets ev_secrets); [reflexivity|unfold ids; intro Y; now injection Y|exact X]|now right].
    - rewrite S2 in I. destruct (B _ I) as [X|X]; [left; apply (OLD e_senders ev_senders); [reflexivity|unfold ids; intro Y; now injection Y|exact X]|now right].
    - rewrite S3 in I. destruct (D _ I) as [X|X]; [left; apply (OLD e_recipients ev_recipients); [reflexivity|unfold ids; intro Y; now injection Y|exact X]|now right]. }
  split.
  - destruct E1 as [->|(-> & ea & eb & SA & ST & C)]; [now left|]. right. split; [reflexivity|]. exists n. split; [exact T|]. destruct C as [D|(s & A & SV)].
    + left. assert (EN : e_name eb = n) by apply (sound_status _ _ _ _ _ _ _ _ (proj1 SA) ST). rewrite EN in D. exact (proj2 (proj2 (delete_only _ _ _ D))).
    + right. exists (saved eb). destruct (KN _ _ _ SA A) as [K1 K2]. auto.
  - intros t Ht. destruct (E2 t Ht) as (ea & eb & s & SA & A & X). exists (saved eb). split; [exact (proj1 (KN _ _ _ SA A))|exact X].
Qed.

(** ** No panics *)
Section Calm.
Hypothesis load_np : forall t k b, cr_load cr t k b <> Panic.
Lemma dir_get_np w id r : dir_get jundump dir w id r <> Panic.
Proof using Type. unfold dir_get, load_signet_file. destruct (nice id); [|discriminate]. destruct (read w _) as [b|]; [|discriminate]. destruct (jundump b); discriminate. Qed.
Lemma pload_np sg : prep_loaded tool_registry cr sg <> Panic.
Proof using load_np.
  unfold prep_loaded. destruct (sg_prot sg); [discriminate|]. destruct (_ || _)%bool; [discriminate|]. unfold Envelope.load_key.
  destruct (sg_pub sg); [discriminate|]. destruct (sg_prot sg); [discriminate|]. unfold tools_get. destruct (find _ _) as [t|]; [|discriminate]. cbn [of_option bind].
  destruct (uses_signets t); [|discriminate]. pose proof (load_np (t_name t) (sg_key sg) (sg_public sg)) as L. destruct (cr_load _ _ _ _) as [[p k]| |]; cbn [bind]; [discriminate|discriminate|congruence].
Qed.
Lemma prep_np w level r l : fst (prep_signets tool_registry cr (store_world jundump dir w) level r l) <> Panic.
Proof using load_np.
  revert r. induction l as [|sg l IH]; intro r; [discriminate|]. rewrite prep_cons. unfold prep_one. destruct (nonempty (sg_key sg)).
  { pose proof (pload_np sg) as P. destruct (prep_loaded _ _ sg); [|discriminate|congruence]. specialize (IH r). destruct (prep_signets _ _ _ _ r l) as [[]]; [discriminate..|exact IH]. }
  destruct (bytes_eqb (sg_scheme sg) scheme_pw).
  { assert (FP : fill_password (store_world jundump dir w) sg (negb r) level = (Ok sg, [])) by (destruct r; reflexivity). rewrite FP. cbn [other].
    specialize (IH r). destruct (prep_signets _ _ _ _ r l) as [[]]; [discriminate..|exact IH]. }
  set (rec := if bytes_eqb (sg_scheme sg) scheme_key then false else r).
  assert (F : fetch (store_world jundump dir w) sg rec <> Panic).
  { unfold fetch. destruct (negb _); [discriminate|]. cbn [store_world w_signet]. pose proof (dir_get_np w (sg_id sg) rec) as G. destruct (dir_get _ _ _ _ _); [|discriminate|congruence].
    cbn [bind other]. destruct (_ && _)%bool; discriminate. }
  destruct (fetch _ sg rec) as [n| |]; [|discriminate|congruence]. cbn [bind].
  pose proof (pload_np n) as P. destruct (prep_loaded _ _ n); [|discriminate|congruence]. specialize (IH rec). destruct (prep_signets _ _ _ _ rec l) as [[]]; [discriminate..|exact IH].
Qed.
Lemma prepare_calm w e : fst (prepare suite_registry tool_registry cr (store_world jundump dir w) e) <> Panic.
Proof using load_np.
  unfold prepare. unfold load_suite. destruct (match e_suite e with Some _ => _ | None => _ end) as [su| |] eqn:L; [|discriminate|].
  2:{ destruct (e_suite e); [discriminate L|]. destruct (get_suite _ _); discriminate L. }
  pose proof (prep_np w (su_level su) (e_opening e) (e_secrets e)) as P1. destruct (prep_signets _ _ _ _ _ (e_secrets e)) as [[]]; [|discriminate|exfalso; apply P1; reflexivity].
  pose proof (prep_np w (su_level su) (e_opening e) (e_senders e)) as P2. destruct (prep_signets _ _ _ _ _ (e_senders e)) as [[]]; [|discriminate|exfalso; apply P2; reflexivity].
  pose proof (prep_np w (su_level su) (negb (e_opening e)) (e_recipients e)) as P3. destruct (prep_signets _ _ _ _ _ (e_recipients e)) as [[]]; [discriminate..|exfalso; apply P3; reflexivity].
Qed.
Definition known (e : envelope) : Prop := exists su, load_suite suite_registry e = Ok su.
Lemma status_calm w e : known e -> exists e1, status c cr jundump dir w e = Ok e1 /\ known e1 /\ e_suite e1 <> None.
Proof using load_np.
  intros (su & K). unfold status. set (ez := with_level e 0). assert (Kz : load_suite suite_registry ez = Ok su) by exact K.
  pose proof (prepare_calm w ez) as P. destruct (fst (prepare _ _ _ _ ez)) as [e'| |] eqn:E; [| |congruence].
  - destruct (prepare_suite _ _ _ _ _ _ E) as (su' & _ & ES).
    assert (X : forall l, known (with_level e' l) /\ e_suite (with_level e' l) <> None) by (intro l; split; [exists su'; unfold load_suite; cbn; now rewrite ES|cbn; rewrite ES; discriminate]).
    pose proof (new_session_np c tool_registry hash_registry cr load_np e') as N. destruct (new_session _ _ _ _ e') as [s| |]; [| |congruence].
    + eexists. split; [reflexivity|]. apply X.
    + eexists. split; [reflexivity|]. split; [exists su'; unfold load_suite; now rewrite ES|rewrite ES; discriminate].
  - eexists. split; [reflexivity|]. destruct (env_left_same cr jundump dir w ez) as (_ & _ & _ & A & _). specialize (A _ Kz). split; [exists su; unfold load_suite; now rewrite A|rewrite A; discriminate].
Qed.
Lemma candidates_np w sc : candidates jundump walk w sc <> Panic.
Proof using Type.
  unfold candidates. assert (S : forall f ss files sel, dir_select jundump f ss files sel <> Panic).
  { intros f ss files. induction files as [|[p b] r IH]; intro sel; [discriminate|]. cbn [dir_select]. destruct (_ || _)%bool; [|apply IH].
    destruct (jundump b); [|discriminate]. destruct (_ && _)%bool; apply IH. }
  pose proof (S (scope_filter sc) (scope_schemes sc) (walk w) []) as P. destruct (dir_select _ _ _ _ _) as [l| |]; [|discriminate|congruence]. cbn [bind]. destruct l; discriminate.
Qed.
Lemma picked_np cur cs ls : (forall l, In l ls -> fields l <> []) -> picked cur cs ls <> Panic.
Proof using Type.
  induction ls as [|l ls IH]; intro H; [discriminate|]. cbn [picked]. destruct (rev (fields l)) as [|id q] eqn:R.
  - exfalso. apply (H l (or_introl eq_refl)). rewrite <- (rev_involutive (fields l)), R. reflexivity.
  - specialize (IH (fun x X => H x (or_intror X))). destruct (picked cur cs ls); [|discriminate|congruence]. cbn [bind]. destruct (_ || _)%bool; discriminate.
Qed.
Lemma known_put sc e l : known e -> known (put_signets sc e l).
Proof using Type. intros (su & K). exists su. destruct sc; exact K. Qed.
Lemma menu_starts line item : menu line item = true <-> starts item line.
Proof using Type.
  unfold menu, starts. revert line. induction item as [|x item IH]; intro line; [split; [intros _; now exists line|intros _; destruct line; reflexivity]|].
  destruct line as [|y line]; [split; [discriminate|intros (r & E); discriminate E]|]. cbn [has_prefix]. rewrite andb_true_iff, byte_eqb_eq, IH. split.
  - intros (-> & r & ->). now exists r.
  - intros (r & E). injection E as -> ->. split; [reflexivity|now exists r].
Qed.
Lemma from_menus_tail r rs : from_menus (r :: rs) -> from_menus rs.
Proof using Type.
  intros [A B]. split; [|intros ls l H1 H2; eapply B; [right; exact H1|exact H2]]. intros r1 a b r2 -> S. apply (A (r :: r1) a b r2); [reflexivity|exact S].
Qed.
Lemma edit_calm n rs w e : length rs <= n -> from_menus rs -> known e -> fst (fst (fst (edt rs w e))) <> Panic.
Proof using load_np jeundump.
  revert rs e. induction n as [|n IH]; intros rs e Hn FM K.
  all: destruct (status_calm w e K) as (e1 & S & K1 & E1); destruct rs as [|r rs]; cbn [edit]; rewrite S; destruct (e_suite e1) as [su0|]; [|congruence| |congruence].
  1,3: discriminate.
  { cbn in Hn. lia. }
  cbn [length] in Hn. assert (Hn' : length rs <= n) by lia. pose proof (from_menus_tail _ _ FM) as FM'.
  destruct r as [line|ls]; [|discriminate].
  destruct (menu line (lit "Done")).
  { destruct (e_level e1 =? 0)%Z; [now apply IH|]. unfold dir_store_envelope. destruct (ev_name _); [discriminate|]. destruct (nice _); [|discriminate]. destruct (jedump _); discriminate. }
  destruct (menu line (lit "Export")).
  { destruct (e_level e1 =? 0)%Z; [now apply IH|]. unfold export_envelope. destruct (edump _); [|discriminate].
    assert (KC : known (clean_env e1)) by exact K1.
    specialize (IH rs (clean_env e1) Hn' FM' KC). destruct (edt rs w (clean_env e1)) as [[[o w'] ts] rest]. exact IH. }
  destruct (menu line (lit "Abort")); [discriminate|].
  destruct (menu line (lit "Delete")).
  { unfold dir_delete_envelope. destruct (nice _); [|discriminate]. destruct (read _ _); discriminate. }
  destruct (menu line (lit "Suite")) eqn:ML.
  { destruct rs as [|[line2|] rs2]; try discriminate. destruct (fields line2) as [|id q] eqn:F.
    - exfalso. apply menu_starts in ML. exact (proj1 FM [] line line2 rs2 eq_refl ML F).
    - destruct (get_suite suite_registry id) as [su|]; [|discriminate]. apply IH; [cbn in Hn'; lia|eapply from_menus_tail; exact FM'|]. exists su. reflexivity. }
  destruct (if menu line (lit "Secrets") then _ else _) as [sc|]; [|now apply IH].
  pose proof (candidates_np w sc) as CN. destruct (candidates jundump walk w sc) as [cs| |]; [|discriminate|congruence].
  destruct rs as [|[|lines] rs2]; try discriminate.
  pose proof (picked_np (scope_current sc e1) cs lines (fun l => proj2 FM lines l (or_intror (or_introl eq_refl)))) as PN.
  destruct (picked (scope_current sc e1) cs lines) as [ids| |]; [|discriminate|congruence].
  apply IH; [cbn in Hn'; lia|eapply from_menus_tail; exact FM'|now apply known_put].
Qed.

Lemma preset_known line : In line presets -> exists su scs, preset line = Some (su, scs) /\ get_suite suite_registry su <> None.
Proof using Type.
  intro H. repeat (destruct H as [<-|H]; [do 2 eexists; split; [vm_compute; reflexivity|vm_compute; discriminate]|]). destruct H.
Qed.
Lemma select_all_known w scs e rs : from_menus rs -> known e ->
  select_all jundump walk w scs e rs <> Panic /\ forall e' rs', select_all jundump walk w scs e rs = Ok (e', rs') -> known e' /\ from_menus rs'.
Proof using Type.
  revert e rs. induction scs as [|sc scs IH]; intros e rs FM K; [split; [discriminate|cbn; intros e' rs' [= <- <-]; auto]|]. cbn [select_all].
  unfold select_signets at 1 2. pose proof (candidates_np w sc) as CN. destruct (candidates jundump walk w sc) as [cs| |]; [|split; discriminate|congruence]. cbn [bind].
  destruct rs as [|[|lines] rs2]; [split; discriminate..|].
  pose proof (picked_np (scope_current sc e) cs lines (fun l => proj2 FM lines l (or_introl eq_refl))) as PN.
  destruct (picked (scope_current sc e) cs lines) as [ids| |]; [|split; discriminate|congruence]. cbn [bind].
  apply IH; [eapply from_menus_tail; exact FM|now apply known_put].
Qed.

(** C62: answers from the menus never crash the command. *)
Theorem C62_no_panic : forall name args rs w o w' ts rest, conf (name :: args) rs w = (o, w', ts, rest) -> from_menus rs ->
  (get_env w name = Err EEnvelopeNotFound -> forall line r, rs = Choose line :: r -> In line presets) -> o <> Panic.
Proof using load_np.
  intros name args rs w o w' ts rest H FM PS. unfold configure in H. destruct (nice name) eqn:NN; [|injection H as <- _ _ _; discriminate].
  destruct (get_env w name) as [v|x|] eqn:G.
  - destruct (get_env_suite _ _ _ G) as (su & GS). assert (K : known (env_of v)) by (exists su; unfold load_suite; cbn [env_of e_suite]; now rewrite GS).
    pose proof (edit_calm (length rs) rs w (env_of v) (le_n _) FM K) as X. rewrite H in X. exact X.
  - destruct x; try (injection H as <- _ _ _; discriminate). specialize (PS eq_refl).
    destruct (new_envelope jundump walk w name rs) as [[e rs']|x|] eqn:NE; [|injection H as <- _ _ _; discriminate|].
    + assert (K : known e /\ from_menus rs').
      { unfold new_envelope in NE. destruct (Text.trim_space name) as [|n0 n1]; [discriminate NE|]. destruct rs as [|[line|] r]; [discriminate NE| |discriminate NE].
        destruct (preset_known line (PS _ _ eq_refl)) as (su & scs & P1 & P2). rewrite P1 in NE.
        eapply select_all_known; [eapply from_menus_tail; exact FM| |exact NE]. destruct (get_suite suite_registry su) as [s0|] eqn:GS; [|congruence]. exists s0. unfold load_suite. cbn [e_suite e_suite_id]. now rewrite GS. }
      pose proof (edit_calm (length rs') rs' w e (le_n _) (proj2 K) (proj1 K)) as X. rewrite H in X. exact X.
    + exfalso. unfold new_envelope in NE. destruct (Text.trim_space name) as [|n0 n1]; [discriminate NE|]. destruct rs as [|[line|] r]; [discriminate NE| |discriminate NE].
      destruct (preset_known line (PS _ _ eq_refl)) as (su & scs & P1 & P2). rewrite P1 in NE.
      refine (proj1 (select_all_known w scs _ r (from_menus_tail _ _ FM) _) NE). destruct (get_suite suite_registry su) as [s0|] eqn:GS; [|congruence]. exists s0. unfold load_suite. cbn [e_suite e_suite_id]. now rewrite GS.
  - exfalso. unfold dir_get_envelope in G. rewrite NN in G. destruct (read w _); [|discriminate G]. unfold load_envelope in G. destruct (jeundump _); [|discriminate G]. cbn [of_option bind] in G. destruct (get_suite _ _); discriminate G.
Qed.
End Calm.

(** C62: without "Done" or "Delete" nothing is changed. *)
Lemma edit_unsaved n rs w e : length rs <= n -> (forall line, In (Choose line) rs -> ~ starts (lit "Done") line /\ ~ starts (lit "Delete") line) ->
  snd (fst (fst (edt rs w e))) = w.
Proof using jeundump.
  revert rs e. induction n as [|n IH]; intros rs e Hn NS.
  all: destruct rs as [|r rs]; cbn [edit]; destruct (status c cr jundump dir w e) as [e1| |]; try reflexivity; destruct (e_suite e1) as [su0|]; try reflexivity.
  { cbn in Hn. lia. }
  cbn [length] in Hn. assert (Hn' : length rs <= n) by lia.
  destruct r as [line|ls]; [|reflexivity]. destruct (NS line (or_introl eq_refl)) as [N1 N2].
  assert (NS' : forall line, In (Choose line) rs -> ~ starts (lit "Done") line /\ ~ starts (lit "Delete") line) by (intros l H; apply NS; now right).
  destruct (menu line (lit "Done")) eqn:M1; [apply menu_starts in M1; contradiction|].
  destruct (menu line (lit "Export")).
  { destruct (e_level e1 =? 0)%Z; [now apply IH|]. destruct (export_envelope edump false (saved e1)) as [t| |]; [|reflexivity..].
    specialize (IH rs (clean_env e1) Hn' NS'). destruct (edt rs w (clean_env e1)) as [[[o w'] ts] rest]. exact IH. }
  destruct (menu line (lit "Abort")); [reflexivity|].
  destruct (menu line (lit "Delete")) eqn:M2; [apply menu_starts in M2; contradiction|].
  destruct (menu line (lit "Suite")).
  { destruct rs as [|[line2|] rs2]; try reflexivity. destruct (fields line2) as [|id q]; [reflexivity|].
    destruct (get_suite suite_registry id) as [su|]; [|reflexivity]. apply IH; [cbn in Hn'; lia|]. intros l H. apply NS'. now right. }
  destruct (if menu line (lit "Secrets") then _ else _) as [sc|]; [|now apply IH].
  destruct (candidates jundump walk w sc) as [cs| |]; [|reflexivity..].
  destruct rs as [|[|lines] rs2]; try reflexivity.
  destruct (picked (scope_current sc e1) cs lines) as [ids| |]; [|reflexivity..].
  apply IH; [cbn in Hn'; lia|]. intros l H. apply NS'. now right.
Qed.
Lemma select_all_in w scs : forall e rs e' rs', select_all jundump walk w scs e rs = Ok (e', rs') -> forall r, In r rs' -> In r rs.
Proof using Type.
  induction scs as [|sc scs IH]; intros e rs e' rs' H r Hr; [cbn in H; injection H as <- <-; exact Hr|]. cbn [select_all] in H.
  destruct (select_signets jundump walk w sc e rs) as [[e2 rs2]| |] eqn:E; [|discriminate H..]. cbn [bind] in H. specialize (IH _ _ _ _ H r Hr).
  unfold select_signets in E. destruct (candidates jundump walk w sc); [|discriminate E..]. cbn [bind] in E. destruct rs as [|[|ls] q]; [discriminate E..|].
  destruct (picked _ _ ls); [|discriminate E..]. cbn [bind] in E. injection E as _ <-. now right.
Qed.
Theorem C62_unsaved : forall args rs w o w' ts rest, conf args rs w = (o, w', ts, rest) ->
  (forall line, In (Choose line) rs -> ~ starts (lit "Done") line /\ ~ starts (lit "Delete") line) -> w' = w.
Proof using Type.
  intros args rs w o w' ts rest H NS. unfold configure in H. destruct args as [|name args]; [now injection H|]. destruct (nice name); [|now injection H].
  destruct (get_env w name) as [v|x|]; [|destruct x; try now injection H|now injection H].
  - pose proof (edit_unsaved (length rs) rs w (env_of v) (le_n _) NS) as X. rewrite H in X. exact X.
  - destruct (new_envelope jundump walk w name rs) as [[e rs']| |] eqn:NE; [|now injection H..].
    assert (NS' : forall line, In (Choose line) rs' -> ~ starts (lit "Done") line /\ ~ starts (lit "Delete") line).
    { intros l Hl. apply NS. unfold new_envelope in NE. destruct (Text.trim_space name); [discriminate NE|]. destruct rs as [|[line|] r]; [discriminate NE| |discriminate NE].
      destruct (preset line) as [[su scs]|]; [|injection NE as _ <-; now right]. right. eapply select_all_in; [exact NE|exact Hl]. }
    pose proof (edit_unsaved (length rs') rs' w e (le_n _) NS') as X. rewrite H in X. exact X.
Qed.
End Configure.

(** ** Concrete cases: a store with a recipient, a signer and their envelopes. *)
Fixpoint demo_list (l : list sdata) : option bytes :=
  match l with
  | [] => Some []
  | d :: r => match demo_dump d, demo_list r with Some b, Some q => Some (block b ++ q) | _, _ => None end
  end.
Fixpoint demo_unlist (n : nat) (b : bytes) : option (list sdata * bytes) :=
  match n with
  | O => Some ([], b)
  | S n => match get_block b with
           | Ok (x, r) => match demo_undump x, demo_unlist n r with Some d, Some (l, q) => Some (d :: l, q) | _, _ => None end
           | _ => None
           end
  end.
Definition demo_edump (v : edata) : option bytes :=
  match demo_list (ev_secrets v), demo_list (ev_senders v), demo_list (ev_recipients v) with
  | Some a, Some b, Some d => Some (n2b (ev_version v) :: n2b (Z.to_N (ev_level v)) :: n2b (N.of_nat (length (ev_secrets v))) :: n2b (N.of_nat (length (ev_senders v)))
                                    :: n2b (N.of_nat (length (ev_recipients v))) :: block (ev_name v) ++ block (ev_suite v) ++ a ++ b ++ d)
  | _, _, _ => None
  end.
Definition demo_eundump (x : bytes) : option edata :=
  match x with
  | vn :: lv :: na :: nb :: nd :: r =>
      match (do (nm, r1) <- get_block r; do (su, r2) <- get_block r1; Ok (nm, su, r2)) with
      | Ok (nm, su, r) =>
          match demo_unlist (N.to_nat (b2n na)) r with
          | Some (a, r) => match demo_unlist (N.to_nat (b2n nb)) r with
                           | Some (b, r) => match demo_unlist (N.to_nat (b2n nd)) r with
                                            | Some (d, _) => Some (mkEnv (b2n vn) nm su a b d (Z.of_N (b2n lv)))
                                            | None => None end
                           | None => None end
          | None => None end
      | _ => None
      end
  | _ => None
  end.
Definition tsdir : bytes := lit "/ts".
Definition file_of (d : sdata) : path * bytes := (join_path tsdir (storage_id (d_id d) (d_public d)), match demo_dump d with Some b => b | None => [] end).
Definition env_file (name : bytes) (v : edata) : path * bytes := (envelope_path tsdir name, match demo_edump v with Some b => b | None => [] end).
Definition bob : sdata := mkData 1 (lit "bob") (lit "ECDH-X25519") [n2b 3] true None (Some (mkInfo (lit "Bob") [])) None.
Definition ann : sdata := mkData 1 (lit "ann") (lit "Ed25519") [n2b 5] false None (Some (mkInfo (lit "Ann") [])) None.
Definition shop : fs := [file_of ann; file_of bob].
Definition all_files (w : fs) : list (path * bytes) := w.
Notation demo_conf := (configure default_config toy demo_undump demo_edump demo_eundump demo_edump all_files tsdir).
Definition mail_replies : list reply :=
  [Choose (lit "Encrypt for someone and sign"); ChooseMany [lit "Bob   ECDH-X25519   ...   bob"]; ChooseMany [lit "Ann   Ed25519   ...   ann"];
   Choose (lit "Export"); Choose (lit "Done    trust level")].
Definition mail_run := demo_conf [lit "mail"] mail_replies shop.
Definition files_after (r : ran) : fs := snd (fst (fst r)).
Definition ends (r : ran) : outcome unit := fst (fst (fst r)).
Definition printed (r : ran) : list bytes := snd (fst r).
Notation demo_get_env := (dir_get_envelope demo_eundump suite_registry tsdir).
Definition mail : edata := mkEnv 1 (lit "mail") (lit "v1") [] [mkData 1 (lit "ann") (lit "Ed25519") [] false None None None] [mkData 1 (lit "bob") (lit "ECDH-X25519") [] false None None None] 128.

(** Signet files written under their own IDs make an orderly store. *)
Lemma demo_read_back ds es : Forall (fun d => nice (d_id d) = true /\ exists b, demo_dump d = Some b /\ demo_undump b = Some d) ds -> Forall (fun e => nice (fst e) = true) es ->
  forall id r d, dir_get demo_undump tsdir (map file_of ds ++ map (fun e => env_file (fst e) (snd e)) es) id r = Ok d -> In d ds /\ d_id d = id.
Proof.
  intros F FE id r d. unfold dir_get. destruct (nice id) eqn:N; [|discriminate]. unfold load_signet_file, read. induction F as [|x ds [NX (b & D & U)] F IH].
  - cbn [map app]. induction FE as [|[n v] es NE FE IH]; [discriminate|]. cbn [map app a_get env_file fst snd].
    destruct (path_eqb (envelope_path tsdir n) _) eqn:E; [|exact IH]. apply path_eqb_eq in E. intros _. exfalso.
    apply (proj2 (proj2 (C33_distinct_files tsdir id r id r n n N N NE NE))). now symmetry.
  - cbn [map app a_get file_of]. destruct (path_eqb _ _) eqn:E.
    + apply path_eqb_eq in E. destruct (proj1 (C33_distinct_files tsdir (d_id x) (d_public x) id r id id NX N N N) E) as [EI _].
      rewrite D, U. cbn [of_option]. intros [= <-]. split; [now left|exact EI].
    + intro H. destruct (IH H) as [A B]. split; [now right|exact B].
Qed.
Lemma toy_load_np t k b : cr_load toy t k b <> Panic.
Proof. cbn [toy cr_load]. destruct k; discriminate. Qed.
Lemma demo_orderly ds es : Forall (fun d => nice (d_id d) = true /\ exists b, demo_dump d = Some b /\ demo_undump b = Some d) ds -> Forall (fun e => nice (fst e) = true) es ->
  Forall (fun d => d_scheme d = scheme_pw -> d_key d = []) ds -> orderly demo_undump tsdir (map file_of ds ++ map (fun e => env_file (fst e) (snd e)) es).
Proof.
  intros A B P. constructor; intros id r d H; destruct (demo_read_back _ _ A B _ _ _ H) as [D1 D2]; [exact D2|]. rewrite Forall_forall in P. exact (P d D1).
Qed.
Lemma ann_bob_ok : Forall (fun d => nice (d_id d) = true /\ exists b, demo_dump d = Some b /\ demo_undump b = Some d) [ann; bob].
Proof. repeat (constructor; [split; [reflexivity|]; eexists; split; [vm_compute; reflexivity|vm_compute; reflexivity]|]). constructor. Qed.
Lemma ann_bob_pw : Forall (fun d => d_scheme d = scheme_pw -> d_key d = []) [ann; bob].
Proof. repeat (constructor; [intro H; vm_compute in H; discriminate H|]). constructor. Qed.
Lemma demo_write w v w' : dir_store_envelope demo_edump tsdir w v = Ok w' -> exists b, demo_edump v = Some b /\ read w' (envelope_path tsdir (ev_name v)) = Some b.
Proof. intro H. apply store_only in H. tauto. Qed.

(** The hypotheses of the theorems are met by a run that prints an envelope and saves it. *)
Example C62_hypotheses_met : ends mail_run = Ok tt /\ files_after mail_run <> shop /\ length (printed mail_run) = 1
  /\ orderly demo_undump tsdir shop
  /\ demo_get_env shop (lit "mail") = Err EEnvelopeNotFound
  /\ demo_get_env (files_after mail_run) (lit "mail") = Ok mail /\ codec_ok demo_edump demo_eundump mail
  /\ from_menus mail_replies /\ (forall line r, mail_replies = Choose line :: r -> In line presets).
Proof.
  split; [vm_compute; reflexivity|]. split; [intro H; apply (f_equal (@length _)) in H; vm_compute in H; discriminate H|]. split; [vm_compute; reflexivity|].
  split; [exact (demo_orderly [ann; bob] [] ann_bob_ok (Forall_nil _) ann_bob_pw)|]. split; [vm_compute; reflexivity|]. split; [vm_compute; reflexivity|].
  split; [eexists; split; [vm_compute; reflexivity|]; split; [discriminate|vm_compute; reflexivity]|]. split.
  - split.
    + intros r1 a b r2 H. unfold mail_replies in H. repeat (destruct r1 as [|? r1]; [cbn [app] in H; try discriminate H; injection H as <- <- _; intros (r & S); vm_compute in S; discriminate S|injection H as <- H]).
      destruct r1; discriminate H.
    + intros ls l H1 H2. unfold mail_replies in H1. cbn [In] in H1. repeat (destruct H1 as [H1|H1]; [try discriminate H1; injection H1 as <-; destruct H2 as [<-|[]]; vm_compute; discriminate|]). destruct H1.
  - intros line r [= <- _]. cbn. tauto.
Qed.
(** Finding: `jess configure "mail "` finds no envelope of that name, makes a new one with the trimmed name, and replaces "mail". *)
Definition shop2 : fs := files_after mail_run.
Theorem C62_other_name_refuted : exists name rs w, demo_get_env w name = Err EEnvelopeNotFound /\ demo_get_env w (lit "mail") = Ok mail /\ name <> lit "mail"
  /\ (let r := demo_conf [name] rs w in ends r = Ok tt /\ exists v, demo_get_env (files_after r) (lit "mail") = Ok v /\ v <> mail /\ demo_get_env (files_after r) name = Err EEnvelopeNotFound).
Proof.
  exists (lit "mail "), [Choose (lit "Sign a file (wrapped)"); ChooseMany [lit "Ann   Ed25519   ...   ann"]; Choose (lit "Done")], shop2.
  split; [vm_compute; reflexivity|]. split; [vm_compute; reflexivity|]. split; [discriminate|]. cbv zeta. split; [vm_compute; reflexivity|].
  eexists. split; [vm_compute; reflexivity|]. split; [discriminate|]. vm_compute. reflexivity.
Qed.
(** Finding: an envelope that brings a recipient's key with it works; `configure` on it and "Done" removes the key, and what is saved does not work. *)
Definition carrying : edata := mkEnv 1 (lit "post") (lit "rcpt_v1") [] [] [mkData 1 (lit "zoe") (lit "ECDH-X25519") [n2b 8] true None None None] 128.
Definition shop3 : fs := shop ++ [env_file (lit "post") carrying].
Theorem C62_carried_key_refuted : exists w n v v', demo_get_env w n = Ok v /\ works default_config toy demo_undump tsdir w v /\ orderly demo_undump tsdir w
  /\ (let r := demo_conf [n] [Choose (lit "Done")] w in ends r = Ok tt /\ demo_get_env (files_after r) n = Ok v' /\ ~ works default_config toy demo_undump tsdir (files_after r) v').
Proof.
  exists shop3, (lit "post"), carrying. eexists. split; [vm_compute; reflexivity|]. split.
  - eexists. split; [vm_compute; reflexivity|]. split; [vm_compute; reflexivity|reflexivity].
  - split; [exact (demo_orderly [ann; bob] [(lit "post", carrying)] ann_bob_ok ltac:(repeat constructor) ann_bob_pw)|]. cbv zeta. split; [vm_compute; reflexivity|].
    split; [vm_compute; reflexivity|]. intros (s & H & _). vm_compute in H. discriminate H.
Qed.
Print Assumptions C62_effects.
Print Assumptions C62_known.
Print Assumptions C62_usable.
Print Assumptions C62_no_panic.
Print Assumptions C62_unsaved.
Print Assumptions C62_other_name_refuted.
Print Assumptions C62_carried_key_refuted.
