(** Lemmas for C62: what happens in the menus of `configure`. *)
From Verif Require Import Prelude PreludeFacts Requirements Tools Crypto Session Core Envelope Signets TrustStore SpecStore PropStore SpecExport Wizard SpecWizard.
From Verif Require Import SpecSession SessionFacts SessionComplete SessionProps PropSession Post CorePanic PropLetter.

Section Facts.
Variables (c : config) (cr : crypto).
Variables (jundump : bytes -> option sdata) (jedump : edata -> option bytes).
Variable (edump : edata -> option bytes).
Variable (walk : fs -> list (path * bytes)).
Variable (dir : bytes).
Notation stat := (status c cr jundump dir).
Notation edt := (edit c cr jundump jedump edump walk dir).
Notation prep w := (prepare suite_registry tool_registry cr (store_world jundump dir w)).
Notation sess := (new_session c tool_registry hash_registry cr).

(** A valid envelope, with its keys and its level. *)
Definition approved (w : fs) (e0 e1 : envelope) (s : session) : Prop :=
  exists e', fst (prep w (with_level e0 0)) = Ok e' /\ sess e' = Ok s /\ e1 = with_level e' (s_level s) /\ s_level s <> 0%Z.

Lemma prepare_level w e e' : fst (prep w e) = Ok e' -> e_level e' = e_level e /\ e_name e' = e_name e /\ e_suite_id e' = e_suite_id e /\ e_opening e' = e_opening e.
Proof using Type.
  unfold prepare. destruct (load_suite suite_registry e); [|discriminate..].
  destruct (prep_signets _ _ _ _ _ (e_secrets e)) as [[]]; [|discriminate..].
  destruct (prep_signets _ _ _ _ _ (e_senders e)) as [[]]; [|discriminate..].
  destruct (prep_signets _ _ _ _ _ (e_recipients e)) as [[]]; [|discriminate..].
  intros [= <-]. repeat split.
Qed.

Lemma status_approved w e e1 : stat w e = Ok e1 -> e_level e1 <> 0%Z -> exists s, approved w e e1 s.
Proof using Type.
  unfold status. destruct (fst (prep w (with_level e 0))) as [e'| |] eqn:P; intros H L; [| |discriminate H].
  - destruct (sess e') as [s| |] eqn:N; [| |discriminate H]; injection H as <-.
    + exists s, e'. repeat split; auto.
    + exfalso. apply L. apply (prepare_level _ _ _ P).
  - injection H as <-. exfalso. apply L. unfold env_left. destruct (load_suite _ _); [|reflexivity..].
    destruct (prep_ok _ _ _ _ _ _ _); [destruct (prep_ok _ _ _ _ _ _ _)|]; reflexivity.
Qed.

(** Only signets that are listed can be chosen. *)
Lemma picked_known current cs : forall lines ids, picked current cs lines = Ok ids -> forall id, In id ids -> In id (map sg_id current) \/ In id (map sg_id cs).
Proof using Type.
  induction lines as [|line lines IH]; intros ids H id I; cbn [picked] in H; [injection H as <-; destruct I|]. destruct (rev (fields line)) as [|x r]; [discriminate H|].
  destruct (picked current cs lines) as [ids'| |]; [|discriminate H..]. cbn [bind] in H. destruct (_ || _)%bool eqn:O; injection H as <-; [|now apply (IH ids')].
  destruct I as [<-|I]; [|now apply (IH ids')]. apply orb_true_iff in O as [O|O]; apply existsb_exists in O as (sg & S & O); apply bytes_eqb_eq in O; subst x; [left|right]; now apply in_map.
Qed.

(** What a run of the editor does, for an invariant of the envelope. *)
Section Invariant.
Variables (w : fs) (I : envelope -> Prop).
Hypothesis I_status : forall e e1, I e -> stat w e = Ok e1 -> I e1.
Hypothesis I_suite : forall e id su, I e -> get_suite suite_registry id = Some su -> I (with_suite e id (Some su)).
Hypothesis I_put : forall e sc cs ids, I e -> candidates jundump walk w sc = Ok cs ->
  (forall id, In id ids -> In id (map sg_id (scope_current sc e)) \/ In id (map sg_id cs)) -> I (put_signets sc e (map stub ids)).
Hypothesis I_clean : forall e, I e -> I (clean_env e).

Definition edited (r : ran) : Prop := let '(o, w', ts, _) := r in
  (w' = w
   \/ (o = Ok tt /\ exists e0 e1, I e0 /\ stat w e0 = Ok e1 /\
         (dir_delete_envelope dir w (e_name e1) = Ok w'
          \/ exists s, approved w e0 e1 s /\ dir_store_envelope jedump dir w (saved e1) = Ok w')))
  /\ (forall t, In t ts -> exists e0 e1 s, I e0 /\ approved w e0 e1 s /\ export_envelope edump false (saved e1) = Ok t).

Lemma edited_failed {A} (x : outcome A) rs : (match x with Ok _ => False | _ => True end) -> edited (failed x w rs).
Proof using Type. intros _. split; [now left|easy]. Qed.

Lemma edit_edited n rs e : length rs <= n -> I e -> edited (edt rs w e).
Proof using I_status I_suite I_put I_clean.
  revert rs e. induction n as [|n IH]; intros rs e Hn HI.
  all: destruct rs as [|r rs]; cbn [edit]; destruct (stat w e) as [e1| |] eqn:S; try (split; [now left|easy]); destruct (e_suite e1) as [su0|]; try (split; [now left|easy]).
  { cbn in Hn. lia. }
  cbn [length] in Hn. assert (Hn' : length rs <= n) by lia. assert (I1 : I e1) by eauto.
  destruct r as [line|ls]; [|split; [now left|easy]].
  destruct (menu line (lit "Done")).
  { destruct (e_level e1 =? 0)%Z eqn:L; [apply IH; assumption|]. apply Z.eqb_neq in L.
    destruct (dir_store_envelope jedump dir w (saved e1)) as [w1| |] eqn:ST; cbn [stored failed]; (split; [|easy]); [|now left..].
    right. split; [reflexivity|]. destruct (status_approved _ _ _ S L) as (s0 & A). exists e, e1. split; [exact HI|]. split; [exact S|]. right. exists s0. split; [exact A|exact ST]. }
  destruct (menu line (lit "Export")).
  { destruct (e_level e1 =? 0)%Z eqn:L; [apply IH; assumption|]. apply Z.eqb_neq in L.
    destruct (export_envelope edump false (saved e1)) as [t| |] eqn:EX; try (split; [now left|easy]).
    pose proof (IH rs (clean_env e1) Hn' ltac:(auto)) as R. destruct (edt rs w (clean_env e1)) as [[[o w'] ts] rest]. destruct R as [R1 R2]. split; [exact R1|].
    intros t' [<-|H]; [|now apply R2]. destruct (status_approved _ _ _ S L) as (s0 & A). exists e, e1, s0. auto. }
  destruct (menu line (lit "Abort")); [split; [now left|easy]|].
  destruct (menu line (lit "Delete")).
  { destruct (dir_delete_envelope dir w (e_name e1)) as [w1| |] eqn:ST; cbn [stored failed]; (split; [|easy]); [|now left..].
    right. split; [reflexivity|]. exists e, e1. split; [exact HI|]. split; [exact S|]. now left. }
  destruct (menu line (lit "Suite")).
  { destruct rs as [|[line2|] rs2]; try (split; [now left|easy]). destruct (fields line2) as [|id q]; [split; [now left|easy]|].
    destruct (get_suite suite_registry id) as [su|] eqn:G; [|split; [now left|easy]]. apply IH; [cbn in Hn'; lia|auto]. }
  destruct (if menu line (lit "Secrets") then _ else _) as [sc|]; [|apply IH; assumption].
  destruct (candidates jundump walk w sc) as [cs| |] eqn:CD; try (split; [now left|easy]).
  destruct rs as [|[|lines] rs2]; try (split; [now left|easy]).
  destruct (picked (scope_current sc e1) cs lines) as [ids| |] eqn:PK; try (split; [now left|easy]).
  apply IH; [cbn in Hn'; lia|]. apply (I_put _ _ cs); [exact I1|exact CD|exact (picked_known _ _ _ _ PK)].
Qed.
End Invariant.

(** ** The first invariant: name, suite and mode *)
Definition sound (n : bytes) (e : envelope) : Prop :=
  e_name e = n /\ e_opening e = false /\ (e_suite e = None \/ e_suite e = get_suite suite_registry (e_suite_id e)).

Lemma env_left_same w e : e_name (env_left cr jundump dir w e) = e_name e /\ e_opening (env_left cr jundump dir w e) = e_opening e
  /\ e_suite_id (env_left cr jundump dir w e) = e_suite_id e
  /\ (forall su, load_suite suite_registry e = Ok su -> e_suite (env_left cr jundump dir w e) = Some su)
  /\ (forall x, load_suite suite_registry e = Err x -> e_suite (env_left cr jundump dir w e) = e_suite e).
Proof using Type.
  unfold env_left. destruct (load_suite suite_registry e) as [su| |]; [|repeat split; intros ? E; first [discriminate E|reflexivity]..].
  destruct (prep_ok _ _ _ _ _ _ _); [destruct (prep_ok _ _ _ _ _ _ _)|]; repeat split; intros ? E; first [discriminate E|injection E as <-; reflexivity].
Qed.
Lemma load_suite_some e su : e_suite e = None \/ e_suite e = get_suite suite_registry (e_suite_id e) -> load_suite suite_registry e = Ok su ->
  get_suite suite_registry (e_suite_id e) = Some su.
Proof using Type.
  unfold load_suite. intros [E|E]; rewrite E.
  - destruct (get_suite _ _); cbn; congruence.
  - destruct (get_suite _ _); cbn; congruence.
Qed.
Lemma prepare_suite w e e' : fst (prep w e) = Ok e' -> exists su, load_suite suite_registry e = Ok su /\ e_suite e' = Some su.
Proof using Type.
  unfold prepare. destruct (load_suite suite_registry e) as [su| |]; [|discriminate..].
  destruct (prep_signets _ _ _ _ _ (e_secrets e)) as [[]]; [|discriminate..].
  destruct (prep_signets _ _ _ _ _ (e_senders e)) as [[]]; [|discriminate..].
  destruct (prep_signets _ _ _ _ _ (e_recipients e)) as [[]]; [|discriminate..].
  intros [= <-]. exists su. auto.
Qed.
Lemma sound_status n w e e1 : sound n e -> stat w e = Ok e1 -> sound n e1.
Proof using Type.
  intros (N & O & S) H. unfold status in H. set (e0 := with_level e 0) in *.
  assert (S0 : e_suite e0 = None \/ e_suite e0 = get_suite suite_registry (e_suite_id e0)) by exact S.
  destruct (fst (prep w e0)) as [e'| |] eqn:P; [| |discriminate H].
  - destruct (prepare_level _ _ _ P) as (_ & P2 & P3 & P4). destruct (prepare_suite _ _ _ P) as (su & L & ES).
    pose proof (load_suite_some _ _ S0 L) as G. assert (X : sound n e').
    { split; [now rewrite P2|]. split; [now rewrite P4|]. right. now rewrite ES, P3. }
    destruct (sess e'); [| |discriminate H]; injection H as <-; exact X.
  - injection H as <-. destruct (env_left_same w e0) as (A1 & A2 & A3 & A4 & A5). split; [rewrite A1; exact N|]. split; [rewrite A2; exact O|].
    rewrite A3. destruct (load_suite suite_registry e0) as [su|x|] eqn:L.
    + right. rewrite (A4 _ eq_refl). symmetry. now apply load_suite_some.
    + rewrite (A5 _ eq_refl). exact S0.
    + unfold prepare in P. rewrite L in P. discriminate P.
Qed.
Lemma sound_suite n e id su : sound n e -> get_suite suite_registry id = Some su -> sound n (with_suite e id (Some su)).
Proof using Type. intros (N & O & S) G. split; [exact N|]. split; [exact O|]. right. cbn [with_suite e_suite e_suite_id]. now rewrite G. Qed.
Lemma sound_put n e sc l : sound n e -> sound n (put_signets sc e l).
Proof using Type. intros H. destruct sc; exact H. Qed.
Lemma sound_clean n e : sound n e -> sound n (clean_env e).
Proof using Type. exact (fun H => H). Qed.

Lemma approved_level w e0 e1 s : approved w e0 e1 s -> e_level e1 = s_level s /\ e_level e1 <> 0%Z.
Proof using Type. intros (e' & _ & _ & -> & L). split; [reflexivity|exact L]. Qed.

Lemma saved_bare e : no_keys (saved e).
Proof using Type. unfold no_keys, saved. cbn [ev_secrets ev_senders ev_recipients]. repeat split; apply Forall_forall; intros d H; apply in_map_iff in H as (sg & <- & _); repeat split. Qed.
Lemma saved_references e : references (saved e) = [named_by (e_secrets e); named_by (e_senders e); named_by (e_recipients e)].
Proof using Type. unfold references, saved, named_by. cbn. now rewrite !map_map. Qed.

Lemma approved_passed n w e0 e1 s : sound n e0 -> approved w e0 e1 s -> passed c cr (saved e1) /\ ev_name (saved e1) = n.
Proof using Type.
  intros (N & O & S) A. pose proof (approved_level _ _ _ _ A) as [L1 L2]. destruct A as (e' & P & SS & -> & L).
  destruct (prepare_level _ _ _ P) as (_ & P2 & P3 & P4). destruct (prepare_suite _ _ _ P) as (su & LS & ES).
  assert (S0 : e_suite (with_level e0 0) = None \/ e_suite (with_level e0 0) = get_suite suite_registry (e_suite_id (with_level e0 0))) by exact S.
  pose proof (load_suite_some _ _ S0 LS) as G. split.
  - split; [apply saved_bare|]. exists e', s, su. cbn [saved ev_level ev_suite with_level e_level e_suite_id] in *. rewrite P3. repeat split; auto.
    change (saved (with_level e' (s_level s))) with (mkEnv (e_version e') (e_name e') (e_suite_id e') (map cleaned_data (e_secrets e')) (map cleaned_data (e_senders e')) (map cleaned_data (e_recipients e')) (s_level s)).
    unfold references, named_by. cbn. now rewrite !map_map.
  - cbn. rewrite P2. exact N.
Qed.
End Facts.

(** ** The second invariant: where the signets come from *)
Section Lists.
Variables (c : config) (cr : crypto).
Variables (jundump : bytes -> option sdata) (dir : bytes) (w : fs).
Hypothesis OD : orderly jundump dir w.
Notation get := (dir_get jundump dir w).
Notation pload := (prep_loaded tool_registry cr).
Notation left := (prep_left cr jundump dir w).
Notation prepl := (prep_signets tool_registry cr (store_world jundump dir w)).

Definition from_store (b : bool) (n : signet) : Prop :=
  sg_id n <> [] /\ exists d, get (sg_id n) b = Ok d /\ (n = signet_of d \/ pload (signet_of d) = Ok n).
Definition elem_ok (b : bool) (sg : signet) : Prop := sg_key sg = [] \/ from_store b sg.
Definition list_ok (b : bool) (l : list signet) : Prop :=
  Forall (elem_ok b) l \/ (b = true /\ Exists (fun sg => sg_scheme sg = scheme_key) l).
Definition lists_ok (e : envelope) : Prop :=
  list_ok false (e_secrets e) /\ list_ok false (e_senders e) /\ list_ok true (e_recipients e).

Lemma pload_same sg n : pload sg = Ok n ->
  sg_version n = sg_version sg /\ sg_id n = sg_id sg /\ sg_scheme n = sg_scheme sg /\ sg_key n = sg_key sg /\ pload n = Ok n.
Proof using Type.
  unfold prep_loaded. destruct (sg_prot sg) eqn:P; [discriminate|]. destruct (_ || _)%bool eqn:S.
  - intros [= <-]. rewrite P, S. auto.
  - unfold Envelope.load_key. destruct (sg_pub sg) as [p0|] eqn:B.
    + intros [= <-]. rewrite P, S, B. auto.
    + rewrite P. destruct (tools_get tool_registry (sg_scheme sg)) as [t| |] eqn:T; [|discriminate..]. cbn [bind].
      destruct (uses_signets t) eqn:U; [|discriminate]. destruct (cr_load _ _ _ _) as [[p k]| |] eqn:L; [|discriminate..]. cbn [bind].
      intros [= <-]. cbn [Envelope.set_loaded sg_version sg_id sg_scheme sg_key sg_prot sg_pub]. rewrite P, S. repeat split.
Qed.
Lemma fetch_store sg r n : fetch (store_world jundump dir w) sg r = Ok n ->
  sg_id sg <> [] /\ exists d, get (sg_id sg) r = Ok d /\ n = signet_of d /\ (sg_scheme sg = [] \/ d_scheme d = sg_scheme sg) /\ sg_id n = sg_id sg.
Proof using OD.
  unfold fetch. destruct (sg_id sg) as [|b q] eqn:E; [discriminate|]. cbn [nonempty negb store_world w_signet].
  destruct (get (b :: q) r) as [d| |] eqn:G; [|discriminate..]. cbn [bind other].
  destruct (nonempty (sg_scheme sg) && negb (bytes_eqb (sg_scheme sg) (sg_scheme (signet_of d)))) eqn:S; [discriminate|]. intros [= <-].
  split; [discriminate|]. exists d. split; [reflexivity|]. split; [reflexivity|]. split.
  - destruct (sg_scheme sg) as [|x y]; [now left|]. right. cbn [nonempty andb] in S. apply negb_false_iff, bytes_eqb_eq in S. now rewrite S.
  - cbn. eapply od_ids; eassumption.
Qed.
Lemma fetch_from sg r n : fetch (store_world jundump dir w) sg r = Ok n -> from_store r n.
Proof using OD.
  intro H. destruct (fetch_store _ _ _ H) as (A & d & G & E & _ & I). split; [now rewrite I|]. exists d. rewrite I. auto.
Qed.
Lemma from_pload b sg n : from_store b sg -> pload sg = Ok n -> from_store b n.
Proof using Type.
  intros (A & d & G & E) P. destruct (pload_same _ _ P) as (_ & I & _ & _ & Q). rewrite <- I in A, G. split; [exact A|]. exists d. split; [exact G|]. right.
  destruct E as [->|E]; [exact P|]. destruct (pload_same _ _ E) as (_ & _ & _ & _ & Q2). rewrite Q2 in P. injection P as <-. exact E.
Qed.

Lemma left_key r l : Exists (fun sg => sg_scheme sg = scheme_key) l -> Exists (fun sg => sg_scheme sg = scheme_key) (left r l).
Proof using OD.
  revert r. induction l as [|sg l IH]; intros r H; [inversion H|]. cbn [prep_left].
  apply Exists_cons in H. destruct (nonempty (sg_key sg)).
  { destruct (pload sg) as [n| |] eqn:P; [|now apply Exists_cons..]. apply Exists_cons. destruct (pload_same _ _ P) as (_ & _ & -> & _).
    destruct H as [H|H]; [now left|right; now apply IH]. }
  destruct (bytes_eqb (sg_scheme sg) scheme_pw) eqn:W.
  { apply Exists_cons. destruct H as [H|H]; [now left|right; now apply IH]. }
  set (rec := if bytes_eqb (sg_scheme sg) scheme_key then false else r).
  destruct (fetch _ sg rec) as [n| |] eqn:F; [|now apply Exists_cons..].
  destruct (fetch_store _ _ _ F) as (A & d & G & -> & S & I).
  assert (K : sg_scheme sg = scheme_key -> sg_scheme (signet_of d) = scheme_key).
  { intro E. rewrite E in S. destruct S as [S|S]; [discriminate S|exact S]. }
  destruct (pload (signet_of d)) as [n'| |] eqn:P.
  - apply Exists_cons. destruct (pload_same _ _ P) as (_ & _ & -> & _). destruct H as [H|H]; [left; auto|right; now apply IH].
  - apply Exists_cons. destruct H as [H|H]; [left; auto|now right].
  - apply Exists_cons. destruct H as [H|H]; [left; auto|now right].
Qed.

Lemma left_ok b l : list_ok b l -> list_ok b (left b l).
Proof using OD.
  intros [H|[B H]]; [|right; split; [exact B|now apply left_key]].
  induction l as [|sg l IH]; [left; constructor|]. inversion H as [|? ? HS HL]; subst. specialize (IH HL).
  assert (CONS : forall n, elem_ok b n -> list_ok b (n :: left b l)).
  { intros n E. destruct IH as [F|[B X]]; [left; now constructor|right; split; [exact B|now apply Exists_cons_tl]]. }
  assert (STOP : forall n, elem_ok b n -> list_ok b (n :: l)) by (intros n E; left; now constructor).
  cbn [prep_left]. destruct (sg_key sg) as [|k0 ks] eqn:K; cbn [nonempty].
  - destruct (bytes_eqb (sg_scheme sg) scheme_pw) eqn:W; [apply CONS; now left|].
    destruct (bytes_eqb (sg_scheme sg) scheme_key) eqn:SK.
    + apply bytes_eqb_eq in SK. destruct b.
      * (* the list has a key: it is not valid as it is *)
        right. split; [reflexivity|].
        destruct (fetch _ sg false) as [n| |] eqn:F; [|now apply Exists_cons_hd..].
        destruct (fetch_store _ _ _ F) as (A & d & G & -> & S & I). rewrite SK in S. destruct S as [S|S]; [discriminate S|].
        destruct (pload (signet_of d)) as [n'| |] eqn:P; [|apply Exists_cons_hd; exact S..]. apply Exists_cons_hd. destruct (pload_same _ _ P) as (_ & _ & -> & _). exact S.
      * destruct (fetch _ sg false) as [n| |] eqn:F; [|apply STOP; now left..].
        pose proof (fetch_from _ _ _ F) as FS. destruct (pload n) as [n'| |] eqn:P; [|apply STOP; now right..].
        apply CONS. right. eapply from_pload; eassumption.
    + destruct (fetch _ sg b) as [n| |] eqn:F; [|apply STOP; now left..].
      pose proof (fetch_from _ _ _ F) as FS. destruct (pload n) as [n'| |] eqn:P; [|apply STOP; now right..].
      apply CONS. right. eapply from_pload; eassumption.
  - destruct (pload sg) as [n| |] eqn:P; [|apply STOP; exact HS..].
    apply CONS. right. destruct HS as [E|E]; [rewrite K in E; discriminate E|]. eapply from_pload; eassumption.
Qed.

Lemma prep_is_left level r l l' : fst (prepl level r l) = Ok l' -> l' = left r l.
Proof using Type.
  revert r l'. induction l as [|sg l IH]; intros r l' H; [cbn in H; now injection H as <-|].
  rewrite prep_cons in H. unfold prep_one in H. cbn [prep_left]. destruct (nonempty (sg_key sg)).
  { destruct (pload sg) as [n| |]; [|discriminate H..]. specialize (IH r). destruct (prepl level r l) as [[y| |] q]; [|discriminate H..].
    cbn in H. injection H as <-. f_equal. now apply IH. }
  destruct (bytes_eqb (sg_scheme sg) scheme_pw).
  { assert (FP : fill_password (store_world jundump dir w) sg (negb r) level = (Ok sg, [])) by (destruct r; reflexivity). rewrite FP in H. cbn [other] in H.
    specialize (IH r). destruct (prepl level r l) as [[y| |] q]; [|discriminate H..]. cbn in H. injection H as <-. f_equal. now apply IH. }
  set (rec := if bytes_eqb (sg_scheme sg) scheme_key then false else r) in *.
  destruct (fetch _ sg rec) as [n| |]; [|discriminate H..]. cbn [bind] in H. destruct (pload n) as [n'| |]; [|discriminate H..].
  specialize (IH rec). destruct (prepl level rec l) as [[y| |] q]; [|discriminate H..]. cbn in H. injection H as <-. f_equal. now apply IH.
Qed.

(** Signets as they are in a valid envelope. *)
Definition final_ok (b : bool) (n : signet) : Prop :=
  (sg_scheme n = scheme_pw /\ sg_key n = [])
  \/ (sg_scheme n <> scheme_pw /\ sg_id n <> [] /\ exists d, get (sg_id n) b = Ok d /\ pload (signet_of d) = Ok n).

Lemma from_final b n : from_store b n -> pload n = Ok n -> final_ok b n.
Proof using OD.
  intros (A & d & G & E) P. assert (PD : pload (signet_of d) = Ok n) by (destruct E as [E|E]; [rewrite <- E; exact P|exact E]).
  destruct (pload_same _ _ PD) as (_ & I & S & K & _). cbn [signet_of sg_scheme sg_key sg_id] in *.
  destruct (bytes_eqb (sg_scheme n) scheme_pw) eqn:W.
  - apply bytes_eqb_eq in W. left. split; [exact W|]. rewrite K. eapply od_pw; [exact OD|exact G|now rewrite <- S].
  - right. split; [intro X; rewrite X, bytes_eqb_refl in W; discriminate W|]. split; [exact A|]. exists d. auto.
Qed.
Lemma prep_final level b l l' : list_ok b l -> fst (prepl level b l) = Ok l' ->
  (b = true -> Forall (fun n => sg_scheme n <> scheme_key) l') -> Forall (final_ok b) l'.
Proof using OD.
  intros [H|[B X]] E NK.
  2:{ exfalso. specialize (NK B). rewrite (prep_is_left _ _ _ _ E) in NK. apply (left_key b) in X. apply Exists_exists in X as (x & Hx & Ex).
      rewrite Forall_forall in NK. now apply (NK x Hx). }
  revert l' E NK. induction l as [|sg l IH]; intros l' E NK; [cbn in E; injection E as <-; constructor|].
  inversion H as [|? ? HS HL]; subst. specialize (IH HL). rewrite prep_cons in E. unfold prep_one in E.
  destruct (sg_key sg) as [|k0 ks] eqn:K; cbn [nonempty] in E.
  - destruct (bytes_eqb (sg_scheme sg) scheme_pw) eqn:W.
    + assert (FP : fill_password (store_world jundump dir w) sg (negb b) level = (Ok sg, [])) by (destruct b; reflexivity). rewrite FP in E. cbn [other] in E.
      destruct (prepl level b l) as [[y| |] q]; [|discriminate E..]. cbn in E. injection E as <-. constructor.
      * left. apply bytes_eqb_eq in W. auto.
      * apply IH; [reflexivity|]. intro B. specialize (NK B). now inversion NK.
    + set (rec := if bytes_eqb (sg_scheme sg) scheme_key then false else b) in *.
      destruct (fetch _ sg rec) as [n| |] eqn:F; [|discriminate E..]. cbn [bind] in E. destruct (pload n) as [n'| |] eqn:P; [|discriminate E..].
      assert (R : rec = b).
      { subst rec. destruct (bytes_eqb (sg_scheme sg) scheme_key) eqn:SK; [|reflexivity]. destruct b; [|reflexivity]. exfalso.
        apply bytes_eqb_eq in SK. destruct (prepl level false l) as [[y| |] q]; [|discriminate E..]. cbn in E. injection E as <-.
        specialize (NK eq_refl). inversion NK as [|? ? N1 N2]; subst. apply N1. destruct (pload_same _ _ P) as (_ & _ & -> & _).
        destruct (fetch_store _ _ _ F) as (_ & d & _ & -> & S & _). rewrite SK in S. destruct S as [S|S]; [discriminate S|exact S]. }
      rewrite R in *. destruct (prepl level b l) as [[y| |] q]; [|discriminate E..]. cbn in E. injection E as <-. constructor.
      * apply from_final; [|apply (pload_same _ _ P)]. eapply from_pload; [exact (fetch_from _ _ _ F)|exact P].
      * apply IH; [reflexivity|]. intro B. specialize (NK B). now inversion NK.
  - destruct (pload sg) as [n| |] eqn:P; [|discriminate E..]. destruct (prepl level b l) as [[y| |] q]; [|discriminate E..]. cbn in E. injection E as <-. constructor.
    + apply from_final; [|apply (pload_same _ _ P)]. destruct HS as [X|X]; [rewrite K in X; discriminate X|]. eapply from_pload; [exact X|exact P].
    + apply IH; [reflexivity|]. intro B. specialize (NK B). now inversion NK.
Qed.

(** The references of valid signets give the same signets again; a password stays a reference. *)
Definition again (a b : signet) : Prop :=
  a = b \/ (sg_scheme a = scheme_pw /\ sg_key a = [] /\ b = cleaned a).
Lemma prep_again level b l : Forall (final_ok b) l -> (b = true -> Forall (fun n => sg_scheme n <> scheme_key) l) ->
  exists l2 q, prepl level b (map signet_of (map cleaned_data l)) = (Ok l2, q) /\ Forall2 again l l2.
Proof using OD.
  intros H NK. induction l as [|n l IH]; [exists [], []; split; [reflexivity|constructor]|].
  inversion H as [|? ? HN HL]; subst. destruct IH as (l2 & q & E & F); [exact HL|intro B; specialize (NK B); now inversion NK|].
  cbn [map]. rewrite prep_cons. unfold prep_one. change (sg_key (signet_of (cleaned_data n))) with (@nil byte). cbn [nonempty].
  change (sg_scheme (signet_of (cleaned_data n))) with (sg_scheme n).
  destruct HN as [[S K]|(S & I & d & G & P)].
  - rewrite S, bytes_eqb_refl. assert (FP : fill_password (store_world jundump dir w) (signet_of (cleaned_data n)) (negb b) level = (Ok (signet_of (cleaned_data n)), [])) by (destruct b; reflexivity).
    rewrite FP. cbn [other]. rewrite E. cbn [bind]. exists (signet_of (cleaned_data n) :: l2), q. split; [reflexivity|]. constructor; [right; auto|exact F].
  - destruct (bytes_eqb (sg_scheme n) scheme_pw) eqn:W; [apply bytes_eqb_eq in W; contradiction|].
    assert (R : (if bytes_eqb (sg_scheme n) scheme_key then false else b) = b).
    { destruct (bytes_eqb (sg_scheme n) scheme_key) eqn:SK; [|reflexivity]. destruct b; [|reflexivity]. apply bytes_eqb_eq in SK. specialize (NK eq_refl). inversion NK; contradiction. }
    rewrite R. destruct (pload_same _ _ P) as (_ & I2 & S2 & _).
    assert (FE : fetch (store_world jundump dir w) (signet_of (cleaned_data n)) b = Ok (signet_of d)).
    { unfold fetch. change (sg_id (signet_of (cleaned_data n))) with (sg_id n). destruct (sg_id n) as [|x y] eqn:EI; [contradiction|].
      cbn [nonempty negb store_world w_signet]. rewrite G. cbn [bind other]. change (sg_scheme (signet_of (cleaned_data n))) with (sg_scheme n).
      rewrite S2, bytes_eqb_refl, andb_false_r. reflexivity. }
    rewrite FE. cbn [bind]. rewrite P, E. cbn [bind]. exists (n :: l2), ([] ++ q). split; [reflexivity|]. constructor; [now left|exact F].
Qed.

Lemma left_ids r l : map sg_id (left r l) = map sg_id l.
Proof using OD.
  revert r. induction l as [|sg l IH]; intro r; [reflexivity|]. cbn [prep_left]. destruct (nonempty (sg_key sg)).
  { destruct (pload sg) as [n| |] eqn:P; [|reflexivity..]. destruct (pload_same _ _ P) as (_ & E & _). cbn [map]. now rewrite E, IH. }
  destruct (bytes_eqb (sg_scheme sg) scheme_pw); [cbn [map]; now rewrite IH|].
  set (rec := if bytes_eqb (sg_scheme sg) scheme_key then false else r).
  destruct (fetch _ sg rec) as [n| |] eqn:F; [|reflexivity..]. destruct (fetch_store _ _ _ F) as (A & d & G & -> & S & I).
  assert (E : sg_id (signet_of d) = sg_id sg) by exact (od_ids _ _ _ OD _ _ _ G).
  destruct (pload (signet_of d)) as [n'| |] eqn:P; [|cbn [map]; now rewrite E..]. destruct (pload_same _ _ P) as (_ & E' & _). cbn [map]. now rewrite E', E, IH.
Qed.
(** The invariant in the menu. *)
Lemma stubs_ok b ids : list_ok b (map stub ids).
Proof using Type. left. apply Forall_forall. intros x H. apply in_map_iff in H as (id & <- & _). now left. Qed.
Lemma lists_put e sc ids : lists_ok e -> lists_ok (put_signets sc e (map stub ids)).
Proof using Type. intros (A & B & D). destruct sc; (split; [|split]); try assumption; apply stubs_ok. Qed.
Lemma cleaned_ok b l : list_ok b (map cleaned l).
Proof using Type. left. apply Forall_forall. intros x H. apply in_map_iff in H as (id & <- & _). now left. Qed.
Lemma lists_clean e : lists_ok (clean_env e).
Proof using Type. split; [|split]; apply cleaned_ok. Qed.
Lemma prepare_lists e e' : e_opening e = false -> fst (prepare suite_registry tool_registry cr (store_world jundump dir w) e) = Ok e' ->
  exists su, e_suite e' = Some su
  /\ fst (prepl (su_level su) false (e_secrets e)) = Ok (e_secrets e') /\ fst (prepl (su_level su) false (e_senders e)) = Ok (e_senders e')
  /\ fst (prepl (su_level su) true (e_recipients e)) = Ok (e_recipients e').
Proof using Type.
  intro O. unfold prepare. destruct (load_suite suite_registry e) as [su| |]; [|discriminate..]. rewrite O. cbn [negb].
  destruct (prepl _ _ (e_secrets e)) as [[a| |] q1] eqn:E1; [|discriminate..].
  destruct (prepl _ _ (e_senders e)) as [[b| |] q2] eqn:E2; [|discriminate..].
  destruct (prepl _ _ (e_recipients e)) as [[d| |] q3] eqn:E3; [|discriminate..].
  intros [= <-]. exists su. cbn [set_signets e_suite e_secrets e_senders e_recipients]. rewrite E1, E2, E3. auto.
Qed.
Lemma lists_status e e1 : e_opening e = false -> lists_ok e -> status c cr jundump dir w e = Ok e1 -> lists_ok e1.
Proof using OD.
  intros O L H. unfold status in H. set (e0 := with_level e 0) in *. assert (L0 : lists_ok e0) by exact L. assert (O0 : e_opening e0 = false) by exact O.
  destruct (fst (prepare suite_registry tool_registry cr (store_world jundump dir w) e0)) as [e'| |] eqn:P; [| |discriminate H].
  - destruct (prepare_lists _ _ O0 P) as (su & _ & A & B & D). apply prep_is_left in A, B, D. destruct L0 as (L1 & L2 & L3).
    assert (X : lists_ok e') by (split; [rewrite A|split; [rewrite B|rewrite D]]; now apply left_ok).
    destruct (new_session _ _ _ _ _); [| |discriminate H]; injection H as <-; exact X.
  - injection H as <-. destruct L0 as (L1 & L2 & L3). unfold env_left. destruct (load_suite suite_registry e0); [|repeat split; assumption..].
    cbn [with_suite e_opening e_secrets e_senders e_recipients]. rewrite O0. cbn [negb].
    destruct (prep_ok _ _ _ _ _ _ _); [destruct (prep_ok _ _ _ _ _ _ _)|]; (split; [|split]); cbn [with_secrets with_senders with_recipients with_suite e_secrets e_senders e_recipients]; first [assumption|now apply left_ok].
Qed.
Definition ids (e : envelope) : list bytes * list bytes * list bytes := (map sg_id (e_secrets e), map sg_id (e_senders e), map sg_id (e_recipients e)).
Lemma ids_status e e1 : e_opening e = false -> status c cr jundump dir w e = Ok e1 -> ids e1 = ids e.
Proof using OD.
  intros O H. unfold status in H. set (e0 := with_level e 0) in *. change (ids e) with (ids e0). assert (O0 : e_opening e0 = false) by exact O.
  destruct (fst (prepare suite_registry tool_registry cr (store_world jundump dir w) e0)) as [e'| |] eqn:P; [| |discriminate H].
  - destruct (prepare_lists _ _ O0 P) as (su & _ & A & B & D). apply prep_is_left in A, B, D.
    assert (X : ids e' = ids e0) by (unfold ids; now rewrite A, B, D, !left_ids).
    destruct (new_session _ _ _ _ _); [| |discriminate H]; injection H as <-; exact X.
  - injection H as <-. unfold env_left. destruct (load_suite suite_registry e0); [|reflexivity..].
    cbn [with_suite e_opening e_secrets e_senders e_recipients]. rewrite O0. cbn [negb].
    destruct (prep_ok _ _ _ _ _ _ _); [destruct (prep_ok _ _ _ _ _ _ _)|]; unfold ids; cbn [with_secrets with_senders with_recipients with_suite e_secrets e_senders e_recipients]; now rewrite ?left_ids.
Qed.
End Lists.
