(** C46: the export, backup and import commands. *)
From Verif Require Import Prelude PreludeFacts Tools Session KeyStore SpecKeyStore PropKeyStore Signets SpecExport PropExport TrustStore SpecStore PropStore CmdKeys.

Lemma prefix_first t p b : has_prefix t (b :: p) = true -> exists t', t = b :: t'.
Proof. destruct t as [|x t]; [discriminate|]. cbn. intro E. apply andb_true_iff in E as [E _]. apply byte_eqb_eq in E. subst. eauto. Qed.

Section C46.
Variable e : ext.
Variables (dump : sdata -> option bytes) (undump : bytes -> option sdata) (edump : edata -> option bytes) (eundump : bytes -> option edata).
Variables (jdump : sdata -> option bytes) (jundump : bytes -> option sdata) (jedump : edata -> option bytes) (jeundump : bytes -> option edata).
Notation cexport := (@cmd_export e dump edump jundump jeundump).
Notation cimport := (@cmd_import e undump eundump jdump jedump).
Notation codecs_ok := (fun d => codec_ok dump undump d /\ codec_ok jdump jundump d).

(** The backup command never prints a backup: it says there is none if there is one, and crashes if there is none. *)
Theorem C46_backup_refuted : forall dir w id,
  (forall text, cmd_backup jundump dir w id <> Ok text)
  /\ (forall d, dir_get jundump dir w id false = Ok d -> cmd_backup jundump dir w id = Err EOther)
  /\ (forall x, dir_get jundump dir w id false = Err x -> cmd_backup jundump dir w id = Panic).
Proof using Type.
  intros dir w id. unfold cmd_backup. destruct (dir_get jundump dir w id false); repeat split; intros; congruence.
Qed.

Lemma store_get dir w d : d_id d <> [] -> nice (d_id d) = true -> codec_ok jdump jundump d -> exists w', dir_store jdump dir w d = Ok w'
  /\ dir_get jundump dir w' (d_id d) (d_public d) = Ok d
  /\ (forall id r, id <> d_id d \/ r <> d_public d -> dir_get jundump dir w' id r = dir_get jundump dir w id r)
  /\ (forall n, dir_get_envelope jeundump suite_registry dir w' n = dir_get_envelope jeundump suite_registry dir w n).
Proof using Type.
  intros NE N (b & D & _ & U). unfold dir_store. exists (write w (join_path dir (storage_id (d_id d) (d_public d))) b). split; [destruct (d_id d) eqn:I; [congruence|]; rewrite <- I in *; now rewrite N, D|].
  rewrite join_child by now apply storage_plain. split; [|split].
  - unfold dir_get, load_signet_file. rewrite N, join_child by now apply storage_plain. rewrite read_write_same. cbn. now rewrite U.
  - intros id r X. unfold dir_get, load_signet_file. destruct (nice id) eqn:NI; [|reflexivity]. rewrite join_child by now apply storage_plain. rewrite read_write_other; [reflexivity|].
    intro Y. apply child_inj, storage_id_inj in Y as [Y1 Y2]. destruct X; congruence.
  - intro n. unfold dir_get_envelope, envelope_path. destruct (nice n) eqn:NI; [|reflexivity]. rewrite join_child by now apply envelope_plain. rewrite read_write_other; [reflexivity|]. intro Y. apply child_inj in Y. now apply storage_env in Y.
Qed.
Lemma got_nice dir w id r d : dir_get jundump dir w id r = Ok d -> nice id = true.
Proof using Type. unfold dir_get. destruct (nice id); [reflexivity|discriminate]. Qed.
Lemma import_recipient dir w t (i : fsignet e) : recipient_from_text tool_registry undump t = Ok i -> cimport dir w t = dir_store jdump dir w (f_data i).
Proof using Type.
  intro R. unfold cmd_import. pose proof R as R'. unfold recipient_from_text, from_text in R'. destruct (has_prefix t (lit "recipient:")) eqn:P; [|discriminate].
  destruct (prefix_first _ _ _ P) as [t' ->]. change (has_prefix (_ :: t') (lit "envelope:")) with false. change (has_prefix (_ :: t') (lit "sender:")) with false. cbv iota. now rewrite R.
Qed.
(** What another trust store has after importing what was exported from the first: the recipient of the signet (or the recipient)
    with that ID, with its public key, and with no private key; all other entries are as before. *)
Definition received (pub : pubkey e) (id : bytes) (d : sdata) (dir : bytes) (w w' : fs) : Prop :=
  dir_get jundump dir w' id true = Ok d /\ (exists s, load_signet tool_registry (@fresh e d) = Ok s /\ f_pub s = Some pub /\ usable (f_prv s) = false)
  /\ (forall id' r', id' <> id \/ r' <> true -> dir_get jundump dir w' id' r' = dir_get jundump dir w id' r')
  /\ forall n, dir_get_envelope jeundump suite_registry dir w' n = dir_get_envelope jeundump suite_registry dir w n.
Lemma loads (d : sdata) pub : public_signet (@fresh e d) pub -> exists s, load_signet tool_registry (@fresh e d) = Ok s /\ f_pub s = Some pub /\ usable (f_prv s) = false.
Proof using Type.
  intros P. pose proof P as [[l [prv [L G]]] (PU & PR & C)]. cbn [fresh f_data f_pub] in *. destruct C as [(_ & C & _)|[C _]]; [discriminate C|].
  destruct (logic_tool _ _ L) as ((t0 & T & TN) & N1 & N2). destruct (public_store e (fresh d) pub P) as (key & none & S & LD & U & _). cbn [fresh f_data] in *. assert (key = d_key d) by congruence. subst key.
  exists (mkF d (Some pub) none). split; [|auto]. unfold load_signet. cbn [fresh f_pub f_data]. rewrite PR, T. cbn [bind]. rewrite TN. rewrite PU, LD. reflexivity.
Qed.
Theorem C46_export_recipient : forall dirA wA dirB wB id d pub, dir_get jundump dirA wA id true = Ok d -> d_id d = id -> id <> [] ->
  public_signet (@fresh e d) pub -> d_info d <> None -> codecs_ok d ->
  exists text w', cexport dirA wA id = Ok text /\ cimport dirB wB text = Ok w' /\ received pub id d dirB wB w'.
Proof using Type.
  intros dirA wA dirB wB id d pub G ID NE P NI [C1 C2]. assert (SK : forall key, store_keys (d_scheme d) pub (@SNil e) = Ok (key, true) -> set_key d key true = d).
  { intros key S. pose proof P as [_ (PU & _ & C)]. cbn [fresh f_data f_pub] in *. destruct C as [(_ & C & _)|[C _]]; [discriminate C|]. assert (key = d_key d) by congruence. subst key. destruct d. cbn in *. unfold set_key. cbn. now rewrite PU. }
  destruct (C28_export_recipient e dump undump (fresh d) pub false P (or_intror NI)) as (t & i & key & E & R & S & FD & _); [intros key S; cbn [fresh f_data] in *; now rewrite SK|]. cbn [fresh f_data] in *. rewrite (SK _ S) in FD.
  destruct (store_get dirB wB d) as (w' & ST & G' & O1 & O2); [congruence|rewrite ID; exact (got_nice _ _ _ _ _ G)|exact C2|].
  assert (PU : d_public d = true) by apply P. rewrite PU, ID in *. exists t, w'. split; [unfold cmd_export; now rewrite G|]. split; [rewrite (import_recipient _ _ _ _ R), FD; exact ST|]. split; [exact G'|]. split; [now apply loads|auto].
Qed.
(** The same for a signet with a private key: it is the recipient that arrives. *)
Theorem C46_export_signet : forall dirA wA dirB wB id d pub prv x, dir_get jundump dirA wA id true = Err x -> dir_get jundump dirA wA id false = Ok d -> d_id d = id -> id <> [] ->
  private_signet (@fresh e d) pub prv -> d_info d <> None ->
  (forall key, store_keys (d_scheme d) pub (@SNil e) = Ok (key, true) -> codecs_ok (mkData (d_version d) id (d_scheme d) key true None (d_info d) None)) ->
  exists text w' key, cexport dirA wA id = Ok text /\ cimport dirB wB text = Ok w' /\ store_keys (d_scheme d) pub (@SNil e) = Ok (key, true)
    /\ received pub id (mkData (d_version d) id (d_scheme d) key true None (d_info d) None) dirB wB w'.
Proof using Type.
  intros dirA wA dirB wB id d pub prv x NG G ID NE P NI CO.
  destruct (C28_export_private e dump undump (fresh d) pub prv false P (or_intror NI)) as (t & i & key & E & R & S & FD & _); [intros key S; cbn [fresh f_data] in *; rewrite ID; now apply CO|]. cbn [fresh f_data] in *. rewrite ID in FD.
  set (d' := mkData (d_version d) id (d_scheme d) key true None (d_info d) None) in *. destruct (store_get dirB wB d') as (w' & ST & G' & O1 & O2); [exact NE|exact (got_nice _ _ _ _ _ G)|apply (CO key S)|]. exists t, w', key.
  split; [|split; [rewrite (import_recipient _ _ _ _ R), FD; exact ST|split; [exact S|split; [exact G'|split; [|split; [exact O1|exact O2]]]]]].
  - unfold cmd_export. rewrite NG, G. pose proof P as [_ (PU & _)]. cbn [fresh f_data] in PU. revert E. unfold export. cbn [fresh f_data]. rewrite PU. unfold as_recipient. destruct (_ || _); [discriminate|].
    cbn [fresh f_data]. change (mkF d None (@SNil e)) with (@fresh e d). destruct (load_signet tool_registry (fresh d)); cbn [bind f_data d_public]; auto.
  - apply loads. pose proof P as [[l [L GE]] _]. split; [exists l, prv; split; [exact L|exact GE]|]. cbn. auto 6.
Qed.
Theorem C46_export_envelope : forall dirA wA dirB wB name v x y, dir_get jundump dirA wA name true = Err x -> dir_get jundump dirA wA name false = Err y ->
  dir_get_envelope jeundump suite_registry dirA wA name = Ok v -> ev_name v = name -> name <> [] -> codec_ok edump eundump (clean v) -> codec_ok jedump jeundump (clean v) ->
  exists text w', cexport dirA wA name = Ok text /\ cimport dirB wB text = Ok w' /\ dir_get_envelope jeundump suite_registry dirB w' name = Ok (clean v)
    /\ forall id r, dir_get jundump dirB w' id r = dir_get jundump dirB wB id r.
Proof using Type.
  intros dirA wA dirB wB name v x y N1 N2 G NV NE C1 C2. destruct (C28_envelope edump eundump v false C1) as (t & E & I). exists t.
  assert (N : nice name = true) by (revert G; unfold dir_get_envelope; destruct (nice name); [reflexivity|discriminate]). destruct C2 as (b & D & _ & U).
  assert (GS : exists su, get_suite suite_registry (ev_suite v) = Some su).
  { clear - G N. unfold dir_get_envelope in G. rewrite N in G. destruct (read wA _) as [c|]; [|discriminate]. unfold load_envelope in G. destruct (jeundump c) as [v'|]; [|discriminate]. cbn [of_option bind] in G. destruct (get_suite suite_registry (ev_suite v')) as [su|] eqn:GS; [|discriminate]. injection G as <-. eauto. }
  destruct GS as [su GS].
  exists (write wB (envelope_path dirB name) b). split; [unfold cmd_export; now rewrite N1, N2, G|]. split; [|split].
  - unfold cmd_import. pose proof I as I'. unfold envelope_from_text in I'. destruct (has_prefix t (lit "envelope:")); [|discriminate]. rewrite I. cbn [bind]. unfold dir_store_envelope. cbn [clean ev_name]. rewrite NV. destruct name; [congruence|]. now rewrite N, D.
  - unfold dir_get_envelope. rewrite N, read_write_same. unfold load_envelope. rewrite U. cbn [of_option bind clean ev_suite]. now rewrite GS.
  - intros id r. unfold dir_get, load_signet_file. destruct (nice id) eqn:NI; [|reflexivity]. unfold envelope_path. rewrite (join_child dirB (name ++ _)) by now apply envelope_plain. rewrite join_child by now apply storage_plain. rewrite read_write_other; [reflexivity|]. intro Y. apply child_inj in Y. symmetry in Y. now apply storage_env in Y.
Qed.
(** A backup made with the API is imported as the signet, with its key pair. *)
Theorem C46_import_backup : forall dir w (s : fsignet e) pub prv, private_signet s pub prv -> d_info (f_data s) <> None -> d_id (f_data s) <> [] -> nice (d_id (f_data s)) = true ->
  (forall key, store_keys (d_scheme (f_data s)) pub prv = Ok (key, false) -> codecs_ok (set_key (f_data s) key false)) ->
  exists text w' d, backup tool_registry dump false s = Ok text /\ cimport dir w text = Ok w' /\ dir_get jundump dir w' (d_id (f_data s)) false = Ok d
    /\ (exists s', load_signet tool_registry (@fresh e d) = Ok s' /\ f_pub s' = Some pub /\ f_prv s' = prv)
    /\ (forall id r, id <> d_id (f_data s) \/ r <> false -> dir_get jundump dir w' id r = dir_get jundump dir w id r)
    /\ forall n, dir_get_envelope jeundump suite_registry dir w' n = dir_get_envelope jeundump suite_registry dir w n.
Proof using Type.
  intros dir w s pub prv P NI NE N CO. destruct (C28_backup e dump undump s pub prv false P (or_intror NI)) as (t & i & key & B & I & S & FD & _); [intros key S; now apply CO|].
  set (d := set_key (f_data s) key false) in *. destruct (store_get dir w d) as (w' & ST & G' & O1 & O2); [exact NE|exact N|apply (CO key S)|]. exists t, w', d. split; [exact B|]. split; [|split; [exact G'|split; [|split; [exact O1|exact O2]]]].
  - unfold cmd_import. pose proof I as I'. unfold sender_from_text, from_text in I'. destruct (has_prefix t (lit "sender:")) eqn:HP; [|discriminate]. destruct (prefix_first _ _ _ HP) as [t' ->]. change (has_prefix (_ :: t') (lit "envelope:")) with false. cbv iota. rewrite I. cbn [bind]. now rewrite FD.
  - pose proof P as [[l [L G]] (PU & PR & _)]. destruct (private_store e s pub prv P) as (key' & s' & S' & LD & _). assert (key' = key) by congruence. subst key'. destruct (logic_tool _ _ L) as ((t0 & T & TN) & _).
    exists (mkF d (Some pub) prv). split; [|auto]. unfold load_signet, d. cbn [fresh f_pub f_data set_key d_prot d_scheme d_key d_public]. rewrite PR, T. cbn [bind]. rewrite TN, LD. reflexivity.
Qed.
(** Keys and passwords are not exported. *)
Theorem C46_secrets : forall dir w id d x text, dir_get jundump dir w id true = Err x -> dir_get jundump dir w id false = Ok d -> d_scheme d = scheme_key \/ d_scheme d = scheme_pw -> cexport dir w id <> Ok text.
Proof using Type.
  intros dir w id d x text N G S. unfold cmd_export. rewrite N, G. unfold as_recipient. cbn [fresh f_data]. destruct S as [-> | ->]; discriminate.
Qed.
End C46.

(** ** Concrete cases *)
Definition stored_private : sdata := match @store_signet demo_ext tool_registry demo_private with Ok s => f_data s | _ => f_data demo_private end.
Example C46_hypotheses_met : private_signet (@fresh demo_ext stored_private) (PubE demo_pub) (SE (demo_prv ++ demo_pub)) /\ d_info stored_private <> None /\ nice (d_id stored_private) = true
  /\ exists w text w' d, dir_store demo_dump st_dir [] stored_private = Ok w /\ dir_get demo_undump st_dir w (lit "alice") true = Err ESignetNotFound /\ dir_get demo_undump st_dir w (lit "alice") false = Ok stored_private
    /\ @cmd_export demo_ext demo_dump e_dump demo_undump e_undump st_dir w (lit "alice") = Ok text /\ @cmd_import demo_ext demo_undump e_undump demo_dump e_dump (lit "other") [] text = Ok w'
    /\ dir_get demo_undump (lit "other") w' (lit "alice") true = Ok d /\ d_key d = n2b 1 :: demo_pub.
Proof.
  split; [split; [eexists; split; [vm_compute; reflexivity|constructor; reflexivity]|split; [reflexivity|split; [reflexivity|right; split; [vm_compute; reflexivity|left; reflexivity]]]]|]. split; [discriminate|]. split; [vm_compute; reflexivity|].
  eexists. eexists. eexists. eexists. split; [vm_compute; reflexivity|]. split; [vm_compute; reflexivity|]. split; [vm_compute; reflexivity|]. split; [vm_compute; reflexivity|]. split; [vm_compute; reflexivity|]. split; vm_compute; reflexivity.
Qed.
Print Assumptions C46_export_signet.
