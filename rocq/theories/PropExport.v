(** C27, C28, C29: exports, backups and imports. *)
From Verif Require Import Prelude PreludeFacts Container Encodings EncodingsFacts Tools Letter Session KeyStore SpecKeyStore PropKeyStore Signets SpecExport.

(** ** Names in texts *)
Lemma is_alnum_chars b : is_alnum b = existsb (byte_eqb b) name_chars.
Proof. destruct b; reflexivity. Qed.
Lemma lower_eq b : lower b = in_lower b.
Proof. reflexivity. Qed.
Lemma alnum_dash b : is_alnum b = true -> byte_eqb b dash = false.
Proof. destruct b; reflexivity || discriminate. Qed.
Definition rstrip (x : bytes) : bytes := rev (drop_dash (rev x)).
Lemma drop_dash_app x y : drop_dash (x ++ y) = match drop_dash x with [] => drop_dash y | z => z ++ y end.
Proof. induction x as [|b x IH]; [reflexivity|]. cbn [app drop_dash]. destruct (byte_eqb b dash); [exact IH|reflexivity]. Qed.
Lemma rstrip_dash x y : rstrip (x ++ dash :: y) = match rstrip y with [] => rstrip x | z => x ++ dash :: z end.
Proof.
  unfold rstrip. rewrite rev_app_distr. cbn [rev]. rewrite <- app_assoc, drop_dash_app. destruct (drop_dash (rev y)) as [|b z] eqn:E; [reflexivity|].
  rewrite !rev_app_distr, rev_involutive. cbn [rev app]. rewrite <- app_assoc. cbn [app].
  destruct (rev z ++ [b]) eqn:Z; [|reflexivity]. exfalso. apply (f_equal (@length byte)) in Z. rewrite app_length in Z. cbn in Z. lia.
Qed.
Lemma rstrip_word x b : is_alnum b = true -> rstrip (x ++ [b]) = x ++ [b].
Proof. intro A. unfold rstrip. rewrite rev_app_distr. cbn [rev app drop_dash]. rewrite (alnum_dash _ A). cbn [rev]. now rewrite rev_involutive. Qed.
Lemma joined_nonempty ws : Forall (fun w => w <> []) ws -> joined ws = [] -> ws = [].
Proof. intros F E. destruct F as [|w ws N F]; [reflexivity|]. exfalso. apply N. destruct w; [reflexivity|]. destruct ws; discriminate. Qed.
Lemma words_nonempty s : forall w, Forall (fun w => w <> []) (name_words s w).
Proof.
  induction s as [|b s IH]; intro w; cbn [name_words].
  - destruct w; constructor; [discriminate|constructor].
  - destruct (existsb _ _); [apply IH|]. destruct w; [apply IH|]. constructor; [discriminate|apply IH].
Qed.
Lemma dashed_words s : rstrip (dashed true s) = joined (name_words s [])
  /\ forall w b, is_alnum b = true -> rstrip ((w ++ [b]) ++ dashed false s) = joined (name_words s (w ++ [b])).
Proof.
  induction s as [|c s [IH1 IH2]]; cbn [dashed name_words].
  - split; [reflexivity|]. intros w b A. rewrite app_nil_r, (rstrip_word _ _ A). destruct (w ++ [b]) eqn:E; [|reflexivity]. now apply app_eq_nil in E as [_ E].
  - rewrite <- is_alnum_chars. destruct (is_alnum c) eqn:AC.
    + split; [exact (IH2 [] c AC)|]. intros w b A. rewrite <- (IH2 (w ++ [b]) c AC), <- (app_assoc _ [c]). reflexivity.
    + split; [exact IH1|]. intros w b A. rewrite rstrip_dash, IH1, (rstrip_word _ _ A).
      destruct (w ++ [b]) as [|x y] eqn:E; [now apply app_eq_nil in E as [_ E]|]. cbn [joined].
      pose proof (joined_nonempty _ (words_nonempty s [])) as J. destruct (name_words s []) as [|v ws]; [reflexivity|].
      destruct (joined (v :: ws)) as [|z zs] eqn:JE; [now specialize (J eq_refl)|reflexivity].
Qed.
Lemma to_text_plain s : to_text_string s = plain_name s.
Proof.
  unfold to_text_string, plain_name. rewrite <- (proj1 (dashed_words s)).
  assert (D : forall r, drop_dash (dashed true r) = dashed true r).
  { induction r as [|c r IH]; [reflexivity|]. cbn [dashed]. destruct (is_alnum c) eqn:AC; [|exact IH]. cbn [drop_dash]. now rewrite (alnum_dash _ AC). }
  replace (drop_dash (dashed false s)) with (dashed true s); [reflexivity|].
  destruct s as [|c s]; [reflexivity|]. cbn [dashed]. destruct (is_alnum c) eqn:AC; cbn [drop_dash]; [now rewrite (alnum_dash _ AC)|].
  change (byte_eqb dash dash) with true. cbn [negb]. symmetry. apply D.
Qed.
Example plain_name_met : plain_name (lit "  Alice's Key -- No. 0 (2)") = lit "alice-s-key-no-0-2".
Proof. vm_compute. reflexivity. Qed.

Lemma b58_no_colon l : Forall (fun b => is_colon b = false) (b58_encode l).
Proof.
  unfold b58_encode. apply Forall_map. eapply Forall_impl; [|apply (rebase_small 256 58); lia]. cbn. intros d L.
  pose proof (small_all (fun n => negb (is_colon (b58_digit n))) 58 d ltac:(vm_compute; reflexivity) L) as S. now apply negb_true_iff in S.
Qed.
Lemma last_part_plain s : Forall (fun b => is_colon b = false) s -> forall acc, last_part acc s = rev acc ++ s.
Proof.
  induction 1 as [|b s C F IH]; intro acc; cbn; [now rewrite app_nil_r|]. rewrite C, IH. cbn. now rewrite <- app_assoc.
Qed.
Lemma last_part_colon a : forall s acc, Forall (fun b => is_colon b = false) s -> last_part acc (a ++ lit ":" ++ s) = s.
Proof.
  induction a as [|b a IH]; intros s acc F; cbn [app last_part].
  - change (lit ":" ++ s) with (Coq.Init.Byte.x3a :: s). cbn [last_part]. change (is_colon Coq.Init.Byte.x3a) with true. cbv iota. now rewrite last_part_plain.
  - destruct (is_colon b); apply IH; exact F.
Qed.
Lemma has_prefix_app p s : has_prefix (p ++ s) p = true.
Proof. induction p as [|b p IH]; [now destruct s|]. cbn. rewrite IH, andb_true_r. apply byte_eqb_refl. Qed.
Lemma logic_tool name l : logic_of name = Some l -> (exists t, tools_get tool_registry name = Ok t /\ t_name t = name)
  /\ bytes_eqb name scheme_key = false /\ bytes_eqb name scheme_pw = false.
Proof.
  unfold logic_of. intro H.
  assert (N : In name [lit "ECDH-X25519"; lit "ECDH-P224"; lit "ECDH-P256"; lit "ECDH-P384"; lit "ECDH-P521"; lit "Ed25519"; lit "RSA-OAEP"; lit "RSA-PSS"]).
  { destruct (bytes_eqb name (lit "ECDH-X25519")) eqn:E1; [apply bytes_eqb_eq in E1; subst; cbn; auto|].
    destruct (existsb _ _) eqn:E2.
    - apply existsb_exists in E2. destruct E2 as (x & I & E). apply bytes_eqb_eq in E. subst x. cbn in I |- *. tauto.
    - destruct (bytes_eqb name (lit "Ed25519")) eqn:E3; [apply bytes_eqb_eq in E3; subst; cbn; tauto|].
      destruct (bytes_eqb name (lit "RSA-OAEP")) eqn:E4; [apply bytes_eqb_eq in E4; subst; cbn; tauto|].
      destruct (bytes_eqb name (lit "RSA-PSS")) eqn:E5; [apply bytes_eqb_eq in E5; subst; cbn; tauto|]. cbn in H. discriminate H. }
  clear H. cbn [In] in N. repeat (destruct N as [<-|N]; [split; [eexists; split; vm_compute; reflexivity|split; reflexivity]|]). destruct N.
Qed.

Section Export.
Variable e : ext.
Variables (dump : sdata -> option bytes) (undump : bytes -> option sdata).
Notation load_signet := (@load_signet e tool_registry).
Notation store_signet := (@store_signet e tool_registry).
Notation to_text := (@to_text e tool_registry dump).
Notation export := (@export e tool_registry dump).
Notation backup := (@backup e tool_registry dump).
Notation from_text := (@from_text e tool_registry undump).

Lemma store_nonempty name pub prv key b : @store_keys e name pub prv = Ok (key, b) -> key <> [].
Proof.
  unfold store_keys. destruct (logic_of name) as [[| | |]|]; [..|discriminate]; unfold store_x, store_n, store_e, store_r;
    destruct pub, prv; intro H; try discriminate H; injection H as <- _; discriminate.
Qed.
Lemma private_pair (s : fsignet e) pub prv : private_signet s pub prv -> exists key,
  store_keys (d_scheme (f_data s)) pub prv = Ok (key, false) /\ load_keys (d_scheme (f_data s)) key false = Ok (pub, prv) /\ (d_key (f_data s) = [] \/ d_key (f_data s) = key).
Proof.
  intros [[l [L G]] (PU & PR & C)]. destruct (C26_round_trip e _ l pub prv L G) as (key & S & LD). exists key. repeat split; [exact S|exact LD|].
  destruct C as [[K _]|[S' _]]; [now left|]. rewrite S in S'. injection S' as ->. now right.
Qed.
(** Loading a private signet gives its pair. *)
Lemma private_load (s : fsignet e) pub prv : private_signet s pub prv -> load_signet s = Ok (mkF (f_data s) (Some pub) prv).
Proof.
  intro P. pose proof P as [[l [L G]] (PU & PR & C)]. destruct (private_pair s pub prv P) as (key & S & LD & K). unfold Signets.load_signet. destruct s as [d fp fk]. cbn [f_data f_pub f_prv] in *.
  destruct C as [(KE & -> & ->)|[S' [->|[-> ->]]]]; try reflexivity. rewrite PR. destruct (logic_tool _ _ L) as [(t & T & TN) _]. rewrite T. cbn [bind]. rewrite TN, PU.
  rewrite S in S'. injection S' as <-. rewrite LD. reflexivity.
Qed.
Lemma private_recipient (s : fsignet e) pub prv : private_signet s pub prv -> exists r,
  as_recipient tool_registry s = Ok r /\ public_signet r pub /\ d_key (f_data r) = [] /\ f_prv r = SNil
  /\ f_data r = mkData (d_version (f_data s)) (d_id (f_data s)) (d_scheme (f_data s)) [] true None (d_info (f_data s)) None.
Proof.
  intro P. pose proof P as [[l [L G]] (PU & PR & C)]. unfold as_recipient. destruct (logic_tool _ _ L) as (_ & N1 & N2). rewrite N1, N2. cbn [orb].
  rewrite (private_load s pub prv P). cbn [bind f_pub]. eexists. split; [reflexivity|]. split; [|auto]. split; [exists l, prv; auto|]. cbn. auto 6.
Qed.
Lemma public_store (r : fsignet e) pub : public_signet r pub -> exists key none,
  store_keys (d_scheme (f_data r)) pub (@SNil e) = Ok (key, true) /\ load_keys (d_scheme (f_data r)) key true = Ok (pub, none) /\ usable none = false
  /\ exists r', store_signet r = Ok r' /\ f_data r' = set_key (f_data r) key true.
Proof.
  intros [[l [prv [L G]]] (PU & PR & C)]. destruct (C26_public e _ l pub prv L G) as (key & none & S & LD & U). exists key, none. repeat split; auto.
  unfold Signets.store_signet. destruct r as [d fp fk]. cbn [f_data f_pub f_prv] in *. destruct C as [(K & -> & ->)|[S' _]].
  - rewrite K. destruct (logic_tool _ _ L) as [(t & T & TN) _]. rewrite T. cbn [bind]. rewrite TN, S. cbn [bind]. eexists. split; reflexivity.
  - rewrite S in S'. injection S' as KE. pose proof (store_nonempty _ _ _ _ _ S) as NE. rewrite <- KE. destruct key as [|b key]; [congruence|]. eexists. split; [reflexivity|]. cbn [f_data]. unfold set_key.
    destruct d as [v i sc k pb pr inf sg]. cbn in *. congruence.
Qed.
Lemma private_store (s : fsignet e) pub prv : private_signet s pub prv -> exists key s',
  store_keys (d_scheme (f_data s)) pub prv = Ok (key, false) /\ load_keys (d_scheme (f_data s)) key false = Ok (pub, prv)
  /\ store_signet s = Ok s' /\ f_data s' = set_key (f_data s) key false.
Proof.
  intro P. pose proof P as [[l [L G]] (PU & PR & C)]. destruct (private_pair s pub prv P) as (key & S & LD & K). exists key. unfold Signets.store_signet. destruct s as [d fp fk]. cbn [f_data f_pub f_prv] in *.
  destruct C as [(KE & -> & ->)|[S' _]].
  - rewrite KE. destruct (logic_tool _ _ L) as [(t & T & TN) _]. rewrite T. cbn [bind]. rewrite TN, S. cbn [bind]. eexists. repeat split; auto.
  - rewrite S in S'. injection S' as E. pose proof (store_nonempty _ _ _ _ _ S) as NE. rewrite <- E. destruct key as [|b key]; [congruence|]. eexists. repeat split; auto. cbn [f_data]. unfold set_key.
    destruct d as [v i sc k pb pr inf sg]. cbn in *. congruence.
Qed.
Lemma text_of short (s s' : fsignet e) kw cm : store_signet s = Ok s' ->
  (if bytes_eqb (d_scheme (f_data s')) scheme_pw then Err EOther
     else if bytes_eqb (d_scheme (f_data s')) scheme_key then (if d_public (f_data s') then Err EOther else Ok (lit "secret", lit "symmetric-key"))
     else if d_public (f_data s') then Ok (lit "recipient", lit "public-" ++ to_text_string (d_scheme (f_data s')) ++ lit "-key")
     else Ok (lit "sender", lit "private-" ++ to_text_string (d_scheme (f_data s')) ++ lit "-key")) = Ok (kw, cm) ->
  to_text short s = match dump (f_data s') with
    | None => Err EOther
    | Some b => if short then Ok (kw ++ colon ++ b58_encode b)
                else match d_info (f_data s') with None => Panic | Some i => Ok (kw ++ colon ++ cm ++ colon ++ to_text_string (in_name i) ++ colon ++ b58_encode b) end
    end.
Proof.
  intros S K. unfold Signets.to_text, to_base58. rewrite S. cbn [bind]. destruct (dump (f_data s')) as [b|]; [|reflexivity]. cbn [bind]. rewrite K. reflexivity.
Qed.
Lemma public_text short (r : fsignet e) pub : public_signet r pub -> exists key none,
  store_keys (d_scheme (f_data r)) pub (@SNil e) = Ok (key, true) /\ load_keys (d_scheme (f_data r)) key true = Ok (pub, none) /\ usable none = false
  /\ to_text short r = recipient_text dump short (d_version (f_data r)) (d_id (f_data r)) (d_scheme (f_data r)) (d_info (f_data r)) key (d_sig (f_data r)).
Proof.
  intro P. pose proof P as [[l [prv [L G]]] (PU & PR & C)]. destruct (public_store r pub P) as (key & none & S & LD & U & r' & SS & FD). exists key, none. repeat split; auto.
  destruct (logic_tool _ _ L) as (_ & N1 & N2).
  rewrite (text_of short r r' (lit "recipient") (lit "public-" ++ to_text_string (d_scheme (f_data r)) ++ lit "-key") SS).
  - unfold recipient_text. rewrite FD. unfold set_key. rewrite PR. cbn [d_info d_scheme]. destruct (dump _) as [b|]; [|reflexivity]. destruct short; [reflexivity|]. destruct (d_info (f_data r)) as [i|]; [|reflexivity]. rewrite <- !to_text_plain.
    f_equal. rewrite <- !app_assoc. reflexivity.
  - rewrite FD. cbn [set_key d_scheme d_public]. now rewrite N1, N2.
Qed.

(** C27: an export of a private signet is made from its version, ID, scheme, info and public key, and from nothing else. *)
Theorem C27_export_exact : forall (s : fsignet e) pub prv short, private_signet s pub prv -> exists key,
  store_keys (d_scheme (f_data s)) pub (@SNil e) = Ok (key, true)
  /\ export short s = recipient_text dump short (d_version (f_data s)) (d_id (f_data s)) (d_scheme (f_data s)) (d_info (f_data s)) key None.
Proof.
  intros s pub prv short P. destruct (private_recipient s pub prv P) as (r & R & PR & _ & _ & FD). destruct (public_text short r pub PR) as (key & none & S & _ & _ & T).
  exists key. pose proof P as [_ (PU & _)]. unfold Signets.export. rewrite PU, R. cbn [bind]. rewrite T, FD. cbn. rewrite FD in S. cbn in S. auto.
Qed.
(** Whatever the private key. *)
Theorem C27_private_key_irrelevant : forall (s1 s2 : fsignet e) pub prv1 prv2 short, private_signet s1 pub prv1 -> private_signet s2 pub prv2 ->
  d_version (f_data s1) = d_version (f_data s2) -> d_id (f_data s1) = d_id (f_data s2) -> d_scheme (f_data s1) = d_scheme (f_data s2) -> d_info (f_data s1) = d_info (f_data s2) ->
  export short s1 = export short s2.
Proof.
  intros s1 s2 pub prv1 prv2 short P1 P2 V I S F. destruct (C27_export_exact s1 pub prv1 short P1) as (k1 & S1 & E1). destruct (C27_export_exact s2 pub prv2 short P2) as (k2 & S2 & E2).
  rewrite E1, E2, V, I, S, F. rewrite S, S2 in S1. injection S1 as <-. reflexivity.
Qed.
(** AsRecipient: no stored key, no private key, and the same public key. *)
Theorem C27_recipient : forall (s : fsignet e) pub prv, private_signet s pub prv -> exists r, as_recipient tool_registry s = Ok r
  /\ f_data r = mkData (d_version (f_data s)) (d_id (f_data s)) (d_scheme (f_data s)) [] true None (d_info (f_data s)) None /\ f_pub r = Some pub /\ f_prv r = SNil.
Proof.
  intros s pub prv P. destruct (private_recipient s pub prv P) as (r & R & PR & K & SN & FD). exists r. repeat split; auto. pose proof PR as [_ (_ & _ & C)]. destruct C as [(_ & H & _)|[S [H|H]]]; [exact H| |exact H].
  rewrite K in S. apply store_nonempty in S. congruence.
Qed.
(** A symmetric key or a password is never exported. *)
Theorem C27_secrets : forall (s : fsignet e) short, d_scheme (f_data s) = scheme_key \/ d_scheme (f_data s) = scheme_pw -> forall t, export short s <> Ok t.
Proof.
  intros s short K t H. unfold Signets.export in H. destruct (d_public (f_data s)) eqn:PU.
  - unfold Signets.to_text, to_base58, Signets.store_signet in H. destruct (d_key (f_data s)) as [|b k] eqn:KE.
    + replace (tools_get tool_registry (d_scheme (f_data s))) with (@Err tool ENotFound) in H by (destruct K as [-> | ->]; vm_compute; reflexivity). discriminate H.
    + cbn [bind] in H. destruct (dump (f_data s)); [|discriminate H]. cbn [bind] in H. rewrite PU in H. destruct K as [K|K]; rewrite K in H; discriminate H.
  - unfold as_recipient in H. destruct K as [K|K]; rewrite K in H; discriminate H.
Qed.

(** C28: what a backup of a private signet imports to. *)
Lemma text_prefix (short : bool) d (kw cm : bytes) : exists mid : bytes, match dump d with
    | None => Err EOther
    | Some b => if short then Ok (kw ++ colon ++ b58_encode b)
                else match d_info d with None => Panic | Some i => Ok (kw ++ colon ++ cm ++ colon ++ to_text_string (in_name i) ++ colon ++ b58_encode b) end
    end = match dump d with None => Err EOther | Some b => if short || negb (is_none (d_info d)) then Ok (kw ++ mid ++ lit ":" ++ b58_encode b) else Panic end
  /\ (mid = [] \/ exists m, mid = lit ":" ++ m).
Proof.
  destruct short; cbn [orb].
  - exists []. split; [|now left]. destruct (dump d); reflexivity.
  - destruct (d_info d) as [i|]; cbn [is_none negb].
    + exists (lit ":" ++ cm ++ lit ":" ++ to_text_string (in_name i)). split; [|right; eauto]. destruct (dump d); [|reflexivity]. unfold colon. f_equal. rewrite <- !app_assoc. reflexivity.
    + exists []. split; [|now left]. destruct (dump d); reflexivity.
Qed.
Lemma prefix_mid p mid s : mid = [] \/ (exists m, mid = lit ":" ++ m) -> has_prefix (p ++ mid ++ lit ":" ++ s) (p ++ lit ":") = true.
Proof.
  intros [->|[m ->]]; [cbn [app]; rewrite app_assoc; apply has_prefix_app|]. rewrite <- app_assoc. rewrite (app_assoc p). apply has_prefix_app.
Qed.
Theorem C28_backup : forall (s : fsignet e) pub prv short, private_signet s pub prv ->
  short = true \/ d_info (f_data s) <> None ->
  (forall key, store_keys (d_scheme (f_data s)) pub prv = Ok (key, false) -> codec_ok dump undump (set_key (f_data s) key false)) ->
  exists t (i : fsignet e) key, backup short s = Ok t /\ sender_from_text tool_registry undump t = Ok i
    /\ store_keys (d_scheme (f_data s)) pub prv = Ok (key, false) /\ f_data i = set_key (f_data s) key false /\ f_pub i = Some pub /\ f_prv i = prv.
Proof.
  intros s pub prv short P NI CO. pose proof P as [[l [L G]] (PU & PR & C)]. destruct (private_store s pub prv P) as (key & s' & S & LD & SS & FD). destruct (CO key S) as (b & D & NE & UD).
  destruct (logic_tool _ _ L) as ((t0 & T & TN) & N1 & N2).
  pose proof (text_of short s s' (lit "sender") (lit "private-" ++ to_text_string (d_scheme (f_data s)) ++ lit "-key") SS) as TX.
  rewrite FD in TX. specialize (TX ltac:(cbn [set_key d_scheme d_public]; rewrite N1, N2; reflexivity)).
  destruct (text_prefix short (set_key (f_data s) key false) (lit "sender") (lit "private-" ++ to_text_string (d_scheme (f_data s)) ++ lit "-key")) as (mid & EM & ML).
  apply (fun x => eq_trans x EM) in TX. rewrite D in TX. clear EM. replace (short || negb (is_none (d_info (set_key (f_data s) key false)))) with true in TX.
  2:{ destruct NI as [->|NI]; [reflexivity|]. cbn [set_key d_info]. destruct (d_info (f_data s)); [now rewrite orb_true_r|congruence]. }
  eexists. exists (mkF (set_key (f_data s) key false) (Some pub) prv), key. split; [unfold Signets.backup; rewrite PU; exact TX|]. split; [|auto].
  unfold sender_from_text, Signets.from_text. rewrite (prefix_mid (lit "sender") mid (b58_encode b) ML : has_prefix _ (lit "sender:") = true).
  rewrite app_assoc, last_part_colon by apply b58_no_colon. unfold from_base58. rewrite b58_round_trip by exact NE. cbn [bind]. rewrite UD. unfold Signets.load_signet. cbn [f_pub f_data set_key d_prot d_scheme d_key d_public].
  rewrite PR, T. cbn [bind]. rewrite TN, LD. reflexivity.
Qed.
(** What an export imports to: exports of recipients ... *)
Lemma public_import short (r : fsignet e) pub : public_signet r pub -> short = true \/ d_info (f_data r) <> None ->
  (forall key, store_keys (d_scheme (f_data r)) pub (@SNil e) = Ok (key, true) -> codec_ok dump undump (set_key (f_data r) key true)) ->
  exists t i key, to_text short r = Ok t /\ recipient_from_text tool_registry undump t = Ok i
    /\ store_keys (d_scheme (f_data r)) pub (@SNil e) = Ok (key, true) /\ f_data i = set_key (f_data r) key true /\ f_pub i = Some pub /\ usable (f_prv i) = false.
Proof.
  intros P NI CO. pose proof P as [[l [prv [L G]]] (PU & PR & C)]. destruct (public_store r pub P) as (key & none & S & LD & U & r' & SS & FD). destruct (CO key S) as (b & D & NE & UD).
  destruct (logic_tool _ _ L) as ((t0 & T & TN) & N1 & N2).
  pose proof (text_of short r r' (lit "recipient") (lit "public-" ++ to_text_string (d_scheme (f_data r)) ++ lit "-key") SS) as TX.
  rewrite FD in TX. specialize (TX ltac:(cbn [set_key d_scheme d_public]; rewrite N1, N2; reflexivity)).
  destruct (text_prefix short (set_key (f_data r) key true) (lit "recipient") (lit "public-" ++ to_text_string (d_scheme (f_data r)) ++ lit "-key")) as (mid & EM & ML).
  apply (fun x => eq_trans x EM) in TX. rewrite D in TX. clear EM. replace (short || negb (is_none (d_info (set_key (f_data r) key true)))) with true in TX.
  2:{ destruct NI as [->|NI]; [reflexivity|]. cbn [set_key d_info]. destruct (d_info (f_data r)); [now rewrite orb_true_r|congruence]. }
  eexists. exists (mkF (set_key (f_data r) key true) (Some pub) none), key. split; [exact TX|]. split; [|auto].
  unfold recipient_from_text, Signets.from_text. rewrite (prefix_mid (lit "recipient") mid (b58_encode b) ML : has_prefix _ (lit "recipient:") = true).
  rewrite app_assoc, last_part_colon by apply b58_no_colon. unfold from_base58. rewrite b58_round_trip by exact NE. cbn [bind]. rewrite UD. unfold Signets.load_signet. cbn [f_pub f_data set_key d_prot d_scheme d_key d_public].
  rewrite PR, T. cbn [bind]. rewrite TN, LD. reflexivity.
Qed.
Theorem C28_export_recipient : forall (r : fsignet e) pub short, public_signet r pub -> short = true \/ d_info (f_data r) <> None ->
  (forall key, store_keys (d_scheme (f_data r)) pub (@SNil e) = Ok (key, true) -> codec_ok dump undump (set_key (f_data r) key true)) ->
  exists t i key, export short r = Ok t /\ recipient_from_text tool_registry undump t = Ok i
    /\ store_keys (d_scheme (f_data r)) pub (@SNil e) = Ok (key, true) /\ f_data i = set_key (f_data r) key true /\ f_pub i = Some pub /\ usable (f_prv i) = false.
Proof. intros r pub short P NI CO. unfold Signets.export. pose proof P as [_ [PU _]]. rewrite PU. now apply public_import. Qed.
(** ... and of private signets. *)
Theorem C28_export_private : forall (s : fsignet e) pub prv short, private_signet s pub prv -> short = true \/ d_info (f_data s) <> None ->
  (forall key, store_keys (d_scheme (f_data s)) pub (@SNil e) = Ok (key, true) ->
     codec_ok dump undump (mkData (d_version (f_data s)) (d_id (f_data s)) (d_scheme (f_data s)) key true None (d_info (f_data s)) None)) ->
  exists t i key, export short s = Ok t /\ recipient_from_text tool_registry undump t = Ok i
    /\ store_keys (d_scheme (f_data s)) pub (@SNil e) = Ok (key, true)
    /\ f_data i = mkData (d_version (f_data s)) (d_id (f_data s)) (d_scheme (f_data s)) key true None (d_info (f_data s)) None /\ f_pub i = Some pub /\ usable (f_prv i) = false.
Proof.
  intros s pub prv short P NI CO. destruct (private_recipient s pub prv P) as (r & R & PR & _ & _ & FD). unfold Signets.export. pose proof P as [_ (PU & _)]. rewrite PU, R. cbn [bind].
  destruct (public_import short r pub PR) as (t & i & key & E & I & S & D & FP & U).
  - rewrite FD. exact NI.
  - rewrite FD. exact CO.
  - exists t, i, key. rewrite FD in S, D. cbn in S, D. auto 8.
Qed.
(** A symmetric key: its backup is printed, but no text is ever imported as a symmetric key. *)
Theorem C28_key_refuted : forall t (i : fsignet e), key_from_text tool_registry undump t = Ok i -> d_scheme (f_data i) <> scheme_key.
Proof.
  intros t i H K. unfold key_from_text, Signets.from_text in H. destruct (has_prefix _ _); [|discriminate]. unfold from_base58 in H. destruct (b58_decode _) as [b| |]; cbn [bind] in H; [|discriminate..].
  destruct (undump b) as [d|]; [|discriminate]. unfold Signets.load_signet in H. cbn [f_pub f_data] in H. destruct (d_prot d); [discriminate|].
  destruct (tools_get tool_registry (d_scheme d)) as [t0| |] eqn:T; cbn [bind] in H; [|discriminate..]. destruct (load_keys _ _ _) as [[p k]| |]; cbn [bind] in H; [|discriminate..]. injection H as <-. cbn in K. rewrite K in T. vm_compute in T. discriminate T.
Qed.
Theorem C28_key_backup_lost : forall (s : fsignet e) short, d_scheme (f_data s) = scheme_key -> d_public (f_data s) = false -> d_key (f_data s) <> [] ->
  short = true \/ d_info (f_data s) <> None -> codec_ok dump undump (f_data s) ->
  exists t x, backup short s = Ok t /\ has_prefix t (lit "secret:") = true /\ @key_from_text e tool_registry undump t = Err x.
Proof.
  intros s short K PU KE NI (b & D & NE & UD). assert (SS : store_signet s = Ok s) by (unfold Signets.store_signet; destruct (d_key (f_data s)); [congruence|reflexivity]).
  pose proof (text_of short s s (lit "secret") (lit "symmetric-key") SS) as TX. rewrite PU, K in TX. specialize (TX eq_refl).
  destruct (text_prefix short (f_data s) (lit "secret") (lit "symmetric-key")) as (mid & EM & ML). apply (fun x => eq_trans x EM) in TX. rewrite D in TX. clear EM.
  replace (short || negb (is_none (d_info (f_data s)))) with true in TX.
  2:{ destruct NI as [->|NI]; [reflexivity|]. destruct (d_info (f_data s)); [now rewrite orb_true_r|congruence]. }
  pose proof (prefix_mid (lit "secret") mid (b58_encode b) ML : has_prefix _ (lit "secret:") = true) as HP.
  exists (lit "secret" ++ mid ++ lit ":" ++ b58_encode b).
  assert (F : exists x, @key_from_text e tool_registry undump (lit "secret" ++ mid ++ lit ":" ++ b58_encode b) = Err x).
  { unfold key_from_text, Signets.from_text. rewrite HP. rewrite app_assoc, last_part_colon by apply b58_no_colon. unfold from_base58. rewrite b58_round_trip by exact NE. cbn [bind]. rewrite UD.
    unfold Signets.load_signet. cbn [f_pub f_data]. destruct (d_prot (f_data s)); [eexists; reflexivity|]. rewrite K. eexists. vm_compute. reflexivity. }
  destruct F as [x F]. exists x. unfold Signets.backup. rewrite PU. auto.
Qed.
(** A signet without info (as GenerateSignet makes it) crashes the long form. *)
Theorem C28_no_info_panics : forall (s : fsignet e) pub prv b, private_signet s pub prv -> d_info (f_data s) = None ->
  (forall key, store_keys (d_scheme (f_data s)) pub prv = Ok (key, false) -> dump (set_key (f_data s) key false) = Some b) -> backup false s = Panic.
Proof.
  intros s pub prv b P NI D. pose proof P as [[l [L G]] (PU & PR & C)]. destruct (private_store s pub prv P) as (key & s' & S & LD & SS & FD). destruct (logic_tool _ _ L) as (_ & N1 & N2).
  pose proof (text_of false s s' (lit "sender") (lit "private-" ++ to_text_string (d_scheme (f_data s)) ++ lit "-key") SS) as TX.
  rewrite FD in TX. specialize (TX ltac:(cbn [set_key d_scheme d_public]; rewrite N1, N2; reflexivity)). rewrite (D key S) in TX. cbn [set_key d_info] in TX. rewrite NI in TX.
  unfold Signets.backup. now rewrite PU.
Qed.

(** ** Envelopes *)
Variables (edump : edata -> option bytes) (eundump : bytes -> option edata).
Lemma clean_clean v : clean (clean v) = clean v.
Proof. unfold clean. cbn. rewrite !map_map. reflexivity. Qed.
Lemma clean_bare v : Forall bare (ev_secrets (clean v)) /\ Forall bare (ev_senders (clean v)) /\ Forall bare (ev_recipients (clean v)).
Proof. unfold clean. cbn. repeat split; apply Forall_map, Forall_forall; intros d _; repeat split. Qed.
Lemma clean_references v : references (clean v) = references v.
Proof. unfold references, clean. cbn. rewrite !map_map. reflexivity. Qed.
(** C29: an exported envelope is the text of the envelope whose signets are bare references ... *)
Theorem C29_export_exact : forall v, exists v',
  Forall bare (ev_secrets v') /\ Forall bare (ev_senders v') /\ Forall bare (ev_recipients v') /\ references v' = references v
  /\ ev_version v' = ev_version v /\ ev_name v' = ev_name v /\ ev_suite v' = ev_suite v /\ ev_level v' = ev_level v
  /\ forall short, export_envelope edump short v =
       match edump v' with
       | None => Err EOther
       | Some b => Ok (if short then lit "envelope:" ++ b58_encode b else lit "envelope:" ++ ev_suite v ++ lit ":" ++ ev_name v ++ lit ":" ++ b58_encode b)
       end.
Proof.
  intro v. exists (clean v). destruct (clean_bare v) as (A & B & C). repeat (split; [solve [auto using clean_references]|]). intro short. unfold export_envelope. rewrite clean_clean. destruct (edump (clean v)); [|reflexivity].
  destruct short; reflexivity.
Qed.
(** ... so it depends on nothing but the references. *)
Theorem C29_keys_irrelevant : forall v1 v2 short, references v1 = references v2 -> ev_version v1 = ev_version v2 -> ev_name v1 = ev_name v2 ->
  ev_suite v1 = ev_suite v2 -> ev_level v1 = ev_level v2 -> export_envelope edump short v1 = export_envelope edump short v2.
Proof.
  intros v1 v2 short R V N S L. unfold export_envelope. rewrite !clean_clean.
  assert (M : forall l1 l2, map (fun d => (d_version d, d_id d, d_scheme d)) l1 = map (fun d => (d_version d, d_id d, d_scheme d)) l2 -> map reference l1 = map reference l2).
  { induction l1 as [|a l1 IH]; intros [|b l2] E; try discriminate E; [reflexivity|]. injection E as E1 E2 E3 E4. cbn. unfold reference at 1 3. rewrite E1, E2, E3. f_equal. now apply IH. }
  assert (C : clean v1 = clean v2).
  { unfold references in R. cbn in R. injection R as R1 R2 R3. unfold clean. rewrite V, N, S, L. f_equal; now apply M. }
  rewrite C, S, N. reflexivity.
Qed.
(** C28 for envelopes. *)
Theorem C28_envelope : forall v short, codec_ok edump eundump (clean v) -> exists t,
  export_envelope edump short v = Ok t /\ envelope_from_text eundump t = Ok (clean v).
Proof.
  intros v short (b & D & NE & UD). unfold export_envelope. rewrite clean_clean, D. unfold envelope_from_text. destruct short; eexists; (split; [reflexivity|]).
  - change (lit "envelope" ++ colon ++ b58_encode b) with (lit "envelope:" ++ b58_encode b). rewrite has_prefix_app. change (lit "envelope:" ++ b58_encode b) with (lit "envelope" ++ lit ":" ++ b58_encode b).
    rewrite last_part_colon by apply b58_no_colon. rewrite b58_round_trip by exact NE. cbn [bind]. now rewrite UD.
  - change (lit "envelope" ++ colon ++ ev_suite v ++ colon ++ ev_name v ++ colon ++ b58_encode b) with (lit "envelope:" ++ ev_suite v ++ lit ":" ++ ev_name v ++ lit ":" ++ b58_encode b) at 1. rewrite has_prefix_app. unfold colon.
    replace (lit "envelope" ++ lit ":" ++ ev_suite v ++ lit ":" ++ ev_name v ++ lit ":" ++ b58_encode b) with ((lit "envelope" ++ lit ":" ++ ev_suite v ++ lit ":" ++ ev_name v) ++ lit ":" ++ b58_encode b) by (rewrite <- !app_assoc; reflexivity).
    rewrite last_part_colon by apply b58_no_colon. rewrite b58_round_trip by exact NE. cbn [bind]. now rewrite UD.
Qed.
End Export.

(** ** A concrete case: a small codec, and signets of two schemes. *)
Definition demo_dump (d : sdata) : option bytes :=
  match d_prot d, d_sig d with
  | None, None => Some (block (d_id d) ++ block (d_scheme d) ++ block (d_key d) ++ [if d_public d then n2b 1 else n2b 0; n2b (d_version d)]
                        ++ match d_info d with None => [] | Some i => block (in_name i) ++ block (in_rest i) end)
  | _, _ => None
  end.
Definition demo_undump (b : bytes) : option sdata :=
  match (do (id, r1) <- get_block b; do (sc, r2) <- get_block r1; do (k, r3) <- get_block r2; Ok (id, sc, k, r3)) with
  | Ok (id, sc, k, p :: v :: r) =>
      let info := match r with [] => None | _ => match (do (n, r1) <- get_block r; do (x, _) <- get_block r1; Ok (mkInfo n x)) with Ok i => Some i | _ => None end end in
      Some (mkData (b2n v) id sc k (b2n p =? 1)%N None info None)
  | _ => None
  end.
Definition demo_pub : bytes := repeat (n2b 7) 32.
Definition demo_prv : bytes := repeat (n2b 9) 32.
Definition demo_data : sdata := mkData 1 (lit "alice") (lit "Ed25519") [] false None (Some (mkInfo (lit "Alice's Key") (lit "x"))) None.
Definition demo_private : fsignet demo_ext := mkF demo_data (Some (PubE demo_pub)) (SE (demo_prv ++ demo_pub)).
Definition demo_x : fsignet demo_ext := mkF (mkData 1 (lit "bob") (lit "ECDH-X25519") [] false None None None) (Some (PubX demo_pub)) (SX demo_prv).
Example C27_hypotheses_met : private_signet demo_private (PubE demo_pub) (SE (demo_prv ++ demo_pub)) /\ private_signet demo_x (PubX demo_pub) (SX demo_prv)
  /\ @export demo_ext tool_registry demo_dump false demo_private = Ok (lit "recipient:public-ed25519-key:alice-s-key:" ++ skipn 41 match @export demo_ext tool_registry demo_dump false demo_private with Ok t => t | _ => [] end).
Proof.
  split; [|split; [|vm_compute; reflexivity]]; (split; [eexists; split; [vm_compute; reflexivity|constructor; reflexivity]|]); cbn; auto 8.
Qed.
Example C28_hypotheses_met : private_signet demo_private (PubE demo_pub) (SE (demo_prv ++ demo_pub)) /\ d_info (f_data demo_private) <> None
  /\ (forall key, @store_keys demo_ext (d_scheme (f_data demo_private)) (PubE demo_pub) (SE (demo_prv ++ demo_pub)) = Ok (key, false) -> codec_ok demo_dump demo_undump (set_key (f_data demo_private) key false)).
Proof.
  split; [apply C27_hypotheses_met|]. split; [discriminate|]. intros key E. vm_compute in E. injection E as <-. eexists. split; [vm_compute; reflexivity|]. split; [discriminate|]. vm_compute. reflexivity.
Qed.
(** GenerateSignet("ECDH-X25519").Backup(false) panics; with short = true it is imported again. *)
Example C28_generated_panics : @backup demo_ext tool_registry demo_dump false demo_x = Panic
  /\ exists t, @backup demo_ext tool_registry demo_dump true demo_x = Ok t /\ exists i, @sender_from_text demo_ext tool_registry demo_undump t = Ok i /\ f_prv i = SX demo_prv.
Proof.
  split; [vm_compute; reflexivity|]. eexists. split; [vm_compute; reflexivity|]. eexists. split; [vm_compute; reflexivity|reflexivity].
Qed.
Example C28_key_refuted_met : exists t x, @backup demo_ext tool_registry demo_dump true (mkF (mkData 1 (lit "k") scheme_key (lit "secret key") false None None None) None SNil) = Ok t
  /\ @key_from_text demo_ext tool_registry demo_undump t = Err x.
Proof. eexists. exists ENotFound. split; vm_compute; reflexivity. Qed.
(** A protected signet can be backed up but not imported. *)
Theorem C28_protected_refuted : exists (s : fsignet demo_ext) dump undump t, codec_ok dump undump (f_data s) /\ @backup demo_ext tool_registry dump true s = Ok t
  /\ @sender_from_text demo_ext tool_registry undump t = Err EProtected.
Proof.
  set (d := mkData 1 (lit "p") (lit "Ed25519") (lit "sealed") false (Some (lit "env")) None None).
  exists (mkF d None SNil), (fun _ => Some (lit "doc")), (fun _ => Some d). eexists. split; [eexists; repeat split; discriminate|]. split; vm_compute; reflexivity.
Qed.
Definition demo_env : edata := mkEnv 1 (lit "my:env") (lit "v1") [mkData 1 (lit "pw") scheme_pw (lit "hunter2") false None None None] []
  [mkData 1 (lit "bob") (lit "ECDH-X25519") (lit "k") true None (Some (mkInfo (lit "Bob") [])) None] 128.
Example C29_hypotheses_met : exists v', references v' = references demo_env /\ v' <> demo_env.
Proof. exists (clean demo_env). split; [reflexivity|discriminate]. Qed.
