(** Property theorems C10 and the session part of C11: what acceptance of a letter means. *)
From Coq Require Import Init.Byte.
From Verif Require Import CoreOpen LetterFacts SpecOpen PropTrip PropCodec Toy.

(** ** C10 *)

(** If Open returns data, then - with keys derived from the letter's nonce and a secret -
    every MAC tool's tag over data and header is in the letter, and every AEAD tool accepted
    its layer together with the header. *)
Theorem C10_accepted_by_every_tool : forall c hreg cr e s l d data r',
  new_session c tool_registry hreg cr e = Ok s ->
  s_kdf s <> None ->
  open_session c cr s l (rt_start d None) = (Ok data, r') ->
  exists secret kv, key_schedule cr s (l_nonce l) secret 0 kv /\ accepted cr s kv l data.
Proof.
  intros c hreg cr e s l d data r' N HK H. pose proof (session_sound _ _ _ _ _ N) as S.
  destruct (open_ok c cr s S l _ _ _ (rest_start d) H) as (_ & _ & A). destruct (s_kdf s); [exact A|congruence].
Qed.
Print Assumptions C10_accepted_by_every_tool.

Definition letters_bound (honest : list letter) (l : letter) : Prop :=
  letter_fits l /\ Forall letter_fits honest
  /\ (length (l_keys l) <= 16 \/ Forall (fun x => Forall (fun s => seal_value s <> []) (l_keys x)) (l :: honest)).
Lemma letter_dec (honest : list letter) (x y : bytes) (f : letter -> bytes) (g : letter -> bytes) :
  (exists l, In l honest /\ f l = x /\ g l = y) \/ (forall l, In l honest -> ~ (f l = x /\ g l = y)).
Proof.
  destruct (existsb (fun l => bytes_eqb (f l) x && bytes_eqb (g l) y) honest) eqn:E.
  - left. apply existsb_exists in E as (l & Hl & E). apply andb_true_iff in E as [E1 E2]. apply bytes_eqb_eq in E1, E2. eauto.
  - right. intros l Hl [E1 E2]. assert (X : existsb (fun l => bytes_eqb (f l) x && bytes_eqb (g l) y) honest = true); [|congruence].
    apply existsb_exists. exists l. split; [exact Hl|]. now rewrite E1, E2, !bytes_eqb_refl.
Qed.
Lemma bound_header honest l l0 : letters_bound honest l -> In l0 honest -> assoc_data l0 = assoc_data l -> same_header l0 l.
Proof.
  intros (F & FH & B) Hl E. symmetry in E. rewrite Forall_forall in FH.
  destruct (C04_associated_data_binds_header l l0 F (FH _ Hl)) as (A1 & A2 & A3 & A4); [|exact E|repeat split; auto].
  destruct B as [B|B]; [now left|right]. inversion B as [|? ? B1 B2]; subst. rewrite Forall_forall in B2. auto.
Qed.

(** Suites with an AEAD tool (all suites of the registry that encrypt): given the letters
    [honest] that the holders of the secret produced, a letter that is opened either has the
    header and the data of one of them, or its outermost AEAD tool accepted - under a key of
    this session - a combination of header and ciphertext that nobody sealed. *)
Theorem C10_aead_integrity : forall c hreg cr e s l d data r' honest front a,
  new_session c tool_registry hreg cr e = Ok s -> s_kdf s <> None ->
  s_aead s = front ++ [a] ->
  open_session c cr s l (rt_start d None) = (Ok data, r') ->
  letters_bound honest l ->
  (exists l0, In l0 honest /\ same_header l0 l /\ l_data l0 = l_data l)
  \/ (exists secret kv, key_schedule cr s (l_nonce l) secret 0 kv
        /\ cr_open cr (i_name a) (fst (kv a)) (snd (kv a)) (assoc_data l) (l_data l) <> None
        /\ forall l0, In l0 honest -> ~ (assoc_data l0 = assoc_data l /\ l_data l0 = l_data l)).
Proof.
  intros c hreg cr e s l d data r' honest front a N HK EA H B.
  destruct (C10_accepted_by_every_tool _ _ _ _ _ _ _ _ _ N HK H) as (secret & kv & KS & _ & inner & CH & _).
  rewrite EA, rev_app_distr in CH. cbn [rev app] in CH. inversion CH as [|? ? ? d' ? E _]; subst.
  destruct (letter_dec honest (assoc_data l) (l_data l) assoc_data l_data) as [(l0 & Hl & EQ & ED)|NO].
  - left. exists l0. split; [exact Hl|]. split; [eapply bound_header; eassumption|exact ED].
  - right. exists secret, kv. split; [exact KS|]. split; [congruence|exact NO].
Qed.
Print Assumptions C10_aead_integrity.

(** Suites that rely on MAC tools: the message under the MAC is data followed by header, so
    there is a third case (C06): an honest letter with the same message, split elsewhere. *)
Theorem C10_mac_integrity : forall c hreg cr e s l d data r' honest,
  new_session c tool_registry hreg cr e = Ok s -> s_kdf s <> None -> s_macs s <> [] ->
  open_session c cr s l (rt_start d None) = (Ok data, r') ->
  letters_bound honest l ->
  (exists l0, In l0 honest /\ same_header l0 l /\ l_data l0 = l_data l)
  \/ (exists l0, In l0 honest /\ l_data l0 ++ assoc_data l0 = l_data l ++ assoc_data l /\ length (l_data l0) <> length (l_data l))
  \/ (exists secret kv, key_schedule cr s (l_nonce l) secret 0 kv
        /\ l_mac l = concat (map (fun i => cr_mac cr (i_name i) (i_arg i) (fst (kv i)) (l_data l ++ assoc_data l)) (s_macs s))
        /\ forall l0, In l0 honest -> l_data l0 ++ assoc_data l0 <> l_data l ++ assoc_data l).
Proof.
  intros c hreg cr e s l d data r' honest N HK HM H B.
  destruct (C10_accepted_by_every_tool _ _ _ _ _ _ _ _ _ N HK H) as (secret & kv & KS & AM & _). specialize (AM HM).
  destruct (letter_dec honest (l_data l ++ assoc_data l) [] (fun x => l_data x ++ assoc_data x) (fun _ => [])) as [(l0 & Hl & EQ & _)|NO].
  - destruct (Nat.eq_dec (length (l_data l0)) (length (l_data l))) as [EL|NL]; [left|right; left; eauto].
    assert (E2 : l_data l0 = l_data l /\ assoc_data l0 = assoc_data l).
    { clear - EQ EL. revert EQ EL. generalize (l_data l) as y, (l_data l0) as x. intros y x. revert y.
      induction x as [|a x IH]; intros [|b y] EQ EL; cbn in *; try discriminate; [auto|]. injection EQ as -> EQ. injection EL as EL.
      destruct (IH y EQ EL). split; congruence. }
    exists l0. split; [exact Hl|]. split; [eapply bound_header; [exact B|exact Hl|apply E2]|apply E2].
  - right. right. exists secret, kv. split; [exact KS|]. split; [exact AM|]. intros l0 Hl EQ. apply (NO l0 Hl). auto.
Qed.
Print Assumptions C10_mac_integrity.

(** Hence: whatever the opener returns is what the producer of one of the honest letters
    put into it, or there is a forgery (AEAD suites without signatures and MACs; the honest
    letters are those that this session opens to their data, C09). *)
Theorem C10_data_is_honest : forall c hreg cr e s l d data r' (honest : list (bytes * letter)) front a,
  new_session c tool_registry hreg cr e = Ok s -> s_kdf s <> None ->
  s_aead s = front ++ [a] -> s_macs s = [] -> s_signers s = [] ->
  (forall data0 l0, In (data0, l0) honest -> fst (open_session c cr s l0 (rt_start d None)) = Ok data0) ->
  open_session c cr s l (rt_start d None) = (Ok data, r') ->
  letters_bound (map snd honest) l ->
  In data (map fst honest)
  \/ (exists secret kv, key_schedule cr s (l_nonce l) secret 0 kv
        /\ cr_open cr (i_name a) (fst (kv a)) (snd (kv a)) (assoc_data l) (l_data l) <> None
        /\ forall l0, In l0 (map snd honest) -> ~ (assoc_data l0 = assoc_data l /\ l_data l0 = l_data l)).
Proof.
  intros c hreg cr e s l d data r' honest front a N HK EA EM ES HO H B.
  destruct (C10_aead_integrity _ _ _ _ _ _ _ _ _ _ _ _ N HK EA H B) as [(l0 & Hl & SH & ED)|F]; [left|right; exact F].
  apply in_map_iff in Hl as ([data0 l0'] & <- & Hl). cbn [snd] in *. pose proof (HO _ _ Hl) as H0.
  assert (EQ : fst (open_session c cr s l0' (rt_start d None)) = fst (open_session c cr s l (rt_start d None))).
  { clear - SH ED EM ES. destruct SH as (S1 & S2 & S3 & S4). destruct l0' as [v su n k da m sg ap], l as [v' su' n' k' da' m' sg' ap'].
    cbn in *. subst. unfold open_session. rewrite ES. cbn [nonempty]. unfold open_payload. rewrite EM. cbn [nonempty].
    cbn [l_version]. destruct (v' =? 1)%N; [|reflexivity]. destruct (s_kdf s); reflexivity. }
  rewrite EQ, H in H0. cbn in H0. injection H0 as ->. apply in_map_iff. exists (data0, l0'). auto.
Qed.
Print Assumptions C10_data_is_honest.

Example C10_hypotheses_met :
  let e := toy_env (suite_named (lit "rcpt_v1")) [] [] [toy_signet "bob" "ECDH-X25519" 7] in
  exists s l r', new_session default_config tool_registry hash_registry toy e = Ok s
    /\ s_kdf s <> None /\ (exists front a, s_aead s = front ++ [a]) /\ s_macs s = [] /\ s_signers s = []
    /\ open_session default_config toy s l (rt_start 0 None) = (Ok (lit "hello"), r')
    /\ letters_bound [l] l.
Proof.
  eexists. pose (s := match new_session default_config tool_registry hash_registry toy
    (toy_env (suite_named (lit "rcpt_v1")) [] [] [toy_signet "bob" "ECDH-X25519" 7]) with Ok s => s | _ => init_session (toy_env (suite_named []) [] [] []) (suite_named []) end).
  exists (match fst (close_session default_config toy s false (lit "hello") (rt_start 3 None)) with Ok l => l | _ => l_empty end).
  eexists. split; [vm_compute; reflexivity|]. split; [discriminate|]. split; [exists []; eexists; reflexivity|].
  split; [reflexivity|]. split; [reflexivity|]. split; [vm_compute; reflexivity|].
  split; [|split; [constructor; [|constructor]|left; vm_compute; lia]].
  all: vm_compute; repeat split; auto; repeat constructor.
Qed.

(** ** C11 in a session *)

Lemma signers_hash c hreg cr e s i : new_session c tool_registry hreg cr e = Ok s -> In i (s_signers s) -> In (i_arg i) (s_sig_hashers s).
Proof.
  intros N Hi. apply new_session_ok in N as (su & _ & O). pose proof (so_shape _ _ _ _ _ _ _ O) as Sh.
  apply (sh_sig_h _ _ _ Sh). exists i. split; [exact Hi|]. split; [|reflexivity].
  rewrite (sh_signers _ _ _ Sh) in Hi. apply of_purpose_In in Hi as [Hi HP].
  destruct (Forall2_In_r _ _ _ _ (so_res _ _ _ _ _ _ _ O) Hi) as (x & _ & _ & HG & _).
  unfold tools_get, of_option in HG. destruct (find _ tool_registry) as [t|] eqn:EF; [|discriminate]. injection HG as ->.
  apply find_some in EF as [EF _]. unfold i_purpose in HP.
  assert (C : forallb (fun t => match t_purpose t with PSigning => has_option t OManagedHasher | _ => true end) tool_registry = true) by reflexivity.
  rewrite forallb_forall in C. specialize (C _ EF). now rewrite HP in C.
Qed.

Lemma senders_served c hreg cr e s su : new_session c tool_registry hreg cr e = Ok s -> e_suite e = Some su -> distinct_tools su ->
  (forall sg, In sg (e_senders e) -> exists i, In i (s_signers s) /\ i_name i = sg_scheme sg)
  /\ (forall i, In i (s_signers s) -> exists sg, In sg (e_senders e) /\ sg_scheme sg = i_name i).
Proof.
  intros H ES D. pose proof (fun i => session_names _ _ _ _ _ i H) as NM.
  pose proof H as H0. apply new_session_acceptable in H0 as (su' & E & A). rewrite ES in E. injection E as <-.
  pose proof (acceptable_served _ _ _ _ _ _ _ A registry_names D) as (_ & SV & _).
  pose proof (ac_res _ _ _ _ _ _ _ A) as Hres.
  pose proof (proj2 (tools_served_ne _ _ _ _ _ Hres registry_names) (ac_ne _ _ _ _ _ _ _ A)) as TS.
  pose proof H as H1. apply new_session_ok in H1 as (su' & E & O). rewrite ES in E. injection E as <-.
  rewrite (sh_signers _ _ _ (so_shape _ _ _ _ _ _ _ O)). split.
  - intros sg Hsg. destruct (SV sg Hsg) as (t & Ht & Hp & EN). apply (suite_tool_iff _ _ _ _ _ Hres) in Ht as (i & Hi & <-).
    exists i. split; [apply of_purpose_In; auto|exact EN].
  - intros i Hi. apply of_purpose_In in Hi as [Hi HP]. specialize (TS (i_tool i)).
    assert (ST : suite_tool tool_registry su (i_tool i)) by (apply (suite_tool_iff _ _ _ _ _ Hres); eauto).
    specialize (TS ST). unfold i_purpose in HP. rewrite HP in TS. exact TS.
Qed.

Lemma signed_by_all c hreg cr e s su l :
  new_session c tool_registry hreg cr e = Ok s -> e_suite e = Some su -> distinct_tools su -> s_signers s <> [] ->
  length (e_senders (s_env s)) = length (l_sigs l) ->
  (forall k x, nth_error (sig_steps s) k = Some x -> exists v, nth_error (l_sigs l) k = Some v /\ verified cr (sig_fed s l) x v) ->
  length (l_sigs l) = length (e_senders e) /\ e_senders e <> []
  /\ forall sg, In sg (e_senders e) -> exists i v, In i (s_signers s) /\ In v (l_sigs l)
       /\ i_name i = sg_scheme sg /\ signature_valid cr i sg l v.
Proof.
  intros N ES D NS LE V. pose proof (session_env _ _ _ _ _ _ N) as EE. rewrite EE in LE.
  destruct (senders_served _ _ _ _ _ _ N ES D) as [SV TS]. split; [auto|]. split.
  - destruct (s_signers s) as [|i is]; [congruence|]. destruct (TS i (or_introl eq_refl)) as (sg & Hsg & _). intro Z. rewrite Z in Hsg. easy.
  - intros sg Hsg. destruct (SV sg Hsg) as (i & Hi & EN).
    assert (IN : In (i, sg) (sig_steps s)).
    { unfold sig_steps. apply in_flat_map. exists i. split; [exact Hi|]. apply in_map. unfold loop. apply filter_In. rewrite EE. split; [exact Hsg|].
      rewrite EN. destruct (sg_scheme sg); [reflexivity|]. apply bytes_eqb_refl. }
    apply In_nth_error in IN as (k & Hk). destruct (V k _ Hk) as (v & Hv & p & P1 & _ & P3). exists i, v. split; [exact Hi|].
    split; [eapply nth_error_In; exact Hv|]. split; [exact EN|]. exists p. split; [exact P1|]. cbn [fst snd] in P3.
    rewrite sig_fed_message in P3; [exact P3|exact Hi|eapply signers_hash; eassumption].
Qed.

(** Open under a suite with signing tools succeeds only if the letter has as many
    signatures as the envelope has senders (at least one), and for each sender there is a
    signature that verifies under the sender's key for this very letter. *)
Theorem C11_open_checks_every_sender : forall c hreg cr e s su l d data r',
  new_session c tool_registry hreg cr e = Ok s -> e_suite e = Some su -> distinct_tools su ->
  s_signers s <> [] ->
  open_session c cr s l (rt_start d None) = (Ok data, r') ->
  length (l_sigs l) = length (e_senders e) /\ e_senders e <> []
  /\ forall sg, In sg (e_senders e) -> exists i v, In i (s_signers s) /\ In v (l_sigs l)
       /\ i_name i = sg_scheme sg /\ signature_valid cr i sg l v.
Proof.
  intros c hreg cr e s su l d data r' N ES D NS H. pose proof (session_sound _ _ _ _ _ N) as S.
  destruct (open_ok c cr s S l _ _ _ (rest_start d) H) as (_ & A & _).
  destruct A as [A1 A2]; [destruct (s_signers s); [congruence|reflexivity]|]. eapply signed_by_all; eassumption.
Qed.
Print Assumptions C11_open_checks_every_sender.

(** The same for Verify, which is always an error under suites without signing tools. *)
Theorem C11_verify_checks_every_sender : forall c hreg cr e s su l d r',
  new_session c tool_registry hreg cr e = Ok s -> e_suite e = Some su -> distinct_tools su ->
  verify_session cr s l (rt_start d None) = (Ok tt, r') ->
  s_signers s <> [] /\ length (l_sigs l) = length (e_senders e) /\ e_senders e <> []
  /\ forall sg, In sg (e_senders e) -> exists i v, In i (s_signers s) /\ In v (l_sigs l)
       /\ i_name i = sg_scheme sg /\ signature_valid cr i sg l v.
Proof.
  intros c hreg cr e s su l d r' N ES D H. pose proof (session_sound _ _ _ _ _ N) as S.
  destruct (verify_ok cr s l _ _ (rest_start d) H) as (_ & NS & A1 & A2).
  assert (NS' : s_signers s <> []) by (destruct (s_signers s); [discriminate|congruence]).
  split; [exact NS'|]. eapply signed_by_all; eassumption.
Qed.
Print Assumptions C11_verify_checks_every_sender.

(** With a single signing tool (all suites of the registry) the signatures are matched to
    the senders by position: signature k verifies under the key of sender k. *)
Theorem C11_signatures_in_order : forall c hreg cr e s su l d i data r',
  new_session c tool_registry hreg cr e = Ok s -> e_suite e = Some su -> distinct_tools su ->
  s_signers s = [i] ->
  (open_session c cr s l (rt_start d None) = (Ok data, r') \/ verify_session cr s l (rt_start d None) = (Ok tt, r')) ->
  Forall2 (fun sg v => signature_valid cr i sg l v) (e_senders e) (l_sigs l).
Proof.
  intros c hreg cr e s su l d i data r' N ES D NS H. pose proof (session_sound _ _ _ _ _ N) as S.
  pose proof (session_env _ _ _ _ _ _ N) as EE.
  assert (A : length (e_senders (s_env s)) = length (l_sigs l)
    /\ (forall k x, nth_error (sig_steps s) k = Some x -> exists v, nth_error (l_sigs l) k = Some v /\ verified cr (sig_fed s l) x v)).
  { destruct H as [H|H].
    - destruct (open_ok c cr s S l _ _ _ (rest_start d) H) as (_ & A & _). apply A. now rewrite NS.
    - destruct (verify_ok cr s l _ _ (rest_start d) H) as (_ & _ & A). exact A. }
  destruct A as [A1 A2]. rewrite EE in A1.
  destruct (senders_served _ _ _ _ _ _ N ES D) as [SV _]. rewrite NS in SV.
  assert (EL : loop (i_name i) (e_senders e) = e_senders e).
  { unfold loop. clear - SV. induction (e_senders e) as [|sg L IH]; [reflexivity|]. cbn [filter].
    destruct (SV sg (or_introl eq_refl)) as (j & [<-|[]] & EN).
    assert (X : match i_name i with [] => true | _ => bytes_eqb (sg_scheme sg) (i_name i) end = true)
      by (rewrite EN; destruct (sg_scheme sg); [reflexivity|now rewrite bytes_eqb_refl]).
    rewrite X, IH; [reflexivity|]. intros x Hx. apply SV. now right. }
  assert (ST : sig_steps s = map (pair i) (e_senders e)).
  { unfold sig_steps. rewrite NS, EE. cbn [flat_map]. now rewrite app_nil_r, EL. }
  assert (Hi : In i (s_signers s)) by (rewrite NS; now left).
  pose proof (signers_hash _ _ _ _ _ _ N Hi) as HH.
  rewrite ST in A2. clear - A1 A2 Hi HH. revert A1 A2. generalize (e_senders e) as L.
  assert (G : forall L vs, length L = length vs ->
     (forall k x, nth_error (map (pair i) L) k = Some x -> exists v, nth_error vs k = Some v /\ verified cr (sig_fed s l) x v) ->
     Forall2 (fun sg v => signature_valid cr i sg l v) L vs).
  { induction L as [|sg L IH]; intros [|v vs] LE V; try discriminate; constructor.
    - destruct (V 0 (i, sg) eq_refl) as (v' & Hv & p & P1 & _ & P3). cbn in Hv. injection Hv as <-. exists p. split; [exact P1|].
      cbn [fst] in P3. now rewrite sig_fed_message in P3.
    - apply IH; [now injection LE|]. intros k x Hx. apply (V (S k) x Hx). }
  intros L A1 A2. now apply G.
Qed.
Print Assumptions C11_signatures_in_order.

Example C11_hypotheses_met :
  let e := toy_env (suite_named (lit "sign_v1")) [] [toy_signet "alice" "Ed25519" 5; toy_signet "carol" "Ed25519" 9] [] in
  exists s l r1 r2, new_session default_config tool_registry hash_registry toy e = Ok s
    /\ (exists i, s_signers s = [i])
    /\ open_session default_config toy s l (rt_start 0 None) = (Ok (lit "hello"), r1)
    /\ verify_session toy s l (rt_start 0 None) = (Ok tt, r2)
    /\ fst (open_session default_config toy s (set_data l (lit "hellO")) (rt_start 0 None)) = Err EOther
    /\ fst (open_session default_config toy s (set_sigs l (rev (l_sigs l))) (rt_start 0 None)) = Err EOther.
Proof.
  eexists. pose (s := match new_session default_config tool_registry hash_registry toy
    (toy_env (suite_named (lit "sign_v1")) [] [toy_signet "alice" "Ed25519" 5; toy_signet "carol" "Ed25519" 9] []) with Ok s => s | _ => init_session (toy_env (suite_named []) [] [] []) (suite_named []) end).
  exists (match fst (close_session default_config toy s false (lit "hello") (rt_start 3 None)) with Ok l => l | _ => l_empty end).
  eexists _, _. split; [vm_compute; reflexivity|]. split; [eexists; reflexivity|].
  split; [vm_compute; reflexivity|]. split; [vm_compute; reflexivity|]. split; vm_compute; reflexivity.
Qed.
