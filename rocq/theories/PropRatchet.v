(** Property theorems C60: the key chain of a wire conversation. *)
From Coq Require Import Permutation.
From Verif Require Import WireHist WireRun SpecRatchet SpecOpen CoreOpen CoreRound PropWire PropSide SuiteFacts SpecSession SessionFacts SessionComplete SessionProps SpecCore PropTrip PropSession.

Lemma twins_refl s : twins s s.
Proof. constructor; reflexivity. Qed.
Lemma chained cr s l data ks ms ab prev next : crypto_laws cr -> sound_session s ->
  sent cr s l data ks ms ab prev next -> link_of_chain cr s prev ms (data, l) next.
Proof.
  intros L S [LK _ _ (kvs & l0 & SK & EM & EB)]. cbn [link_of_chain].
  assert (ES : secret_of ms prev = chain_secret ms prev).
  { unfold secret_of, chain_secret. rewrite concat_app. destruct prev; cbn [prev_list concat]; now rewrite ?app_nil_r. }
  rewrite <- ES. change (chain_length s prev) with (carry_size s prev). split; [exact (li_next _ _ _ _ _ _ LK)|].
  exists (keys kvs). split.
  - unfold key_schedule. apply derived_schedule; [exact (ss_ids s S)|exact SK].
  - apply opened_accepted. rewrite EB. apply opened_sealed; auto using twins_refl.
Qed.
Lemma chain_keys cr s : crypto_laws cr -> sound_session s -> forall gs prev last,
  chain cr s prev gs last -> key_chain cr s prev (map g_ms gs) (map on_way gs) last.
Proof.
  intros L S. induction gs as [|g gs IH]; intros prev last H; cbn [chain map] in *; [subst; constructor|].
  destruct H as (next & H1 & H2). econstructor; [eapply chained; eauto|auto].
Qed.
Lemma chain_keys_all cr s : forall gs prev last, chain cr s prev gs last -> Forall (fun g => l_keys (g_letter g) = g_ks g /\ l_apply (g_letter g) = g_ab g) gs.
Proof.
  induction gs as [|g gs IH]; intros prev last H; cbn [chain] in *; constructor; destruct H as (n & H1 & H2); eauto.
  split; [exact (se_keys _ _ _ _ _ _ _ _ _ H1)|exact (se_apply _ _ _ _ _ _ _ _ _ H1)].
Qed.
Lemma client_news_len E fl : length (client_news E fl) = length fl.
Proof. induction fl as [|[|] fl IH]; cbn; rewrite ?map_length; auto. Qed.
Lemma client_news_prefix E a b : map g_ms (a ++ b) = client_news E (map g_ab (a ++ b)) -> map g_ms a = client_news E (map g_ab a).
Proof.
  rewrite !map_app, client_news_app. intro H. apply app_eq_len in H as [H _]; [exact H|]. now rewrite client_news_len, !map_length.
Qed.
Lemma server_news_prefix E a b : map g_ms (a ++ b) = server_news E (length (a ++ b)) -> map g_ms a = server_news E (length a).
Proof.
  destruct a as [|g a]; [reflexivity|]. cbn [app map length server_news]. intro H. injection H as -> H. f_equal. rewrite map_app, app_length, repeat_app in H.
  apply app_eq_len in H as [H _]; [exact H|]. now rewrite map_length, repeat_length.
Qed.

(** One key exchange tool, so all recipients use it. *)
Definition tool_of (s : session) : bytes := match s_kx s with i :: _ => i_name i | [] => [] end.
Lemma parties_of c cr s nonce cs : length (s_kx s) <= 1 -> Forall2 (made c cr s nonce) (steps s) cs ->
  Forall is_kx (steps s) ->
  exists ps, map pa_signet ps = map step_signet (steps s) /\ Forall (party_ok cr (tool_of s)) ps
    /\ map co_seal cs = map (party_seal cr (tool_of s)) ps /\ map co_mat cs = map (party_secret cr (tool_of s)) ps
    /\ Forall2 (fun p q => i_name (kx_tool p) = tool_of s /\ kx_own p = Some (Some (pa_pub q, pa_priv q))) (flat_map co_kx cs) ps
    /\ flat_map co_ke cs = [].
Proof.
  intros K FM FX.
  assert (TI : forall i sg, In (SKx i sg) (steps s) -> i_name i = tool_of s).
  { intros i sg H. unfold steps, steps_of in H. rewrite !in_app_iff in H. destruct H as [H|[H|[H|H]]].
    - apply in_map_iff in H as (? & ? & _). discriminate.
    - apply in_map_iff in H as (? & ? & _). discriminate.
    - apply in_flat_map in H as (j & Hj & H). apply in_map_iff in H as (? & E & _). injection E as -> ->.
      unfold tool_of. destruct (s_kx s) as [|a [|b l]]; [easy| |cbn in K; lia]. destruct Hj as [->|[]]. reflexivity.
    - apply in_flat_map in H as (j & _ & H). apply in_map_iff in H as (? & ? & _). discriminate. }
  revert FX TI. induction FM as [|x co xs cs M FM IH]; intros FX TI.
  - exists []. repeat split; constructor.
  - inversion FX as [|? ? (i & sg & ->) FX']; subst. destruct IH as (ps & P1 & P2 & P3 & P4 & P5 & P6); [exact FX'|intros; apply (TI i0 sg0); now right|].
    specialize (TI i sg (or_introl eq_refl)). inversion M as [| |? ? pub priv p PO SP|]; subst.
    exists (mkParty sg p pub priv :: ps). cbn [map pa_signet step_signet co_seal co_mat co_kx co_ke flat_map app]. rewrite <- TI in *.
    split; [now f_equal|]. split; [constructor; [split; assumption|exact P2]|]. split; [now f_equal|]. split; [now f_equal|].
    split; [constructor; [split; reflexivity|exact P5]|exact P6].
Qed.

Lemma answered cr tool ckx ps ks E : crypto_laws cr -> Forall2 (fun p q => i_name (kx_tool p) = tool /\ kx_own p = Some (Some (pa_pub q, pa_priv q))) ckx ps ->
  Forall (party_ok cr tool) ps -> reply cr ckx [] ks E ->
  length ks = length E /\ Forall2 (answers cr tool) ps (combine ks E).
Proof.
  intros L F FP (a & b & x & e & -> & -> & LA & LB & FA & FU & FS). destruct b; [|discriminate]. unfold map2 in FU. cbn in FU. inversion FU; subst. rewrite !app_nil_r. clear FU LB.
  revert ps x F FP FA. induction FS as [|p sl ckx a (pub & priv & PO & ->) FS IH]; intros ps x F FP FA; inversion F as [|? q ? ps' (E1 & E2) F']; subst.
  - inversion FA; subst. split; [reflexivity|constructor].
  - unfold map2 in FA. cbn [map combine fst snd] in FA. inversion FA as [|? y ? x' AG FA']; subst. inversion FP as [|? ? (Q1 & Q2) FP']; subst.
    cbn [length] in LA. injection LA as LA. destruct (IH LA ps' x' F' FP' FA') as [I1 I2]. cbn [length combine]. split; [now f_equal|]. constructor; [|exact I2].
    destruct AG as (pb & pv & peer & pub' & pv' & A1 & A2 & A3 & A4). unfold with_peer in *. cbn [kx_own kx_peer kx_tool seal_value] in *.
    rewrite E2 in A1. injection A1 as <- <-. injection A2 as <-. destruct (law_store _ L _ _ _ PO) as (z & LD). rewrite LD in A3. injection A3 as <- _.
    exists pub, priv. cbn [fst snd]. split; [exact PO|]. split; [reflexivity|]. split; [exact A4|]. rewrite A4. exact (law_dh _ L _ _ _ _ _ Q2 PO).
Qed.

(** ** C60 *)

(** In every conversation of a wire session with its counterpart, over every interleaving of sends and
    deliveries: the first letter carries a one-time key per recipient and is protected by the secrets between
    these and the recipients' keys.  Both directions then continue the chain from that letter: all that
    protects a letter is derived from the chain key the letter before it left, and from new key material once
    per direction: the secrets between the one-time keys of the client and one-time keys of the server, which
    the first letter of the server carries.  It enters with that letter, and in the other direction with the
    first letter the client sends after it heard the server, whose flag says so.  And the sessions keep
    exactly the chain keys the last letters left. *)
Theorem C60_key_chain : forall c cr e1 e2 s1 s2 su k t,
  crypto_laws cr ->
  new_session c tool_registry hash_registry cr e1 = Ok s1 -> init_wire s1 = Ok tt ->
  new_session c tool_registry hash_registry cr e2 = Ok s2 ->
  e_suite e1 = Some su -> In su suite_registry -> counterpart cr e1 e2 ->
  conversation c cr s1 s2 k t ->
  (said_client t = [] /\ said_server t = [])
  \/ exists tool ps E m1 rest k0 k_send k_recv got,
    said_client t = (false, m1) :: rest
    (* the first letter *)
    /\ Permutation (map pa_signet ps) (e_recipients e1) /\ Forall (party_ok cr tool) ps
    /\ l_keys (snd m1) = map (party_seal cr tool) ps
    /\ link_of_chain cr s1 None (map (party_secret cr tool) ps) m1 k0
    (* the rest of both directions *)
    /\ key_chain cr s1 (Some k0) (client_news E (map fst rest)) (map snd rest) k_send
    /\ Forall (fun m => l_keys (snd (snd m)) = [] /\ l_apply (snd (snd m)) = fst m) rest
    /\ match said_server t with
       | [] => heard t = false
       | (_, l) :: more =>
           length (l_keys l) = length E /\ Forall2 (answers cr tool) ps (combine (l_keys l) E)
           /\ Forall (fun m => l_keys (snd m) = []) more
       end
    /\ (exists last, key_chain cr s2 (Some k0) (server_news E (length (said_server t))) (said_server t) last
          /\ (k_met k = true -> exists early kr, map snd (said_client t) = early ++ k_to_server k
                /\ key_chain cr s1 None (firstn (length early) (map (party_secret cr tool) ps :: client_news E (map fst rest))) early kr
                /\ next_keys (k_server k) last kr))
    /\ said_server t = got ++ k_to_client k
    /\ key_chain cr s2 (Some k0) (server_news E (length got)) got k_recv
    /\ next_keys (k_client k) k_send k_recv.
Proof.
  intros c cr e1 e2 s1 s2 su k t L N1 W1 N2 ES HI CP CN.
  pose proof (session_env _ _ _ _ _ _ N1) as EE1. pose proof (session_sound _ _ _ _ _ N1) as S1.
  destruct (wire_sessions _ _ _ _ _ _ _ N1 W1 N2 CP) as [T _ S2 (kdf & KD) SG PS KY PR DK ST].
  destruct (registered_wire _ _ _ _ _ N1 ES HI) as [K1 K2].
  assert (K2' : length (s_ke s1) <= 1) by (rewrite K2; cbn; lia).
  assert (KI : forall i sg, In (SKe i sg) (steps s1) -> sg_id sg <> []).
  { intros i sg H. unfold steps, steps_of in H. rewrite K2 in H. cbn [flat_map] in H. rewrite app_nil_r, !in_app_iff in H. destruct H as [H|[H|H]].
    - apply in_map_iff in H as (? & ? & _). discriminate.
    - apply in_map_iff in H as (? & ? & _). discriminate.
    - apply in_flat_map in H as (j & _ & H). apply in_map_iff in H as (? & ? & _). discriminate. }
  destruct (registered_few su HI) as (_ & _ & DT).
  assert (SEC : e_secrets e1 = []).
  { pose proof N1 as N0. apply new_session_acceptable in N0 as (su' & E & A). rewrite ES in E. injection E as <-.
    pose proof (acceptable_served _ _ _ _ _ _ _ A registry_names DT) as (SV & _ & _).
    destruct (C22_wire_protection _ _ _ _ _ _ _ N1 W1 ES) as (_ & _ & _ & HP & _).
    destruct (e_secrets e1) as [|sg l] eqn:EQ; [reflexivity|exfalso]. destruct (SV sg (or_introl eq_refl)) as [X|[X (t0 & Ht & Hp)]].
    - rewrite EE1, EQ in KY. unfold loop in KY. cbn [filter] in KY. rewrite X in KY. discriminate.
    - destruct (HP t0 Ht). congruence. }
  assert (FX : Forall is_kx (steps s1)).
  { unfold steps, steps_of. rewrite EE1, SEC, K2. cbn [loop filter map app flat_map]. rewrite app_nil_r. apply Forall_forall. intros x Hx.
    apply in_flat_map in Hx as (i & _ & Hx). apply in_map_iff in Hx as (sg & <- & _). now exists i, sg. }
  pose proof (steps_perm _ _ _ _ _ _ N1 ES DT) as PM. rewrite SEC in PM. cbn [app] in PM.
  assert (H : hist c cr s1 s2 k t) by (eapply (conversation_hist c cr s1 s2); eauto).
  destruct H as [H1 H2 _ _ _ _|g1 cs new next w1 cw cgs sgs E H]; [left; auto|right].
  destruct H as [X1 X2 X3 X4 X5 X6 X7 X8 X9 X10 X11 X12 X13 X14 X15 X16 X17 X18].
  destruct X5 as [FM FN EX EE _ _ _]. destruct (parties_of _ _ _ _ _ K1 FM FX) as (ps & P1 & P2 & P3 & P4 & P5 & P6).
  rewrite P6 in FN. assert (ENW : new = []) by (inversion FN; reflexivity). rewrite ENW in X6, EE. clear FN. cbn [map] in X6. rewrite app_nil_r in X6.
  destruct X17 as (sa & sb & Z1 & Z2 & Z3 & Z4).
  assert (EPS : exists ks, prev_of true cw = Some ks) by (unfold prev_of; rewrite X4; eauto). destruct EPS as (ksend & EPS).
  exists (tool_of s1), ps, E, (on_way g1), (map flagged cgs), next, (prev_of true cw), (prev_of false cw), (map on_way sa).
  assert (MF : map snd (map flagged cgs) = map on_way cgs) by (rewrite map_map; reflexivity).
  assert (MA : map fst (map flagged cgs) = map g_ab cgs) by (rewrite map_map; reflexivity).
  split; [rewrite X1; cbn [map]; unfold flagged at 1; now rewrite X8|]. split; [now rewrite P1|]. split; [exact P2|].
  split; [cbn [on_way snd]; rewrite (se_keys _ _ _ _ _ _ _ _ _ X9), X6; exact P3|].
  assert (LK1 : link_of_chain cr s1 None (map (party_secret cr (tool_of s1)) ps) (on_way g1) next).
  { rewrite <- P4, <- X7. eapply chained; [exact L|exact S1|exact X9]. }
  split; [exact LK1|].
  split; [rewrite MF, MA, <- X11; now apply chain_keys|].
  split.
  { apply chain_keys_all in X10. clear - X10 X12. induction X10 as [|g gs [A1 A2] F IH]; inversion X12; subst; constructor; auto. cbn. split; congruence. }
  split.
  { rewrite X2. destruct sgs as [|g sgs].
    - destruct (heard t); [destruct X16 as (X & _); congruence|reflexivity].
    - cbn [map on_way]. destruct X14 as [RP PL]. rewrite EX, EE in RP.
      assert (CK : exists last, chain cr s2 (Some next) (g :: sgs) last).
      { destruct (k_met k); [destruct X18 as (sw & ga & gb & _ & _ & Y & _); eauto|destruct X18 as (Y & _); discriminate]. }
      destruct CK as (last & CK). pose proof (chain_keys_all _ _ _ _ _ CK) as KA. inversion KA as [|? ? [A1 _] KB]; subst.
      destruct (answered _ _ _ _ _ _ L P5 P2 RP) as [R1 R2]. rewrite A1. split; [exact R1|]. split; [exact R2|].
      clear - KB PL. induction KB as [|g0 gs [A1 _] F IH]; inversion PL; subst; constructor; auto. cbn. congruence. }
  split.
  { rewrite X2, map_length, <- X13. destruct (k_met k).
    - destruct X18 as (sw & ga & gb & Y1 & Y2 & Y3 & Y4 & Y5 & Y6 & Y7 & Y8 & _). exists (prev_of true sw). split; [now apply chain_keys|].
      intros _. exists (map on_way ga), (prev_of false sw). split; [rewrite X1, map_map; change (fun x => snd (flagged x)) with on_way; rewrite Y5, map_app, Y6; reflexivity|].
      split.
      + rewrite map_length, <- P4, <- X7, MA, <- X11. change (g_ms g1 :: map g_ms cgs) with (map g_ms (g1 :: cgs)). rewrite Y5, map_app, <- (map_length g_ms), firstn_app, Nat.sub_diag, firstn_all. cbn [firstn]. rewrite app_nil_r. now apply chain_keys.
      + exists sw. unfold prev_of. rewrite Y2. auto.
    - destruct X18 as (-> & _). eexists. split; [constructor|discriminate]. }
  split; [rewrite X2, Z1, map_app, Z2; reflexivity|].
  split.
  { rewrite map_length, <- (server_news_prefix E sa sb); [now apply chain_keys|]. rewrite <- Z1. exact X13. }
  exists cw. unfold prev_of. rewrite X4. auto.
Qed.
Print Assumptions C60_key_chain.

(** Forward secrecy needs that the one-time keys are gone: the client forgets them, and the secrets made of
    them, with the first letter it sends after it heard the server, and the server when it gets that letter. *)
Theorem C60_one_time_keys_forgotten : forall c cr e1 e2 s1 s2 su k t,
  crypto_laws cr ->
  new_session c tool_registry hash_registry cr e1 = Ok s1 -> init_wire s1 = Ok tt ->
  new_session c tool_registry hash_registry cr e2 = Ok s2 ->
  e_suite e1 = Some su -> In su suite_registry -> counterpart cr e1 e2 ->
  conversation c cr s1 s2 k t ->
  ((exists m, In (true, m) (said_client t)) -> forgotten (k_client k))
  /\ exists early late, said_client t = early ++ late /\ map snd late = k_to_server k
       /\ ((exists m, In (true, m) early) -> forgotten (k_server k)).
Proof.
  intros c cr e1 e2 s1 s2 su k t L N1 WI N2 ES0 HI CP CN.
  pose proof (session_env _ _ _ _ _ _ N1) as EE1. pose proof (session_sound _ _ _ _ _ N1) as S1.
  destruct (wire_sessions _ _ _ _ _ _ _ N1 WI N2 CP) as [T _ S2 (kdf & KD) SG PS KY PR DK ST].
  destruct (registered_wire _ _ _ _ _ N1 ES0 HI) as [K1 K2].
  assert (K2' : length (s_ke s1) <= 1) by (rewrite K2; cbn; lia).
  assert (KI : forall i sg, In (SKe i sg) (steps s1) -> sg_id sg <> []).
  { intros i sg H. unfold steps, steps_of in H. rewrite K2 in H. cbn [flat_map] in H. rewrite app_nil_r, !in_app_iff in H. destruct H as [H|[H|H]].
    - apply in_map_iff in H as (? & ? & _). discriminate.
    - apply in_map_iff in H as (? & ? & _). discriminate.
    - apply in_flat_map in H as (j & _ & H). apply in_map_iff in H as (? & ? & _). discriminate. }
  assert (H : hist c cr s1 s2 k t) by (eapply (conversation_hist c cr s1 s2); eauto).
  assert (I : inv c cr s1 s2 k) by (eapply connected_inv; eauto using conversation_connected).
  assert (AB : forall gs m, In (true, m) (map flagged gs) -> existsb g_ab gs = true).
  { clear. intros gs m H. apply in_map_iff in H as (g & E & Hg). apply existsb_exists. exists g. split; [exact Hg|]. unfold flagged in E. now injection E. }
  destruct H as [H1 H2 H3 H4 H5 H6|g1 cs new next w1 cw cgs sgs E H].
  - rewrite H1. split; [intros (m & [])|]. exists [], []. split; [reflexivity|]. split; [|intros (m & [])].
    inv_cases I; [reflexivity| |].
    + rewrite H4 in W1. injection W1 as <-. discriminate.
    + rewrite H4 in W1. injection W1 as <-. discriminate.
  - destruct H as [X1 X2 X3 X4 X5 X6 X7 X8 X9 X10 X11 X12 X13 X14 X15 X16 X17 X18]. split.
    + intros (m & Hm). rewrite X1 in Hm. apply AB in Hm. cbn [existsb] in Hm. rewrite X8 in Hm. cbn [orb] in Hm.
      destruct (heard t).
      * destruct X16 as (_ & _ & _ & B). specialize (B Hm). destruct B as [B1 B2]. exists cw. auto.
      * destruct X16 as (F & _). rewrite (not_ab _ F) in Hm. discriminate.
    + destruct (k_met k).
      * destruct X18 as (sw & ga & gb & Y1 & Y2 & Y3 & Y4 & Y5 & Y6 & Y7 & Y8 & Y9 & Y10). exists (map flagged ga), (map flagged gb).
        split; [rewrite X1, Y5, map_app; reflexivity|]. split; [rewrite map_map; exact Y6|]. intros (m & Hm). apply AB in Hm. destruct (Y10 Hm) as [B1 B2]. exists sw. auto.
      * destruct X18 as (_ & _ & Y). exists [], (said_client t). split; [reflexivity|]. split; [rewrite X1, map_map; symmetry; exact Y|intros (m & [])].
Qed.
Print Assumptions C60_one_time_keys_forgotten.

(** The log is of every run of two connected sessions. *)
Theorem C60_every_run_has_a_log : forall c cr s1 s2 k, connected c cr s1 s2 k <-> exists t, conversation c cr s1 s2 k t.
Proof. intros. split; [apply connected_conversation|intros (t & H); eapply conversation_connected; eassumption]. Qed.
Print Assumptions C60_every_run_has_a_log.

(** A concrete conversation: both sides talk, the client also before it heard the server. *)
From Verif Require Import Toy.
Inductive event := ESay (client : bool) (data : bytes) | EHear (client : bool).
Definition play1 (c : config) (cr : crypto) (s1 s2 : session) (x : link * log) (e : event) : option (link * log) :=
  let '(k, t) := x in
  match e with
  | ESay true data =>
      match close_session c cr s1 true data (k_client k) with
      | (Ok l, r) => Some (mkLink r (k_server k) (k_to_server k ++ [(data, l)]) (k_to_client k) (k_met k) (S (k_sent_client k)) (k_sent_server k),
                           mkLog (said_client t ++ [(heard t, (data, l))]) (said_server t) (heard t))
      | _ => None
      end
  | ESay false data =>
      if k_met k then
        match close_session c cr s2 true data (k_server k) with
        | (Ok l, r) => Some (mkLink (k_client k) r (k_to_server k) (k_to_client k ++ [(data, l)]) (k_met k) (k_sent_client k) (S (k_sent_server k)),
                             mkLog (said_client t) (said_server t ++ [(data, l)]) (heard t))
        | _ => None
        end
      else None
  | EHear true =>
      match k_to_client k with
      | (data, l) :: q => Some (mkLink (snd (open_session c cr s1 l (k_client k))) (k_server k) (k_to_server k) q (k_met k) (k_sent_client k) (k_sent_server k),
                                mkLog (said_client t) (said_server t) true)
      | [] => None
      end
  | EHear false =>
      match k_to_server k with
      | (data, l) :: q => Some (mkLink (k_client k) (snd (open_session c cr s2 l (k_server k))) q (k_to_client k) true (k_sent_client k) (k_sent_server k), t)
      | [] => None
      end
  end.
Fixpoint play c cr s1 s2 (x : link * log) (es : list event) : option (link * log) :=
  match es with [] => Some x | e :: r => match play1 c cr s1 s2 x e with Some y => play c cr s1 s2 y r | None => None end end.
Lemma play_conversation c cr s1 s2 es : forall k t k' t', conversation c cr s1 s2 k t -> play c cr s1 s2 (k, t) es = Some (k', t') -> conversation c cr s1 s2 k' t'.
Proof.
  induction es as [|e es IH]; intros k t k' t' H P; cbn [play] in P; [now injection P as <- <-|].
  destruct (play1 c cr s1 s2 (k, t) e) as [[k1 t1]|] eqn:E; [|discriminate]. apply (IH k1 t1); [|exact P]. clear IH P. unfold play1 in E. destruct e as [[|] data|[|]].
  - destruct (close_session _ _ _ _ _ _) as [[l| |] r] eqn:C; try discriminate. injection E as <- <-. econstructor; eauto.
  - destruct (k_met k) eqn:M; [|discriminate]. destruct (close_session _ _ _ _ _ _) as [[l| |] r] eqn:C; try discriminate. injection E as <- <-. rewrite <- M. econstructor; eauto.
  - destruct (k_to_client k) as [|[data l] q] eqn:Q; [discriminate|]. injection E as <- <-. econstructor; eauto. now rewrite <- surjective_pairing.
  - destruct (k_to_server k) as [|[data l] q] eqn:Q; [discriminate|]. injection E as <- <-. econstructor; eauto. now rewrite <- surjective_pairing.
Qed.
Definition both {A B} (x : outcome A) (y : outcome B) : option (A * B) := match x, y with Ok a, Ok b => Some (a, b) | _, _ => None end.
Lemma both_ok {A B} (x : outcome A) (y : outcome B) a b : both x y = Some (a, b) -> x = Ok a /\ y = Ok b.
Proof. destruct x, y; cbn; try discriminate. injection 1 as -> ->. auto. Qed.
Notation demo_sessions := (both (new_session default_config tool_registry hash_registry toy wire_client) (new_session default_config tool_registry hash_registry toy wire_server)).
Definition demo_events : list event :=
  [ESay true (lit "a"); EHear false; ESay true (lit "b"); ESay false (lit "c"); EHear true; ESay true (lit "d"); ESay false (lit "e"); ESay true (lit "f"); EHear false; EHear false].
Definition demo_start : link * log :=
  (mkLink (rt_start 3 (Some (wire_start false))) (rt_start 5 (Some (wire_start true))) [] [] false 0 0, mkLog [] [] false).
Definition demo : option (link * log) := match demo_sessions with Some (s1, s2) => play default_config toy s1 s2 demo_start demo_events | None => None end.
Definition on_demo {A} (f : link -> log -> A) : option A := match demo with Some (k, t) => Some (f k t) | None => None end.
Lemma on_demo_eq {A} (f : link -> log -> A) k t v : demo = Some (k, t) -> on_demo f = Some v -> f k t = v.
Proof. unfold on_demo. intros ->. now injection 1. Qed.
Definition wire_clean (r : rt) : bool :=
  match r_wire r with
  | Some w => match w_new w with [] => true | _ => false end
              && forallb (fun p => match kx_own p, kx_peer p with None, None => true | _, _ => false end) (w_kx w)
  | None => false
  end.
Lemma wire_clean_forgotten r : wire_clean r = true -> forgotten r.
Proof.
  unfold wire_clean, forgotten. destruct (r_wire r) as [w|]; [|discriminate]. intro H. apply andb_true_iff in H as [H1 H2]. exists w. split; [reflexivity|].
  split; [destruct (w_new w); [reflexivity|discriminate]|]. rewrite forallb_forall in H2. intros p Hp. specialize (H2 p Hp). destruct (kx_own p), (kx_peer p); try discriminate. auto.
Qed.
Lemma demo_0 : on_demo (fun _ t => map fst (said_client t)) = Some ([false; false; true; true]). Proof. vm_compute. reflexivity. Qed.
Lemma demo_1 : on_demo (fun _ t => length (said_server t)) = Some (2). Proof. vm_compute. reflexivity. Qed.
Lemma demo_2 : on_demo (fun k _ => length (k_to_server k)) = Some (1). Proof. vm_compute. reflexivity. Qed.
Lemma demo_3 : on_demo (fun k _ => length (k_to_client k)) = Some (1). Proof. vm_compute. reflexivity. Qed.
Lemma demo_4 : on_demo (fun _ t => map (fun m => l_apply (snd (snd m))) (said_client t)) = Some ([false; false; true; true]). Proof. vm_compute. reflexivity. Qed.
Lemma demo_5 : on_demo (fun _ t => map (fun m => length (l_keys (snd m))) (said_server t)) = Some ([1; 0]). Proof. vm_compute. reflexivity. Qed.
Lemma demo_6 : on_demo (fun k _ => wire_clean (k_client k)) = Some (true). Proof. vm_compute. reflexivity. Qed.
Lemma demo_7 : on_demo (fun k _ => wire_clean (k_server k)) = Some (true). Proof. vm_compute. reflexivity. Qed.
Lemma demo_suite : In (suite_named (lit "w2")) suite_registry. Proof. vm_compute. tauto. Qed.
Lemma demo_some : match demo with Some _ => true | None => false end = true. Proof. vm_compute. reflexivity. Qed.
Lemma demo_sessions_some : match demo_sessions with Some _ => true | None => false end = true. Proof. vm_compute. reflexivity. Qed.
Lemma demo_play s1 s2 : demo_sessions = Some (s1, s2) -> demo = play default_config toy s1 s2 demo_start demo_events.
Proof. intro ES. unfold demo. rewrite ES. reflexivity. Qed.
Lemma play_pair c cr s1 s2 es x y : conversation c cr s1 s2 (fst x) (snd x) -> play c cr s1 s2 x es = Some y -> conversation c cr s1 s2 (fst y) (snd y).
Proof. destruct x as [k t], y as [k' t']. apply play_conversation. Qed.
Lemma demo_starts s1 s2 : conversation default_config toy s1 s2 (fst demo_start) (snd demo_start).
Proof. apply cv_start. Qed.
Lemma demo_conversation s1 s2 x : demo_sessions = Some (s1, s2) -> demo = Some x -> conversation default_config toy s1 s2 (fst x) (snd x).
Proof. intros ES ED. rewrite (demo_play _ _ ES) in ED. exact (play_pair _ _ _ _ _ _ _ (demo_starts s1 s2) ED). Qed.
Definition init_of (x : outcome session) : outcome unit := match x with Ok s => init_wire s | _ => Err EOther end.
Lemma demo_init : init_of (new_session default_config tool_registry hash_registry toy wire_client) = Ok tt. Proof. vm_compute. reflexivity. Qed.
Lemma demo_sessions_ok s1 s2 : demo_sessions = Some (s1, s2) ->
  new_session default_config tool_registry hash_registry toy wire_client = Ok s1 /\ init_wire s1 = Ok tt
  /\ new_session default_config tool_registry hash_registry toy wire_server = Ok s2.
Proof.
  intro ES. apply both_ok in ES as [E1 E2]. split; [exact E1|]. split; [|exact E2]. pose proof demo_init as X. rewrite E1 in X. exact X.
Qed.
Example C60_hypotheses_met : exists s1 s2 k t,
  new_session default_config tool_registry hash_registry toy wire_client = Ok s1 /\ init_wire s1 = Ok tt
  /\ new_session default_config tool_registry hash_registry toy wire_server = Ok s2
  /\ In (suite_named (lit "w2")) suite_registry /\ counterpart toy wire_client wire_server /\ crypto_laws toy
  /\ conversation default_config toy s1 s2 k t
  /\ map fst (said_client t) = [false; false; true; true] /\ length (said_server t) = 2
  /\ length (k_to_server k) = 1 /\ length (k_to_client k) = 1
  (* and there the letters say when the new key material enters, and it is forgotten *)
  /\ map (fun m => l_apply (snd (snd m))) (said_client t) = [false; false; true; true]
  /\ map (fun m => length (l_keys (snd m))) (said_server t) = [1; 0]
  /\ forgotten (k_client k) /\ forgotten (k_server k).
Proof.
  pose proof demo_some as XD. pose proof demo_sessions_some as XS.
  destruct demo_sessions as [[s1 s2]|] eqn:ES; [clear XS|discriminate XS].
  destruct demo as [[k t]|] eqn:ED; [clear XD|discriminate XD].
  exists s1, s2, k, t. destruct (demo_sessions_ok _ _ ES) as (E1 & E2 & E3).
  split; [exact E1|]. split; [exact E2|]. split; [exact E3|].
  split; [exact demo_suite|]. split; [exact wire_demo_counterpart|]. split; [exact toy_laws|].
  split; [exact (demo_conversation s1 s2 (k, t) ES ED)|].
  split; [exact (on_demo_eq _ _ _ _ ED demo_0)|]. split; [exact (on_demo_eq _ _ _ _ ED demo_1)|]. split; [exact (on_demo_eq _ _ _ _ ED demo_2)|]. split; [exact (on_demo_eq _ _ _ _ ED demo_3)|].
  split; [exact (on_demo_eq _ _ _ _ ED demo_4)|]. split; [exact (on_demo_eq _ _ _ _ ED demo_5)|].
  split; apply wire_clean_forgotten; [exact (on_demo_eq _ _ _ _ ED demo_6)|exact (on_demo_eq _ _ _ _ ED demo_7)].
Qed.
