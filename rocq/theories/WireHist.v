(** Wire sessions: what was said so far, as two key chains. *)
From Verif Require Import WireRun SpecRatchet SpecOpen CoreOpen.

Ltac inv_cases I := destruct I as [d1 d2 ->|cw0 d2 g0 qs cs0 new0 next0 w10 KS FC C1 W1 ES EM EQ0 EC0 FP EX EE SC NC GK GM GA SG0 CH PF PL|cw0 sw0 qs qc KS FC FS C1 C2 W1 W2 EQ0 EC0 NC NS CH1 CH2 ST0].

Lemma client_news_app E a b : client_news E (a ++ b) = client_news E a ++ (if existsb id a then map (fun _ => []) b else client_news E b).
Proof.
  induction a as [|[|] a IH]; cbn [app client_news existsb id orb]; [reflexivity| |now rewrite IH].
  now rewrite map_app.
Qed.
Lemma server_news_snoc E n : 0 < n -> server_news E (S n) = server_news E n ++ [[]].
Proof.
  destruct n as [|n]; [lia|]. intros _. cbn [server_news app]. f_equal. induction n as [|n IH]; [reflexivity|]. cbn [repeat app]. now rewrite <- IH.
Qed.

Lemma map2_len {A B C} (f : A -> B -> C) a b : length a = length b -> length (map2 f a b) = length a.
Proof. intro H. unfold map2. rewrite map_length, combine_length. lia. Qed.
Lemma app_eq_len {A} (a b a' b' : list A) : a ++ b = a' ++ b' -> length a = length a' -> a = a' /\ b = b'.
Proof. revert a'. induction a as [|x a IH]; intros [|x' a'] E L; cbn in *; try discriminate; [auto|]. injection E as -> E. destruct (IH a' E) as [-> ->]; [lia|auto]. Qed.
Lemma F2_fun {A B} (R : A -> B -> Prop) l m m' : (forall x y y', R x y -> R x y' -> y = y') -> Forall2 R l m -> Forall2 R l m' -> m = m'.
Proof. intros D F. revert m'. induction F as [|x y l m H F IH]; intros m' F'; inversion F'; subst; [reflexivity|]. f_equal; eauto. Qed.
Lemma not_ab gs : Forall (fun g => g_ab g = false) gs -> existsb g_ab gs = false.
Proof. induction 1 as [|g gs H _ IH]; cbn; [reflexivity|]. now rewrite H. Qed.
Lemma existsb_ab gs : existsb id (map g_ab gs) = existsb g_ab gs.
Proof. induction gs as [|g gs IH]; cbn; [reflexivity|]. now rewrite IH. Qed.
Lemma some_ab gs : existsb g_ab gs = false -> Forall (fun g => g_ab g = false) gs.
Proof. induction gs as [|g gs IH]; cbn; [constructor|]. intro H. apply orb_false_iff in H as [H1 H2]. auto. Qed.
Lemma news_none E gs : Forall (fun g => g_ab g = false) gs -> client_news E (map g_ab gs) = map (fun _ => []) gs.
Proof. induction 1 as [|g gs H _ IH]; cbn [map client_news]; [reflexivity|]. rewrite H. now rewrite IH. Qed.

Section Hist.
Variables (c : config) (cr : crypto) (s1 s2 : session).
Hypothesis laws : crypto_laws cr.
Hypothesis tw : twins s1 s2.
Hypothesis sound1 : sound_session s1.
Hypothesis sound2 : sound_session s2.
Variable kdf : inst.
Hypothesis has_kdf : s_kdf s1 = Some kdf.
Hypothesis no_signers : s_signers s1 = [].
Hypothesis few_kx : length (s_kx s1) <= 1.
Hypothesis few_ke : length (s_ke s1) <= 1.
Hypothesis no_pass : s_pass s1 = None.
Hypothesis no_key : loop scheme_key (e_secrets (s_env s1)) = [].
Hypothesis pairs : Forall2 (same_step cr) (steps s1) (steps s2).
Hypothesis ke_ids : forall i sg, In (SKe i sg) (steps s1) -> sg_id sg <> [].
Hypothesis dks : (0 < s_dks s1)%Z.

Notation inv := (inv c cr s1 s2).
Notation chain := (chain cr).
Notation gsent := (gsent cr).

(** Determinism of the ghosts. *)
Lemma reply_fun ckx cke ks ms ms' : reply cr ckx cke ks ms -> reply cr ckx cke ks ms' -> ms = ms'.
Proof.
  intros (a & b & x & e & E1 & -> & LA & LB & FA & FU & _) (a' & b' & x' & e' & E1' & -> & LA' & LB' & FA' & FU' & _).
  subst ks. apply app_eq_len in E1' as [<- <-]; [|congruence]. f_equal.
  - eapply F2_fun; [|exact FA|exact FA']. intros p y y' (pub & priv & peer & pub' & pv & H1 & H2 & H3 & ->) (? & ? & ? & ? & ? & G1 & G2 & G3 & ->). congruence.
  - eapply F2_fun; [|exact FU|exact FU']. intros p y y' (pub & priv & v & H1 & H2 & H3) (? & ? & ? & G1 & G2 & G3). congruence.
Qed.
Lemma gsent_fun s g g' prev n n' : g_letter g = g_letter g' -> g_ms g = g_ms g' -> gsent s g prev n -> gsent s g' prev n' -> n = n'.
Proof.
  unfold WireRun.gsent. intros E1 E2 S S'. pose proof (li_next _ _ _ _ _ _ (se_link _ _ _ _ _ _ _ _ _ S)) as H. pose proof (li_next _ _ _ _ _ _ (se_link _ _ _ _ _ _ _ _ _ S')) as H'.
  rewrite E1, E2 in H. congruence.
Qed.
Lemma chain_app s p a b q : chain s p (a ++ b) q -> exists m, chain s p a m /\ chain s m b q.
Proof.
  revert p. induction a as [|g a IH]; intros p H; cbn [app WireRun.chain] in *; [eauto|]. destruct H as (n & H1 & H2). destruct (IH _ H2) as (m & H3 & H4). exists m. split; [exists n; auto|auto].
Qed.
Lemma chain_fun s p a m m' : chain s p a m -> chain s p a m' -> m = m'.
Proof.
  revert p. induction a as [|g a IH]; intros p H H'; cbn [WireRun.chain] in *; [congruence|]. destruct H as (n & H1 & H2), H' as (n' & H1' & H2').
  assert (n = n') by (eapply gsent_fun; [reflexivity|reflexivity|exact H1|exact H1']). subst. eauto.
Qed.

Definition flagged (g : gm) : bool * (bytes * letter) := (g_ab g, on_way g).
Definition burned (w : wstate) : Prop := w_new w = [] /\ (forall p, In p (w_kx w) -> kx_own p = None /\ kx_peer p = None).
Lemma burned_fin w : burned (fin true w).
Proof. split; [reflexivity|]. cbn. intros p H. apply in_map_iff in H as (q & <- & _). auto. Qed.
Lemma burned_moved b w n : burned w -> burned (moved b w n).
Proof. intros [H1 H2]. destruct (moved_frame b w n) as (_ & F2 & _ & F4 & _). split; [now rewrite F4|now rewrite F2]. Qed.

Record history (k : link) (t : log) (g1 : gm) (cs : list contrib) (new : list kepair) (next : bytes) (w1 cw : wstate) (cgs sgs : list gm) (E : list bytes) : Prop := {
  hi_client : said_client t = map flagged (g1 :: cgs);
  hi_server : said_server t = map on_way sgs;
  hi_wire : r_wire (k_client k) = Some cw;
  hi_msgno : (w_msgno cw =? 0)%N = false;
  hi_first : first_pairs c cr s1 (l_nonce (g_letter g1)) cs new w1;
  hi_fks : g_ks g1 = map co_seal cs ++ map (ke_own_seal cr) new;
  hi_fms : g_ms g1 = map co_mat cs;
  hi_fab : g_ab g1 = false;
  hi_fsent : gsent s1 g1 None next;
  hi_chain1 : chain s1 (Some next) cgs (prev_of true cw);
  hi_news1 : map g_ms cgs = client_news E (map g_ab cgs);
  hi_ks1 : Forall (fun g => g_ks g = []) cgs;
  hi_news2 : map g_ms sgs = server_news E (length sgs);
  hi_reply : match sgs with [] => True | g :: r => reply cr (w_kx w1) (w_ke w1) (g_ks g) E /\ Forall (fun g => g_ks g = []) r end;
  hi_ab2 : Forall (fun g => g_ab g = false) sgs;
  hi_heard : if heard t then sgs <> [] /\ w_state cw = HSendApply
                  /\ w_new cw = (if existsb g_ab cgs then [] else E) /\ (existsb g_ab cgs = true -> burned cw)
             else Forall (fun g => g_ab g = false) cgs /\ w_state cw = HAwaitKey /\ w_kx cw = w_kx w1 /\ w_ke cw = w_ke w1;
  hi_got : exists sa sb, sgs = sa ++ sb /\ map on_way sb = k_to_client k /\ chain s2 (Some next) sa (prev_of false cw) /\ (if heard t then sa <> [] else sa = []);
  hi_met : if k_met k then
             exists sw ga gb, r_wire (k_server k) = Some sw /\ (w_msgno sw =? 0)%N = false
               /\ chain s2 (Some next) sgs (prev_of true sw) /\ (sgs = [] <-> w_state sw = HSendKey)
               /\ g1 :: cgs = ga ++ gb /\ map on_way gb = k_to_server k /\ ga <> [] /\ chain s1 None ga (prev_of false sw)
               /\ (sgs <> [] -> w_new sw = if existsb g_ab ga then [] else E) /\ (existsb g_ab ga = true -> burned sw)
           else sgs = [] /\ r_wire (k_server k) = Some (wire_start true) /\ k_to_server k = map on_way (g1 :: cgs)
}.
Inductive hist (k : link) (t : log) : Prop :=
| h_new : said_client t = [] -> said_server t = [] -> heard t = false -> r_wire (k_client k) = Some (wire_start false) ->
    r_wire (k_server k) = Some (wire_start true) -> k_met k = false -> hist k t
| h_on g1 cs new next w1 cw cgs sgs E : history k t g1 cs new next w1 cw cgs sgs E -> hist k t.

Lemma hist_client_sends k t full data l r : inv k -> hist k t -> close_session c cr s1 full data (k_client k) = (Ok l, r) ->
  hist (mkLink r (k_server k) (k_to_server k ++ [(data, l)]) (k_to_client k) (k_met k) (S (k_sent_client k)) (k_sent_server k))
       (mkLog (said_client t ++ [(heard t, (data, l))]) (said_server t) (heard t)).
Proof.
  intros I H HC. eapply client_send_shape in HC; eauto. destruct HC as [HC|HC].
  - destruct HC as (d1 & d2 & cs & new & w1 & next & -> & FP & SG & W). cbn [k_server k_to_server k_to_client k_met k_sent_client k_sent_server].
    destruct H as [H1 H2 H3 _ _ _|? ? ? ? ? ? ? ? ? X].
    2: { pose proof (hi_wire _ _ _ _ _ _ _ _ _ _ _ X) as Y. injection Y as Y. pose proof (hi_msgno _ _ _ _ _ _ _ _ _ _ _ X) as Z. rewrite <- Y in Z. discriminate. }
    destruct (moved_frame true w1 next) as (F1 & F2 & F3 & F4 & F5).
    eapply (h_on _ _ (mkGm data l (map co_seal cs ++ map (ke_own_seal cr) new) (map co_mat cs) false) cs new next w1 (moved true w1 next) [] [] []).
    constructor; cbn [said_client said_server heard k_client k_server k_to_server k_to_client k_met g_letter g_ks g_ms g_ab]; auto.
    + now rewrite H1, H3.
    + cbn [WireRun.chain]. now rewrite (prev_sent true w1 false next : prev_of true (moved true w1 next) = _).
    + rewrite H3. rewrite F1, F2, F3, (fp_state _ _ _ _ _ _ _ FP). auto.
    + exists [], []. split; [reflexivity|]. split; [reflexivity|]. split; cbn [WireRun.chain].
      { now rewrite (prev_other true w1 false next : prev_of false (moved true w1 next) = _), (fp_msgno _ _ _ _ _ _ _ FP). }
      now rewrite H3.
  - destruct HC as (cw & ab & ms & next2 & EW & NM & D & SG & W).
    destruct H as [_ _ _ X _ _|g1 cs new next w1 cw' cgs sgs E X]; [rewrite EW in X; injection X as ->; discriminate|].
    destruct X as [X1 X2 X3 X4 X5 X6 X7 X8 X9 X10 X11 X12 X13 X14 X15 X16 X17 X18]. rewrite EW in X3. injection X3 as <-.
    assert (EAB : ab = heard t).
    { destruct (heard t); [destruct X16 as (_ & X & _)|destruct X16 as (_ & X & _)]; destruct D as [(D & _ & ->)|(D & _ & ->)]; congruence. }
    destruct (moved_frame true cw next2) as (F1 & F2 & F3 & F4 & F5). destruct (fin_frame ab (moved true cw next2)) as (G1 & G2 & G3).
    eapply (h_on _ _ g1 cs new next w1 (fin ab (moved true cw next2)) (cgs ++ [mkGm data l [] ms ab]) sgs E).
    constructor; cbn [said_client said_server heard k_client k_server k_to_server k_to_client k_met]; auto.
    + rewrite X1, <- EAB. cbn [map]. rewrite map_app. reflexivity.
    + now rewrite G3.
    + rewrite prev_sent. eapply chain_snoc; [exact X10|exact SG].
    + rewrite !map_app, client_news_app, X11. f_equal. cbn [map g_ms g_ab client_news]. rewrite existsb_ab.
      destruct (heard t); subst ab.
      * destruct X16 as (_ & Y & Y2 & _). destruct D as [(D & _ & D3)|(D & -> & _)]; [discriminate|]. rewrite Y2. destruct (existsb g_ab cgs); reflexivity.
      * destruct D as [(_ & -> & _)|(_ & _ & D)]; [|discriminate]. destruct (existsb g_ab cgs); reflexivity.
    + apply Forall_app. split; [exact X12|]. repeat constructor.
    + rewrite G1, F1, G2. destruct (heard t).
      * subst ab. destruct X16 as (Y1 & Y2 & Y3 & Y4). split; [exact Y1|]. split; [exact Y2|]. rewrite existsb_app. cbn [existsb g_ab]. rewrite orb_true_r. split; [reflexivity|]. intros _. apply burned_fin.
      * subst ab. cbn [fin]. rewrite F2, F3. destruct X16 as (Y1 & Y2 & Y3 & Y4). split; [|auto]. apply Forall_app. split; [exact Y1|]. repeat constructor.
    + destruct X17 as (sa & sb & Y1 & Y2 & Y3 & Y4). exists sa, sb. split; [exact Y1|]. split; [exact Y2|]. split; [|exact Y4].
      now rewrite (prev_other true cw ab next2 : prev_of false _ = _), NM.
    + destruct (k_met k).
      * destruct X18 as (sw & ga & gb & Y1 & Y2 & Y3 & Y4 & Y5 & Y6 & Y7 & Y8 & Y9 & Y10). exists sw, ga, (gb ++ [mkGm data l [] ms ab]).
        split; [exact Y1|]. split; [exact Y2|]. split; [exact Y3|]. split; [exact Y4|]. split; [rewrite app_comm_cons, Y5, app_assoc; reflexivity|].
        split; [rewrite map_app, Y6; reflexivity|]. auto.
      * destruct X18 as (Y1 & Y2 & Y3). split; [exact Y1|]. split; [exact Y2|]. rewrite Y3. cbn [map app]. now rewrite map_app.
Qed.

Lemma hist_server_sends k t full data l r : inv k -> hist k t -> k_met k = true -> close_session c cr s2 full data (k_server k) = (Ok l, r) ->
  hist (mkLink (k_client k) r (k_to_server k) (k_to_client k ++ [(data, l)]) (k_met k) (k_sent_client k) (S (k_sent_server k)))
       (mkLog (said_client t) (said_server t ++ [(data, l)]) (heard t)).
Proof.
  intros I H MT HC. eapply server_send_shape in HC; eauto. destruct HC as (cw & sw & w2 & ks & ms & next2 & EC & EW & NM & M2 & P2 & ST & D & SG & W).
  destruct H as [_ _ _ _ _ X|g1 cs new next w1 cw' cgs sgs E X]; [congruence|].
  destruct X as [X1 X2 X3 X4 X5 X6 X7 X8 X9 X10 X11 X12 X13 X14 X15 X16 X17 X18]. rewrite EC in X3. injection X3 as <-.
  rewrite MT in X18. destruct X18 as (sw' & ga & gb & Y1 & Y2 & Y3 & Y4 & Y5 & Y6 & Y7 & Y8 & Y9 & Y10). rewrite EW in Y1. injection Y1 as <-.
  destruct (moved_frame true w2 next2) as (F1 & F2 & F3 & F4 & F5).
  set (g := mkGm data l ks ms false) in *.
  assert (CH : chain s2 (Some next) (sgs ++ [g]) (prev_of true (moved true w2 next2))).
  { rewrite (prev_sent true w2 false next2 : prev_of true (moved true w2 next2) = _). eapply chain_snoc; [exact Y3|exact SG]. }
  assert (PF : prev_of false (moved true w2 next2) = prev_of false sw).
  { rewrite (prev_other true w2 false next2 : prev_of false (moved true w2 next2) = _), M2, NM. apply P2. }
  assert (GOT : exists sa sb, sgs ++ [g] = sa ++ sb /\ map on_way sb = k_to_client k ++ [(data, l)] /\ chain s2 (Some next) sa (prev_of false cw) /\ (if heard t then sa <> [] else sa = [])).
  { destruct X17 as (sa & sb & Z1 & Z2 & Z3 & Z4). exists sa, (sb ++ [g]). split; [rewrite Z1, app_assoc; reflexivity|]. split; [rewrite map_app, Z2; reflexivity|auto]. }
  destruct D as [(D1 & D2 & D3 & D4)|(D1 & -> & -> & ->)].
  - apply Y4 in D1. subst sgs. destruct (heard t) eqn:EH; [destruct X16 as (X16 & _); now destruct X16|].
    destruct X16 as (Z1 & Z2 & Z3 & Z4).
    assert (AB : forall gs gs', g1 :: cgs = gs ++ gs' -> existsb g_ab gs = false).
    { intros gs gs' Eg. assert (F : Forall (fun g => g_ab g = false) (gs ++ gs')) by (rewrite <- Eg; constructor; auto). apply Forall_app in F as [F _]. now apply not_ab. }
    eapply (h_on _ _ g1 cs new next w1 cw cgs [g] ms).
    constructor; cbn [said_client said_server heard k_client k_server k_to_server k_to_client k_met]; auto.
    + now rewrite X2.
    + rewrite X11. rewrite !news_none by exact Z1. reflexivity.
    + cbn [g g_ks]. rewrite <- Z3, <- Z4. auto.
    + rewrite MT. exists (moved true w2 next2), ga, gb. rewrite F1, F4, PF. split; [exact W|]. split; [exact F5|]. split; [exact CH|]. split; [rewrite ST; split; discriminate|].
      split; [exact Y5|]. split; [exact Y6|]. split; [exact Y7|]. split; [exact Y8|].
      rewrite (AB _ _ Y5). split; [auto|discriminate].
  - assert (NE : sgs <> []) by (intro X; apply Y4 in X; congruence).
    eapply (h_on _ _ g1 cs new next w1 cw cgs (sgs ++ [g]) E).
    constructor; cbn [said_client said_server heard k_client k_server k_to_server k_to_client k_met]; auto.
    + rewrite X2, map_app. reflexivity.
    + rewrite map_app, app_length, X13. cbn [length]. rewrite Nat.add_1_r. rewrite server_news_snoc by (destruct sgs; [congruence|cbn; lia]). reflexivity.
    + destruct sgs as [|g0 sgs]; [congruence|]. cbn [app]. destruct X14 as [Z1 Z2]. split; [exact Z1|]. apply Forall_app. split; [exact Z2|]. repeat constructor.
    + apply Forall_app. split; [exact X15|]. repeat constructor.
    + destruct (heard t); [|exact X16]. destruct X16 as (_ & Z). split; [destruct sgs; discriminate|exact Z].
    + rewrite MT. exists (moved true sw next2), ga, gb. rewrite F1, F4, PF. split; [exact W|]. split; [exact F5|]. split; [exact CH|]. split; [rewrite ST; split; [destruct sgs; discriminate|discriminate]|].
      split; [exact Y5|]. split; [exact Y6|]. split; [exact Y7|]. split; [exact Y8|]. split; [intros _; apply Y9, NE|].
      intro X. apply burned_moved. auto.
Qed.

Lemma hist_server_receives k t data l q x r : inv k -> hist k t -> k_to_server k = (data, l) :: q -> open_session c cr s2 l (k_server k) = (x, r) ->
  hist (mkLink (k_client k) r q (k_to_client k) true (k_sent_client k) (k_sent_server k)) t.
Proof.
  intros I H EQ HC. pose proof EQ as EQ'. eapply server_recv_shape in HC; eauto. destruct HC as (cw & EC & D).
  destruct H as [_ _ _ X _ _|g1 cs new next w1 cw' cgs sgs E X].
  { exfalso. clear D. inv_cases I; try congruence; [discriminate|..].
    - rewrite X in W1. injection W1 as <-. discriminate.
    - rewrite X in W1. injection W1 as <-. discriminate. }
  destruct X as [X1 X2 X3 X4 X5 X6 X7 X8 X9 X10 X11 X12 X13 X14 X15 X16 X17 X18]. rewrite EC in X3. injection X3 as <-.
  apply (h_on _ _ g1 cs new next w1 cw cgs sgs E). constructor; cbn [k_client k_server k_to_server k_to_client k_met]; auto.
  destruct D as [(MT & w2 & nx & D1 & D2 & D3 & W)|(sw & ms & b & nx & D1 & D2 & D3 & D4 & D5 & SG & W)].
  - rewrite MT in X18. destruct X18 as (-> & Y2 & Y3).
    destruct X17 as (sa & sb & Z1 & Z2 & Z3 & Z4). symmetry in Z1. apply app_eq_nil in Z1 as [-> ->]. cbn [WireRun.chain] in Z3. rewrite D3 in Z3. injection Z3 as ->.
    rewrite EQ in Y3. cbn [map] in Y3. injection Y3 as E1 E2 ->.
    destruct (moved_frame false w2 nx) as (F1 & F2 & F3 & F4 & F5).
    exists (moved false w2 nx), [g1], cgs. split; [exact W|]. split; [exact F5|]. rewrite F1.
    rewrite (prev_other false w2 false nx : prev_of true (moved false w2 nx) = _), D1. rewrite (prev_sent false w2 false nx : prev_of false (moved false w2 nx) = _).
    split; [reflexivity|]. split; [tauto|]. split; [reflexivity|]. split; [reflexivity|]. split; [discriminate|].
    split; [cbn [WireRun.chain]; eauto|]. cbn [existsb]. rewrite X8. split; [congruence|discriminate].
  - assert (MT : k_met k = true).
    { destruct (k_met k); [reflexivity|]. destruct X18 as (_ & Y & _). rewrite D1 in Y. injection Y as ->. discriminate. }
    rewrite MT in X18. destruct X18 as (sw' & ga & gb & Y1 & Y2 & Y3 & Y4 & Y5 & Y6 & Y7 & Y8 & Y9 & Y10). rewrite D1 in Y1. injection Y1 as <-.
    rewrite EQ in Y6. destruct gb as [|g gb]; [discriminate|]. cbn [map] in Y6. injection Y6 as E1 E2 E3.
    (* the letter is the next of the history *)
    destruct ga as [|g1' ga]; [congruence|]. cbn [app] in Y5. injection Y5 as <- Y5.
    assert (CHG : exists nx', gsent s1 g (prev_of false sw) nx').
    { rewrite Y5 in X10. apply chain_app in X10 as (m & C1 & C2). cbn [WireRun.chain] in Y8, C2. destruct Y8 as (n0 & S0 & Y8). destruct C2 as (nx' & C2 & _).
      assert (n0 = next) by (eapply gsent_fun; [reflexivity|reflexivity|exact S0|exact X9]). subst n0.
      assert (m = prev_of false sw) by (eapply chain_fun; eauto). subst m. eauto. }
    destruct CHG as (nx' & SG').
    assert (EAB : g_ab g = b). { rewrite <- D3, <- E2. symmetry. exact (se_apply _ _ _ _ _ _ _ _ _ SG'). }
    assert (EMS : g_ms g = ms).
    { assert (EN : map g_ms ga ++ g_ms g :: map g_ms gb = client_news E (map g_ab ga) ++ (if existsb g_ab ga then map (fun _ => []) (b :: map g_ab gb) else client_news E (b :: map g_ab gb))).
      { rewrite <- existsb_ab, <- client_news_app. rewrite Y5 in X11. rewrite !map_app in X11. cbn [map] in X11. rewrite EAB in X11. exact X11. }
      assert (LEN : forall fl, length (client_news E fl) = length fl) by (clear; induction fl as [|[|] fl IH]; cbn; rewrite ?map_length; auto).
      apply app_eq_len in EN as [_ EN]; [|rewrite LEN, !map_length; reflexivity].
      rewrite D4. destruct b; cbn [client_news map] in EN.
      - rewrite Y9. 2: { intro X. apply Y4 in X. specialize (D5 eq_refl). congruence. }
        cbn [existsb]. rewrite X8. cbn [orb]. destruct (existsb g_ab ga); injection EN as EN _; exact EN.
      - destruct (existsb g_ab ga); injection EN as EN _; exact EN. }
    assert (nx' = nx) by (eapply gsent_fun; [| |exact SG'|exact SG]; cbn [g_letter g_ms]; congruence). subst nx'.
    destruct (moved_frame false sw nx) as (F1 & F2 & F3 & F4 & F5). destruct (fin_frame b (moved false sw nx)) as (G1 & G2 & G3).
    exists (fin b (moved false sw nx)), ((g1 :: ga) ++ [g]), gb. split; [exact W|]. split; [now rewrite G3|]. rewrite G1, F1, G2, F4.
    rewrite (prev_other false sw b nx : prev_of true _ = _), D2. rewrite prev_sent.
    split; [exact Y3|]. split; [exact Y4|]. split; [cbn [app]; f_equal; rewrite Y5, <- app_assoc; reflexivity|]. split; [exact E3|]. split; [discriminate|].
    split; [eapply chain_snoc; [exact Y8|exact SG']|]. rewrite existsb_app. cbn [existsb]. rewrite EAB, orb_false_r.
    split.
    + intro NE. specialize (Y9 NE). cbn [existsb] in Y9. destruct b; [now rewrite orb_true_r|]. rewrite orb_false_r. exact Y9.
    + intro X. destruct b; [apply burned_fin|]. cbn [fin]. apply burned_moved. apply Y10. now rewrite orb_false_r in X.
Qed.

Lemma hist_client_receives k t data l q x r : inv k -> hist k t -> k_to_client k = (data, l) :: q -> open_session c cr s1 l (k_client k) = (x, r) ->
  hist (mkLink r (k_server k) (k_to_server k) q (k_met k) (k_sent_client k) (k_sent_server k)) (mkLog (said_client t) (said_server t) true).
Proof.
  intros I H EQ HC. pose proof EQ as EQ'. eapply client_recv_shape in HC; eauto. destruct HC as (cw & w2 & ms & nx & EC & NM & M2 & P2 & ST & D & SG & W).
  destruct H as [_ _ _ X _ _|g1 cs new next w1 cw' cgs sgs E X]; [rewrite EC in X; injection X as ->; discriminate|].
  destruct X as [X1 X2 X3 X4 X5 X6 X7 X8 X9 X10 X11 X12 X13 X14 X15 X16 X17 X18]. rewrite EC in X3. injection X3 as <-.
  destruct X17 as (sa & sb & Z1 & Z2 & Z3 & Z4). rewrite EQ in Z2. destruct sb as [|g sb]; [discriminate|]. cbn [map] in Z2. injection Z2 as E1 E2 E3.
  assert (MT : k_met k = true).
  { destruct (k_met k); [reflexivity|]. destruct X18 as (Y & _). subst sgs. destruct sa; discriminate. }
  rewrite MT in X18. destruct X18 as (sw & ga & gb & Y1 & Y2 & Y3 & Y4).
  assert (CHG : exists nx', gsent s2 g (prev_of false cw) nx').
  { rewrite Z1 in Y3. apply chain_app in Y3 as (m & C1 & C2). assert (m = prev_of false cw) by (eapply chain_fun; eauto). subst m. destruct C2 as (nx' & C2 & _). eauto. }
  destruct CHG as (nx' & SG').
  assert (EKS : l_keys l = g_ks g). { rewrite <- E2. exact (se_keys _ _ _ _ _ _ _ _ _ SG'). }
  assert (EMS : g_ms g = ms /\ (w_state cw = HAwaitKey -> ms = E)).
  { destruct D as [(D1 & D2 & D3)|(D1 & D2 & ->)].
    - destruct (heard t) eqn:EH; [destruct X16 as (_ & X & _); congruence|]. subst sa. cbn [app] in Z1. subst sgs.
      destruct X16 as (_ & _ & XK & XE). destruct X14 as [RP _]. rewrite <- XK, <- XE, <- EKS in RP.
      assert (EQE : ms = E) by (eapply reply_fun; eauto). split; [rewrite EQE|auto]. cbn [map length server_news] in X13. injection X13 as X13 _. exact X13.
    - split; [|congruence]. destruct (heard t) eqn:EH; [|destruct X16 as (_ & X & _); congruence].
      destruct sa as [|g0 sa]; [congruence|].
      rewrite Z1, map_app, app_length in X13. cbn [map length app server_news] in X13. injection X13 as _ X13.
        assert (IN : In (g_ms g) (repeat [] (length sa + S (length sb)))) by (rewrite <- X13; apply in_or_app; right; now left). now apply repeat_spec in IN. }
  destruct EMS as [EMS EE].
  assert (nx' = nx) by (eapply gsent_fun; [| |exact SG'|exact SG]; cbn [g_letter g_ms]; congruence). subst nx'.
  destruct (moved_frame false w2 nx) as (F1 & F2 & F3 & F4 & F5).
  apply (h_on _ _ g1 cs new next w1 (moved false w2 nx) cgs sgs E). constructor; cbn [said_client said_server heard k_client k_server k_to_server k_to_client k_met]; auto.
  + now rewrite (prev_other false w2 false nx : prev_of true (moved false w2 nx) = _), M2, NM, P2.
  + rewrite F1, F4. split; [rewrite Z1; destruct sa; discriminate|]. split; [exact ST|].
    destruct D as [(D1 & D2 & D3)|(D1 & -> & D3)].
    * destruct (heard t); [destruct X16 as (_ & X & _); congruence|]. destruct X16 as (XA & _). rewrite (not_ab _ XA). split; [rewrite D2; auto|discriminate].
    * destruct (heard t); [|destruct X16 as (_ & X & _); congruence]. destruct X16 as (_ & _ & XA & XB). split; [exact XA|]. intro X. apply burned_moved. auto.
  + exists (sa ++ [g]), sb. split; [now rewrite <- app_assoc|]. split; [exact E3|].
    rewrite (prev_sent false w2 false nx : prev_of false (moved false w2 nx) = _). split; [eapply chain_snoc; [exact Z3|exact SG']|]. destruct sa; discriminate.
  + rewrite MT. exists sw, ga, gb. auto.
Qed.

Lemma conversation_connected k t : conversation c cr s1 s2 k t -> connected c cr s1 s2 k.
Proof. induction 1; econstructor; eauto. Qed.
Lemma connected_conversation k : connected c cr s1 s2 k -> exists t, conversation c cr s1 s2 k t.
Proof.
  induction 1 as [d1 d2|k full data l r CN (t & IH) E|k full data l r CN (t & IH) MT E|k data l q x r CN (t & IH) EQ E|k data l q x r CN (t & IH) EQ E];
    eexists; econstructor; eauto.
Qed.
Theorem conversation_hist k t : conversation c cr s1 s2 k t -> hist k t.
Proof.
  induction 1 as [d1 d2|k t full data l r CN IH E|k t full data l r CN IH MT E|k t data l q x r CN IH EQ E|k t data l q x r CN IH EQ E];
    try (apply conversation_connected, connected_inv with (kdf := kdf) in CN; auto; []).
  - apply h_new; reflexivity.
  - eapply hist_client_sends; eauto.
  - eapply hist_server_sends; eauto.
  - eapply hist_server_receives; eauto.
  - eapply hist_client_receives; eauto.
Qed.
End Hist.
