(** C68: the passwords the command line tool accepts, and what the lookup of leaked passwords discloses. *)
From Coq Require Import Init.Byte.
From Verif Require Import Prelude PreludeFacts Tools Crypto Session Encodings Search Text SpecText TextFacts Password SpecPassword PropPassword CmdPassword SpecCmdPassword.
From Verif Require PropCmd.

Lemma upper_digit n : (n < 16)%N -> to_upper (hex_digit n) = nth (N.to_nat n) (lit "0123456789ABCDEF") x00.
Proof.
  intro L. unfold hex_digit. assert (H : (N.to_nat n < 16)%nat) by lia. revert H. generalize (N.to_nat n). intros k H.
  do 16 (destruct k as [|k]; [vm_compute; reflexivity|]). lia.
Qed.
Lemma upper_hex l : map to_upper (hex_encode l) = hex_digits l.
Proof.
  induction l as [|b l IH]; [reflexivity|]. unfold hex_digits. cbn [hex_encode map flat_map app]. fold (hex_digits l). rewrite IH, !upper_digit; [reflexivity| |].
  - apply N.mod_upper_bound. discriminate.
  - apply N.div_lt_upper_bound; [discriminate|]. pose proof (b2n_lt b). lia.
Qed.
Lemma digit_no_break n : (n < 16)%N -> let d := nth (N.to_nat n) (lit "0123456789ABCDEF") x00 in d <> x0a /\ d <> x0d.
Proof.
  intro L. cbn zeta. assert (H : (N.to_nat n < 16)%nat) by lia. revert H. generalize (N.to_nat n). intros k H.
  do 16 (destruct k as [|k]; [cbn; split; discriminate|]). lia.
Qed.
Lemma digits_no_break l x : In x (hex_digits l) -> x <> x0a /\ x <> x0d.
Proof.
  intro I. unfold hex_digits in I. apply in_flat_map in I as (b & _ & [<-|[<-|[]]]); apply digit_no_break.
  - apply N.div_lt_upper_bound; [discriminate|]. pose proof (b2n_lt b). lia.
  - apply N.mod_upper_bound. discriminate.
Qed.
(** Cutting a byte that does not occur in [p] off the end does not change whether [p] is a prefix. *)
Lemma prefix_cut c p l : ~ In c p -> has_prefix p (trim_suffix [c] l) = has_prefix p l.
Proof.
  intro N. destruct (PropCmd.suffix_dec [c] l) as [[a ->]|NN]; [|now rewrite PropCmd.trim_suffix_none].
  rewrite PropCmd.trim_suffix_app. apply eq_true_iff_eq. rewrite !has_prefix_true. split.
  - intros [r ->]. exists (r ++ [c]). now rewrite app_assoc.
  - intros [r E]. destruct r as [|x r _] using rev_ind.
    + rewrite app_nil_r in E. exfalso. apply N. rewrite <- E. apply in_or_app. right. now left.
    + rewrite app_assoc in E. apply app_inj_tail in E as [-> _]. now exists r.
Qed.
Lemma chomp_prefix p l : ~ In x0a p -> ~ In x0d p -> has_prefix p (chomp l) = has_prefix p l.
Proof. intros A B. unfold chomp. cbn zeta. now rewrite !prefix_cut. Qed.
Lemma too_long_all ls : forallb line_fits ls = true -> until_too_long ls = ls.
Proof. induction ls as [|l ls IH]; [reflexivity|]. cbn. destruct (line_fits l); [|discriminate]. intro E. now rewrite IH. Qed.
Lemma too_long_in ls l : In l (until_too_long ls) -> In l ls.
Proof. induction ls as [|x ls IH]; cbn; [easy|]. destruct (line_fits x); [|easy]. intros [->|I]; auto. Qed.

Section Any.
Variables (fl : floats) (sha1 : bytes -> bytes) (http_get : bytes -> option response).
Notation digits pw := (hex_digits (sha1 pw)).
Definition weak (min : Z) (pw : bytes) : Prop := (password_level fl pw 20000 < min)%Z.

Lemma prefix_eq pw : map to_upper (firstn 5 (hex_encode (sha1 pw))) = disclosed (digits pw).
Proof using Type. unfold disclosed. rewrite <- upper_hex. symmetry. apply firstn_map. Qed.
Lemma suffix_eq pw : map to_upper (skipn 5 (hex_encode (sha1 pw))) = undisclosed (digits pw).
Proof using Type. unfold undisclosed. rewrite <- upper_hex. symmetry. apply skipn_map. Qed.
Lemma suffix_no_break pw x : In x (undisclosed (digits pw)) -> x <> x0a /\ x <> x0d.
Proof using Type. intro I. apply digits_no_break with (l := sha1 pw). unfold undisclosed in I. rewrite <- (firstn_skipn 5 (digits pw)). apply in_or_app. now right. Qed.
Lemma chomp_suffix pw l : has_prefix (undisclosed (digits pw)) (chomp l) = has_prefix (undisclosed (digits pw)) l.
Proof using Type. apply chomp_prefix; intro I; apply suffix_no_break in I as [A B]; congruence. Qed.

Lemma check_weak_ok pw t : check_weak sha1 http_get pw = (Ok tt, t) <->
  t = [Requested (disclosed (digits pw))] /\ exists rs, http_get (disclosed (digits pw)) = Some rs /\ rs_broken rs = false /\ readable (rs_body rs) /\ ~ mentioned (digits pw) (rs_body rs).
Proof using Type.
  unfold check_weak. cbn zeta. rewrite prefix_eq, suffix_eq. destruct (http_get (disclosed (digits pw))) as [rs|] eqn:H; [|split; [discriminate|intros (_ & rs & X & _); discriminate]].
  assert (MN : mentioned (digits pw) (rs_body rs) <-> exists l, In l (raw_lines [] (rs_body rs)) /\ has_prefix (undisclosed (digits pw)) l = true).
  { unfold mentioned. split.
    - intros (ls & l & r & L & I & E). apply (proj1 (lines_of_iff _ _)) in L. subst ls. exists l. split; [exact I|]. apply has_prefix_true. now exists r.
    - intros (l & I & E). apply (proj1 (has_prefix_true _ _)) in E as [r E]. exists (raw_lines [] (rs_body rs)), l, r. split; [now apply lines_of_iff|]. now split. }
  assert (RD : readable (rs_body rs) <-> forallb line_fits (raw_lines [] (rs_body rs)) = true).
  { unfold readable. rewrite forallb_forall. split.
    - intros (ls & L & Fo). apply (proj1 (lines_of_iff _ _)) in L. subst ls. rewrite Forall_forall in Fo. intros l I. apply (line_fits_iff l _ I). auto.
    - intro A. eexists. split; [now apply lines_of_iff|]. apply Forall_forall. intros l I. apply (line_fits_iff l _ I). auto. }
  destruct (find (has_prefix (undisclosed (digits pw))) (map chomp (until_too_long (raw_lines [] (rs_body rs))))) as [l|] eqn:Fi.
  - split; [discriminate|]. intros (_ & rs' & [= <-] & _ & _ & NM). exfalso. apply NM, MN. apply find_some in Fi as [I P]. apply in_map_iff in I as (l0 & <- & I). rewrite chomp_suffix in P. exists l0. split; [now apply too_long_in|exact P].
  - destruct (forallb line_fits (raw_lines [] (rs_body rs))) eqn:A; cbn [andb].
    + rewrite (too_long_all _ A) in Fi. destruct (rs_broken rs) eqn:B; cbn [negb].
      * split; [discriminate|]. intros (_ & rs' & [= <-] & X & _). congruence.
      * split.
        -- intros [= <-]. split; [reflexivity|]. exists rs. split; [reflexivity|]. split; [exact B|]. split; [now apply RD|]. rewrite MN. intros (l & I & P). pose proof (find_none _ _ Fi (chomp l) (in_map chomp _ _ I)) as X. rewrite chomp_suffix in X. congruence.
        -- intros (-> & _). reflexivity.
    + split; [discriminate|]. intros (_ & rs' & [= <-] & _ & R & _). apply RD in R. congruence.
Qed.
Lemma check_weak_trace pw : exists more, snd (check_weak sha1 http_get pw) = Requested (disclosed (digits pw)) :: more
  /\ (more = [] \/ exists r, more = [Logged (undisclosed (digits pw) ++ r)] /\ fst (check_weak sha1 http_get pw) <> Ok tt).
Proof using Type.
  unfold check_weak. cbn zeta. rewrite prefix_eq, suffix_eq. destruct (http_get (disclosed (digits pw))) as [rs|]; [|exists []; auto].
  destruct (find _ _) as [l|] eqn:Fi; cbn [snd fst]; [|exists []; auto]. apply find_some in Fi as [_ P]. apply (proj1 (has_prefix_true _ _)) in P as [r ->]. eexists. split; [reflexivity|]. right. exists r. split; [reflexivity|discriminate].
Qed.
Lemma ask_valid_iff valid answers pw r : ask_valid valid answers = Some (pw, r) <->
  exists refused, answers = map Some refused ++ Some pw :: r /\ Forall (fun a => valid a = false) refused /\ valid pw = true.
Proof using Type.
  induction answers as [|[a|] answers IH]; cbn [ask_valid].
  - split; [discriminate|]. intros ([|x l] & E & _); discriminate.
  - destruct (valid a) eqn:V.
    + split.
      * intros [= <- <-]. exists []. split; [reflexivity|]. split; [constructor|exact V].
      * intros ([|x l] & E & Fo & P); cbn in E; injection E as E1 E2; subst; [reflexivity|]. inversion Fo; congruence.
    + rewrite IH. split.
      * intros (l & -> & Fo & P). exists (a :: l). split; [reflexivity|]. split; [now constructor|exact P].
      * intros ([|x l] & E & Fo & P); cbn in E; injection E as E1 E2; subst; [congruence|]. exists l. inversion Fo; auto.
  - split; [discriminate|]. intros ([|x l] & E & _); discriminate.
Qed.

(** Which passwords are accepted: the first one that is strong enough, typed twice, and either not looked up or looked up in a list that
    was read to its end and does not mention it. *)
Theorem C68_accepted : forall answers check min pw t, create fl sha1 http_get answers check min = (Ok pw, t) <->
  (exists refused rest, answers = map Some refused ++ Some pw :: Some pw :: rest /\ Forall (weak min) refused) /\ ~ weak min pw
  /\ ((check = Some false /\ t = []) \/
      (check = Some true /\ t = [Requested (disclosed (digits pw))]
       /\ exists rs, http_get (disclosed (digits pw)) = Some rs /\ rs_broken rs = false /\ readable (rs_body rs) /\ ~ mentioned (digits pw) (rs_body rs))).
Proof using Type.
  intros answers check min pw t. unfold create.
  assert (V : forall a, negb (password_level fl a 20000 <? min)%Z = true <-> ~ weak min a) by (intro a; unfold weak; rewrite negb_true_iff, Z.ltb_ge; lia).
  assert (W : forall a, negb (password_level fl a 20000 <? min)%Z = false <-> weak min a) by (intro a; unfold weak; rewrite negb_false_iff, Z.ltb_lt; lia).
  split.
  - destruct (ask_valid _ answers) as [[p r]|] eqn:A; [|discriminate]. apply (proj1 (ask_valid_iff _ _ _ _)) in A as (refused & -> & Fo & P).
    destruct r as [|[p2|] rest]; try discriminate. destruct (bytes_eqb p p2) eqn:B; [|discriminate]. apply bytes_eqb_eq in B. subst p2.
    assert (K : (exists refused0 rest0, map Some refused ++ Some p :: Some p :: rest = map Some refused0 ++ Some p :: Some p :: rest0 /\ Forall (weak min) refused0) /\ ~ weak min p).
    { split; [|now apply V]. exists refused, rest. split; [reflexivity|]. eapply Forall_impl; [|exact Fo]. intros a X. now apply W. }
    destruct check as [[]|]; [|intros [= <- <-]; split; [apply K|]; split; [apply K|]; now left|discriminate].
    destruct (check_weak sha1 http_get p) as [[[]|e|] t'] eqn:C; try discriminate. intros [= <- <-]. split; [apply K|]. split; [apply K|]. right. split; [reflexivity|]. now apply check_weak_ok.
  - intros ((refused & rest & -> & Fo) & P & Q).
    assert (A : ask_valid (fun a => negb (password_level fl a 20000 <? min)%Z) (map Some refused ++ Some pw :: Some pw :: rest) = Some (pw, Some pw :: rest)).
    { apply ask_valid_iff. exists refused. split; [reflexivity|]. split; [|now apply V]. eapply Forall_impl; [|exact Fo]. intros a X. now apply W. }
    rewrite A, bytes_eqb_refl. destruct Q as [[-> ->]|(-> & T)]; [reflexivity|]. apply check_weak_ok in T. now rewrite T.
Qed.
(** What leaves the program: nothing, unless the user asks for the lookup; then five digits of the hash of a password that is strong
    enough, and, in the log, the line that mentions it. *)
Theorem C68_disclosed : forall answers check min, let t := snd (create fl sha1 http_get answers check min) in
  t = [] \/ (check = Some true /\ exists pw more, In (Some pw) answers /\ ~ weak min pw /\ t = Requested (disclosed (digits pw)) :: more
             /\ (more = [] \/ exists r, more = [Logged (undisclosed (digits pw) ++ r)] /\ forall p, fst (create fl sha1 http_get answers check min) <> Ok p)).
Proof using Type.
  intros answers check min. cbn zeta. unfold create. destruct (ask_valid _ answers) as [[p r]|] eqn:A; [|now left]. apply (proj1 (ask_valid_iff _ _ _ _)) in A as (refused & -> & _ & P).
  destruct r as [|[p2|] rest]; try (now left). destruct (bytes_eqb p p2); [|now left]. destruct check as [[]|]; [|now left|now left]. right. split; [reflexivity|].
  exists p. destruct (check_weak_trace p) as (more & T & M). exists more. split; [apply in_or_app; right; now left|]. split; [unfold weak; apply negb_true_iff in P; apply Z.ltb_ge in P; lia|].
  destruct (check_weak sha1 http_get p) as [[[]|e|] t'] eqn:C; cbn [fst snd] in *; (split; [exact T|]); (destruct M as [M|(r & M & X)]; [now left|]; right; exists r; split; [exact M|]); congruence.
Qed.
(** Only the key of the signet changes. *)
Theorem C68_signet : forall answers check min sg sg',
  (create_callback fl sha1 http_get answers check sg min = Ok sg' \/ get_callback answers sg = Ok sg') ->
  sg_id sg' = sg_id sg /\ sg_scheme sg' = sg_scheme sg /\ sg_version sg' = sg_version sg /\ sg_public sg' = sg_public sg /\ sg_prot sg' = sg_prot sg /\ sg_info sg' = sg_info sg /\ In (Some (sg_key sg')) answers.
Proof using Type.
  intros answers check min sg sg' [E|E].
  - unfold create_callback in E. destruct (create fl sha1 http_get answers check min) as [[p|e|] t] eqn:C; try discriminate. cbn [fst bind] in E. injection E as <-. cbn [with_key sg_id sg_scheme sg_version sg_public sg_prot sg_info sg_key].
    do 6 (split; [reflexivity|]). apply (proj1 (C68_accepted _ _ _ _ _)) in C as ((rf & rest & -> & _) & _). apply in_or_app. right. now left.
  - unfold get_callback, get_password in E. destruct answers as [|[p|] answers]; try discriminate. cbn [bind] in E. injection E as <-. cbn [with_key sg_id sg_scheme sg_version sg_public sg_prot sg_info sg_key].
    do 6 (split; [reflexivity|]). now left.
Qed.
End Any.

(** ** The prompt and the session *)
(** More iterations are not worth less, for numbers. *)
Definition iterations_count (fl : floats) (le : F fl -> F fl -> Prop) : Prop :=
  forall y n m, le y y -> (0 <= n <= m)%Z -> le (f_mul fl (f_pow fl (f_of fl 2) y) (f_of fl n)) (f_mul fl (f_pow fl (f_of fl 2) y) (f_of fl m)).
(** A password that the prompt accepts for a level reaches it in a session that uses SCRYPT-20, as all suites with passwords do. *)
Theorem C68_reaches : forall fl le fin, monotone fl le fin -> iterations_count fl le ->
  forall cr, (forall pw it, cr_pw_level cr pw it = password_level fl pw it) ->
  forall sha1 http_get answers check min sg sg' i, (0 <= min)%Z -> sg_scheme sg = scheme_pw -> i_name i = lit "SCRYPT-20" ->
  create_callback fl sha1 http_get answers check sg min = Ok sg' ->
  fin (estimate fl (pool_size (sg_key sg')) (Z.of_nat (length (sg_key sg'))) 1048576) ->
  exists l, calc_level cr (Some i) (Some sg') = Ok l /\ (min <= l)%Z.
Proof.
  intros fl le fin M IC cr CR sha1 http_get answers check min sg sg' i M0 SC IN E Fi.
  unfold create_callback in E. destruct (create fl sha1 http_get answers check min) as [[pw|e|] t] eqn:C; try discriminate. cbn [fst bind] in E. injection E as <-.
  apply (proj1 (C68_accepted _ _ _ _ _ _ _ _)) in C as (_ & NW & _). unfold weak in NW. cbn [with_key sg_key] in Fi.
  assert (CP : create_password fl pw pw min = Some pw) by (apply C44_accepted; repeat split; lia).
  assert (D : diverse pw) by (eapply C44_rules_enforced; [exact M0|exact CP]).
  assert (NE : pw <> []).
  { intros ->. destruct D as [_ (l & _ & IL & X)]. cbn in X. destruct l as [|b l]; [cbn in X; lia|]. destruct (proj1 (IL b) (or_introl eq_refl)) as [[] _]. }
  assert (L : (min <= password_level fl pw 1048576)%Z).
  { rewrite (proj1 (C44_exact fl pw 20000) D) in NW. rewrite (proj1 (C44_exact fl pw 1048576) D).
    assert (X : (f_int fl (estimate fl (pool_size pw) (Z.of_nat (length pw)) 20000) <= f_int fl (estimate fl (pool_size pw) (Z.of_nat (length pw)) 1048576))%Z); [|lia].
    apply (m_int _ _ _ M); [exact Fi|]. unfold estimate. apply (m_log2 _ _ _ M), IC; [|lia]. apply (m_sub _ _ _ M), (m_log2 _ _ _ M), (m_pow _ _ _ M); [now apply pool_pos|lia]. }
  exists (password_level fl pw 1048576). split; [|exact L]. unfold calc_level. cbn [with_key sg_scheme sg_key]. rewrite SC.
  assert (B1 : bytes_eqb scheme_pw scheme_key = false) by (vm_compute; reflexivity). assert (B2 : bytes_eqb scheme_pw scheme_pw = true) by apply bytes_eqb_refl. rewrite B1, B2.
  destruct pw as [|b pw]; [congruence|]. cbn zeta. assert (B3 : pw_iterations (i_name i) = 1048576%Z) by (rewrite IN; vm_compute; reflexivity). rewrite B3, CR.
  destruct (Z.ltb_spec (password_level fl (b :: pw) 1048576) 0); [lia|reflexivity].
Qed.

(** ** What does not hold *)
Lemma lines_empty : readable [] /\ forall d, ~ mentioned d [].
Proof.
  split.
  - exists []. split; [|constructor]. now apply lines_of_iff.
  - intros d (ls & l & r & L & I & _). apply (proj1 (lines_of_iff _ _)) in L. subst ls. destruct I.
Qed.
(** The status of the response plays no role: whatever the failure, a response without a list counts as a list without the password. *)
Theorem C68_status_refuted : forall fl sha1 status pw min, ~ weak fl min pw ->
  create fl sha1 (fun _ => Some (mkResponse status [] false)) [Some pw; Some pw] (Some true) min = (Ok pw, [Requested (disclosed (hex_digits (sha1 pw)))]).
Proof.
  intros fl sha1 status pw min NW. apply C68_accepted. split; [exists [], []; split; [reflexivity|constructor]|]. split; [exact NW|]. right. split; [reflexivity|]. split; [reflexivity|].
  eexists. split; [reflexivity|]. split; [reflexivity|]. split; apply lines_empty.
Qed.
Lemma until_one l : line_fits l = true -> until_too_long [l] = [l].
Proof. cbn. now intros ->. Qed.
(** The request and the log together hold the whole hash of a leaked password. *)
Theorem C68_private_refuted : forall fl sha1 pw min, (length (sha1 pw) = 20)%nat -> ~ weak fl min pw -> exists body r p q,
  create fl sha1 (fun _ => Some (mkResponse 200 body false)) [Some pw; Some pw] (Some true) min = (Err EOther, [Requested p; Logged (q ++ r)]) /\ p ++ q = hex_digits (sha1 pw).
Proof.
  intros fl sha1 pw min LEN NW. set (d := hex_digits (sha1 pw)). exists (undisclosed d ++ lit ":3"), (lit ":3"), (disclosed d), (undisclosed d). split; [|apply firstn_skipn].
  unfold create. cbn [ask_valid]. assert (V : (password_level fl pw 20000 <? min)%Z = false) by (apply Z.ltb_ge; unfold weak in NW; lia). rewrite V. cbn [negb]. rewrite bytes_eqb_refl.
  unfold check_weak. cbn zeta. rewrite prefix_eq, suffix_eq. fold d. cbn [rs_body].
  assert (NB : ~ In x0a (undisclosed d ++ lit ":3")).
  { intro I. apply in_app_or in I as [I|I]; [apply suffix_no_break in I as [A _]; congruence|]. cbn in I. destruct I as [I|[I|[]]]; discriminate. }
  rewrite (no_newline_raw _ [] NB). cbn [app].
  assert (Lb : (length (undisclosed d ++ lit ":3") <= 40)%nat).
  { rewrite app_length. unfold undisclosed. rewrite skipn_length. assert (X : length d = 40%nat); [|change (length (lit ":3")) with 2%nat; lia].
    unfold d. clear -LEN. replace 40%nat with (2 * length (sha1 pw))%nat by lia. clear LEN. induction (sha1 pw) as [|b l IH]; [reflexivity|]. unfold hex_digits. cbn [flat_map app length]. fold (hex_digits l). lia. }
  destruct (undisclosed d ++ lit ":3") as [|x l] eqn:EB; [apply app_eq_nil in EB as [_ X]; discriminate|]. rewrite until_one.
  2:{ unfold line_fits. assert (K : (blen (x :: l) < max_token)%N) by (unfold blen, max_token; lia). destruct (has_suffix [x0a] (x :: l)); [apply N.leb_le; lia|now apply N.ltb_lt]. }
  assert (CH : chomp (x :: l) = x :: l).
  { rewrite <- EB. unfold chomp. cbn zeta. rewrite (PropCmd.trim_suffix_none [x0a]).
    - apply PropCmd.trim_suffix_none. intros a E. change (lit ":3") with ([x3a] ++ [x33]) in E. rewrite app_assoc in E. apply app_inj_tail in E as [_ E]. discriminate.
    - intros a E. change (lit ":3") with ([x3a] ++ [x33]) in E. rewrite app_assoc in E. apply app_inj_tail in E as [_ E]. discriminate. }
  cbn [map]. rewrite CH. cbn [find]. assert (P : has_prefix (undisclosed d) (x :: l) = true) by (rewrite <- EB; apply has_prefix_true; now eexists). rewrite P, <- EB. reflexivity.
Qed.

(** ** Cases that meet the hypotheses *)
Definition toy_sha1 (pw : bytes) : bytes := repeat x3c 19 ++ [n2b (N.of_nat (length pw))].
Definition toy_service (prefix : bytes) : option response :=
  if bytes_eqb prefix (lit "3C3C3") then Some (mkResponse 200 (lit "C3C3C3C3C3C3C3C3C3C3C3C3C3C3C3C3C28:7" ++ [x0d; x0a] ++ lit "FFFF:1") false) else None.
Theorem C68_hypotheses_met :
  monotone zfl zle (fun x => x <> None) /\ iterations_count zfl zle
  /\ (let pw := firstn 40 letters52 in let leaked := pw in let other := firstn 41 letters52 in
      create zfl toy_sha1 toy_service [Some (lit "short"); Some other; Some other] (Some true) 128 = (Ok other, [Requested (lit "3C3C3")])
      /\ create zfl toy_sha1 toy_service [Some leaked; Some leaked] (Some true) 128
         = (Err EOther, [Requested (lit "3C3C3"); Logged (lit "C3C3C3C3C3C3C3C3C3C3C3C3C3C3C3C3C28:7")])
      /\ create zfl toy_sha1 toy_service [Some leaked; Some leaked] (Some false) 128 = (Ok leaked, [])
      /\ create zfl toy_sha1 toy_service [Some leaked; Some other] (Some false) 128 = (Err EOther, [])
      /\ estimate zfl (pool_size other) (Z.of_nat (length other)) 1048576 <> None
      /\ ~ weak zfl 128 pw /\ length (toy_sha1 pw) = 20).
Proof.
  split; [apply C44_hypotheses_met|]. split.
  - intros [y|] n m _ L; cbn [F f_of f_pow f_log2 f_sub f_mul f_int zfl zle]; [|exact I]. assert (Z0 : zcap (2 ^ y) = Some (2 ^ y)%Z \/ zcap (2 ^ y) = None) by (unfold zcap; destruct (2 ^ y <? 2 ^ 1024)%Z; auto). destruct Z0 as [-> | ->]; [|exact I]. apply zcap_mono. apply Z.mul_le_mono_nonneg_l; [|lia]. apply Z.pow_nonneg. lia.
  - cbn zeta. do 5 (split; [vm_compute; reflexivity || discriminate|]). split; [|vm_compute; reflexivity]. unfold weak. vm_compute. intro X. discriminate X.
Qed.
Print Assumptions C68_accepted.
Print Assumptions C68_disclosed.
Print Assumptions C68_signet.
Print Assumptions C68_reaches.
Print Assumptions C68_status_refuted.
Print Assumptions C68_private_refuted.
