(** C49: checksums and signatures in JSON files. *)
From Coq Require Import Init.Byte Permutation Sorted.
From Verif Require Import Prelude PreludeFacts Requirements Tools Crypto Letter Session Core Envelope Encodings EncodingsFacts Lhash SpecHash PropHash Text TextFacts PropText FileSig Json SpecJson.

(** ** Trees *)
Section Ind.
Variable P : json -> Prop.
Hypothesis (PS : forall s, P (JStr s)) (PA : forall s, P (JAtom s)) (PL : forall l, Forall P l -> P (JArr l))
  (PO : forall ms, Forall (fun m => P (snd m)) ms -> P (JObj ms)).
Fixpoint json_rect' (j : json) : P j :=
  match j with
  | JStr s => PS s
  | JAtom s => PA s
  | JArr l => PL l ((fix go l := match l return Forall P l with [] => Forall_nil _ | x :: r => Forall_cons _ (json_rect' x) (go r) end) l)
  | JObj ms => PO ms ((fix go l := match l return Forall (fun m => P (snd m)) l with [] => Forall_nil _ | x :: r => Forall_cons _ (json_rect' (snd x)) (go r) end) ms)
  end.
End Ind.

(** ** Order *)
Lemma bytes_leb_key a b : bytes_leb a b = true <-> key_le a b.
Proof.
  revert b. induction a as [|x a IH]; intro b; cbn; [split; [constructor|reflexivity]|]. destruct b as [|y b]; [split; [discriminate|inversion 1]|].
  destruct (byte_eqb x y) eqn:E.
  - apply byte_eqb_eq in E. subst. rewrite IH. split; [now constructor|]. inversion 1; subst; [lia|assumption].
  - rewrite N.ltb_lt. split; [now constructor|]. inversion 1; subst; [assumption|]. now rewrite byte_eqb_refl in E.
Qed.
Lemma key_le_total a b : key_le a b \/ key_le b a.
Proof.
  revert b. induction a as [|x a IH]; intro b; [left; constructor|]. destruct b as [|y b]; [right; constructor|].
  destruct (N.lt_trichotomy (b2n x) (b2n y)) as [L|[E|L]]; [left; now constructor| |right; now constructor].
  apply b2n_inj in E. subst. destruct (IH b); [left|right]; now constructor.
Qed.
Lemma key_le_trans a b c : key_le a b -> key_le b c -> key_le a c.
Proof.
  intro L. revert c. induction L as [b|x y a b L|x a b L IH]; intros c M; [constructor| |].
  - inversion M; subst; constructor; lia.
  - inversion M; subst; [constructor; lia|]. apply key_eq. auto.
Qed.
Lemma key_le_antisym a b : key_le a b -> key_le b a -> a = b.
Proof. induction 1 as [b|x y a b L|x a b L IH]; intro M; inversion M; subst; try lia; try reflexivity. f_equal. auto. Qed.
Definition mle (a b : bytes * json) : Prop := key_le (fst a) (fst b).
Lemma insert_member_perm m l : Permutation (m :: l) (insert_member m l).
Proof. induction l as [|x l IH]; cbn; [reflexivity|]. destruct (bytes_leb (fst m) (fst x)); [reflexivity|]. rewrite perm_swap. now constructor. Qed.
Lemma sort_members_perm l : Permutation l (sort_members l).
Proof. induction l as [|m l IH]; cbn; [constructor|]. rewrite <- insert_member_perm. now constructor. Qed.
Lemma insert_member_sorted m l : StronglySorted mle l -> StronglySorted mle (insert_member m l).
Proof.
  induction 1 as [|x l S IH F]; cbn; [repeat constructor|]. destruct (bytes_leb (fst m) (fst x)) eqn:E.
  - apply bytes_leb_key in E. constructor; [now constructor|]. constructor; [exact E|]. eapply Forall_impl; [|exact F]. intros y Y. now apply (key_le_trans _ (fst x)).
  - constructor; [exact IH|]. assert (L : mle x m) by (destruct (key_le_total (fst x) (fst m)) as [L|L]; [exact L|apply bytes_leb_key in L; congruence]).
    eapply Permutation_Forall; [apply insert_member_perm|]. now constructor.
Qed.
Lemma sort_members_sorted l : StronglySorted mle (sort_members l).
Proof. induction l as [|m l IH]; cbn; [constructor|]. now apply insert_member_sorted. Qed.
Lemma sorted_unique a : forall b, StronglySorted mle a -> StronglySorted mle b -> Permutation a b -> NoDup (map fst a) -> a = b.
Proof.
  induction a as [|x a IH]; intros b SA SB P ND; [now apply Permutation_nil in P|]. destruct b as [|y b]; [now apply Permutation_sym, Permutation_nil in P|].
  inversion SA as [|? ? SA' FA]; subst. inversion SB as [|? ? SB' FB]; subst. inversion ND as [|? ? NI ND']; subst.
  assert (E : x = y).
  { assert (IX : In x (y :: b)) by (eapply Permutation_in; [exact P|now left]). assert (IY : In y (x :: a)) by (eapply Permutation_in; [apply Permutation_sym; exact P|now left]).
    destruct IX as [<-|IX]; [reflexivity|]. destruct IY as [->|IY]; [reflexivity|]. exfalso. rewrite Forall_forall in FA, FB. apply NI.
    rewrite (key_le_antisym (fst x) (fst y)); [now apply in_map|now apply FA|now apply FB]. }
  subst y. f_equal. apply IH; auto. now apply Permutation_cons_inv in P.
Qed.
Lemma sort_members_eq a b : Permutation a b -> NoDup (map fst a) -> sort_members a = sort_members b.
Proof.
  intros P ND. apply sorted_unique; auto using sort_members_sorted.
  - now rewrite <- !sort_members_perm.
  - eapply Permutation_NoDup; [apply Permutation_map, sort_members_perm|exact ND].
Qed.
Lemma sort_members_id a : StronglySorted mle a -> sort_members a = a.
Proof.
  induction 1 as [|x l S IH F]; [reflexivity|]. cbn. rewrite IH. destruct l as [|y l]; [reflexivity|]. cbn. inversion F; subst.
  replace (bytes_leb (fst x) (fst y)) with true by (symmetry; now apply bytes_leb_key). reflexivity.
Qed.
Definition sm (m : bytes * json) : bytes * json := (fst m, sort_json (snd m)).
Lemma sort_json_obj ms : sort_json (JObj ms) = JObj (sort_members (map sm ms)).
Proof. reflexivity. Qed.

Lemma same_json_sort j : same_json j (sort_json j).
Proof.
  induction j using json_rect'; cbn [sort_json]; try constructor.
  - induction H as [|x l S F IH]; constructor; assumption.
  - eapply same_obj; [|apply sort_members_perm]. induction H as [|x l S F IH]; constructor; [split; [reflexivity|exact S]|assumption].
Qed.
Lemma sort_json_sorted j : sorted_json (sort_json j).
Proof.
  induction j using json_rect'; cbn [sort_json]; constructor.
  - apply Forall_map. eapply Forall_impl; [|exact H]. auto.
  - eapply Permutation_Forall; [apply sort_members_perm|]. apply Forall_map. exact H.
  - apply sort_members_sorted.
Qed.

Section Doc.
Variables (esc unesc : bytes -> bytes).
Hypothesis unesc_esc : forall s, unesc (esc s) = s.
Notation plain := (plain unesc).
Lemma plain_nodup ms : NoDup (map (fun m : bytes * json => unesc (fst m)) ms) -> NoDup (map fst ms).
Proof.
  induction ms as [|m ms IH]; cbn; intro ND; [constructor|]. inversion ND as [|? ? NI ND']; subst. constructor; [|auto].
  intro I. apply NI. apply in_map_iff in I as (x & E & I). apply in_map_iff. exists x. split; [now rewrite E|exact I].
Qed.
Lemma same_json_eq a : forall b, same_json a b -> plain a -> sort_json a = sort_json b.
Proof.
  induction a as [s|s|l IH|ms IH] using json_rect'; intros b S PL.
  - now inversion S.
  - now inversion S.
  - inversion S as [| |? l' F2|]; subst. inversion PL as [| |? FP|]; subst. cbn [sort_json]. f_equal. clear S PL.
    induction F2 as [|x y l l' E F2 IHF]; [reflexivity|]. inversion IH; subst. inversion FP; subst. cbn. f_equal; auto.
  - inversion S as [| | |? ms' ms'' F2 P]; subst. inversion PL as [| | |? FP ND]; subst. rewrite !sort_json_obj. f_equal. apply plain_nodup in ND.
    assert (E : map sm ms = map sm ms').
    { clear - IH F2 FP. induction F2 as [|x y l l' [E1 E2] F2 IHF]; [reflexivity|]. inversion IH; subst. inversion FP; subst. cbn. f_equal; [unfold sm; f_equal; auto|auto]. }
    rewrite E. apply sort_members_eq; [now apply Permutation_map|]. rewrite <- E, map_map. exact ND.
Qed.
Lemma sort_json_id a : sorted_json a -> sort_json a = a.
Proof.
  induction a as [s|s|l IH|ms IH] using json_rect'; intro S; try reflexivity; inversion S as [| |? F|? F SS]; subst.
  - cbn. f_equal. clear S. induction l as [|x l IHl]; [reflexivity|]. inversion IH; subst. inversion F; subst. cbn. f_equal; auto.
  - rewrite sort_json_obj. f_equal. replace (map sm ms) with ms; [now apply sort_members_id|]. clear S SS.
    induction ms as [|x l IHl]; [reflexivity|]. inversion IH; subst. inversion F; subst. cbn. f_equal; auto. unfold sm. destruct x. cbn in *. f_equal. symmetry. auto.
Qed.
Lemma same_json_refl a : same_json a a.
Proof.
  induction a as [s|s|l IH|ms IH] using json_rect'; try constructor.
  - induction IH; constructor; auto.
  - econstructor; [|reflexivity]. induction IH; constructor; auto.
Qed.

(** ** Members *)
Definition notk (k : bytes) (m : bytes * json) : bool := negb (bytes_eqb (unesc (fst m)) k).
Definition keys (ms : members) : list bytes := map (fun m => unesc (fst m)) ms.
Lemma notk_none k ms : ~ In k (keys ms) -> filter (notk k) ms = ms.
Proof.
  intro N. apply filter_all. intros m I. unfold notk. apply negb_true_iff. destruct (bytes_eqb (unesc (fst m)) k) eqn:E; [|reflexivity]. apply bytes_eqb_eq in E.
  exfalso. apply N. rewrite <- E. unfold keys. apply in_map_iff. eauto.
Qed.
Lemma del_filter k ms : NoDup (keys ms) -> del_member unesc k ms = filter (notk k) ms.
Proof.
  induction ms as [|[k' v] ms IH]; cbn; intro ND; [reflexivity|]. inversion ND as [|? ? NI ND']; subst. unfold notk at 1. cbn [fst].
  destruct (bytes_eqb (unesc k') k) eqn:E; cbn [negb].
  - apply bytes_eqb_eq in E. subst k. symmetry. now apply notk_none.
  - f_equal. auto.
Qed.
Lemma get_none k ms : get_member unesc k ms = None <-> ~ In k (keys ms).
Proof.
  induction ms as [|[k' v] ms IH]; cbn; [tauto|]. destruct (bytes_eqb (unesc k') k) eqn:E.
  - apply bytes_eqb_eq in E. split; [discriminate|]. intro N. exfalso. apply N. now left.
  - rewrite IH. split; [intros N [X|X]; [|auto]|tauto]. rewrite X, bytes_eqb_refl in E. discriminate.
Qed.
Lemma get_in k ms v : NoDup (keys ms) -> (get_member unesc k ms = Some v <-> exists k', In (k', v) ms /\ unesc k' = k).
Proof.
  induction ms as [|[k1 v1] ms IH]; cbn; intro ND; [split; [discriminate|intros (k' & [] & _)]|]. inversion ND as [|? ? NI ND']; subst. destruct (bytes_eqb (unesc k1) k) eqn:E.
  - apply bytes_eqb_eq in E. split; [intros [= ->]; eauto|]. intros (k' & [[= -> ->]|I] & E'); [reflexivity|]. exfalso. apply NI. cbn. rewrite E, <- E'.
    apply in_map_iff. exists (k', v). auto.
  - rewrite (IH ND'). split; [intros (k' & I & E'); eauto|]. intros (k' & [[= -> ->]|I] & E'); [rewrite E', bytes_eqb_refl in E; discriminate|eauto].
Qed.
Lemma get_filter k k2 ms : k <> k2 -> get_member unesc k (filter (notk k2) ms) = get_member unesc k ms.
Proof.
  intro N. induction ms as [|[k' v] ms IH]; cbn; [reflexivity|]. unfold notk at 1. cbn [fst]. destruct (bytes_eqb (unesc k') k2) eqn:E; cbn.
  - apply bytes_eqb_eq in E. rewrite IH. destruct (bytes_eqb (unesc k') k) eqn:E2; [|reflexivity]. apply bytes_eqb_eq in E2. congruence.
  - rewrite IH. reflexivity.
Qed.
Lemma filter_nodup k ms : NoDup (keys ms) -> NoDup (keys (filter (notk k) ms)).
Proof.
  induction ms as [|m ms IH]; cbn; intro ND; [constructor|]. inversion ND as [|? ? NI ND']; subst. destruct (notk k m); [|auto]. cbn. constructor; [|auto].
  intro I. apply NI. unfold keys in *. apply in_map_iff in I as (x & E & I). apply filter_In in I as [I _]. apply in_map_iff. eauto.
Qed.
Definition rest (ms : members) : members := filter (notk json_signature_key) (filter (notk json_checksum_key) ms).
Lemma keys_differ : json_signature_key <> json_checksum_key.
Proof. discriminate. Qed.
Lemma split_eq ms : NoDup (keys ms) ->
  json_split unesc (JObj ms) = (sort_json (JObj (rest ms)), json_strings unesc (get_member unesc json_checksum_key ms), json_strings unesc (get_member unesc json_signature_key ms)).
Proof.
  intro ND. unfold json_split, rest. cbn [json_del json_get]. rewrite (del_filter json_checksum_key), (del_filter json_signature_key) by auto using filter_nodup.
  now rewrite get_filter by apply keys_differ.
Qed.
Lemma rest_in ms m : In m (rest ms) <-> In m ms /\ ~ meta_key (unesc (fst m)).
Proof.
  unfold rest, meta_key. rewrite !filter_In. unfold notk. rewrite !negb_true_iff. change (lit "_jess-checksum") with json_checksum_key. change (lit "_jess-signature") with json_signature_key.
  rewrite <- !not_true_iff_false, !bytes_eqb_eq. tauto.
Qed.
Lemma plain_parts ms : plain (JObj ms) -> NoDup (keys ms) /\ Forall (fun m => plain (snd m)) ms.
Proof. intro P. inversion P; subst. auto. Qed.
Lemma nodup_members ms : NoDup (keys ms) -> NoDup ms.
Proof. apply NoDup_map_inv. Qed.
Lemma plain_sub ms ms' : plain (JObj ms) -> (forall m, In m ms' -> In m ms) -> NoDup ms' -> plain (JObj ms').
Proof.
  intros P S ND. apply plain_parts in P as [K F]. rewrite Forall_forall in F. constructor; [apply Forall_forall; auto|].
  clear F. induction ms' as [|m ms' IH]; cbn; [constructor|]. inversion ND as [|? ? NI ND']; subst. constructor; [|apply IH; auto; intros; apply S; now right].
  intro I. apply in_map_iff in I as (x & E & I). apply NI. replace m with x; [exact I|].
  assert (IM : In m ms) by (apply S; now left). assert (IX : In x ms) by (apply S; now right). clear - K E IM IX. induction ms as [|y ms IH]; [destruct IM|].
  cbn in K. inversion K as [|? ? NI K']; subst. destruct IM as [<-|IM], IX as [<-|IX]; auto.
  - exfalso. apply NI. rewrite <- E. apply in_map_iff. eauto.
  - exfalso. apply NI. rewrite E. apply in_map_iff. eauto.
Qed.
Lemma rest_plain ms : plain (JObj ms) -> plain (JObj (rest ms)).
Proof.
  intro P. apply (plain_sub ms); [exact P|intros m I; now apply rest_in in I|]. apply plain_parts in P as [K _]. unfold rest. apply NoDup_filter, NoDup_filter. now apply nodup_members.
Qed.
(** The content that checksums and signatures are about. *)
Lemma json_content_iff ms content : plain (JObj ms) -> (json_content unesc (JObj ms) content <-> content = sort_json (JObj (rest ms))).
Proof.
  intro P. pose proof (rest_plain _ P) as RP. pose proof (plain_parts _ P) as [K _]. split.
  - intros (ms' & kept & [= <-] & IN & ND & S & SO). rewrite <- (sort_json_id content SO).
    assert (PK : plain (JObj kept)) by (apply (plain_sub ms); [exact P|intros m I; now apply IN|exact ND]).
    rewrite <- (same_json_eq _ _ S PK). apply same_json_eq; [|exact PK]. eapply same_obj with (ms' := kept); [clear; induction kept; constructor; auto using same_json_refl|].
    apply NoDup_Permutation; [exact ND| |intro m; rewrite IN, rest_in; reflexivity]. unfold rest. apply NoDup_filter, NoDup_filter. now apply nodup_members.
  - intros ->. exists ms, (rest ms). split; [reflexivity|]. split; [intro m; apply rest_in|]. split; [unfold rest; apply NoDup_filter, NoDup_filter; now apply nodup_members|].
    split; [apply same_json_sort|apply sort_json_sorted].
Qed.
Lemma listed_iff k ms s : NoDup (keys ms) -> (listed unesc k (JObj ms) s <-> In s (json_strings unesc (get_member unesc k ms))).
Proof.
  intro ND. unfold listed. split.
  - intros (ms' & k' & v & raw & [= <-] & I & E & -> & V). rewrite (proj2 (get_in k ms v ND)) by eauto. destruct V as [->|(l & -> & I2)]; cbn; [now left|].
    apply in_flat_map. exists (JStr raw). split; [exact I2|now left].
  - destruct (get_member unesc k ms) as [v|] eqn:G; [|intros []]. apply get_in in G as (k' & I & E); [|exact ND]. destruct v as [x|x|l|m]; cbn; [|intros []| |intros []].
    + intros [<-|[]]. exists ms, k', (JStr x), x. auto 6.
    + intro J. apply in_flat_map in J as (j & J1 & J2). destruct j as [x|x|l2|m]; [destruct J2 as [<-|[]]|destruct J2..]. exists ms, k', (JArr l), x. eauto 9.
Qed.
Lemma strings_of ss : ss <> [] -> json_strings unesc (Some (match ss with [s] => JStr (esc s) | _ => JArr (map (fun s => JStr (esc s)) ss) end)) = ss.
Proof.
  intro NE. destruct ss as [|s [|t r]]; [congruence|cbn; now rewrite unesc_esc|]. cbn [json_strings]. generalize (s :: t :: r). clear NE. intro l. induction l as [|x l IH]; [reflexivity|].
  cbn. now rewrite unesc_esc, IH.
Qed.
Lemma replace_keys k j ms : keys (replace_member unesc k j ms) = keys ms.
Proof. induction ms as [|[k' v] ms IH]; cbn; [reflexivity|]. destruct (bytes_eqb (unesc k') k); cbn; [reflexivity|]. f_equal. exact IH. Qed.
Lemma replace_get k j ms : get_member unesc k ms <> None -> get_member unesc k (replace_member unesc k j ms) = Some j.
Proof. induction ms as [|[k' v] ms IH]; cbn; [congruence|]. destruct (bytes_eqb (unesc k') k) eqn:E; cbn; rewrite E; auto. Qed.
Lemma replace_get_other k k2 j ms : k2 <> k -> get_member unesc k2 (replace_member unesc k j ms) = get_member unesc k2 ms.
Proof.
  intro N. induction ms as [|[k' v] ms IH]; cbn; [reflexivity|]. destruct (bytes_eqb (unesc k') k) eqn:E; cbn; [|now rewrite IH].
  apply bytes_eqb_eq in E. destruct (bytes_eqb (unesc k') k2) eqn:E2; [|reflexivity]. apply bytes_eqb_eq in E2. congruence.
Qed.
Lemma replace_filter k j ms : filter (notk k) (replace_member unesc k j ms) = filter (notk k) ms.
Proof.
  assert (X : forall k' v, notk k (k', v) = negb (bytes_eqb (unesc k') k)) by reflexivity.
  induction ms as [|[k' v] ms IH]; cbn; [reflexivity|]. destruct (bytes_eqb (unesc k') k) eqn:E; cbn; rewrite !X, E; cbn; [reflexivity|now rewrite IH].
Qed.
Lemma replace_plain k j ms : plain j -> Forall (fun m => plain (snd m)) ms -> Forall (fun m => plain (snd m)) (replace_member unesc k j ms).
Proof. intros PJ F. induction F as [|[k' v] ms P F IH]; cbn; [constructor|]. destruct (bytes_eqb (unesc k') k); constructor; auto. Qed.
Lemma filter_comm {A} (f g : A -> bool) l : filter f (filter g l) = filter g (filter f l).
Proof. induction l as [|x l IH]; [reflexivity|]. cbn. destruct (f x) eqn:F, (g x) eqn:G; cbn; rewrite ?F, ?G, IH; reflexivity. Qed.

(** Setting a metadata member. *)
Lemma put_spec k k2 ss ms : (k = json_checksum_key /\ k2 = json_signature_key \/ k = json_signature_key /\ k2 = json_checksum_key) -> plain (JObj ms) ->
  exists ms', json_put esc unesc k ss (JObj ms) = Ok (JObj ms') /\ plain (JObj ms') /\ rest ms' = rest ms
    /\ get_member unesc k2 ms' = get_member unesc k2 ms
    /\ (ss <> [] -> json_strings unesc (get_member unesc k ms') = ss) /\ (ss = [] -> ms' = ms).
Proof.
  intros KK P. assert (NK : k2 <> k) by (destruct KK as [[-> ->]|[-> ->]]; discriminate).
  destruct ss as [|s r]; [exists ms; cbn; repeat split; congruence|]. set (ss := s :: r) in *.
  set (j := match ss with [s] => JStr (esc s) | _ => JArr (map (fun s => JStr (esc s)) ss) end).
  assert (E : json_put esc unesc k ss (JObj ms) = json_set esc unesc k j (JObj ms)) by (unfold j, ss; destruct r; reflexivity).
  assert (PJ : plain j) by (unfold j, ss; destruct r; constructor; apply Forall_map, Forall_forall; constructor).
  rewrite E. cbn [json_set]. pose proof (plain_parts _ P) as [K F].
  assert (R : forall ms', filter (notk k) ms' = filter (notk k) ms -> rest ms' = rest ms).
  { intros ms' X. unfold rest. destruct KK as [[-> ->]|[-> ->]]; [now rewrite X|]. rewrite (filter_comm _ _ ms'), (filter_comm _ _ ms). now rewrite X. }
  assert (S : ss <> [] -> json_strings unesc (Some j) = ss) by apply strings_of.
  destruct (get_member unesc k ms) as [v|] eqn:G.
  - exists (replace_member unesc k j ms). split; [reflexivity|]. split; [constructor; [now apply replace_plain|]; change (NoDup (keys (replace_member unesc k j ms))); now rewrite replace_keys|].
    split; [apply R, replace_filter|]. split; [now apply replace_get_other|]. split; [|discriminate]. rewrite replace_get by congruence. exact S.
  - exists ((esc k, j) :: ms). split; [reflexivity|]. split; [constructor; [now constructor|]; cbn; rewrite unesc_esc; constructor; [now apply get_none|exact K]|].
    split; [apply R; cbn; unfold notk at 1; cbn; now rewrite unesc_esc, bytes_eqb_refl|]. cbn [get_member]. rewrite unesc_esc, bytes_eqb_refl.
    split; [|split; [exact S|discriminate]]. destruct (bytes_eqb k k2) eqn:X; [apply bytes_eqb_eq in X; congruence|reflexivity].
Qed.
Lemma sort_json_plain j : plain j -> plain (sort_json j).
Proof.
  induction j as [s|s|l IH|ms IH] using json_rect'; intro P; try exact P; inversion P as [| |? F|? F ND]; subst; cbn [sort_json].
  - constructor. apply Forall_map. clear P. induction IH; inversion F; subst; constructor; auto.
  - constructor.
    + eapply Permutation_Forall; [apply sort_members_perm|]. apply Forall_map. clear P ND. induction IH; inversion F; subst; constructor; auto.
    + eapply Permutation_NoDup; [apply Permutation_map, sort_members_perm|]. rewrite map_map. exact ND.
Qed.
Lemma rest_all l : (forall m, In m l -> ~ meta_key (unesc (fst m))) -> rest l = l.
Proof.
  intro N. unfold rest. rewrite (filter_all (notk json_checksum_key) l); [apply filter_all|]; intros m I; apply N in I; unfold notk; apply negb_true_iff, not_true_iff_false; rewrite bytes_eqb_eq; intro X; apply I; [now right|now left].
Qed.
Lemma rest_content ms : rest (sort_members (map sm (rest ms))) = sort_members (map sm (rest ms)).
Proof.
  apply rest_all. intros m I. apply (Permutation_in m (Permutation_sym (sort_members_perm _))) in I. apply in_map_iff in I as (x & <- & I). now apply rest_in in I as [_ I].
Qed.

(** ** Checksums *)
Variables (render : json -> bytes) (H : N -> bytes -> bytes).
Notation good := (json_checksum_of H render).
Lemma check_json_cases content s : (check_json H (render content) s = Ok tt /\ good s content) \/ (check_json H (render content) s = Err EChecksumMismatch /\ ~ good s content).
Proof.
  unfold check_json, json_checksum_of. destruct (lh_from_base58 s) as [h|e| ] eqn:E.
  - unfold lh_matches, lh_of. apply from_base58_alg in E. destruct (alg_size (lh_alg h)); [|congruence]. cbn. unfold lh_equal. cbn. rewrite N.eqb_refl. cbn.
    destruct (bytes_eqb (lh_digest h) (H (lh_alg h) (render content))) eqn:B; [left|right]; (split; [reflexivity|]).
    + apply bytes_eqb_eq in B. eauto.
    + intros (h' & [= <-] & X). rewrite X, bytes_eqb_refl in B. discriminate.
  - right. split; [reflexivity|]. intros (h & X & _). discriminate.
  - right. split; [reflexivity|]. intros (h & X & _). discriminate.
Qed.
Lemma iterM_check_json content l : (iterM (check_json H (render content)) l = Ok tt /\ forall s, In s l -> good s content)
  \/ (iterM (check_json H (render content)) l = Err EChecksumMismatch /\ exists s, In s l /\ ~ good s content).
Proof.
  induction l as [|m l IH]; cbn [iterM]; [left; split; [reflexivity|intros m []]|].
  destruct (check_json_cases content m) as [[E G]|[E G]]; rewrite E; cbn [bind].
  - destruct IH as [[E2 A]|[E2 (n & I & N)]]; rewrite E2.
    + left. split; [reflexivity|]. intros n [<-|I]; auto.
    + right. split; [reflexivity|]. exists n. split; [now right|exact N].
  - right. split; [reflexivity|]. exists m. split; [now left|exact G].
Qed.
Lemma verify_json_exact ms : plain (JObj ms) ->
  verify_json_checksum unesc render H (Some (JObj ms)) = Ok tt <->
  exists content, json_content unesc (JObj ms) content /\ (exists s, listed unesc json_checksum_key (JObj ms) s)
    /\ forall s, listed unesc json_checksum_key (JObj ms) s -> good s content.
Proof.
  intro P. pose proof (plain_parts _ P) as [K _]. unfold verify_json_checksum. cbn [of_option bind]. rewrite split_eq by exact K.
  set (c := sort_json (JObj (rest ms))). set (ss := json_strings unesc (get_member unesc json_checksum_key ms)).
  assert (L : forall s, listed unesc json_checksum_key (JObj ms) s <-> In s ss) by (intro s; now apply listed_iff).
  assert (C : forall c', json_content unesc (JObj ms) c' <-> c' = c) by (intro c'; now apply json_content_iff).
  destruct (iterM_check_json c ss) as [[E A]|[E (s & I & N)]]; rewrite E; cbn [bind].
  - destruct ss as [|s0 ss0].
    + split; [discriminate|]. intros (c' & _ & (s & X) & _). now apply L in X.
    + split; [intros _|reflexivity]. exists c. split; [now apply C|]. split; [exists s0; apply L; now left|]. intros s X. apply A. now apply L.
  - split; [discriminate|]. intros (c' & X & _ & ALL). apply C in X. subst c'. exfalso. apply N, ALL. now apply L.
Qed.
Lemma add_json_spec ms : hash_family H -> plain (JObj ms) ->
  exists ms', add_json_checksum esc unesc render H (Some (JObj ms)) = Ok (JObj ms') /\ plain (JObj ms')
    /\ sort_json (JObj (rest ms')) = sort_json (JObj (rest ms))
    /\ (forall s, In s (json_strings unesc (get_member unesc json_checksum_key ms')) <->
          In s (json_strings unesc (get_member unesc json_checksum_key ms)) \/ s = lh_base58 (LH checksum_alg (H checksum_alg (render (sort_json (JObj (rest ms)))))))
    /\ (forall s, In s (json_strings unesc (get_member unesc json_signature_key ms')) <-> In s (json_strings unesc (get_member unesc json_signature_key ms))).
Proof.
  intros HF P. pose proof (plain_parts _ P) as [K _]. unfold add_json_checksum. cbn [of_option bind]. rewrite split_eq by exact K. unfold lh_of. cbn [alg_size BLAKE2b_256 bind].
  set (new := lh_base58 _). set (cs := compact _). set (sg := compact _). rewrite sort_json_obj in *. set (m1 := sort_members (map sm (rest ms))) in *.
  assert (P1 : plain (JObj m1)) by (unfold m1; rewrite <- sort_json_obj; now apply sort_json_plain, rest_plain).
  assert (R1 : rest m1 = m1) by apply rest_content.
  assert (NE : cs <> []) by (unfold cs; intro X; assert (I : In new []); [rewrite <- X, compact_In, sort_In; apply in_or_app; right; now left|destruct I]).
  destruct (put_spec json_checksum_key json_signature_key cs m1) as (m2 & E2 & P2 & R2 & G2 & S2 & _); [now left|exact P1|].
  destruct (put_spec json_signature_key json_checksum_key sg m2) as (m3 & E3 & P3 & R3 & G3 & S3 & S3'); [now right|exact P2|].
  exists m3. unfold json_add_meta. rewrite E2. cbn [bind]. rewrite E3. split; [reflexivity|]. split; [exact P3|]. split; [|split].
  - rewrite R3, R2, R1. apply sort_json_id. unfold m1. rewrite <- sort_json_obj. apply sort_json_sorted.
  - intro s. rewrite G3, (S2 NE). unfold cs. rewrite compact_In, sort_In, in_app_iff. clear. cbn. split; (intros [X|X]; [left; exact X|right]); [destruct X as [<-|[]]; reflexivity|left; now symmetry].
  - intro s. assert (X : In s sg <-> In s (json_strings unesc (get_member unesc json_signature_key ms))) by (unfold sg; now rewrite compact_In, sort_In).
    rewrite <- X. clear X. destruct sg as [|g sg'].
    + rewrite (S3' eq_refl), G2. assert (N : get_member unesc json_signature_key m1 = None).
      { apply get_none. intro I. unfold keys in I. apply in_map_iff in I as (m & E1 & I). rewrite <- R1 in I. apply rest_in in I as [_ I]. apply I. right. exact E1. }
      rewrite N. reflexivity.
    + rewrite S3 by discriminate. reflexivity.
Qed.

(** ** Signatures *)
Section Sig.
Variables (c : config) (cr : crypto) (w : world) (load : bytes -> option raw_letter) (dump : letter -> outcome bytes).
(** The text [s] is a signature of the content that the trust store of [w] verifies. *)
Definition good_sig (dr : nat) (s : bytes) (content : json) : Prop :=
  exists raw r, b64_decode true s = Ok raw /\ load raw = Some r
    /\ letter_verify c suite_registry tool_registry hash_registry cr w (Some [Integrity; SenderAuthentication])
         (mkRaw (set_data (rw_letter r) (render content)) (rw_keys r) (rw_sigs r)) dr = Ok tt.
Lemma check_json_sig content dr s : check_json_signature c cr w load (render content) dr s = Ok tt <-> good_sig dr s content.
Proof.
  unfold check_json_signature, good_sig. split.
  - intro E. apply bind_ok in E as (raw & E1 & E). apply bind_ok in E as (r & E2 & E). destruct (load raw) as [r'|] eqn:L; [|discriminate]. injection E2 as ->. eauto.
  - intros (raw & r & -> & L & E). cbn [bind]. rewrite L. exact E.
Qed.
Lemma verify_json_sig_exact ms dr : plain (JObj ms) ->
  verify_json_signature unesc render c cr w load (Some (JObj ms)) dr = Ok tt <->
  exists content, json_content unesc (JObj ms) content /\ (exists s, listed unesc json_signature_key (JObj ms) s)
    /\ forall s, listed unesc json_signature_key (JObj ms) s -> good_sig dr s content.
Proof.
  intro P. pose proof (plain_parts _ P) as [K _]. unfold verify_json_signature. cbn [of_option bind]. rewrite split_eq by exact K.
  set (d := sort_json (JObj (rest ms))). set (ss := json_strings unesc (get_member unesc json_signature_key ms)).
  assert (L : forall s, listed unesc json_signature_key (JObj ms) s <-> In s ss) by (intro s; now apply listed_iff).
  assert (C : forall c', json_content unesc (JObj ms) c' <-> c' = d) by (intro c'; now apply json_content_iff).
  split.
  - intro E. apply bind_ok in E as ([] & E1 & E). apply iterM_ok in E1. rewrite Forall_forall in E1. exists d. split; [now apply C|].
    split; [destruct ss as [|s0 ss0]; [discriminate|exists s0; apply L; now left]|]. intros s X. apply check_json_sig. apply E1. now apply L.
  - intros (c' & X & (s0 & S0) & ALL). apply C in X. subst c'. rewrite (proj2 (iterM_ok _ _)).
    + cbn [bind]. apply L in S0. destruct ss; [destruct S0|reflexivity].
    + apply Forall_forall. intros s I. apply check_json_sig, ALL. now apply L.
Qed.
Lemma add_json_sig_spec ms e full dr out : plain (JObj ms) ->
  add_json_signature esc unesc render c cr w dump (Some (JObj ms)) e full dr = Ok out ->
  exists ms' s l sig, out = JObj ms' /\ plain (JObj ms')
    /\ correspondence c suite_registry tool_registry hash_registry cr w e = Ok s
    /\ fst (close_session c cr s full (render (sort_json (JObj (rest ms)))) (rt_start dr None)) = Ok l
    /\ dump (set_data l []) = Ok sig
    /\ sort_json (JObj (rest ms')) = sort_json (JObj (rest ms))
    /\ (forall x, In x (json_strings unesc (get_member unesc json_checksum_key ms')) <-> In x (json_strings unesc (get_member unesc json_checksum_key ms)))
    /\ (forall x, In x (json_strings unesc (get_member unesc json_signature_key ms')) <-> In x (json_strings unesc (get_member unesc json_signature_key ms)) \/ x = b64_encode true sig).
Proof.
  intros P A. pose proof (plain_parts _ P) as [K _]. unfold add_json_signature in A. apply bind_ok in A as (s & ES & A). apply bind_ok in A as (su & _ & A). apply bind_ok in A as (u & _ & A).
  cbn [of_option bind] in A. rewrite split_eq in A by exact K. apply bind_ok in A as (l & EL & A). apply bind_ok in A as (sig & EG & A).
  set (cs := compact _) in A. set (sg := compact _) in A.
  destruct (put_spec json_checksum_key json_signature_key cs ms) as (m2 & E2 & P2 & R2 & G2 & S2 & S2'); [now left|exact P|].
  destruct (put_spec json_signature_key json_checksum_key sg m2) as (m3 & E3 & P3 & R3 & G3 & S3 & S3'); [now right|exact P2|].
  unfold json_add_meta in A. rewrite E2 in A. cbn [bind] in A. rewrite E3 in A. injection A as <-. exists m3, s, l, sig. split; [reflexivity|]. split; [exact P3|].
  split; [exact ES|]. split; [exact EL|]. split; [exact EG|]. split; [now rewrite R3, R2|]. split; intro x.
  - rewrite G3. assert (X : In x cs <-> In x (json_strings unesc (get_member unesc json_checksum_key ms))) by (unfold cs; now rewrite compact_In, sort_In).
    rewrite <- X. destruct cs as [|g cs'] eqn:E; [rewrite (S2' eq_refl), <- X; reflexivity|]. rewrite S2 by discriminate. reflexivity.
  - assert (X : In x sg <-> In x (json_strings unesc (get_member unesc json_signature_key ms)) \/ x = b64_encode true sig).
    { unfold sg. rewrite compact_In, sort_In, in_app_iff. clear. cbn. split; (intros [X|X]; [left; exact X|right]); [destruct X as [<-|[]]; reflexivity|left; now symmetry]. }
    rewrite <- X. rewrite S3; [reflexivity|]. intro Y. assert (I : In (b64_encode true sig) sg) by (unfold sg; rewrite compact_In, sort_In; apply in_or_app; right; now left). rewrite Y in I. destruct I.
Qed.
End Sig.
End Doc.

(** ** C49 *)
(** Verification succeeds exactly if there is a checksum and all of them are checksums of the content. *)
Theorem C49_verify_exact : forall unesc render H d,
  plain unesc d ->
  (verify_json_checksum unesc render H (Some d) = Ok tt <->
   exists content, json_content unesc d content /\ (exists s, listed unesc json_checksum_key d s)
     /\ forall s, listed unesc json_checksum_key d s -> json_checksum_of H render s content).
Proof.
  intros unesc render H d P. destruct d as [s|s|l|ms]; [..|now apply verify_json_exact].
  all: split; [discriminate|]; intros (c & (ms & k & E & _) & _); discriminate.
Qed.
(** An added checksum verifies if those already there do; nothing else changes. *)
Theorem C49_add_then_verify : forall esc unesc render H ms,
  (forall s, unesc (esc s) = s) -> hash_family H -> plain unesc (JObj ms) ->
  exists out content,
    add_json_checksum esc unesc render H (Some (JObj ms)) = Ok out
    /\ json_content unesc (JObj ms) content /\ json_content unesc out content /\ plain unesc out
    /\ (verify_json_checksum unesc render H (Some out) = Ok tt <->
        forall s, listed unesc json_checksum_key (JObj ms) s -> json_checksum_of H render s content)
    /\ (forall s, listed unesc json_checksum_key (JObj ms) s -> listed unesc json_checksum_key out s)
    /\ (forall s, listed unesc json_signature_key out s <-> listed unesc json_signature_key (JObj ms) s)
    /\ listed unesc json_checksum_key out (lh_base58 (LH checksum_alg (H checksum_alg (render content)))).
Proof.
  intros esc unesc render H ms UE HF P. destruct (add_json_spec esc unesc UE render H ms HF P) as (ms' & A & P' & C & CS & SG).
  pose proof (plain_parts _ _ P) as [K _]. pose proof (plain_parts _ _ P') as [K' _].
  assert (L : forall k s, listed unesc k (JObj ms) s <-> In s (json_strings unesc (get_member unesc k ms))) by (intros; now apply listed_iff).
  assert (L' : forall k s, listed unesc k (JObj ms') s <-> In s (json_strings unesc (get_member unesc k ms'))) by (intros; now apply listed_iff).
  set (content := sort_json (JObj (rest unesc ms))) in *. exists (JObj ms'), content.
  assert (C1 : json_content unesc (JObj ms) content) by now apply json_content_iff.
  assert (C2 : forall c, json_content unesc (JObj ms') c <-> c = content) by (intro c; rewrite json_content_iff by exact P'; rewrite C; reflexivity).
  split; [exact A|]. split; [exact C1|]. split; [now apply C2|]. split; [exact P'|]. split; [|split; [|split]].
  - rewrite C49_verify_exact by exact P'. split.
    + intros (c' & X & _ & ALL) s S. apply C2 in X. subst c'. apply ALL. apply L', CS. left. now apply L.
    + intro OLD. exists content. split; [now apply C2|]. split; [eexists; apply L', CS; now right|]. intros s S. apply L', CS in S as [S| ->]; [apply OLD; now apply L|].
      exists (LH BLAKE2b_256 (H BLAKE2b_256 (render content))). split; [|reflexivity]. apply C35_text_round_trip. apply HF. apply alg_size_supported. discriminate.
  - intros s S. apply L', CS. left. now apply L.
  - intro s. rewrite L, L'. apply SG.
  - apply L', CS. now right.
Qed.
(** The order of members, and with it the layout of the file, does not matter. *)
Notation same_member := (fun a b : bytes * json => fst a = fst b /\ same_json (snd a) (snd b)).
Lemma same_keys unesc ms ms' : Forall2 same_member ms ms' -> keys unesc ms = keys unesc ms'.
Proof. induction 1 as [|a b l l' [E _] F IH]; [reflexivity|]. cbn. f_equal; [now rewrite E|exact IH]. Qed.
Lemma same_filter unesc k ms ms' : Forall2 same_member ms ms' -> Forall2 same_member (filter (notk unesc k) ms) (filter (notk unesc k) ms').
Proof.
  induction 1 as [|a b l l' [E S] F IH]; [constructor|]. cbn. assert (X : notk unesc k b = notk unesc k a) by (unfold notk; now rewrite E). rewrite X. destruct (notk unesc k a); [constructor; auto|exact IH].
Qed.
Lemma filter_perm {A} (f : A -> bool) l l' : Permutation l l' -> Permutation (filter f l) (filter f l').
Proof.
  induction 1 as [|x l l' P IH|x y l|l1 l2 l3 P1 IH1 P2 IH2]; cbn; [constructor|destruct (f x); [now constructor|exact IH]| |now rewrite IH1].
  destruct (f x), (f y); try reflexivity. apply perm_swap.
Qed.
Lemma same_strings unesc v v' : same_json v v' -> json_strings unesc (Some v) = json_strings unesc (Some v').
Proof.
  inversion 1 as [| |l l' F|]; subst; try reflexivity. cbn. clear H. induction F as [|a b l l' S F IH]; [reflexivity|]. cbn. rewrite IH. f_equal. now inversion S.
Qed.
Lemma same_get unesc k ms ms' : Forall2 same_member ms ms' -> json_strings unesc (get_member unesc k ms) = json_strings unesc (get_member unesc k ms').
Proof.
  induction 1 as [|[k1 v1] [k2 v2] l l' [E S] F IH]; [reflexivity|]. cbn in E, S. subst k2. cbn [get_member]. destruct (bytes_eqb (unesc k1) k); [now apply same_strings|exact IH].
Qed.
Lemma perm_get unesc k ms ms' : NoDup (keys unesc ms) -> Permutation ms ms' -> get_member unesc k ms = get_member unesc k ms'.
Proof.
  intros ND P. assert (ND' : NoDup (keys unesc ms')) by (eapply Permutation_NoDup; [apply Permutation_map; exact P|exact ND]).
  destruct (get_member unesc k ms) as [v|] eqn:G.
  - symmetry. apply get_in; [exact ND'|]. apply get_in in G as (k' & I & E); [|exact ND]. exists k'. split; [eapply Permutation_in; eauto|exact E].
  - symmetry. apply get_none. apply get_none in G. intro I. apply G. eapply Permutation_in; [apply Permutation_map, Permutation_sym; exact P|exact I].
Qed.
Lemma same_split unesc d d' : plain unesc d -> same_json d d' -> json_split unesc d' = json_split unesc d.
Proof.
  intros P S. pose proof (same_json_eq unesc _ _ S P) as E0. inversion S as [| |l l' F|ms ms' ms'' F PM]; subst; try reflexivity.
  - unfold json_split, json_get, json_del. now rewrite E0.
  - pose proof (plain_parts _ _ P) as [K _]. pose proof K as K2. rewrite (same_keys _ _ _ F) in K2. assert (K3 : NoDup (keys unesc ms'')) by (eapply Permutation_NoDup; [apply Permutation_map; exact PM|exact K2]).
    rewrite !split_eq by assumption. f_equal; [f_equal|].
    + symmetry. apply (same_json_eq unesc); [|now apply rest_plain]. eapply same_obj; [apply same_filter, same_filter; exact F|]. now apply filter_perm, filter_perm.
    + rewrite <- (perm_get unesc _ ms' ms'') by assumption. symmetry. now apply same_get.
    + rewrite <- (perm_get unesc _ ms' ms'') by assumption. symmetry. now apply same_get.
Qed.
Theorem C49_order_irrelevant : forall unesc render H c cr w load d d' dr,
  plain unesc d -> same_json d d' ->
  verify_json_checksum unesc render H (Some d') = verify_json_checksum unesc render H (Some d)
  /\ verify_json_signature unesc render c cr w load (Some d') dr = verify_json_signature unesc render c cr w load (Some d) dr.
Proof.
  intros unesc render H c cr w load d d' dr P S. unfold verify_json_checksum, verify_json_signature. cbn [of_option bind]. now rewrite (same_split _ _ _ P S).
Qed.
(** Two verified documents with a common checksum have the same content, or a digest function collides. *)
Theorem C49_same_checksum : forall unesc render H d1 d2 s c1 c2,
  (forall a b, render a = render b -> a = b) -> plain unesc d1 -> plain unesc d2 ->
  verify_json_checksum unesc render H (Some d1) = Ok tt -> verify_json_checksum unesc render H (Some d2) = Ok tt ->
  listed unesc json_checksum_key d1 s -> listed unesc json_checksum_key d2 s -> json_content unesc d1 c1 -> json_content unesc d2 c2 ->
  c1 = c2 \/ exists alg x y, supported alg /\ x <> y /\ H alg x = H alg y.
Proof.
  intros unesc render H d1 d2 s c1 c2 INJ P1 P2 V1 V2 L1 L2 C1 C2. apply C49_verify_exact in V1 as (k1 & K1 & _ & A1); [|exact P1]. apply C49_verify_exact in V2 as (k2 & K2 & _ & A2); [|exact P2].
  destruct d1 as [?|?|?|m1]; try (destruct C1 as (? & ? & E & _); discriminate). destruct d2 as [?|?|?|m2]; try (destruct C2 as (? & ? & E & _); discriminate).
  apply json_content_iff in C1, K1; auto. apply json_content_iff in C2, K2; auto. rewrite <- C1 in K1. rewrite <- C2 in K2. subst k1 k2.
  destruct (A1 _ L1) as (h & E1 & M1). destruct (A2 _ L2) as (h' & E2 & M2). assert (h' = h) by congruence. subst h'.
  destruct (bytes_eqb (render c1) (render c2)) eqn:E; [left; apply INJ; now apply bytes_eqb_eq|]. right. exists (lh_alg h), (render c1), (render c2).
  split; [apply alg_size_supported; now apply (from_base58_alg s)|]. split; [|congruence]. intros X. rewrite X, bytes_eqb_refl in E. discriminate.
Qed.
(** Signatures: verification succeeds exactly if there is one and all of them verify for the content. *)
Theorem C49_signatures_exact : forall unesc render c cr w load d dr,
  plain unesc d ->
  (verify_json_signature unesc render c cr w load (Some d) dr = Ok tt <->
   exists content, json_content unesc d content /\ (exists s, listed unesc json_signature_key d s)
     /\ forall s, listed unesc json_signature_key d s -> good_sig render c cr w load dr s content).
Proof.
  intros unesc render c cr w load d dr P. destruct d as [s|s|l|ms]; [..|now apply verify_json_sig_exact].
  all: split; [discriminate|]; intros (ct & (ms & k & E & _) & _); discriminate.
Qed.
(** Adding a signature keeps the content and the other entries, and adds the letter of the content without its data. *)
Theorem C49_add_signature : forall esc unesc render c cr w dump ms e full dr out,
  (forall s, unesc (esc s) = s) -> plain unesc (JObj ms) ->
  add_json_signature esc unesc render c cr w dump (Some (JObj ms)) e full dr = Ok out ->
  exists content s l sig,
    json_content unesc (JObj ms) content /\ json_content unesc out content /\ plain unesc out
    /\ correspondence c suite_registry tool_registry hash_registry cr w e = Ok s
    /\ fst (close_session c cr s full (render content) (rt_start dr None)) = Ok l
    /\ dump (set_data l []) = Ok sig
    /\ (forall x, listed unesc json_checksum_key out x <-> listed unesc json_checksum_key (JObj ms) x)
    /\ (forall x, listed unesc json_signature_key out x <-> listed unesc json_signature_key (JObj ms) x \/ x = b64_encode true sig).
Proof.
  intros esc unesc render c cr w dump ms e full dr out UE P A. destruct (add_json_sig_spec esc unesc UE render c cr w dump ms e full dr out P A) as (ms' & s & l & sig & -> & P' & ES & EL & EG & C & CS & SG).
  pose proof (plain_parts _ _ P) as [K _]. pose proof (plain_parts _ _ P') as [K' _]. exists (sort_json (JObj (rest unesc ms))), s, l, sig.
  split; [now apply json_content_iff|]. split; [apply json_content_iff; [exact P'|now rewrite C]|]. split; [exact P'|]. split; [exact ES|]. split; [exact EL|]. split; [exact EG|].
  split; intro x; rewrite !listed_iff by assumption; auto.
Qed.

(** Duplicate keys: only the first metadata member is taken out, so the checksum covers the second, and replaces it. *)
Definition toy_render (j : json) : bytes :=
  (fix go (j : json) : bytes := match j with
   | JStr s => lit """" ++ s ++ lit """"
   | JAtom s => s
   | JArr l => lit "[" ++ concat (map (fun j => go j ++ lit ",") l) ++ lit "]"
   | JObj ms => lit "{" ++ concat (map (fun m => fst m ++ lit ":" ++ go (snd m) ++ lit ",") ms) ++ lit "}"
   end) j.
Definition idb (b : bytes) : bytes := b.
Theorem C49_duplicate_keys_refuted : exists d out,
  add_json_checksum idb idb toy_render toy_hash (Some d) = Ok out
  /\ verify_json_checksum idb toy_render toy_hash (Some out) = Err EChecksumMismatch
  /\ verify_json_checksum idb toy_render toy_hash (Some d) = Err EChecksumMissing.
Proof.
  exists (JObj [(lit "_jess-checksum", JAtom (lit "1")); (lit "a", JStr (lit "b")); (lit "_jess-checksum", JAtom (lit "2"))]). eexists.
  split; [vm_compute; reflexivity|]. split; vm_compute; reflexivity.
Qed.
Definition sample_json : json := JObj [(lit "c", JAtom (lit "1")); (lit "a", JObj [(lit "z", JArr [JStr (lit "x")]); (lit "b", JAtom (lit "null"))])].
Lemma sample_plain : plain idb sample_json.
Proof. repeat (constructor; cbn; try (intuition discriminate)). Qed.
Example C49_hypotheses_met : (forall s, idb (idb s) = s) /\ hash_family toy_hash /\ plain idb sample_json
  /\ exists out d', add_json_checksum idb idb toy_render toy_hash (Some sample_json) = Ok out /\ verify_json_checksum idb toy_render toy_hash (Some out) = Ok tt
      /\ same_json out d' /\ d' <> out /\ verify_json_checksum idb toy_render toy_hash (Some d') = Ok tt
      /\ verify_json_checksum idb toy_render toy_hash (Some (json_del idb (lit "c") out)) = Err EChecksumMismatch.
Proof.
  split; [reflexivity|]. split; [apply toy_hash_family|]. split; [apply sample_plain|]. eexists. exists (match add_json_checksum idb idb toy_render toy_hash (Some sample_json) with Ok (JObj ms) => JObj (rev ms) | _ => sample_json end).
  split; [vm_compute; reflexivity|]. split; [vm_compute; reflexivity|]. split; [|split; [|split; vm_compute; reflexivity]].
  - match goal with |- same_json (JObj ?a) ?b => replace b with (JObj (rev a)) by (vm_compute; reflexivity); apply (same_obj a a (rev a)); [clear; generalize a; intro l; induction l; constructor; auto using same_json_refl|apply Permutation_rev] end.
  - vm_compute. discriminate.
Qed.
Print Assumptions C49_add_then_verify.
Print Assumptions C49_order_irrelevant.
