(** Property theorems C23: key derivation. *)
From Coq Require Import Init.Byte.
From Verif Require Import CoreRound CoreSession SpecKeys Toy.

(** C23, first part: key derivation is initialised exactly when there is a nonce and the
    first piece of key material is not empty; all the material, in order, is the secret. *)
Theorem C23_init_iff : forall nonce mat r,
  (exists r', kdf_init nonce mat r = (Ok tt, r')) <-> nonce <> [] /\ exists m ms, mat = m :: ms /\ m <> [].
Proof.
  intros nonce mat r. rewrite kdf_init_run. destruct nonce as [|n0 n]; destruct mat as [|[|b m] ms]; cbn [nonempty hd andb]; split.
  all: try (intros (? & H); discriminate).
  all: try (intros (H & _); congruence).
  all: try (intros (_ & ? & ? & E & _); discriminate).
  - intros (_ & ? & ? & E & HN). injection E as <- <-. congruence.
  - intros _. split; [discriminate|]. eexists _, _; split; [reflexivity|discriminate].
  - intros _. eexists. reflexivity.
Qed.
Print Assumptions C23_init_iff.

(** The next piece being there does not help: "some key material" must be the first. *)
Example C23_first_empty_refused : fst (kdf_init (lit "n") [[]; lit "secret"] (rt_start 0 None)) = Err EOther.
Proof. reflexivity. Qed.

Definition part_end (p : nat * nat) : nat := fst p + snd p.
Definition apart (a b : inst * (nat * nat) * (nat * nat)) : Prop :=
  part_end (snd (fst a)) <= fst (snd a) /\ part_end (snd a) <= fst (snd (fst b)) /\ part_end (snd (fst b)) <= fst (snd b).
Lemma slots_from dks l off x : In x (slots dks l off) -> off <= fst (snd (fst x)) /\ part_end (snd (fst x)) <= fst (snd x).
Proof.
  revert off. induction l as [|i l IH]; intros off H; cbn [slots] in H; [easy|]. destruct H as [<-|H]; unfold part_end; cbn; [lia|].
  apply IH in H. unfold part_end in H. lia.
Qed.
Lemma slots_apart dks l off : ForallOrdPairs apart (slots dks l off).
Proof.
  revert off. induction l as [|i l IH]; intro off; cbn [slots]; constructor; [|apply IH].
  rewrite Forall_forall. intros x Hx. apply slots_from in Hx as [H1 H2]. unfold apart, part_end in *. cbn. lia.
Qed.

(** C23, second part: after key derivation was initialised, setting up the tools gives each
    tool that takes a key its own part of the derivation stream, of the size the tool asks
    for (or the session's default), and the parts - keys and IVs, of all tools - are in the
    order of the suite and do not overlap. *)
Theorem C23_keys_do_not_overlap : forall c hreg cr e s nonce mat r r1 r2,
  new_session c tool_registry hreg cr e = Ok s ->
  kdf_init nonce mat r = (Ok tt, r1) -> setup cr s r1 = (Ok tt, r2) ->
  exists parts,
    map (fun x => fst (fst x)) parts = s_stateful s
    /\ ForallOrdPairs apart parts
    /\ Forall (fun x => let '(i, (o1, n1), (o2, n2)) := x in
         let t := r_tools r2 (i_idx i) in
         cr_kdf cr (kdf_name s) (kdf_hash s) nonce (concat mat) o1 n1 = Some (ts_key t)
         /\ n1 = Z.to_nat (if (0 <? t_keysize (i_tool i))%Z then t_keysize (i_tool i) else s_dks s)
         /\ (has_iv i = true ->
             cr_kdf cr (kdf_name s) (kdf_hash s) nonce (concat mat) o2 n2 = Some (ts_iv t)
             /\ n2 = Z.to_nat (if (0 <? t_noncesize (i_tool i))%Z then t_noncesize (i_tool i) else s_dks s))) parts.
Proof.
  intros c hreg cr e s nonce mat r r1 r2 N H1 H2. pose proof (session_sound _ _ _ _ _ N) as S.
  rewrite kdf_init_run in H1. destruct (_ && _); [|discriminate]. injection H1 as <-.
  exists (slots (s_dks s) (s_stateful s) 0). split; [|split].
  - clear. generalize 0 as off. induction (s_stateful s) as [|i l IH]; intro off; cbn; [reflexivity|]. now rewrite IH.
  - apply slots_apart.
  - pose proof (setup_run cr s (s_stateful s) nonce (concat mat) 0 (set_kdf r (Some (mkKdf nonce (concat mat) 0))) (ss_ids _ S) eq_refl) as SR.
    fold (setup cr s) in SR. rewrite H2 in SR. destruct (derived _ _ _ _ _ _) as [kvs|] eqn:D; [|destruct SR as (? & ? & SR); discriminate SR].
    destruct SR as (r' & E & H & _). injection E as <-. revert kvs D H. generalize 0 as off. clear S H2.
    induction (s_stateful s) as [|i l IH]; intros off kvs D H; cbn [slots]; constructor.
    + cbn [slots derived] in D.
      destruct (cr_kdf cr _ _ _ _ off _) as [k|] eqn:E1; [|discriminate].
      destruct (if has_iv i then _ else _) as [v|] eqn:E2; [|discriminate].
      destruct (derived _ _ _ _ _ _) as [kvs'|] eqn:D'; [|discriminate]. injection D as <-. inversion H as [|? ? HH HF]; subst. unfold holds in HH; cbn zeta in HH; destruct HH as (P1 & P2 & _).
      cbn beta iota zeta. split; [now rewrite P1|]. split; [reflexivity|]. intro HI. rewrite HI in *. split; [|reflexivity]. rewrite E2. now rewrite (P2 eq_refl).
    + cbn [slots derived] in D.
      destruct (cr_kdf cr _ _ _ _ off _) as [k|] eqn:E1; [|discriminate].
      destruct (if has_iv i then _ else _) as [v|] eqn:E2; [|discriminate].
      destruct (derived _ _ _ _ _ _) as [kvs'|] eqn:D'; [|discriminate]. injection D as <-. inversion H; subst.
      eapply IH; eassumption.
Qed.
Print Assumptions C23_keys_do_not_overlap.

(** C23, third part: two sessions of the same suite that feed the same nonce and the same
    secret obtain the same keys and IVs, in whatever state they were before; the split of
    the secret into pieces does not matter. *)
Theorem C23_same_material_same_keys : forall c hreg cr e e' s s' nonce mat mat' r r1 r2 q q1 q2,
  new_session c tool_registry hreg cr e = Ok s -> new_session c tool_registry hreg cr e' = Ok s' ->
  e_suite e = e_suite e' -> concat mat = concat mat' ->
  kdf_init nonce mat r = (Ok tt, r1) -> setup cr s r1 = (Ok tt, r2) ->
  kdf_init nonce mat' q = (Ok tt, q1) -> setup cr s' q1 = (Ok tt, q2) ->
  s_stateful s = s_stateful s' /\
  forall i, In i (s_stateful s) ->
    ts_key (r_tools r2 (i_idx i)) = ts_key (r_tools q2 (i_idx i))
    /\ (has_iv i = true -> ts_iv (r_tools r2 (i_idx i)) = ts_iv (r_tools q2 (i_idx i))).
Proof.
  intros c hreg cr e e' s s' nonce mat mat' r r1 r2 q q1 q2 N N' ES EM H1 H2 G1 G2.
  pose proof (session_twins _ _ _ _ _ _ _ _ N N' ES) as T. split; [apply (tw_stateful _ _ T)|].
  pose proof (session_sound _ _ _ _ _ N) as S. pose proof (session_sound _ _ _ _ _ N') as S'.
  rewrite kdf_init_run in H1, G1. destruct (_ && _) in H1; [|discriminate]. destruct (_ && _) in G1; [|discriminate].
  injection H1 as <-. injection G1 as <-.
  pose proof (setup_run cr s (s_stateful s) nonce (concat mat) 0 (set_kdf r (Some (mkKdf nonce (concat mat) 0))) (ss_ids _ S) eq_refl) as SR.
  pose proof (setup_run cr s' (s_stateful s') nonce (concat mat') 0 (set_kdf q (Some (mkKdf nonce (concat mat') 0))) (ss_ids _ S') eq_refl) as SR'.
  fold (setup cr s) in SR. fold (setup cr s') in SR'. rewrite H2 in SR. rewrite G2 in SR'.
  assert (ED : derived cr (kdf_name s') (kdf_hash s') nonce (concat mat') (slots (s_dks s') (s_stateful s') 0)
             = derived cr (kdf_name s) (kdf_hash s) nonce (concat mat) (slots (s_dks s) (s_stateful s) 0)).
  { rewrite EM. unfold kdf_name, kdf_hash. now rewrite (tw_kdf _ _ T), (tw_dks _ _ T), (tw_stateful _ _ T). }
  rewrite ED in SR'. destruct (derived _ _ _ _ _ (slots (s_dks s) (s_stateful s) 0)) as [kvs|]; [|destruct SR as (? & ? & SR); discriminate SR].
  destruct SR as (? & E & H & _ & MP & _). injection E as <-. destruct SR' as (? & E & H' & _). injection E as <-.
  rewrite Forall_forall in H, H'. intros i Hi. rewrite <- MP in Hi. apply in_map_iff in Hi as ([[j k] v] & <- & Hx).
  destruct (H _ Hx) as (A1 & A2 & _), (H' _ Hx) as (B1 & B2 & _). cbn [fst snd]. split; [congruence|]. intro HI. rewrite A2, B2; auto.
Qed.
Print Assumptions C23_same_material_same_keys.

(** Suite key_v1 in the toy instance: initialisation and setup succeed. *)
Example C23_hypotheses_met :
  let e := toy_env (suite_named (lit "key_v1")) [toy_secret "k"] [] [] in
  exists s, new_session default_config tool_registry hash_registry toy e = Ok s
    /\ exists r1 r2, kdf_init (lit "nonce") [lit "material"; lit "more"] (rt_start 0 None) = (Ok tt, r1)
       /\ setup toy s r1 = (Ok tt, r2) /\ s_stateful s <> [].
Proof. eexists; split; [vm_compute; reflexivity|]. eexists _, _. split; [reflexivity|]. split; [vm_compute; reflexivity|discriminate]. Qed.
