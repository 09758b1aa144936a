(** Proofs about goroutines that share a MemTrustStore. *)
From Verif Require Import Prelude PreludeFacts Requirements Tools Crypto Letter Session Core Envelope Shared SpecShared.
From Coq Require Import Lia.

Section Facts.
Variables (sreg : list suite) (reg : list tool) (cr : crypto).
Variables (create : option (signet -> Z -> outcome signet)) (ask : option (signet -> outcome signet)).
Variable store : bytes -> bool -> option nat.
Variable h0 : heap.
Local Notation w := (world_of store h0 create ask).

Definition special (sg : signet) : bool := bytes_eqb (sg_scheme sg) scheme_key || bytes_eqb (sg_scheme sg) scheme_pw.
Definition loads_to (sg : signet) (b : bytes) (k : privkey) : Prop :=
  sg_pub sg = None /\ load_key reg cr sg = Ok (set_loaded sg b k) /\ special sg = false.

(** Stages of a shared signet: as at the start, half and fully loaded. *)
Inductive stage (sg0 : signet) : nat -> signet -> Prop :=
| st_start : stage sg0 0 sg0
| st_half b k : loads_to sg0 b k -> stage sg0 1 (with_pub sg0 b)
| st_full b k : loads_to sg0 b k -> stage sg0 2 (set_loaded sg0 b k).

(** [m] run by a goroutine that knows at least stage [K p] of every signet has been reached, whatever the
    others do: ends with [Q] and writes only what belongs there. *)
Fixpoint safe {A} (K : nat -> nat) (m : prog A) (Q : (nat -> nat) -> outcome A -> Prop) : Prop :=
  match m with
  | Done x => Q K x
  | Get id r k => safe K (k (store id r)) Q
  | Look p k => forall n sg, K p <= n -> stage (h0 p) n sg -> safe (fun q => if q =? p then n else K q) (k sg) Q
  | PutPub p b k => exists sk, loads_to (h0 p) b sk /\ safe (fun q => if q =? p then Nat.max 1 (K q) else K q) k Q
  | PutPriv p sk k => exists b, loads_to (h0 p) b sk /\ 1 <= K p /\ safe (fun q => if q =? p then 2 else K q) k Q
  end.

Definition le (K K' : nat -> nat) : Prop := forall p, K p <= K' p.
Lemma le_refl K : le K K. Proof. intro p. lia. Qed.
Lemma le_trans K1 K2 K3 : le K1 K2 -> le K2 K3 -> le K1 K3. Proof. intros A B p. specialize (A p). specialize (B p). lia. Qed.

Lemma safe_mono {A} (m : prog A) : forall K K' (Q Q' : (nat -> nat) -> outcome A -> Prop),
  le K K' -> (forall K1 x, Q K1 x -> forall K2, le K1 K2 -> Q' K2 x) -> safe K m Q -> safe K' m Q'.
Proof.
  induction m as [x|id r k IH|p k IH|p b k IH|p b k IH]; intros K K' Q Q' L HQ; cbn [safe].
  - intro H. now apply (HQ K).
  - intro H. now apply (IH _ K K' Q Q').
  - intros H n sg Hn Hs. assert (Hn' : K p <= n) by (specialize (L p); lia).
    refine (IH sg _ _ Q Q' _ HQ (H n sg Hn' Hs)). intro q. destruct (q =? p); [lia|apply L].
  - intros (sk & Hl & H). exists sk. split; [exact Hl|]. refine (IH _ _ Q Q' _ HQ H).
    intro q. specialize (L q). destruct (q =? p); lia.
  - intros (bb & Hl & H1 & H). exists bb. split; [exact Hl|]. split; [specialize (L p); lia|]. refine (IH _ _ Q Q' _ HQ H).
    intro q. specialize (L q). destruct (q =? p); lia.
Qed.

Lemma safe_bind {A B} (m : prog A) (f : A -> prog B) : forall K (Q : (nat -> nat) -> outcome A -> Prop) (R : (nat -> nat) -> outcome B -> Prop),
  safe K m Q ->
  (forall K' x, Q K' x -> match x with Ok a => safe K' (f a) R | Err e => R K' (Err e) | Panic => R K' Panic end) ->
  safe K (pbind m f) R.
Proof.
  induction m as [x|id r k IH|p k IH|p b k IH|p b k IH]; intros K Q R; cbn [safe pbind].
  - intros H HR. specialize (HR K x H). now destruct x.
  - intros H HR. now apply (IH _ K Q R).
  - intros H HR n sg Hn Hs. now apply (IH sg _ Q R (H n sg Hn Hs)).
  - intros (sk & Hl & H) HR. exists sk. split; [exact Hl|]. now apply (IH _ Q R).
  - intros (bb & Hl & H1 & H) HR. exists bb. split; [exact Hl|]. split; [exact H1|]. now apply (IH _ Q R).
Qed.

(** ** The scheduler *)
Definition consistent (L : nat -> nat) (h : heap) : Prop := forall p, stage (h0 p) (L p) (h p).

Lemma loads_fun sg b k b' k' : loads_to sg b k -> loads_to sg b' k' -> b = b' /\ k = k'.
Proof.
  intros (_ & H & _) (_ & H' & _). rewrite H in H'. assert (E : set_loaded sg b k = set_loaded sg b' k') by congruence.
  unfold set_loaded in E. split; congruence.
Qed.

Lemma stage_put_pub L h p b sk : consistent L h -> loads_to (h0 p) b sk ->
  consistent (fun q => if q =? p then Nat.max 1 (L q) else L q) (set_cell h p (with_pub (h p) b)).
Proof.
  intros C Hl q. unfold set_cell. destruct (q =? p) eqn:E; [|apply C]. apply Nat.eqb_eq in E. subst q.
  specialize (C p). revert C. generalize (h p) (L p). intros sg n C. destruct C as [|b' k' Hl'|b' k' Hl'].
  - now apply (st_half _ b sk).
  - destruct (loads_fun _ _ _ _ _ Hl Hl') as [<- <-]. exact (st_half (h0 p) b sk Hl).
  - destruct (loads_fun _ _ _ _ _ Hl Hl') as [<- <-]. exact (st_full (h0 p) b sk Hl).
Qed.

Lemma stage_put_priv L h p b sk : consistent L h -> loads_to (h0 p) b sk -> 1 <= L p ->
  consistent (fun q => if q =? p then 2 else L q) (set_cell h p (with_priv (h p) sk)).
Proof.
  intros C Hl H1 q. unfold set_cell. destruct (q =? p) eqn:E; [|apply C]. apply Nat.eqb_eq in E. subst q.
  specialize (C p). revert C H1. generalize (h p) (L p). intros sg n C H1. destruct C as [|b' k' Hl'|b' k' Hl'].
  - lia.
  - destruct (loads_fun _ _ _ _ _ Hl Hl') as [<- <-]. exact (st_full (h0 p) b sk Hl).
  - destruct (loads_fun _ _ _ _ _ Hl Hl') as [<- <-]. exact (st_full (h0 p) b sk Hl).
Qed.

Definition fixed {A} (q : outcome A -> Prop) : (nat -> nat) -> outcome A -> Prop := fun _ => q.
Lemma safe_weaken {A} (m : prog A) K K' q : le K K' -> safe K m (fixed q) -> safe K' m (fixed q).
Proof. intros L. apply (safe_mono m K K' _ _ L). intros. assumption. Qed.

Lemma access_safe {A} (m : prog A) q L h h' m' : consistent L h -> safe L m (fixed q) -> access store h m = (h', m') ->
  exists L', le L L' /\ consistent L' h' /\ safe L' m' (fixed q).
Proof.
  intros C H. destruct m as [x|id r k|p k|p b k|p b k]; cbn [access safe] in *; intro E; injection E as <- <-.
  - exists L. split; [apply le_refl|now split].
  - exists L. split; [apply le_refl|now split].
  - exists L. split; [apply le_refl|]. split; [exact C|].
    specialize (H (L p) (h p) ltac:(lia) (C p)). refine (safe_weaken _ _ L q _ H).
    intro x. destruct (x =? p) eqn:E; [apply Nat.eqb_eq in E; subst; lia|lia].
  - destruct H as (sk & Hl & H). eexists. split; [|split; [exact (stage_put_pub _ _ _ _ _ C Hl)|exact H]].
    intro x. destruct (x =? p); lia.
  - destruct H as (bb & Hl & H1 & H). eexists. split; [|split; [exact (stage_put_priv _ _ _ _ _ C Hl H1)|exact H]].
    intro x. specialize (C x). destruct (x =? p); [|lia]. destruct C; lia.
Qed.

(** Every goroutine of a pool is safe, each with its own result condition. *)
Lemma nth_set_prog {A} (l : list (prog A)) : forall i j m, nth_error (set_prog i m l) j = if j =? i then option_map (fun _ => m) (nth_error l i) else nth_error l j.
Proof.
  induction l as [|x l IH]; intros i j m.
  - cbn. destruct i, j; cbn; try reflexivity; now destruct (j =? i).
  - destruct i, j; cbn; try reflexivity. apply IH.
Qed.

Lemma interleave_safe {A} (sched : list nat) : forall L h (l : list (prog A)) (q : nat -> outcome A -> Prop) h' l',
  consistent L h -> (forall i m, nth_error l i = Some m -> safe L m (fixed (q i))) ->
  interleave store sched h l = (h', l') ->
  exists L', le L L' /\ consistent L' h' /\ forall i m, nth_error l' i = Some m -> safe L' m (fixed (q i)).
Proof.
  induction sched as [|i r IH]; cbn [interleave]; intros L h l q h' l' C H E.
  - assert (h = h' /\ l = l') as [-> ->] by (split; congruence). exists L. split; [apply le_refl|now split].
  - destruct (nth_error l i) as [m|] eqn:Em; [|now apply (IH L h l q)].
    destruct (access store h m) as [h1 m1] eqn:Ea.
    destruct (access_safe m (q i) L h h1 m1 C (H i m Em) Ea) as (L1 & Le & C1 & S1).
    destruct (IH L1 h1 (set_prog i m1 l) q h' l' C1) as (L2 & Le2 & C2 & H2); [|exact E|].
    + intros j x. rewrite nth_set_prog. destruct (j =? i) eqn:Ej.
      * apply Nat.eqb_eq in Ej. subst j. rewrite Em. cbn. intro Ex. assert (m1 = x) as <- by congruence. exact S1.
      * intro Ex. exact (safe_weaken x L L1 (q j) Le (H j x Ex)).
    + exists L2. split; [exact (le_trans _ _ _ Le Le2)|now split].
Qed.

(** ** The programs *)
Lemma load_key_eq sg : load_key reg cr sg =
  match sg_pub sg with
  | Some _ => Ok sg
  | None => do (b, k) <- (if sg_prot sg then Err EOther else
               do t <- tools_get reg (sg_scheme sg);
               if uses_signets t then cr_load cr (t_name t) (sg_key sg) (sg_public sg) else Err EOther); Ok (set_loaded sg b k)
  end.
Proof.
  unfold load_key. destruct (sg_pub sg); [reflexivity|]. destruct (sg_prot sg); [reflexivity|].
  destruct (tools_get reg (sg_scheme sg)) as [t|e|]; cbn [bind]; [|reflexivity..]. now destruct (uses_signets t).
Qed.

Lemma stage_static sg0 n sg : stage sg0 n sg ->
  sg_id sg = sg_id sg0 /\ sg_scheme sg = sg_scheme sg0 /\ sg_prot sg = sg_prot sg0 /\ sg_info sg = sg_info sg0.
Proof. now destruct 1. Qed.
Lemma stage_pub sg0 n sg : stage sg0 n sg -> 1 <= n -> sg_pub sg <> None.
Proof. destruct 1; [lia|discriminate..]. Qed.

(** LoadKey: the result of the model, and afterwards the public key is there. *)
Lemma load_shared_safe p K : special (h0 p) = false -> safe K (load_shared reg cr p) (fun K' x =>
  le K K' /\ match load_key reg cr (h0 p) with
             | Ok n => x = Ok tt /\ (sg_pub (h0 p) <> None \/ 1 <= K' p)
             | Err e => x = Err e
             | Panic => x = Panic
             end).
Proof.
  intro Sp. unfold load_shared. cbn [safe]. intros n sg Hn Hs.
  assert (Le : le K (fun q => if q =? p then n else K q)).
  { intro x. destruct (x =? p) eqn:Ex; [apply Nat.eqb_eq in Ex; subst; lia|lia]. }
  destruct (sg_pub sg) as [b0|] eqn:Ep.
  - cbn [safe]. split; [exact Le|]. destruct Hs as [|b k (H1 & H2 & _)|b k (H1 & H2 & _)].
    + rewrite load_key_eq, Ep. split; [reflexivity|]. left. congruence.
    + rewrite H2. split; [reflexivity|]. right. rewrite Nat.eqb_refl. lia.
    + rewrite H2. split; [reflexivity|]. right. rewrite Nat.eqb_refl. lia.
  - destruct Hs as [|b k H|b k H]; [|discriminate Ep..].
    pose proof (load_key_eq (h0 p)) as El. rewrite Ep in El.
    destruct (if sg_prot (h0 p) then _ else _) as [[b k]|e|]; cbn [bind] in El.
    + cbn [safe]. assert (Hl : loads_to (h0 p) b k) by now split.
      exists k. split; [exact Hl|]. exists b. split; [exact Hl|]. rewrite Nat.eqb_refl. split; [lia|].
      split. { intro x. destruct (x =? p) eqn:Ex; [apply Nat.eqb_eq in Ex; subst; destruct (Hl)|lia].
               specialize (Le p). cbn beta in Le. rewrite Nat.eqb_refl in Le. lia. }
      rewrite El. split; [reflexivity|]. right. cbn beta. rewrite ?Nat.eqb_refl. lia.
    + cbn [safe]. split; [exact Le|]. now rewrite El.
    + cbn [safe]. split; [exact Le|]. now rewrite El.
Qed.
(** A store's signet is in the envelope in place of [n]. *)
Definition got (K : nat -> nat) (n : signet) (p : nat) : Prop :=
  (exists id r, store id r = Some p) /\ prep_loaded reg cr (h0 p) = Ok n
  /\ (special (h0 p) = true \/ sg_pub (h0 p) <> None \/ 1 <= K p).
Definition held_as (K : nat -> nat) (n : signet) (x : held) : Prop := match x with Own sg => sg = n | At p => got K n p end.
Lemma got_mono K K' n p : le K K' -> got K n p -> got K' n p.
Proof. intros L (A & B & C). split; [exact A|]. split; [exact B|]. specialize (L p). destruct C as [C|[C|C]]; auto. right. right. lia. Qed.
Lemma held_mono K K' ns xs : le K K' -> Forall2 (held_as K) ns xs -> Forall2 (held_as K') ns xs.
Proof. intros L H. induction H as [|n x ns xs H1 _ IH]; constructor; [|exact IH]. destruct x; [exact H1|]. now apply (got_mono K). Qed.

Definition follows {A B} (y : outcome A) (P : A -> B -> Prop) (x : outcome B) : Prop :=
  match y, x with
  | Ok a, Ok b => P a b
  | Err e, Err e' => e = e'
  | Panic, Panic => True
  | _, _ => False
  end.

Lemma le_look K p n : K p <= n -> le K (fun q => if q =? p then n else K q).
Proof. intros H x. destruct (x =? p) eqn:E; [apply Nat.eqb_eq in E; subst; exact H|lia]. Qed.

Lemma named_safe sg K : safe K (named_prog sg) (fun K' x => le K K' /\ x = Ok (named (w_signet w) sg)).
Proof.
  unfold named_prog, named, w, world_of. cbn [w_signet].
  destruct (match sg_info sg with Some i => nonempty (in_name i) | None => false end); [cbn [safe]; split; [apply le_refl|reflexivity]|].
  destruct (nonempty (sg_id sg)); [|cbn [safe]; split; [apply le_refl|reflexivity]].
  cbn [safe]. destruct (store (sg_id sg) false) as [p|]; [|cbn [safe]; split; [apply le_refl|reflexivity]].
  cbn [safe]. intros n x Hn Hs. split; [now apply le_look|]. destruct (stage_static _ _ _ Hs) as (_ & _ & _ & ->).
  destruct (sg_info (h0 p)); [now destruct (sg_info sg)|reflexivity].
Qed.

Lemma fill_safe sg new level K : safe K (fill_prog create ask sg new level)
  (fun K' x => le K K' /\ x = other (fst (fill_password w sg new level))).
Proof.
  unfold fill_prog, fill_password. cbn [w world_of w_create w_get].
  destruct new; [destruct create as [f|]|destruct ask as [f|]]; try (cbn [safe]; split; [apply le_refl|reflexivity]).
  - eapply safe_bind; [apply named_safe|]. intros K' x (L & ->). cbn [safe]. now split.
  - eapply safe_bind; [apply named_safe|]. intros K' x (L & ->). cbn [safe]. now split.
Qed.

Lemma fetch_safe sg rec K : safe K (fetch_prog reg cr sg rec)
  (fun K' x => le K K' /\ follows (bind (fetch w sg rec) (prep_loaded reg cr)) (got K') x).
Proof.
  unfold fetch_prog, fetch. cbn [w world_of w_signet].
  destruct (nonempty (sg_id sg)); cbn [negb]; [|cbn [safe]; split; [apply le_refl|reflexivity]].
  cbn [safe]. destruct (store (sg_id sg) rec) as [p|] eqn:Es; cbn [other bind]; [|cbn [safe]; split; [apply le_refl|reflexivity]].
  cbn [safe]. intros n x Hn Hs. destruct (stage_static _ _ _ Hs) as (_ & -> & -> & _).
  destruct (nonempty (sg_scheme sg) && negb (bytes_eqb (sg_scheme sg) (sg_scheme (h0 p)))); cbn [bind];
    [cbn [safe]; split; [now apply le_look|reflexivity]|].
  unfold prep_loaded at 1. destruct (sg_prot (h0 p)) eqn:Epr; [cbn [safe]; split; [now apply le_look|reflexivity]|].
  fold (special (h0 p)). destruct (special (h0 p)) eqn:Esp.
  - cbn [safe]. split; [now apply le_look|]. cbn [follows]. split; [now exists (sg_id sg), rec|].
    split; [|now left]. unfold prep_loaded. now rewrite Epr, Esp || (rewrite Epr; fold (special (h0 p)); rewrite Esp).
  - eapply safe_bind; [exact (load_shared_safe p _ Esp)|]. intros K' y (L & H).
    assert (L' : le K K') by exact (le_trans _ _ _ (le_look K p n Hn) L).
    destruct (load_key reg cr (h0 p)) as [m|e|] eqn:El.
    + destruct H as [-> H]. cbn [safe]. split; [exact L'|]. cbn [follows]. split; [now exists (sg_id sg), rec|].
      split; [|now right]. unfold prep_loaded. rewrite Epr. fold (special (h0 p)). now rewrite Esp.
    + subst y. split; [exact L'|reflexivity].
    + subst y. split; [exact L'|exact I].
Qed.

Lemma prep_safe level l : forall recipients K, safe K (prep_prog reg cr create ask level recipients l)
  (fun K' x => le K K' /\ follows (fst (prep_signets reg cr w level recipients l)) (fun ns xs => Forall2 (held_as K') ns xs) x).
Proof.
  induction l as [|sg l IH]; intros recipients K; cbn [prep_prog prep_signets].
  - cbn [safe]. split; [apply le_refl|]. cbn. constructor.
  - destruct (nonempty (sg_key sg)).
    + destruct (prep_loaded reg cr sg) as [n|e|]; cbn [pbind].
      * eapply safe_bind; [apply IH|]. intros K' x (L & H).
        destruct (prep_signets reg cr w level recipients l) as [y a]. cbn [fst] in *.
        destruct y, x; cbn [follows bind fst] in *; try contradiction; try (split; [exact L|exact H]).
        cbn [safe]. split; [exact L|]. cbn [follows]. now constructor.
      * cbn [safe]. split; [apply le_refl|reflexivity].
      * cbn [safe]. split; [apply le_refl|exact I].
    + destruct (bytes_eqb (sg_scheme sg) scheme_pw).
      * pose proof (fill_safe sg (negb recipients) level K) as F.
        destruct (fill_password w sg (negb recipients) level) as [o a]. cbn [fst] in F.
        eapply safe_bind; [exact F|]. intros K' x (L & ->). destruct (other o) as [n|e|].
        -- eapply safe_bind; [apply IH|]. intros K2 x (L2 & H). assert (L3 := le_trans _ _ _ L L2).
           destruct (prep_signets reg cr w level recipients l) as [y a2]. cbn [fst] in *.
           destruct y, x; cbn [follows bind fst] in *; try contradiction; try (split; [exact L3|exact H]).
           cbn [safe]. split; [exact L3|]. cbn [follows]. now constructor.
        -- now split.
        -- now split.
      * set (rec := if bytes_eqb (sg_scheme sg) scheme_key then false else recipients).
        eapply safe_bind; [apply fetch_safe|]. intros K' x (L & H).
        destruct (bind (fetch w sg rec) (prep_loaded reg cr)) as [n|e|], x as [p|e'|]; cbn [follows] in H; try contradiction.
        -- eapply safe_bind; [apply IH|]. intros K2 x (L2 & H2). assert (L3 := le_trans _ _ _ L L2).
           destruct (prep_signets reg cr w level rec l) as [y a2]. cbn [fst] in *.
           destruct y, x; cbn [follows bind fst] in *; try contradiction; try (split; [exact L3|exact H2]).
           cbn [safe]. split; [exact L3|]. cbn [follows]. constructor; [exact (got_mono _ _ _ _ L2 H)|exact H2].
        -- subst e'. split; [exact L|reflexivity].
        -- split; [exact L|exact I].
Qed.

Lemma special_false sg : special sg = false -> sg_scheme sg <> scheme_key /\ sg_scheme sg <> scheme_pw.
Proof.
  unfold special. intro H. apply Bool.orb_false_iff in H. destruct H as [A B].
  split; intro E; rewrite E in *; [now rewrite bytes_eqb_refl in A|now rewrite bytes_eqb_refl in B].
Qed.
Lemma unsettled sg b k : loads_to sg b k -> ~ settled reg cr sg.
Proof.
  intros (A & B & C). destruct (special_false sg C) as [N1 N2]. intros [H|[H|[H|H]]]; try contradiction. exact (H _ B).
Qed.

Lemma got_read K n p m sg : got K n p -> K p <= m -> stage (h0 p) m sg -> maybe_half reg cr store h0 n sg.
Proof.
  intros ((id & r & Es) & Hp & Hk) Hm Hs. unfold prep_loaded in Hp. fold (special (h0 p)) in Hp.
  destruct (sg_prot (h0 p)); [discriminate|]. destruct Hs as [|b k Hl|b k Hl].
  - destruct (special (h0 p)); [assert (h0 p = n) as <- by congruence; constructor|].
    destruct Hk as [Hk|[Hk|Hk]]; [discriminate| |lia].
    rewrite load_key_eq in Hp. destruct (sg_pub (h0 p)); [assert (h0 p = n) as <- by congruence; constructor|contradiction].
  - pose proof Hl as (A & B & C). rewrite C in Hp. rewrite B in Hp. assert (set_loaded (h0 p) b k = n) as <- by congruence.
    exact (mh_half _ _ _ _ _ id r p Es (unsettled _ _ _ Hl) B).
  - pose proof Hl as (A & B & C). rewrite C in Hp. rewrite B in Hp. assert (set_loaded (h0 p) b k = n) as <- by congruence. constructor.
Qed.

Lemma read_safe ns xs : forall K, Forall2 (held_as K) ns xs ->
  safe K (read_prog xs) (fun K' x => le K K' /\ exists ns', x = Ok ns' /\ Forall2 (maybe_half reg cr store h0) ns ns').
Proof.
  revert xs. induction ns as [|n ns IH]; intros xs K H; inversion H as [|? x ? xs' H1 H2]; subst; cbn [read_prog].
  - cbn [safe]. split; [apply le_refl|]. exists []. split; [reflexivity|constructor].
  - destruct x as [sg|p]; cbn [held_as] in H1.
    + subst sg. eapply safe_bind; [exact (IH xs' K H2)|]. intros K' y (L & ns' & -> & F). cbn [safe]. split; [exact L|].
      exists (n :: ns'). split; [reflexivity|]. constructor; [constructor|exact F].
    + cbn [safe]. intros m sg Hm Hs. set (K1 := fun q => if q =? p then m else K q).
      assert (L1 : le K K1) by now apply le_look.
      eapply safe_bind; [exact (IH xs' K1 (held_mono _ _ _ _ L1 H2))|]. intros K' y (L & ns' & -> & F). cbn [safe].
      split; [exact (le_trans _ _ _ L1 L)|]. exists (sg :: ns'). split; [reflexivity|]. constructor; [|exact F]. now apply (got_read K n p m).
Qed.

(** What a goroutine may end with. *)
Definition as_alone {A} (e : envelope) (use : envelope -> outcome A) (x : outcome A) : Prop :=
  match fst (prepare sreg reg cr w e) with
  | Ok e1 => exists e2, maybe_half_envelope reg cr store h0 e1 e2 /\ x = use e2
  | Err y => x = Err y
  | Panic => x = Panic
  end.

Lemma use_safe {A} (e : envelope) (use : envelope -> outcome A) K :
  safe K (use_prog sreg reg cr create ask e use) (fixed (as_alone e use)).
Proof.
  unfold use_prog, as_alone, prepare. destruct (load_suite sreg e) as [su|x|]; [|reflexivity..].
  eapply safe_bind; [apply prep_safe|]. intros K1 x1 (_ & H1).
  destruct (prep_signets reg cr w (su_level su) (e_opening e) (e_secrets e)) as [[a|y|] q1], x1 as [a'|y'|]; cbn [fst follows] in *;
    try contradiction; try (subst; reflexivity).
  eapply safe_bind; [apply prep_safe|]. intros K2 x2 (L2 & H2).
  destruct (prep_signets reg cr w (su_level su) (e_opening e) (e_senders e)) as [[b|y|] q2], x2 as [b'|y'|]; cbn [fst follows] in *;
    try contradiction; try (subst; reflexivity).
  eapply safe_bind; [apply prep_safe|]. intros K3 x3 (L3 & H3).
  destruct (prep_signets reg cr w (su_level su) (negb (e_opening e)) (e_recipients e)) as [[d|y|] q3], x3 as [d'|y'|]; cbn [fst follows] in *;
    try contradiction; try (subst; reflexivity).
  eapply safe_bind; [exact (read_safe _ _ _ (held_mono _ _ _ _ (le_trans _ _ _ L2 L3) H1))|]. intros K4 x4 (L4 & a2 & -> & F1).
  eapply safe_bind; [exact (read_safe _ _ _ (held_mono _ _ _ _ (le_trans _ _ _ L3 L4) H2))|]. intros K5 x5 (L5 & b2 & -> & F2).
  eapply safe_bind; [exact (read_safe _ _ _ (held_mono _ _ _ _ (le_trans _ _ _ L4 L5) H3))|]. intros K6 x6 (L6 & d2 & -> & F3).
  cbn [safe]. unfold fixed. exists (set_signets e su a2 b2 d2). split; [|reflexivity].
  exists su, a2, b2, d2. unfold set_signets at 1 3 4 5. cbn [e_suite e_secrets e_senders e_recipients]. split; [reflexivity|].
  split; [reflexivity|]. split; [exact F1|]. split; [exact F2|exact F3].
Qed.

Lemma start_consistent : consistent (fun _ => 0) h0.
Proof. intro p. constructor. Qed.

(** Any number of goroutines, any schedule. *)
Lemma pool_run {A J} (prog_of : J -> prog A) (good : J -> outcome A -> Prop) (jobs : list J) sched h l :
  (forall j K, safe K (prog_of j) (fixed (good j))) ->
  interleave store sched h0 (map prog_of jobs) = (h, l) ->
  (exists L, consistent L h) /\ forall i j x, nth_error jobs i = Some j -> nth_error l i = Some (Done x) -> good j x.
Proof.
  intros G E.
  assert (H0 : forall i m, nth_error (map prog_of jobs) i = Some m ->
      safe (fun _ => 0) m (fixed (fun x => forall j, nth_error jobs i = Some j -> good j x))).
  { intros i m Hm. rewrite nth_error_map in Hm. destruct (nth_error jobs i) as [j|] eqn:Ej; [|discriminate].
    cbn [option_map] in Hm. assert (Em : m = prog_of j) by congruence. subst m.
    refine (safe_mono _ _ _ _ _ (le_refl _) _ (G j _)). intros K x Hx K' _ j' E'.
    assert (j' = j) as -> by congruence. exact Hx. }
  destruct (interleave_safe sched _ _ _ _ h l start_consistent H0 E) as (L & _ & C & H).
  split; [now exists L|]. intros i j x Hj Hx. exact (H i _ Hx j Hj).
Qed.

Lemma settled_same n sg : (forall id r p, store id r = Some p -> settled reg cr (h0 p)) -> maybe_half reg cr store h0 n sg -> sg = n.
Proof. intros S [|id r p Es Hn _]; [reflexivity|]. destruct (Hn (S id r p Es)). Qed.
Lemma settled_list ns xs : (forall id r p, store id r = Some p -> settled reg cr (h0 p)) -> Forall2 (maybe_half reg cr store h0) ns xs -> xs = ns.
Proof. intros S H. induction H as [|n x ns xs H _ IH]; [reflexivity|]. rewrite IH. f_equal. now apply settled_same. Qed.
Lemma settled_envelope e1 e2 : (forall id r p, store id r = Some p -> settled reg cr (h0 p)) -> maybe_half_envelope reg cr store h0 e1 e2 -> e2 = e1.
Proof.
  intros S (su & a & b & d & Esu & -> & A & B & D).
  rewrite (settled_list _ _ S A), (settled_list _ _ S B), (settled_list _ _ S D). unfold set_signets. destruct e1. cbn in *. now subst.
Qed.
Lemma consistent_settled L h p : consistent L h -> settled reg cr (h0 p) -> h p = h0 p.
Proof. intros C S. specialize (C p). destruct C as [|b k Hl|b k Hl]; [reflexivity|destruct (unsettled _ _ _ Hl S)..]. Qed.
Lemma as_alone_settled {A} e (use : envelope -> outcome A) x :
  (forall id r p, store id r = Some p -> settled reg cr (h0 p)) -> as_alone e use x ->
  x = bind (fst (prepare sreg reg cr w e)) use.
Proof.
  unfold as_alone. intro S. destruct (fst (prepare sreg reg cr w e)) as [e1|y|]; cbn [bind]; auto.
  intros (e2 & M & ->). now rewrite (settled_envelope _ _ S M).
Qed.

Lemma open_safe c hreg required r d K :
  safe K (open_prog sreg reg cr create ask c hreg required r d)
    (fixed (fun x => match letter_envelope sreg required r with
                     | Ok e => as_alone e (fun e' => do s <- new_session c reg hreg cr e'; fst (open_session c cr s (complete r) (rt_start d None))) x
                     | Err y => x = Err y
                     | Panic => x = Panic
                     end)).
Proof.
  unfold open_prog. destruct (letter_envelope sreg required r) as [e|y|]; [|reflexivity..]. apply use_safe.
Qed.

Lemma verify_safe c hreg required r d K :
  safe K (verify_prog sreg reg cr create ask c hreg required r d)
    (fixed (fun x => match letter_envelope sreg required r with
                     | Ok e => as_alone e (fun e' => do s <- new_session c reg hreg cr e'; fst (verify_session cr s (complete r) (rt_start d None))) x
                     | Err y => x = Err y
                     | Panic => x = Panic
                     end)).
Proof.
  unfold verify_prog. destruct (letter_envelope sreg required r) as [e|y|]; [|reflexivity..]. apply use_safe.
Qed.

(** ** A goroutine ends after a known number of accesses *)
Fixpoint within {A} (n : nat) (m : prog A) {struct m} : Prop :=
  match m with
  | Done _ => True
  | Get id r k => match n with O => False | S n' => forall o, within n' (k o) end
  | Look p k => match n with O => False | S n' => forall sg, within n' (k sg) end
  | PutPub p b k => match n with O => False | S n' => within n' k end
  | PutPriv p b k => match n with O => False | S n' => within n' k end
  end.
Lemma within_mono {A} (m : prog A) : forall n n', n <= n' -> within n m -> within n' m.
Proof.
  induction m as [x|id r k IH|p k IH|p b k IH|p b k IH]; intros n n' Hn; cbn [within]; intro H; [auto|..];
    (destruct n as [|n]; [contradiction|]; destruct n' as [|n']; [lia|]).
  - intro o. apply (IH o n); [lia|auto].
  - intro o. apply (IH o n); [lia|auto].
  - apply (IH n); [lia|exact H].
  - apply (IH n); [lia|exact H].
Qed.
Lemma within_bind {A B} (m : prog A) (f : A -> prog B) : forall n n', within n m -> (forall a, within n' (f a)) -> within (n + n') (pbind m f).
Proof.
  induction m as [x|id r k IH|p k IH|p b k IH|p b k IH]; intros n n' H F; cbn [within pbind] in *.
  - destruct x as [a|e|]; cbn [within]; auto. apply (within_mono _ n'); [lia|auto].
  - destruct n as [|n]; [contradiction|]. cbn [Nat.add]. intro o. apply IH; auto.
  - destruct n as [|n]; [contradiction|]. cbn [Nat.add]. intro o. apply IH; auto.
  - destruct n as [|n]; [contradiction|]. cbn [Nat.add]. apply IH; auto.
  - destruct n as [|n]; [contradiction|]. cbn [Nat.add]. apply IH; auto.
Qed.
Lemma within_bind' {A B} (m : prog A) (f : A -> prog B) n1 n2 n : within n1 m -> (forall a, within n2 (f a)) -> n1 + n2 <= n -> within n (pbind m f).
Proof. intros H F L. apply (within_mono _ (n1 + n2) n L). now apply within_bind. Qed.

Lemma load_within p : within 3 (load_shared reg cr p).
Proof.
  cbn [load_shared within]. intro sg. destruct (sg_pub sg); [exact I|]. destruct (if sg_prot sg then _ else _) as [[b k]|e|]; exact I.
Qed.
Lemma fetch_within sg rec : within 5 (fetch_prog reg cr sg rec).
Proof.
  unfold fetch_prog. destruct (negb _); [exact I|]. cbn [within]. intros [p|]; [|exact I]. cbn [within]. intro n.
  destruct (nonempty _ && _); [exact I|]. destruct (sg_prot n); [exact I|]. destruct (_ || _); [exact I|].
  apply (within_bind' _ _ 3 0); [apply load_within|intros; exact I|lia].
Qed.
Lemma named_within sg : within 2 (named_prog sg).
Proof.
  unfold named_prog. destruct (match sg_info sg with Some i => _ | None => _ end); [exact I|]. destruct (nonempty _); [|exact I].
  cbn [within]. intros [p|]; [|exact I]. cbn [within]. intro n. exact I.
Qed.
Lemma fill_within sg new level : within 2 (fill_prog create ask sg new level).
Proof.
  unfold fill_prog. destruct new; [destruct create as [f|]|destruct ask as [f|]]; try exact I;
    (apply (within_bind' _ _ 2 0); [apply named_within|intros; exact I|lia]).
Qed.
Lemma prep_within level l : forall recipients, within (5 * length l) (prep_prog reg cr create ask level recipients l).
Proof.
  induction l as [|sg l IH]; intro rec; cbn [prep_prog length]; [exact I|].
  destruct (nonempty (sg_key sg)).
  - apply (within_bind' _ _ 0 (5 * length l)); [exact I| |lia]. intro n. apply (within_bind' _ _ (5 * length l) 0); [apply IH|intros; exact I|lia].
  - destruct (bytes_eqb (sg_scheme sg) scheme_pw).
    + apply (within_bind' _ _ 2 (5 * length l)); [apply fill_within| |lia]. intro n. apply (within_bind' _ _ (5 * length l) 0); [apply IH|intros; exact I|lia].
    + apply (within_bind' _ _ 5 (5 * length l)); [apply fetch_within| |lia]. intro n. apply (within_bind' _ _ (5 * length l) 0); [apply IH|intros; exact I|lia].
Qed.
Lemma read_within xs : within (length xs) (read_prog xs).
Proof.
  induction xs as [|[sg|p] xs IH]; cbn [read_prog length]; [exact I|..].
  - apply (within_bind' _ _ (length xs) 0); [exact IH|intros; exact I|lia].
  - cbn [within]. intro sg. apply (within_bind' _ _ (length xs) 0); [exact IH|intros; exact I|lia].
Qed.
(** Preparation keeps the number of signets. *)
Fixpoint always {A} (P : A -> Prop) (m : prog A) : Prop :=
  match m with
  | Done x => match x with Ok a => P a | _ => True end
  | Get id r k => forall o, always P (k o)
  | Look p k => forall sg, always P (k sg)
  | PutPub p b k => always P k
  | PutPriv p b k => always P k
  end.
Lemma always_bind {A B} (m : prog A) (f : A -> prog B) P Q : always P m -> (forall a, P a -> always Q (f a)) -> always Q (pbind m f).
Proof. induction m as [x|id r k IH|p k IH|p b k IH|p b k IH]; cbn [always pbind]; intros H F; auto. destruct x; cbn; auto. Qed.
Lemma always_true {A} (m : prog A) : always (fun _ => True) m.
Proof. induction m as [x|id r k IH|p k IH|p b k IH|p b k IH]; cbn [always]; auto. now destruct x. Qed.
Lemma prep_length level l : forall recipients, always (fun xs => length xs = length l) (prep_prog reg cr create ask level recipients l).
Proof.
  induction l as [|sg l IH]; intro rec; cbn [prep_prog]; [reflexivity|].
  destruct (nonempty (sg_key sg)); [|destruct (bytes_eqb (sg_scheme sg) scheme_pw)];
    (eapply always_bind; [apply always_true|]; intros n _; eapply always_bind; [apply IH|]; intros ns H; cbn [always length]; congruence).
Qed.
Lemma within_bind_if {A B} (m : prog A) (f : A -> prog B) P n2 : always P m -> forall n1 n, within n1 m -> (forall a, P a -> within n2 (f a)) -> n1 + n2 <= n ->
  within n (pbind m f).
Proof.
  induction m as [x|id r k IH|p k IH|p b k IH|p b k IH]; cbn [always within pbind]; intros H n1 n W F L.
  - destruct x as [a|e|]; cbn [within]; auto. apply (within_mono _ n2); [lia|auto].
  - destruct n1 as [|n1]; [contradiction|]. destruct n as [|n]; [lia|]. intro o. apply (IH o (H o) n1); auto. lia.
  - destruct n1 as [|n1]; [contradiction|]. destruct n as [|n]; [lia|]. intro o. apply (IH o (H o) n1); auto. lia.
  - destruct n1 as [|n1]; [contradiction|]. destruct n as [|n]; [lia|]. apply (IH H n1); auto. lia.
  - destruct n1 as [|n1]; [contradiction|]. destruct n as [|n]; [lia|]. apply (IH H n1); auto. lia.
Qed.
Lemma use_within {A} e (use : envelope -> outcome A) :
  within (6 * (length (e_secrets e) + length (e_senders e) + length (e_recipients e))) (use_prog sreg reg cr create ask e use).
Proof.
  unfold use_prog. destruct (load_suite sreg e) as [su|x|]; [|exact I..].
  set (a := length (e_secrets e)). set (b := length (e_senders e)). set (d := length (e_recipients e)).
  eapply (within_bind_if _ _ _ (a + 6 * b + 6 * d) (prep_length _ _ _) (5 * a)); [apply prep_within| |lia]. intros xs Hx.
  eapply (within_bind_if _ _ _ (a + b + 6 * d) (prep_length _ _ _) (5 * b)); [apply prep_within| |lia]. intros ys Hy.
  eapply (within_bind_if _ _ _ (a + b + d) (prep_length _ _ _) (5 * d)); [apply prep_within| |lia]. intros zs Hz.
  apply (within_bind' _ _ a (b + d)); [subst a; rewrite <- Hx; apply read_within| |lia]. intro xs'.
  apply (within_bind' _ _ b d); [subst b; rewrite <- Hy; apply read_within| |lia]. intro ys'.
  apply (within_bind' _ _ d 0); [subst d; rewrite <- Hz; apply read_within| |lia]. intro zs'. exact I.
Qed.

Lemma access_within {A} (m : prog A) n h h' m' : within n m -> access store h m = (h', m') -> within (pred n) m'.
Proof.
  destruct m as [x|id r k|p k|p b k|p b k]; cbn [within access]; intros H E; injection E as _ <-; [exact I|..];
    (destruct n as [|n]; [contradiction|]; cbn [pred]; auto).
Qed.
Lemma interleave_within {A} sched : forall h (l : list (prog A)) h' l' i m n,
  interleave store sched h l = (h', l') -> nth_error l i = Some m -> within n m ->
  exists m', nth_error l' i = Some m' /\ within (n - count_occ Nat.eq_dec sched i) m'.
Proof.
  induction sched as [|j r IH]; cbn [interleave count_occ]; intros h l h' l' i m n E Em W.
  - assert (l = l') as <- by congruence. exists m. split; [exact Em|]. now rewrite Nat.sub_0_r.
  - destruct (nth_error l j) as [mj|] eqn:Ej.
    + destruct (access store h mj) as [h1 m1] eqn:Ea. destruct (Nat.eq_dec j i) as [->|N].
      * assert (mj = m) as -> by congruence.
        destruct (IH _ _ _ _ i m1 (pred n) E) as (m' & E' & W').
        { rewrite nth_set_prog, Nat.eqb_refl, Ej. reflexivity. }
        { exact (access_within m n h h1 m1 W Ea). }
        exists m'. split; [exact E'|]. refine (within_mono _ _ _ _ W'). lia.
      * destruct (IH _ _ _ _ i m n E) as (m' & E' & W'); [|exact W|now exists m'].
        rewrite nth_set_prog. destruct (i =? j) eqn:Eij; [apply Nat.eqb_eq in Eij; congruence|exact Em].
    + destruct (Nat.eq_dec j i) as [->|N]; [congruence|]. now apply (IH h l h' l' i m n).
Qed.
Lemma within_0 {A} (m : prog A) : within 0 m -> exists x, m = Done x.
Proof. destruct m; cbn; try contradiction. eauto. Qed.
End Facts.
