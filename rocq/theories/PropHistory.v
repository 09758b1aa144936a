(** Property theorems C14: sessions carry no state from one letter to the next. *)
From Coq Require Import Init.Byte.
From Verif Require Import CoreState CoreSession SpecCore Toy.

Section H.
Variables (c : config) (cr : crypto) (s : session).
Hypothesis keyed : forall i, In i (s_aead s) \/ In i (s_ciph s) \/ In i (s_macs s) -> In i (s_stateful s).
Hypothesis ivs : forall i, In i (s_aead s) \/ In i (s_ciph s) -> has_iv i = true.
Definition rest := held no_use (fun _ => []) (fun _ => []).

Lemma serve_rest q r : rest r -> rest (snd (serve c cr s q r)).
Proof.
  assert (MS : forall i, In i (s_macs s) -> In i (s_stateful s)) by (intros; apply keyed; tauto).
  intro H. destruct q as [full d|l|l]; cbn [serve].
  - pose proof (keep_close c cr s MS full d r H) as K. destruct (close_session _ _ _ _ _ _). exact K.
  - pose proof (keep_open c cr s MS l r H) as K. destruct (open_session _ _ _ _ _). exact K.
  - pose proof (keep_verify_session cr s l r H) as K. destruct (verify_session _ _ _ _). exact K.
Qed.
Lemma after_rest qs r : rest r -> rest (after c cr s qs r).
Proof. revert r; induction qs as [|q qs IH]; intros r H; cbn [after]; [exact H|]. apply IH. now apply serve_rest. Qed.

Definition wiped (r : rt) := set_buf (set_acc r [] [] 0) [].
Lemma serve_wiped q r : serve c cr s q r = serve c cr s q (wiped r).
Proof. destruct q; reflexivity. Qed.

Lemma serve_sim q r1 r2 : sim (s_stateful s) 0 r1 r2 -> fst (serve c cr s q r1) = fst (serve c cr s q r2).
Proof.
  intro S. destruct q as [full d|l|l]; cbn [serve].
  - destruct (rel_close c cr s keyed ivs full d r1 r2 S) as (E & S0 & _).
    destruct (close_session _ _ _ _ _ r1), (close_session _ _ _ _ _ r2). cbn [fst snd] in *. now rewrite E, (si_buf _ _ _ _ S0).
  - destruct (rel_open c cr s keyed ivs l r1 r2 S) as (E & S0 & _).
    destruct (open_session _ _ _ _ r1), (open_session _ _ _ _ r2). cbn [fst snd] in *. now rewrite E, (si_buf _ _ _ _ S0).
  - destruct (rel_verify_session cr s l r1 r2 S) as (E & S0 & _).
    destruct (verify_session _ _ _ r1), (verify_session _ _ _ r2). cbn [fst snd] in *. now rewrite E, (si_buf _ _ _ _ S0).
Qed.

Lemma serve_fresh q r : rest r -> fst (serve c cr s q r) = fst (serve c cr s q (rt_start (r_draw r) None)).
Proof.
  intro H. rewrite (serve_wiped q r). apply serve_sim. destruct H. constructor; cbn; auto; lia.
Qed.
End H.

(** Whatever a non-wire session was asked before, and whether or not that succeeded, the
    next request has the outcome (and the effect on the caller's buffer) that a new session
    gives which draws the same random numbers. *)
Theorem C14_history_independent : forall c hreg cr e s d qs q,
  new_session c tool_registry hreg cr e = Ok s ->
  let r := after c cr s qs (rt_start d None) in
  fst (serve c cr s q r) = fst (serve c cr s q (rt_start (r_draw r) None)).
Proof.
  intros c hreg cr e s d qs q H r. destruct (session_keyed _ _ _ _ _ H) as [K I]. apply serve_fresh; [exact K|exact I|].
  apply after_rest; [exact K|]. constructor; reflexivity.
Qed.
Print Assumptions C14_history_independent.

(** Opening and verifying use no randomness: their outcome does not depend on the history
    at all. *)
Theorem C14_open_history_independent : forall c hreg cr e s d d' qs l,
  new_session c tool_registry hreg cr e = Ok s ->
  fst (serve c cr s (QOpen l) (after c cr s qs (rt_start d None))) = fst (serve c cr s (QOpen l) (rt_start d' None))
  /\ fst (serve c cr s (QVerify l) (after c cr s qs (rt_start d None))) = fst (serve c cr s (QVerify l) (rt_start d' None)).
Proof.
  intros c hreg cr e s d d' qs l H.
  rewrite !(C14_history_independent c hreg cr e s d qs _ H). set (k := r_draw _).
  change (rt_start d' None) with (set_draw (rt_start k None) d'). cbn [serve]. split.
  - rewrite (nodraw_open c cr s l (rt_start k None) d'). now destruct (open_session c cr s l (rt_start k None)).
  - rewrite (nodraw_verify cr s l (rt_start k None) d'). now destruct (verify_session cr s l (rt_start k None)).
Qed.
Print Assumptions C14_open_history_independent.

(** A session that closed a letter and failed to open a corrupted one opens the good one:
    the toy instance, suite pw_v1. *)
Example C14_hypotheses_met :
  let e := toy_env (suite_named (lit "pw_v1")) [toy_password "pw"] [] [] in
  exists s, new_session default_config tool_registry hash_registry toy e = Ok s
    /\ exists l, fst (serve default_config toy s (QClose false (lit "hello")) (rt_start 7 None)) = ALetter (Ok l) (lit "hello")
    /\ let r := after default_config toy s [QClose true (lit "x"); QOpen (set_data l (lit "0123456789abcdef0")); QVerify l] (rt_start 0 None) in
       exists buf, fst (serve default_config toy s (QOpen l) r) = AData (Ok (lit "hello")) buf
                   /\ fst (serve default_config toy s (QOpen (set_data l (lit "0123456789abcdef0"))) r)
                      = AData (Err EIntegrity) (x00 :: lit "123456789abcdef0").
Proof.
  eexists; split; [vm_compute; reflexivity|]. eexists; split; [vm_compute; reflexivity|]. cbn zeta. eexists. split; vm_compute; reflexivity.
Qed.
