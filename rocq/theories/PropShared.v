(** C72: goroutines that share a MemTrustStore. *)
From Verif Require Import Prelude PreludeFacts Requirements Tools Crypto Letter Session Core Envelope Toy Shared SpecShared SharedFacts SharedVerify.
From Verif Require Import PropLetter PropReaders.
From Coq Require Import Lia.

(** Whatever goroutines do with envelopes and a shared store whose signets all have been loaded
    before: in every schedule each that ends has the result it would have alone, and the store is
    as before. *)
Theorem C72_loaded_store_is_shared_safely : forall sreg reg cr create ask store h0 A (jobs : list (envelope * (envelope -> outcome A))) sched h l,
  (forall id r p, store id r = Some p -> settled reg cr (h0 p)) ->
  interleave store sched h0 (map (fun j => use_prog sreg reg cr create ask (fst j) (snd j)) jobs) = (h, l) ->
  (forall id r p, store id r = Some p -> h p = h0 p)
  /\ forall i e use x, nth_error jobs i = Some (e, use) -> nth_error l i = Some (Done x) ->
       x = bind (fst (prepare sreg reg cr (world_of store h0 create ask) e)) use.
Proof.
  intros sreg reg cr create ask store h0 A jobs sched h l HS E.
  destruct (pool_run reg cr store h0 (fun j => use_prog sreg reg cr create ask (fst j) (snd j)) (fun j x => as_alone sreg reg cr create ask store h0 (fst j) (snd j) x) jobs sched h l) with (2 := E)
    as ((L & C) & H).
  - intros j K. apply use_safe.
  - split.
    + intros id r p Es. exact (consistent_settled reg cr h0 L h p C (HS id r p Es)).
    + intros i e use x Hj Hx. apply as_alone_settled; [exact HS|]. exact (H i (e, use) x Hj Hx).
Qed.
Print Assumptions C72_loaded_store_is_shared_safely.

(** The same for opening letters. *)
Theorem C72_concurrent_open : forall c sreg reg hreg cr create ask store h0 (letters : list (option reqs * raw_letter * nat)) sched h l,
  (forall id r p, store id r = Some p -> settled reg cr (h0 p)) ->
  interleave store sched h0 (map (fun '(q, r, d) => open_prog sreg reg cr create ask c hreg q r d) letters) = (h, l) ->
  forall i q r d x, nth_error letters i = Some (q, r, d) -> nth_error l i = Some (Done x) ->
    x = letter_open c sreg reg hreg cr (world_of store h0 create ask) q r d.
Proof.
  intros c sreg reg hreg cr create ask store h0 letters sched h l HS E i q r d x Hj Hx.
  destruct (pool_run reg cr store h0 (fun '(q, r, d) => open_prog sreg reg cr create ask c hreg q r d)
    (fun '(q, r, d) x => match letter_envelope sreg q r with
                     | Ok e => as_alone sreg reg cr create ask store h0 e (fun e' => do s <- new_session c reg hreg cr e'; fst (open_session c cr s (complete r) (rt_start d None))) x
                     | Err y => x = Err y
                     | Panic => x = Panic
                     end) letters sched h l) with (2 := E) as (_ & H).
  { intros [[q' r'] d'] K. apply open_safe. }
  specialize (H i (q, r, d) x Hj Hx). cbn beta iota in H. unfold letter_open.
  destruct (letter_envelope sreg q r) as [e|y|]; cbn [bind]; [|exact H..].
  rewrite (as_alone_settled _ _ _ _ _ _ _ _ _ _ HS H). unfold correspondence.
  destruct (fst (prepare sreg reg cr (world_of store h0 create ask) e)); reflexivity.
Qed.
Print Assumptions C72_concurrent_open.

(** Without that: errors of the preparation are those of a goroutine alone, and otherwise the
    session has what it would have alone, except that private keys of signets that were not loaded
    at the start may be missing (their loading is half done by another goroutine).  Nothing is ever
    mixed up, and a signet in the store is untouched, half or fully loaded. *)
Theorem C72_only_private_keys_missing : forall sreg reg cr create ask store h0 A (jobs : list (envelope * (envelope -> outcome A))) sched h l,
  interleave store sched h0 (map (fun j => use_prog sreg reg cr create ask (fst j) (snd j)) jobs) = (h, l) ->
  (forall p, h p = h0 p \/ exists n, sg_pub (h0 p) = None /\ Envelope.load_key reg cr (h0 p) = Ok n /\ (h p = n \/ h p = with_priv n (sg_priv (h0 p))))
  /\ forall i e use x, nth_error jobs i = Some (e, use) -> nth_error l i = Some (Done x) ->
       match fst (prepare sreg reg cr (world_of store h0 create ask) e) with
       | Ok e1 => exists e2, maybe_half_envelope reg cr store h0 e1 e2 /\ x = use e2
       | Err y => x = Err y
       | Panic => x = Panic
       end.
Proof.
  intros sreg reg cr create ask store h0 A jobs sched h l E.
  destruct (pool_run reg cr store h0 (fun j => use_prog sreg reg cr create ask (fst j) (snd j)) (fun j x => as_alone sreg reg cr create ask store h0 (fst j) (snd j) x) jobs sched h l) with (2 := E)
    as ((L & C) & H).
  - intros j K. apply use_safe.
  - split.
    + intro p. specialize (C p). destruct C as [|b k (A1 & A2 & _)|b k (A1 & A2 & _)]; [now left|right..];
        eexists; (split; [exact A1|]; split; [exact A2|]); [right|left]; reflexivity.
    + intros i e use x Hj Hx. exact (H i (e, use) x Hj Hx).
Qed.
Print Assumptions C72_only_private_keys_missing.

(** Verifying signatures needs no private key, so it may be done at the same time with any store. *)
Lemma half_public reg cr store h0 sg sg' : maybe_half reg cr store h0 sg sg' -> same_public sg sg'.
Proof. intros [|id r p _ _ _]; [apply same_public_refl|reflexivity]. Qed.
Lemma halves_public reg cr store h0 l l' : Forall2 (maybe_half reg cr store h0) l l' -> Forall2 same_public l l'.
Proof. induction 1; constructor; eauto using half_public. Qed.

Theorem C72_concurrent_verify : forall c sreg reg hreg cr create ask store h0 (letters : list (option reqs * raw_letter * nat)) sched h l,
  interleave store sched h0 (map (fun '(q, r, d) => verify_prog sreg reg cr create ask c hreg q r d) letters) = (h, l) ->
  forall i q r d x, nth_error letters i = Some (q, r, d) -> nth_error l i = Some (Done x) ->
    x = letter_verify c sreg reg hreg cr (world_of store h0 create ask) q r d.
Proof.
  intros c sreg reg hreg cr create ask store h0 letters sched h l E i q r d x Hj Hx.
  destruct (pool_run reg cr store h0 (fun '(q, r, d) => verify_prog sreg reg cr create ask c hreg q r d)
    (fun '(q, r, d) x => match letter_envelope sreg q r with
                     | Ok e => as_alone sreg reg cr create ask store h0 e (fun e' => do s <- new_session c reg hreg cr e'; fst (verify_session cr s (complete r) (rt_start d None))) x
                     | Err y => x = Err y
                     | Panic => x = Panic
                     end) letters sched h l) with (2 := E) as (_ & H).
  { intros [[q' r'] d'] K. apply verify_safe. }
  specialize (H i (q, r, d) x Hj Hx). cbn beta iota in H. unfold letter_verify, correspondence.
  destruct (letter_envelope sreg q r) as [e|y|]; cbn [bind]; [|exact H..].
  unfold as_alone in H. destruct (fst (prepare sreg reg cr (world_of store h0 create ask) e)) as [e1|y|]; cbn [bind]; [|exact H..].
  destruct H as (e2 & (su & a & b & dd & Esu & -> & Fa & Fb & Fd) & ->).
  apply halves_public in Fa, Fb, Fd.
  pose proof (new_session_twin e1 (set_signets e1 su a b dd) ltac:(symmetry; exact Esu) eq_refl Fa Fb Fd c reg hreg cr) as T.
  destruct (new_session c reg hreg cr e1) as [s|y|], (new_session c reg hreg cr (set_signets e1 su a b dd)) as [s'|y'|]; cbn [orel] in T; try contradiction.
  - destruct T as [Ee ->]. cbn [bind]. f_equal. exact (verify_twin e1 (set_signets e1 su a b dd) cr s (complete r) (rt_start d None) Ee Fb).
  - now subst.
  - reflexivity.
Qed.
Print Assumptions C72_concurrent_verify.

(** Nobody waits for anybody: a goroutine ends once it had six turns per signet. *)
Theorem C72_goroutines_end : forall sreg reg cr create ask store h0 A (jobs : list (envelope * (envelope -> outcome A))) sched h l i e use,
  interleave store sched h0 (map (fun j => use_prog sreg reg cr create ask (fst j) (snd j)) jobs) = (h, l) ->
  nth_error jobs i = Some (e, use) ->
  6 * (length (e_secrets e) + length (e_senders e) + length (e_recipients e)) <= count_occ Nat.eq_dec sched i ->
  exists x, nth_error l i = Some (Done x).
Proof.
  intros sreg reg cr create ask store h0 A jobs sched h l i e use E Hj Hn.
  assert (Hm : nth_error (map (fun j => use_prog sreg reg cr create ask (fst j) (snd j)) jobs) i = Some (use_prog sreg reg cr create ask e use)).
  { rewrite nth_error_map, Hj. reflexivity. }
  destruct (interleave_within store sched _ _ _ _ i _ _ E Hm (use_within sreg reg cr create ask store e use)) as (m' & E' & W).
  match type of W with within ?k _ => replace k with 0 in W by lia end.
  destruct m' as [x|id r k|p k|p b k|p b k]; cbn [within] in W; try contradiction. now exists x.
Qed.
Print Assumptions C72_goroutines_end.

(** Signets fresh from a file are not loaded.  Then opening at the same time can crash. *)
Definition bob_letter : raw_letter := raw (toy_close (lit "rcpt_v1") [] [] [toy_recipient "bob" "ECDH-X25519" 7] (lit "hello")).
Definition bob_store (id : bytes) (recipient : bool) : option nat := if bytes_eqb id (lit "bob") && negb recipient then Some 0 else None.
Definition bob_heap (loaded : bool) : heap := fun _ => if loaded then bob else mkSignet 1 (lit "bob") (lit "ECDH-X25519") (toy_key 7) false false None None PNil.
Definition bob_open : prog bytes := open_prog suite_registry tool_registry toy None None default_config hash_registry (Some []) bob_letter 0.
Definition two_readers loaded sched := snd (interleave bob_store sched (bob_heap loaded) [bob_open; bob_open]).
(* the first is stopped between the two assignments of SetLoadedKeys *)
Definition unlucky : list nat := [0; 0; 0; 0; 1; 1; 1; 1; 0; 0; 0].
Definition in_turn : list nat := [0; 0; 0; 0; 0; 0; 1; 1; 1; 1].

Theorem C72_concurrent_open_refuted :
  letter_open default_config suite_registry tool_registry hash_registry toy (world_of bob_store (bob_heap false) None None) (Some []) bob_letter 0 = Ok (lit "hello")
  /\ two_readers false in_turn = [Done (Ok (lit "hello")); Done (Ok (lit "hello"))]
  /\ two_readers false unlucky = [Done (Ok (lit "hello")); Done Panic].
Proof. split; [vm_compute; reflexivity|]. split; vm_compute; reflexivity. Qed.
Print Assumptions C72_concurrent_open_refuted.

(** With the signets loaded first the same schedule is fine. *)
Example C72_hypotheses_met :
  (forall id r p, bob_store id r = Some p -> settled tool_registry toy (bob_heap true p))
  /\ two_readers true unlucky = [Done (Ok (lit "hello")); Done (Ok (lit "hello"))].
Proof. split; [|vm_compute; reflexivity]. intros id r p _. left. discriminate. Qed.
