(** C05: what the receiver makes of a flipped ApplyKeys flag. *)
From Coq Require Import Init.Byte.
From Verif Require Import WireLive SpecCore SpecWire SessionProps PropSession Toy PropWire Core CoreWire ApplyFlag.

(** Outside of wire sessions, and in a wire session that does not wait for new keys to be applied, the flag means nothing:
    the same outcome and the same state afterwards, for every letter.  Verify never looks at it. *)
Theorem C05_flag_without_effect : forall c cr s r l b,
  (r_wire r = None \/ exists w, r_wire r = Some w /\ w_state w <> HAwaitApply) ->
  open_session c cr s (mkLetter (l_version l) (l_suite l) (l_nonce l) (l_keys l) (l_data l) (l_mac l) (l_sigs l) b) r = open_session c cr s l r.
Proof.
  intros c cr s r l b H. apply (eq_open c cr s l b r). unfold not_awaiting. destruct H as [->|(w & -> & N)]; [exact I|exact N].
Qed.
Theorem C05_flag_not_verified : forall cr s r l b,
  verify_session cr s (mkLetter (l_version l) (l_suite l) (l_nonce l) (l_keys l) (l_data l) (l_mac l) (l_sigs l) b) r = verify_session cr s l r.
Proof. intros cr s r [] b. reflexivity. Qed.

Definition flipped (l : letter) : letter := mkLetter (l_version l) (l_suite l) (l_nonce l) (l_keys l) (l_data l) (l_mac l) (l_sigs l) (negb (l_apply l)).
Definition damaged (l : letter) : letter := mkLetter (l_version l) (l_suite l) (l_nonce l) (l_keys l) (lit "zz") (l_mac l) (l_sigs l) (l_apply l).
(** The client closes "a", "b" and "d" before it hears of the server; the server opens "a", answers, and gets the others. *)
Definition flag_run : bool :=
  let c := default_config in
  match new_session c tool_registry hash_registry toy wire_client, new_session c tool_registry hash_registry toy wire_server with
  | Ok s1, Ok s2 =>
      match close_session c toy s1 true (lit "a") (rt_start 3 (Some (wire_start false))) with
      | (Ok l1, c1) =>
      match close_session c toy s1 true (lit "b") c1 with
      | (Ok l2, c2) =>
      match close_session c toy s1 true (lit "d") c2 with
      | (Ok l3, _) =>
      match open_session c toy s2 l1 (rt_start 5 (Some (wire_start true))) with
      | (Ok a, v1) =>
      match close_session c toy s2 true (lit "x") v1 with
      | (Ok lx, v2) =>
          is_tt (init_wire s1) && is_tt (init_wire s2) && bytes_eqb a (lit "a")
          && match open_session c toy s2 l2 v2 with (Ok b, v3) => bytes_eqb b (lit "b") && match fst (open_session c toy s2 l3 v3) with Ok d => bytes_eqb d (lit "d") | _ => false end | _ => false end
          && match open_session c toy s2 (damaged l2) v2 with (Err _, v3) => match fst (open_session c toy s2 l3 v3) with Ok d => bytes_eqb d (lit "d") | _ => false end | _ => false end
          && match open_session c toy s2 (flipped l2) v2 with (Err _, v3) => match fst (open_session c toy s2 l3 v3) with Err _ => true | _ => false end | _ => false end
      | _ => false end
      | _ => false end
      | _ => false end
      | _ => false end
      | _ => false end
  | _, _ => false
  end.
Lemma flag_runs : flag_run = true.
Proof. vm_compute. reflexivity. Qed.

(** In a wire session that does wait, the flag is decisive, and it costs more than any damage to the data: the letter with
    the damaged data is refused and the next genuine one opens; the letter with the flipped flag is refused as well, but
    then the next genuine one is refused too. *)
Theorem C05_flipped_flag_ends_the_session : exists s1 s2 l1 l2 l3 lx c1 c2 c3 v1 v2 v3 v4 v5 v6 err1 err2 err3,
  new_session default_config tool_registry hash_registry toy wire_client = Ok s1 /\ init_wire s1 = Ok tt
  /\ new_session default_config tool_registry hash_registry toy wire_server = Ok s2 /\ init_wire s2 = Ok tt
  /\ close_session default_config toy s1 true (lit "a") (rt_start 3 (Some (wire_start false))) = (Ok l1, c1)
  /\ close_session default_config toy s1 true (lit "b") c1 = (Ok l2, c2)
  /\ close_session default_config toy s1 true (lit "d") c2 = (Ok l3, c3)
  /\ open_session default_config toy s2 l1 (rt_start 5 (Some (wire_start true))) = (Ok (lit "a"), v1)
  /\ close_session default_config toy s2 true (lit "x") v1 = (Ok lx, v2)
  /\ open_session default_config toy s2 l2 v2 = (Ok (lit "b"), v3) /\ fst (open_session default_config toy s2 l3 v3) = Ok (lit "d")
  /\ open_session default_config toy s2 (damaged l2) v2 = (Err err1, v4) /\ open_session default_config toy s2 l3 v4 = (Ok (lit "d"), v5)
  /\ open_session default_config toy s2 (flipped l2) v2 = (Err err2, v6) /\ fst (open_session default_config toy s2 l3 v6) = Err err3.
Proof.
  pose proof flag_runs as R. unfold flag_run in R. set (c := default_config) in *.
  destruct (new_session c tool_registry hash_registry toy wire_client) as [s1| |] eqn:N1; [|discriminate..].
  destruct (new_session c tool_registry hash_registry toy wire_server) as [s2| |] eqn:N2; [|discriminate..].
  destruct (close_session c toy s1 true (lit "a") (rt_start 3 (Some (wire_start false)))) as [[l1| |] c1] eqn:E1; [|discriminate..].
  destruct (close_session c toy s1 true (lit "b") c1) as [[l2| |] c2] eqn:E2; [|discriminate..].
  destruct (close_session c toy s1 true (lit "d") c2) as [[l3| |] c3] eqn:E3; [|discriminate..].
  destruct (open_session c toy s2 l1 (rt_start 5 (Some (wire_start true)))) as [[a| |] v1] eqn:O1; [|discriminate..].
  destruct (close_session c toy s2 true (lit "x") v1) as [[lx| |] v2] eqn:E4; [|discriminate..].
  apply andb_true_iff in R as [R R6]. apply andb_true_iff in R as [R R5]. apply andb_true_iff in R as [R R4].
  apply andb_true_iff in R as [R R3]. apply andb_true_iff in R as [R1 R2]. apply bytes_eqb_eq in R3. subst a.
  destruct (open_session c toy s2 l2 v2) as [[b| |] v3] eqn:O2; [|discriminate R4..].
  apply andb_true_iff in R4 as [R4 R7]. apply bytes_eqb_eq in R4. subst b.
  destruct (fst (open_session c toy s2 l3 v3)) as [d| |] eqn:O3; [|discriminate R7..]. apply bytes_eqb_eq in R7. subst d.
  destruct (open_session c toy s2 (damaged l2) v2) as [[|err1|] v4] eqn:O4; [discriminate R5| |discriminate R5].
  destruct (open_session c toy s2 l3 v4) as [[d| |] v5] eqn:O5; cbn [fst] in R5; [|discriminate R5..]. apply bytes_eqb_eq in R5. subst d.
  destruct (open_session c toy s2 (flipped l2) v2) as [[|err2|] v6] eqn:O6; [discriminate R6| |discriminate R6].
  destruct (fst (open_session c toy s2 l3 v6)) as [|err3|] eqn:O7; [discriminate R6| |discriminate R6].
  exists s1, s2, l1, l2, l3, lx, c1, c2, c3, v1, v2, v3, v4, v5, v6, err1, err2, err3.
  split; [reflexivity|]. split; [destruct (init_wire s1) as [[]| |]; [reflexivity|discriminate R1..]|]. split; [reflexivity|].
  split; [destruct (init_wire s2) as [[]| |]; [reflexivity|discriminate R2..]|]. split; [exact E1|]. split; [exact E2|]. split; [exact E3|].
  split; [exact O1|]. split; [exact E4|]. split; [exact O2|]. split; [exact O3|]. split; [exact O4|]. split; [exact O5|]. split; [exact O6|exact O7].
Qed.

(** The hypothesis of [C05_flag_without_effect] is met with a wire session: the server before the first letter. *)
Example C05_not_waiting_met : exists w, r_wire (rt_start 5 (Some (wire_start true))) = Some w /\ w_state w <> HAwaitApply.
Proof. exists (wire_start true). split; [reflexivity|discriminate]. Qed.
Print Assumptions C05_flag_without_effect.
Print Assumptions C05_flipped_flag_ends_the_session.
