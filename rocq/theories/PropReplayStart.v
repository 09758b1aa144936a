(** C80: a server that starts a new wire session accepts the beginning of an old one again. *)
From Coq Require Import Init.Byte.
From Verif Require Import WireLive SpecCore SpecWire SessionProps PropSession CoreState Toy PropWire Core CoreWire.

(** What a wire session that was just started makes of letters, one after the other. *)
Fixpoint opened c cr s (ls : list letter) (r : rt) : list (outcome bytes) :=
  match ls with
  | [] => []
  | l :: ls' => let (o, r') := open_session c cr s l r in o :: opened c cr s ls' r'
  end.

(** Whatever the letters are, in whatever order and number: each session of the same keys makes the same of them, since
    nothing that a session draws enters what it opens before it has answered. *)
Theorem C80_same_for_every_session : forall c cr s server ls n m,
  opened c cr s ls (rt_start n (Some (wire_start server))) = opened c cr s ls (rt_start m (Some (wire_start server))).
Proof.
  intros c cr s server ls n m.
  change (rt_start m (Some (wire_start server))) with (set_draw (rt_start n (Some (wire_start server))) m).
  generalize (rt_start n (Some (wire_start server))). intro r. revert r. induction ls as [|l ls IH]; intro r; [reflexivity|]. cbn [opened].
  pose proof (nodraw_open c cr s l r m) as E. destruct (open_session c cr s l r) as [o r']. rewrite E. cbn [fst snd]. f_equal. apply IH.
Qed.

Definition replay_run : bool :=
  let c := default_config in
  match new_session c tool_registry hash_registry toy wire_client, new_session c tool_registry hash_registry toy wire_server with
  | Ok s1, Ok s2 =>
      match close_session c toy s1 true (lit "a") (rt_start 3 (Some (wire_start false))) with
      | (Ok l1, c1) =>
      match close_session c toy s1 true (lit "b") c1 with
      | (Ok l2, c2) =>
      match open_session c toy s2 l1 (rt_start 5 (Some (wire_start true))) with
      | (Ok a, v1) =>
      match close_session c toy s2 true (lit "x") v1 with
      | (Ok lx, v2) =>
      match open_session c toy s2 l2 v2 with
      | (Ok b, v3) =>
      match open_session c toy s1 lx c2 with
      | (Ok x, c3) =>
      match close_session c toy s1 true (lit "d") c3 with
      | (Ok l3, _) =>
      match open_session c toy s2 l3 v3 with
      | (Ok d, _) =>
          is_tt (init_wire s1) && is_tt (init_wire s2) && bytes_eqb a (lit "a") && bytes_eqb b (lit "b") && bytes_eqb x (lit "x") && bytes_eqb d (lit "d")
          && match open_session c toy s2 l1 (rt_start 95 (Some (wire_start true))) with
             | (Ok a, q1) => match close_session c toy s2 true (lit "x") q1 with
                             | (Ok _, q2) => match open_session c toy s2 l2 q2 with
                                             | (Ok b, q3) => bytes_eqb a (lit "a") && bytes_eqb b (lit "b") && match fst (open_session c toy s2 l3 q3) with Err _ => true | _ => false end
                                             | _ => false end
                             | _ => false end
             | _ => false end
      | _ => false end | _ => false end | _ => false end | _ => false end | _ => false end | _ => false end | _ => false end | _ => false end
  | _, _ => false
  end.
Lemma replay_runs : replay_run = true.
Proof. vm_compute. reflexivity. Qed.

(** In particular, if a server opened the letters of a client up to its first answer, every other new session of the server
    opens the same letters to the same data, when anybody sends them again. *)
Theorem C80_beginning_opens_again : forall c cr s ls datas n m,
  opened c cr s ls (rt_start n (Some (wire_start true))) = map Ok datas ->
  opened c cr s ls (rt_start m (Some (wire_start true))) = map Ok datas.
Proof. intros c cr s ls datas n m H. rewrite <- H. apply C80_same_for_every_session. Qed.

(** The hypotheses are met; and this ends with the keys of the server: a client sends "a" and "b", the server opens "a",
    answers, opens "b", and the client, having opened the answer, sends "d", which the server opens.  Another session of the
    server opens "a" and, after it has answered on its own, also "b"; it refuses "d". *)
Theorem C80_replay_ends_with_the_servers_keys : exists s1 s2 l1 l2 l3 lx ly c1 c2 c3 c4 v1 v2 v3 v4 q1 q2 q3 err,
  new_session default_config tool_registry hash_registry toy wire_client = Ok s1 /\ init_wire s1 = Ok tt
  /\ new_session default_config tool_registry hash_registry toy wire_server = Ok s2 /\ init_wire s2 = Ok tt
  /\ close_session default_config toy s1 true (lit "a") (rt_start 3 (Some (wire_start false))) = (Ok l1, c1)
  /\ close_session default_config toy s1 true (lit "b") c1 = (Ok l2, c2)
  /\ open_session default_config toy s2 l1 (rt_start 5 (Some (wire_start true))) = (Ok (lit "a"), v1)
  /\ close_session default_config toy s2 true (lit "x") v1 = (Ok lx, v2)
  /\ open_session default_config toy s2 l2 v2 = (Ok (lit "b"), v3)
  /\ open_session default_config toy s1 lx c2 = (Ok (lit "x"), c3)
  /\ close_session default_config toy s1 true (lit "d") c3 = (Ok l3, c4)
  /\ open_session default_config toy s2 l3 v3 = (Ok (lit "d"), v4)
  /\ open_session default_config toy s2 l1 (rt_start 95 (Some (wire_start true))) = (Ok (lit "a"), q1)
  /\ close_session default_config toy s2 true (lit "x") q1 = (Ok ly, q2)
  /\ open_session default_config toy s2 l2 q2 = (Ok (lit "b"), q3)
  /\ fst (open_session default_config toy s2 l3 q3) = Err err.
Proof.
  pose proof replay_runs as R. unfold replay_run in R. set (c := default_config) in *.
  destruct (new_session c tool_registry hash_registry toy wire_client) as [s1| |] eqn:N1; [|discriminate..].
  destruct (new_session c tool_registry hash_registry toy wire_server) as [s2| |] eqn:N2; [|discriminate..].
  destruct (close_session c toy s1 true (lit "a") (rt_start 3 (Some (wire_start false)))) as [[l1| |] c1] eqn:E1; [|discriminate..].
  destruct (close_session c toy s1 true (lit "b") c1) as [[l2| |] c2] eqn:E2; [|discriminate..].
  destruct (open_session c toy s2 l1 (rt_start 5 (Some (wire_start true)))) as [[a| |] v1] eqn:O1; [|discriminate..].
  destruct (close_session c toy s2 true (lit "x") v1) as [[lx| |] v2] eqn:E3; [|discriminate..].
  destruct (open_session c toy s2 l2 v2) as [[b| |] v3] eqn:O2; [|discriminate..].
  destruct (open_session c toy s1 lx c2) as [[x| |] c3] eqn:O3; [|discriminate..].
  destruct (close_session c toy s1 true (lit "d") c3) as [[l3| |] c4] eqn:E4; [|discriminate..].
  destruct (open_session c toy s2 l3 v3) as [[d| |] v4] eqn:O4; [|discriminate..].
  apply andb_true_iff in R as [R R7]. apply andb_true_iff in R as [R R6]. apply andb_true_iff in R as [R R5]. apply andb_true_iff in R as [R R4].
  apply andb_true_iff in R as [R R3]. apply andb_true_iff in R as [R1 R2]. apply bytes_eqb_eq in R3, R4, R5, R6. subst a b x d.
  destruct (open_session c toy s2 l1 (rt_start 95 (Some (wire_start true)))) as [[a| |] q1] eqn:O5; [|discriminate R7..].
  destruct (close_session c toy s2 true (lit "x") q1) as [[ly| |] q2] eqn:E5; [|discriminate R7..].
  destruct (open_session c toy s2 l2 q2) as [[b| |] q3] eqn:O6; [|discriminate R7..].
  apply andb_true_iff in R7 as [R7 R8]. apply andb_true_iff in R7 as [R7 R9]. apply bytes_eqb_eq in R7, R9. subst a b.
  destruct (fst (open_session c toy s2 l3 q3)) as [|err|] eqn:O7; [discriminate R8| |discriminate R8].
  exists s1, s2, l1, l2, l3, lx, ly, c1, c2, c3, c4, v1, v2, v3, v4, q1, q2, q3, err.
  split; [reflexivity|]. split; [destruct (init_wire s1) as [[]| |]; [reflexivity|discriminate R1..]|]. split; [reflexivity|].
  split; [destruct (init_wire s2) as [[]| |]; [reflexivity|discriminate R2..]|].
  split; [exact E1|]. split; [exact E2|]. split; [exact O1|]. split; [exact E3|]. split; [exact O2|]. split; [exact O3|]. split; [exact E4|].
  split; [exact O4|]. split; [exact O5|]. split; [exact E5|]. split; [exact O6|exact O7].
Qed.
Print Assumptions C80_same_for_every_session.
Print Assumptions C80_replay_ends_with_the_servers_keys.
