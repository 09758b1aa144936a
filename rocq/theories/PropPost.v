(** C54: letters between trust stores. *)
From Coq Require Import Init.Byte.
From Verif Require Import PreludeFacts Container Letter Requirements Tools Crypto Session Core Envelope CoreTrip Toy PropCodec PropTrip PropLetter SpecPost Post.

(** Who writes with any trust store, for a reader who has the counterparts of the keys: Letter.Open gives the data
    back, for every registered suite, all data and both values of the letter's [full] flag. *)
Theorem C54_open : forall c cr w1 w2 e su s full data d1 d2 l r required,
  crypto_laws cr -> writable c e su ->
  correspondence c suite_registry tool_registry hash_registry cr w1 e = Ok s ->
  reader cr w2 (s_env s) ->
  close_session c cr s full data (rt_start d1 None) = (Ok l, r) ->
  incl (wanted required) (su_provides su) ->
  letter_open c suite_registry tool_registry hash_registry cr w2 required (raw l) d2 = Ok data.
Proof.
  intros c cr w1 w2 e su s full data d1 d2 l r required LW W CO RD CL RQ.
  destruct (post _ _ _ _ _ _ _ _ _ _ d2 _ _ _ LW W CO RD CL RQ) as (s2 & E & _ & O).
  unfold letter_open. destruct (letter_envelope _ _ _) as [e2| |]; cbn [bind] in *; [|discriminate..].
  rewrite E. cbn [bind]. now rewrite complete_raw.
Qed.
Print Assumptions C54_open.

(** If somebody signed, Letter.Verify succeeds as well. *)
Theorem C54_verify : forall c cr w1 w2 e su s full data d1 d2 l r required,
  crypto_laws cr -> writable c e su ->
  correspondence c suite_registry tool_registry hash_registry cr w1 e = Ok s ->
  reader cr w2 (s_env s) ->
  close_session c cr s full data (rt_start d1 None) = (Ok l, r) ->
  incl (wanted required) (su_provides su) ->
  e_senders e <> [] ->
  letter_verify c suite_registry tool_registry hash_registry cr w2 required (raw l) d2 = Ok tt.
Proof.
  intros c cr w1 w2 e su s full data d1 d2 l r required LW W CO RD CL RQ NE.
  destruct (post _ _ _ _ _ _ _ _ _ _ d2 _ _ _ LW W CO RD CL RQ) as (s2 & E & SG & O).
  assert (NE2 : e_senders (s_env s) <> []).
  { revert CO. unfold correspondence, prepare. destruct (load_suite suite_registry e) as [u| |]; [|discriminate..].
    destruct (prep_signets _ _ _ _ _ (e_secrets e)) as [[a| |] q1]; [|discriminate..].
    destruct (prep_signets _ _ _ _ _ (e_senders e)) as [[b| |] q2] eqn:PB; [|discriminate..].
    destruct (prep_signets _ _ _ _ _ (e_recipients e)) as [[x| |] q3]; [|discriminate..].
    cbn [fst bind]. intro CO. apply session_env in CO. rewrite CO. cbn [set_signets e_senders].
    destruct (e_senders e) as [|sg senders]; [easy|]. clear -PB. intros ->.
    rewrite prep_cons in PB. destruct (prep_one _ _ _ _ _) as [[y z] t].
    destruct y; [|discriminate..]. destruct (prep_signets _ _ _ _ _ _) as [[m| |] q]; cbn in PB; discriminate. }
  unfold letter_verify. destruct (letter_envelope _ _ _) as [e2| |]; cbn [bind] in *; [|discriminate..].
  rewrite E. cbn [bind]. rewrite complete_raw. eapply open_then_verify; [exact (SG NE2)|exact O].
Qed.
Print Assumptions C54_verify.

(** The same through the letter's file format (and any codec of its header that returns what it wrote). *)
Theorem C54_file : forall c cr w1 w2 e su s full data d1 d2 l r required dump load wr,
  crypto_laws cr -> writable c e su ->
  correspondence c suite_registry tool_registry hash_registry cr w1 e = Ok s ->
  reader cr w2 (s_env s) ->
  close_session c cr s full data (rt_start d1 None) = (Ok l, r) ->
  incl (wanted required) (su_provides su) ->
  (forall l0 h, dump l0 = Ok h -> load (h ++ [x0a]) = Ok l0 /\ fits (h ++ [x0a])) -> fits (l_data l) ->
  forall text, fst (to_file_format dump l) = Ok text ->
  exists l', letter_from_file_format wr load text = Ok l'
    /\ letter_open c suite_registry tool_registry hash_registry cr w2 required (raw l') d2 = Ok data.
Proof.
  intros c cr w1 w2 e su s full data d1 d2 l r required dump load wr LW W CO RD CL RQ DL FT text T.
  exists l. split; [|eapply C54_open; eassumption].
  eapply C03_file_round_trip; [exact DL|exact FT|exact T].
Qed.
Print Assumptions C54_file.

(** ** Every registered suite has such a case *)
Definition reference (sg : signet) : signet := mkSignet (sg_version sg) (sg_id sg) (sg_scheme sg) [] false false None None PNil.
Definition post_env (su : suite) : envelope :=
  let e := demo_env su in
  mkEnvelope 1 [] (su_id su) None (map reference (e_secrets e)) (map reference (e_senders e)) (map reference (e_recipients e)) 0 false.
Definition to_public (sg : signet) : signet :=
  mkSignet (sg_version sg) (sg_id sg) (sg_scheme sg) (sg_key sg) true false None None PNil.
Definition ask_password (sg : signet) : outcome signet := Ok (mkSignet 1 (sg_id sg) scheme_pw (repeat x42 32) false false None None PNil).
(** The writer has private sender keys and public recipient keys, the reader the opposite; both know the secrets. *)
Definition writer_world (su : suite) : world :=
  let e := demo_env su in
  mkWorld (Some (toy_store (map stored (e_secrets e) ++ map stored (e_senders e) ++ map to_public (e_recipients e))))
    (Some (fun sg _ => ask_password sg)) None.
Definition reader_world (su : suite) : world :=
  let e := demo_env su in
  mkWorld (Some (toy_store (map stored (e_secrets e) ++ map to_public (e_senders e) ++ map stored (e_recipients e))))
    None (Some ask_password).
Definition travels (su : suite) : Prop :=
  exists s l r,
    writable default_config (post_env su) su
    /\ correspondence default_config suite_registry tool_registry hash_registry toy (writer_world su) (post_env su) = Ok s
    /\ reader toy (reader_world su) (s_env s)
    /\ close_session default_config toy s false (lit "hello") (rt_start 3 None) = (Ok l, r)
    /\ letter_open default_config suite_registry tool_registry hash_registry toy (reader_world su) (Some (su_provides su)) (raw l) 7 = Ok (lit "hello").

Local Ltac found := eexists; split; [reflexivity|]; split; [vm_compute; reflexivity|reflexivity].
Local Ltac each := let sg := fresh in let H := fresh in intros sg H; vm_compute in H; repeat (destruct H as [<-|H]); [..|destruct H].
Local Ltac one :=
  unfold travels; eexists _, _, _; split; [split; [vm_compute; reflexivity|now left|reflexivity|let X := fresh in intro X; exact (False_ind _ (Z.lt_irrefl _ X))]|];
  split; [vm_compute; reflexivity|]; split; [|split; [vm_compute; reflexivity|vm_compute; reflexivity]]; cbn [s_env]; split;
  [ each; discriminate
  | first [left; vm_compute; repeat constructor; fail|right; vm_compute; repeat constructor; fail]
  | each; first [let X := fresh in intro X; discriminate X|intros _; eexists; split; [found|split; reflexivity]]
  | each; first [let X := fresh in intro X; discriminate X|intros _; exists ask_password; split; [reflexivity|]; intros ? ?; eexists; split; [reflexivity|split; [reflexivity|reflexivity]]]
  | each; eexists _, _, _, _; (split; [found|]; split; [reflexivity|]; split; [reflexivity|]; split; [right; split; [reflexivity|vm_compute; reflexivity]|]; apply (toy_pair _ 6))
  | each; eexists _, _, _, _; (split; [found|]; split; [reflexivity|]; split; [reflexivity|]; split; [right; split; [reflexivity|vm_compute; reflexivity]|]; apply (toy_pair _ 5)) ].
Example C54_hypotheses_met : Forall travels suite_registry.
Proof.
  unfold suite_registry.
  repeat (apply Forall_cons; [abstract one|]). apply Forall_nil.
Qed.

(** ** Why each condition is there *)

(** With a key and a password, the reader who has both is not asked for the password, and cannot open the letter. *)
Definition mixed_env : envelope :=
  mkEnvelope 1 [] (lit "pw_v1") None [reference (toy_secret "k"); reference (toy_password "p")] [] [] 0 false.
Definition mixed_world : world :=
  mkWorld (Some (toy_store [stored (toy_secret "k")])) (Some (fun sg _ => ask_password sg)) (Some ask_password).
Definition mixed_reader : world := mkWorld (w_signet mixed_world) None (w_get mixed_world).
Theorem C54_mixed_refuted : exists su s l r,
  writable default_config mixed_env su
  /\ correspondence default_config suite_registry tool_registry hash_registry toy mixed_world mixed_env = Ok s
  /\ (forall sg, In sg (e_secrets (s_env s)) -> sg_scheme sg = scheme_key ->
        exists n, holds mixed_reader (sg_id sg) false n /\ sg_scheme n = scheme_key /\ sg_key n = sg_key sg)
  /\ (forall sg, In sg (e_secrets (s_env s)) -> sg_scheme sg = scheme_pw -> remembers mixed_reader (sg_id sg) (sg_key sg))
  /\ close_session default_config toy s false (lit "hello") (rt_start 3 None) = (Ok l, r)
  /\ exists er, letter_open default_config suite_registry tool_registry hash_registry toy mixed_reader (Some (su_provides su)) (raw l) 7 = Err er.
Proof.
  exists (suite_named (lit "pw_v1")). eexists _, _, _.
  split; [split; [vm_compute; reflexivity|now left|reflexivity|intro X; exact (False_ind _ (Z.lt_irrefl _ X))]|].
  split; [vm_compute; reflexivity|]. split; [|split; [|split; [vm_compute; reflexivity|eexists; vm_compute; reflexivity]]]; cbn [s_env].
  - each; first [let X := fresh in intro X; discriminate X|intros _; eexists; split; [found|split; reflexivity]].
  - each; first [let X := fresh in intro X; discriminate X|intros _; exists ask_password; split; [reflexivity|]; intros ? ?; eexists; split; [reflexivity|split; [reflexivity|reflexivity]]].
Qed.
Print Assumptions C54_mixed_refuted.

(** An envelope that lowers the security level below the default can be closed, but Letter.Open has no such setting:
    nobody can open the letter. *)
Definition low_suite_env (level : Z) : envelope :=
  mkEnvelope 1 [] (lit "key_v1") None [mkSignet 1 (lit "k") scheme_key (repeat x41 14) false false None None PNil] [] [] level false.
Theorem C54_level_refuted : exists s l r w,
  correspondence default_config suite_registry tool_registry hash_registry toy w (low_suite_env 112) = Ok s
  /\ close_session default_config toy s false (lit "hello") (rt_start 3 None) = (Ok l, r)
  /\ reader toy w (s_env s)
  /\ exists er, letter_open default_config suite_registry tool_registry hash_registry toy w (Some []) (raw l) 7 = Err er.
Proof.
  pose (w := mkWorld (Some (toy_store [mkSignet 1 (lit "k") scheme_key (repeat x41 14) false false None None PNil])) None None).
  eexists _, _, _, w. split; [vm_compute; reflexivity|]. split; [vm_compute; reflexivity|]. split; [|eexists; vm_compute; reflexivity].
  cbn [s_env]; split.
  - each; discriminate.
  - left; vm_compute; repeat constructor.
  - each; intros _; eexists; split; [found|split; reflexivity].
  - each; let X := fresh in intro X; discriminate X.
  - each.
  - each.
Qed.
Print Assumptions C54_level_refuted.
