(** C22, for the two functions that start a wire session: Envelope.WireCorrespondence (the client)
    and Letter.WireCorrespondence (the server). *)
From Verif Require Import Prelude PreludeFacts Requirements Tools Crypto Letter Session SpecSession SessionFacts SessionComplete SessionProps Core Envelope Toy PropSession PropLetter.

Lemma prepare_suite sreg reg cr w e e' : fst (prepare sreg reg cr w e) = Ok e' ->
  exists su, load_suite sreg e = Ok su /\ e_suite e' = Some su.
Proof.
  unfold prepare. destruct (load_suite sreg e) as [su|x|]; [|discriminate..].
  destruct (prep_signets reg cr w (su_level su) (e_opening e) (e_secrets e)) as [[a|x|] q1]; [|discriminate..].
  destruct (prep_signets reg cr w (su_level su) (e_opening e) (e_senders e)) as [[b|x|] q2]; [|discriminate..].
  destruct (prep_signets reg cr w (su_level su) (negb (e_opening e)) (e_recipients e)) as [[d|x|] q3]; [|discriminate..].
  cbn [fst]. intro E. exists su. split; [reflexivity|]. assert (e' = set_signets e su a b d) as -> by congruence. reflexivity.
Qed.

Theorem C22_wire_correspondence : forall c sreg reg hreg cr w e s,
  wire_correspondence c sreg reg hreg cr w e = Ok s ->
  exists su, load_suite sreg e = Ok su
  /\ delivers reg su (s_env s) Confidentiality /\ delivers reg su (s_env s) Integrity /\ delivers reg su (s_env s) RecipientAuthentication
  /\ (forall t, suite_tool reg su t -> t_purpose t <> PPassDerivation /\ t_purpose t <> PSigning)
  /\ ~ has_key_secret (s_env s)
  /\ (exists t, suite_tool reg su t /\ (t_purpose t = PKeyExchange \/ t_purpose t = PKeyEncapsulation)).
Proof.
  intros c sreg reg hreg cr w e s H. unfold wire_correspondence, correspondence in H.
  apply bind_ok in H as (s1 & H & H2). apply bind_ok in H2 as (u & Hi & H2). assert (s1 = s) as -> by congruence.
  apply bind_ok in H as (e' & He & H). destruct (prepare_suite _ _ _ _ _ _ He) as (su & Hsu & Esu). exists su. split; [exact Hsu|].
  destruct u. pose proof H as H0. apply new_session_ok in H0 as (su' & _ & O). rewrite (sh_env _ _ _ (so_shape _ _ _ _ _ _ _ O)).
  exact (C22_wire_protection c reg hreg cr e' s su H Hi Esu).
Qed.
Print Assumptions C22_wire_correspondence.

(** The server's side: made from the first letter, with the suite that letter names. *)
Theorem C22_letter_wire : forall c sreg reg hreg cr w r s,
  letter_wire c sreg reg hreg cr w r = Ok s ->
  exists su, get_suite sreg (l_suite (rw_letter r)) = Some su
  /\ (forall a, In a [Confidentiality; Integrity; RecipientAuthentication] -> In a (su_provides su))
  /\ delivers reg su (s_env s) Confidentiality /\ delivers reg su (s_env s) Integrity /\ delivers reg su (s_env s) RecipientAuthentication
  /\ (forall t, suite_tool reg su t -> t_purpose t <> PPassDerivation /\ t_purpose t <> PSigning)
  /\ ~ has_key_secret (s_env s)
  /\ (exists t, suite_tool reg su t /\ (t_purpose t = PKeyExchange \/ t_purpose t = PKeyEncapsulation)).
Proof.
  intros c sreg reg hreg cr w r s H. unfold letter_wire in H. apply bind_ok in H as (e & He & H).
  destruct (C22_wire_correspondence _ _ _ _ _ _ _ _ H) as (su & Hsu & R). exists su.
  cut (get_suite sreg (l_suite (rw_letter r)) = Some su /\ (forall a, In a [Confidentiality; Integrity; RecipientAuthentication] -> In a (su_provides su))).
  { intros [G1 G2]. split; [exact G1|]. split; [exact G2|exact R]. }
  unfold letter_envelope in He. apply bind_ok in He as (u1 & _ & He). apply bind_ok in He as (u2 & _ & He).
  apply bind_ok in He as (su' & Hg & He). apply bind_ok in He as (u3 & Hr & He).
  destruct (existsb is_none (rw_keys r) || existsb is_none (rw_sigs r)); [discriminate|].
  match type of He with Ok ?x = Ok _ => assert (x = e) as <- by congruence end.
  unfold load_suite in Hsu. cbn [e_suite] in Hsu. assert (su' = su) as <- by congruence.
  split; [|intros a Ha; apply req_check_ok in Hr; apply Hr; cbn [In] in Ha; vm_compute; destruct Ha as [<-|[<-|[<-|[]]]]; tauto].
  destruct (get_suite sreg (l_suite (rw_letter r))); cbn [of_option] in Hg; congruence.
Qed.
Print Assumptions C22_letter_wire.

(** A client with a wire suite gets a session and its first letter gives the server one; with other suites there is none. *)
Definition wire_client (suite : bytes) : outcome session :=
  wire_correspondence default_config suite_registry tool_registry hash_registry toy (toy_world [toy_recipient "srv" "ECDH-X25519" 7])
    (toy_env (suite_named suite) [] [] [toy_recipient "srv" "ECDH-X25519" 7]).
Definition first_letter (suite : bytes) : raw_letter := raw (toy_close suite [] [] [toy_recipient "srv" "ECDH-X25519" 7] (lit "hi")).
Definition wire_server (suite : bytes) : outcome session :=
  letter_wire default_config suite_registry tool_registry hash_registry toy (toy_world [toy_signet "srv" "ECDH-X25519" 7]) (first_letter suite).
Example C22_starts_met :
  (exists s, wire_client (lit "w2") = Ok s) /\ (exists s, wire_server (lit "w2") = Ok s)
  /\ (exists x, wire_client (lit "v2") = Err x).
Proof. split; [eexists; vm_compute; reflexivity|]. split; eexists; vm_compute; reflexivity. Qed.
