(** Opening a letter whose ApplyKeys flag was changed on the way. *)
From Verif Require Import Prelude Letter Tools Signets Session Core CoreWire.

Definition flag_set_to (l : letter) (b : bool) : letter :=
  mkLetter (l_version l) (l_suite l) (l_nonce l) (l_keys l) (l_data l) (l_mac l) (l_sigs l) b.
(** Not a wire session, or one that does not wait for the flag: the third handshake state of the server. *)
Definition not_awaiting (r : rt) : Prop := match r_wire r with None => True | Some w => w_state w <> HAwaitApply end.
Definition eqon {A} (m m' : M A) : Prop := forall r, not_awaiting r -> m r = m' r.

Lemma eq_refl_on {A} (m : M A) : eqon m m. Proof. now intros r _. Qed.
Lemma eq_bind {A B} (m m' : M A) (f f' : A -> M B) : eqon m m' -> (forall r, r_wire (snd (m r)) = r_wire r) -> (forall a, eqon (f a) (f' a)) -> eqon (mbind m f) (mbind m' f').
Proof.
  intros E K F r N. unfold mbind. rewrite <- (E r N). specialize (K r). destruct (m r) as [[a|e|] r1]; try reflexivity.
  apply F. unfold not_awaiting in *. cbn [snd] in K. now rewrite K.
Qed.
Lemma eq_deferred {A} f (m m' : M A) : eqon m m' -> eqon (deferred f m) (deferred f m').
Proof. intros E r N. unfold deferred. now rewrite (E r N). Qed.

Section Flag.
Variables (c : config) (cr : crypto) (s : session).

Lemma eq_wire_st {A} (g g' : wstate -> M A) : (forall w, w_state w <> HAwaitApply -> forall r, g w r = g' w r) -> eqon (mbind wire_st g) (mbind wire_st g').
Proof.
  intros H r N. unfold mbind, wire_st. unfold not_awaiting in N. destruct (r_wire r) as [w|]; [|reflexivity]. exact (H w N r).
Qed.
Lemma eq_recv l b : eqon (recv_handshake c cr s (flag_set_to l b)) (recv_handshake c cr s l).
Proof.
  unfold recv_handshake. apply eq_wire_st. intros w W r. destruct l. destruct (w_state w); try reflexivity. now destruct W.
Qed.
Lemma wb_verify_all l : wb (verify_all cr s l).
Proof. unfold verify_all, sig_at, verify. wb_auto. Qed.
Lemma eq_payload l b : eqon (open_payload c cr s (flag_set_to l b)) (open_payload c cr s l).
Proof.
  unfold open_payload. destruct (s_kdf s); [|destruct l; apply eq_refl_on].
  apply eq_bind; [apply eq_refl_on|reflexivity|intros w]. intros r N. unfold mbind at 1. unfold mbind at 3.
  assert (E : (if w then recv_handshake c cr s (flag_set_to l b) else (run _ <- opening_material c cr s (flag_set_to l b); run m <- gets r_mat; kdf_init (l_nonce (flag_set_to l b)) m)) r
            = (if w then recv_handshake c cr s l else (run _ <- opening_material c cr s l; run m <- gets r_mat; kdf_init (l_nonce l) m)) r).
  { destruct w; [exact (eq_recv l b r N)|]. destruct l. reflexivity. }
  rewrite E. clear E. destruct l. reflexivity.
Qed.
Lemma eq_signatures {A} l b (m m' : M A) : eqon m m' -> eqon (with_signatures cr s (flag_set_to l b) m) (with_signatures cr s l m').
Proof.
  intro E. unfold with_signatures, with_sig_hashers. destruct l.
  apply eq_bind; [apply eq_refl_on|reflexivity|intros _]. apply eq_deferred.
  apply eq_bind; [apply eq_refl_on|intro r; apply wb_keeps; apply wb_check|intros _].
  apply eq_bind; [apply eq_refl_on|intro r; apply wb_keeps; apply wb_verify_all|intros _]. exact E.
Qed.
Lemma eq_open l b : eqon (open_session c cr s (flag_set_to l b)) (open_session c cr s l).
Proof.
  unfold open_session.
  apply eq_bind; [destruct l; apply eq_refl_on|intro r; destruct r; reflexivity|intros _].
  apply eq_bind; [apply eq_refl_on|reflexivity|intros w].
  apply eq_bind; [destruct l; apply eq_refl_on|intro r; destruct w; [reflexivity|apply wb_keeps, wb_check]|intros _].
  destruct (nonempty (s_signers s)); [apply eq_signatures, eq_payload|apply eq_payload].
Qed.
End Flag.
