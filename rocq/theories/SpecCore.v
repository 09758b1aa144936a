(** Specification vocabulary for closing, opening and verifying (no proofs). *)
From Verif Require Import Prelude Tools Crypto Letter Session Core.

(** Requests to a session, and what the caller sees: the result and the bytes of the
    data buffer that was handed in. *)
Inductive request := QClose (full : bool) (data : bytes) | QOpen (l : letter) | QVerify (l : letter).
Inductive answer :=
| ALetter (x : outcome letter) (buf : bytes)
| AData (x : outcome bytes) (buf : bytes)
| ADone (x : outcome unit) (buf : bytes).

Definition serve (c : config) (cr : crypto) (s : session) (q : request) (r : rt) : answer * rt :=
  match q with
  | QClose full data => let (x, r') := close_session c cr s full data r in (ALetter x (r_buf r'), r')
  | QOpen l => let (x, r') := open_session c cr s l r in (AData x (r_buf r'), r')
  | QVerify l => let (x, r') := verify_session cr s l r in (ADone x (r_buf r'), r')
  end.

(** The session after a history of requests, whatever became of them. *)
Fixpoint after (c : config) (cr : crypto) (s : session) (qs : list request) (r : rt) : rt :=
  match qs with [] => r | q :: qs' => after c cr s qs' (snd (serve c cr s q r)) end.

(** The same secret on both sides. *)
Definition same_secret (a b : signet) : Prop := sg_scheme a = sg_scheme b /\ sg_key a = sg_key b.
(** The public half [a] and a signet [b] with the private key, of one key pair. *)
Definition key_pair (cr : crypto) (a b : signet) : Prop :=
  sg_scheme a = sg_scheme b /\ exists p k, sg_pub a = Some p /\ sg_priv b = PKey k /\ pair_ok cr (sg_scheme a) p k.

(** The opener's envelope [e2] belongs to the closer's envelope [e1]: the same suite, the
    same secrets, the private keys of the recipients, the public keys of the senders. *)
Definition counterpart (cr : crypto) (e1 e2 : envelope) : Prop :=
  e_suite e1 = e_suite e2
  /\ Forall2 same_secret (e_secrets e1) (e_secrets e2)
  /\ Forall2 (key_pair cr) (e_recipients e1) (e_recipients e2)
  /\ Forall2 (fun a b => key_pair cr b a) (e_senders e1) (e_senders e2).
