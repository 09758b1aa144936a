(** Specification vocabulary for C71: what somebody who opens a letter takes the key material
    from (no proofs). *)
From Verif Require Import Prelude Letter Tools Crypto Session Core Envelope SpecSession.

(** [m] is the key material the opener gets for [sg], the [n]-th of the parties of the letter:
    the shared key itself, what the password gives, or what the opener's own private key makes of the [n]-th seal of the letter. *)
Inductive obtains (c : config) (cr : crypto) (s : session) (l : letter) (n : nat) (sg : signet) : bytes -> Prop :=
| ob_key : sg_scheme sg = scheme_key -> obtains c cr s l n sg (sg_key sg)
| ob_pw i m : sg_scheme sg = scheme_pw -> s_pass s = Some i -> sg_key sg <> [] ->
    cr_pwd cr (i_name i) (sg_key sg) (l_nonce l) (helper_dks c s) = Some m ->
    obtains c cr s l n sg m
| ob_kx i priv v pub x : In i (s_kx s) -> sg_scheme sg = i_name i -> sg_priv sg = PKey priv ->
    nth_error (l_keys l) n = Some v -> cr_load cr (i_name i) (seal_value v) true = Ok (pub, x) ->
    obtains c cr s l n sg (cr_shared cr (i_name i) priv pub)
| ob_ke i priv v m : In i (s_ke s) -> sg_scheme sg = i_name i -> sg_priv sg = PKey priv ->
    nth_error (l_keys l) n = Some v -> cr_unwrap cr (i_name i) (i_arg i) priv (seal_value v) = Some m ->
    obtains c cr s l n sg m.

(** The user answers with [n] when asked for the password with this ID (a letter that also has
    a shared key makes Open ask for a new password, C18). *)
Definition answered (w : world) (id : bytes) (n : signet) : Prop :=
  exists sg, sg_id sg = id
    /\ ((exists f, w_get w = Some f /\ f sg = Ok n) \/ (exists f level, w_create w = Some f /\ f sg level = Ok n)).

(** The reader holds the key that a seal in the letter's key list asks for: the shared key or
    the private key of a key exchange (or encapsulation) tool of the suite in the trust store,
    or the password. *)
Inductive key_held (cr : crypto) (w : world) (su : suite) (v : seal) : Prop :=
| kh_key g n : seal_scheme v = scheme_key -> w_signet w = Some g -> g (seal_id v) false = Ok n ->
    sg_scheme n = scheme_key -> key_held cr w su v
| kh_pw n : seal_scheme v = scheme_pw -> answered w (seal_id v) n -> sg_key n <> [] -> key_held cr w su v
| kh_private g n t priv : w_signet w = Some g -> g (seal_id v) false = Ok n ->
    suite_tool tool_registry su t -> t_purpose t = PKeyExchange \/ t_purpose t = PKeyEncapsulation ->
    sg_scheme n = t_name t -> seal_scheme v = [] \/ seal_scheme v = t_name t ->
    (sg_priv n = PKey priv \/ sg_pub n = None /\ exists p, cr_load cr (t_name t) (sg_key n) (sg_public n) = Ok (p, PKey priv)) ->
    key_held cr w su v.
