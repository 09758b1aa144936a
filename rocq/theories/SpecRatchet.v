(** Specification vocabulary for the key chain of a wire conversation (no proofs). *)
From Verif Require Import Prelude Letter Tools Crypto Session Core SpecKeys SpecOpen SpecWire.

(** Everything that was said: the data and letters each side sent, in order; each letter of the client with
    whether the client had opened a letter of the server before it sent it. *)
Record log := mkLog { said_client : list (bool * (bytes * letter)); said_server : list (bytes * letter); heard : bool }.

(** [connected] (SpecWire.v), with the log. *)
Inductive conversation (c : config) (cr : crypto) (client server : session) : link -> log -> Prop :=
| cv_start d1 d2 :
    conversation c cr client server
      (mkLink (rt_start d1 (Some (wire_start false))) (rt_start d2 (Some (wire_start true))) [] [] false 0 0)
      (mkLog [] [] false)
| cv_client_sends k t full data l r :
    conversation c cr client server k t ->
    close_session c cr client full data (k_client k) = (Ok l, r) ->
    conversation c cr client server
      (mkLink r (k_server k) (k_to_server k ++ [(data, l)]) (k_to_client k) (k_met k) (S (k_sent_client k)) (k_sent_server k))
      (mkLog (said_client t ++ [(heard t, (data, l))]) (said_server t) (heard t))
| cv_server_sends k t full data l r :
    conversation c cr client server k t -> k_met k = true ->
    close_session c cr server full data (k_server k) = (Ok l, r) ->
    conversation c cr client server
      (mkLink (k_client k) r (k_to_server k) (k_to_client k ++ [(data, l)]) (k_met k) (k_sent_client k) (S (k_sent_server k)))
      (mkLog (said_client t) (said_server t ++ [(data, l)]) (heard t))
| cv_server_receives k t data l q x r :
    conversation c cr client server k t -> k_to_server k = (data, l) :: q ->
    open_session c cr server l (k_server k) = (x, r) ->
    conversation c cr client server
      (mkLink (k_client k) r q (k_to_client k) true (k_sent_client k) (k_sent_server k)) t
| cv_client_receives k t data l q x r :
    conversation c cr client server k t -> k_to_client k = (data, l) :: q ->
    open_session c cr client l (k_client k) = (x, r) ->
    conversation c cr client server
      (mkLink r (k_server k) (k_to_server k) q (k_met k) (k_sent_client k) (k_sent_server k))
      (mkLog (said_client t) (said_server t) true).

(** One letter of the chain: everything that protects it, and the next chain key, is derived with its nonce
    from new key material and the chain key before. *)
Definition chain_secret (new : list bytes) (chain : option bytes) : bytes :=
  concat new ++ match chain with Some k => k | None => [] end.
Definition chain_length (s : session) (chain : option bytes) : nat :=
  match chain with Some k => length k | None => Z.to_nat (s_dks s) end.
Definition link_of_chain (cr : crypto) (s : session) (chain : option bytes) (new : list bytes) (m : bytes * letter) (next : bytes) : Prop :=
  let '(data, l) := m in
  let secret := chain_secret new chain in let n := chain_length s chain in
  cr_kdf cr (kdf_name s) (kdf_hash s) (l_nonce l) secret 0 n = Some next
  /\ exists kv, key_schedule cr s (l_nonce l) secret n kv /\ accepted cr s kv l data.

Inductive key_chain (cr : crypto) (s : session) : option bytes -> list (list bytes) -> list (bytes * letter) -> option bytes -> Prop :=
| kc_nil k : key_chain cr s k [] [] k
| kc_cons k new m next news ms last :
    link_of_chain cr s k new m next -> key_chain cr s (Some next) news ms last ->
    key_chain cr s k (new :: news) (m :: ms) last.

(** The new key material [E] enters the client's letters once: in the first it sends after it heard the server. *)
Fixpoint client_news (E : list bytes) (flags : list bool) : list (list bytes) :=
  match flags with
  | [] => []
  | false :: r => [] :: client_news E r
  | true :: r => E :: map (fun _ => []) r
  end.
(** And the server's letters in the first. *)
Definition server_news (E : list bytes) (n : nat) : list (list bytes) :=
  match n with O => [] | S m => E :: repeat [] m end.

(** One recipient, with the one-time keys that were made for it. *)
Record party := mkParty { pa_signet : signet; pa_key : bytes; pa_pub : bytes; pa_priv : bytes }.
Definition party_ok (cr : crypto) (tool : bytes) (p : party) : Prop :=
  sg_pub (pa_signet p) = Some (pa_key p) /\ pair_ok cr tool (pa_pub p) (pa_priv p).
Definition party_seal (cr : crypto) (tool : bytes) (p : party) : seal :=
  mkSeal [] (sg_id (pa_signet p)) (cr_store_pub cr tool (pa_pub p)).
(** Between a one-time key of the client and the key of the recipient. *)
Definition party_secret (cr : crypto) (tool : bytes) (p : party) : bytes := cr_shared cr tool (pa_priv p) (pa_key p).
(** The answer of the server to it: another one-time key, and the secret of the two one-time keys, which both
    sides can compute. *)
Definition answers (cr : crypto) (tool : bytes) (p : party) (a : seal * bytes) : Prop :=
  exists pub priv, pair_ok cr tool pub priv
    /\ fst a = mkSeal [] [] (cr_store_pub cr tool pub)
    /\ snd a = cr_shared cr tool (pa_priv p) pub /\ snd a = cr_shared cr tool priv (pa_pub p).

(** What a wire session remembers about the handshake. *)
Definition forgotten (r : rt) : Prop :=
  exists w, r_wire r = Some w /\ w_new w = []
    /\ (forall p, In p (w_kx w) -> kx_own p = None /\ kx_peer p = None).
(** The chain keys it uses for the next letter it sends, and the next it receives. *)
Definition next_keys (r : rt) (send recv : option bytes) : Prop :=
  exists w, r_wire r = Some w /\ send = Some (w_send w) /\ recv = Some (w_recv w).
