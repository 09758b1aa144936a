(** Specification vocabulary for wire sessions: two parties connected by two reliable,
    ordered channels (no proofs). *)
From Verif Require Import Prelude Letter Tools Crypto Session Core.

(** The state of both sessions, the letters on their way (with the data they were closed
    with), whether the server has received a letter yet, and how many letters each side sent. *)
Record link := mkLink {
  k_client : rt; k_server : rt;
  k_to_server : list (bytes * letter);
  k_to_client : list (bytes * letter);
  k_met : bool;
  k_sent_client : nat; k_sent_server : nat
}.

(** Everything that can happen: either side closes some data successfully (the server only
    after it received a letter) and the letter is sent; or the next letter of a channel is
    delivered and the receiver tries to open it, whatever comes out. *)
Inductive connected (c : config) (cr : crypto) (client server : session) : link -> Prop :=
| con_start d1 d2 :
    connected c cr client server
      (mkLink (rt_start d1 (Some (wire_start false))) (rt_start d2 (Some (wire_start true))) [] [] false 0 0)
| con_client_sends k full data l r :
    connected c cr client server k ->
    close_session c cr client full data (k_client k) = (Ok l, r) ->
    connected c cr client server (mkLink r (k_server k) (k_to_server k ++ [(data, l)]) (k_to_client k) (k_met k)
      (S (k_sent_client k)) (k_sent_server k))
| con_server_sends k full data l r :
    connected c cr client server k -> k_met k = true ->
    close_session c cr server full data (k_server k) = (Ok l, r) ->
    connected c cr client server (mkLink (k_client k) r (k_to_server k) (k_to_client k ++ [(data, l)]) (k_met k)
      (k_sent_client k) (S (k_sent_server k)))
| con_server_receives k data l q x r :
    connected c cr client server k -> k_to_server k = (data, l) :: q ->
    open_session c cr server l (k_server k) = (x, r) ->
    connected c cr client server (mkLink (k_client k) r q (k_to_client k) true (k_sent_client k) (k_sent_server k))
| con_client_receives k data l q x r :
    connected c cr client server k -> k_to_client k = (data, l) :: q ->
    open_session c cr client l (k_client k) = (x, r) ->
    connected c cr client server (mkLink r (k_server k) (k_to_server k) q (k_met k) (k_sent_client k) (k_sent_server k)).

(** The same letter as far as nonce, seals and apply flag go; everything else (data, mac,
    signatures, version, envelope) may have been changed on the way. *)
Definition same_steps (hurt l : letter) : Prop :=
  l_nonce hurt = l_nonce l /\ l_keys hurt = l_keys l /\ l_apply hurt = l_apply l.

(** Like [connected], over channels that may damage letters: what is delivered is any letter
    with the same steps as the one that was sent (possibly the very one). *)
Inductive noisy (c : config) (cr : crypto) (client server : session) : link -> Prop :=
| noi_start d1 d2 :
    noisy c cr client server
      (mkLink (rt_start d1 (Some (wire_start false))) (rt_start d2 (Some (wire_start true))) [] [] false 0 0)
| noi_client_sends k full data l r :
    noisy c cr client server k ->
    close_session c cr client full data (k_client k) = (Ok l, r) ->
    noisy c cr client server (mkLink r (k_server k) (k_to_server k ++ [(data, l)]) (k_to_client k) (k_met k)
      (S (k_sent_client k)) (k_sent_server k))
| noi_server_sends k full data l r :
    noisy c cr client server k -> k_met k = true ->
    close_session c cr server full data (k_server k) = (Ok l, r) ->
    noisy c cr client server (mkLink (k_client k) r (k_to_server k) (k_to_client k ++ [(data, l)]) (k_met k)
      (k_sent_client k) (S (k_sent_server k)))
| noi_server_receives k data l q hurt x r :
    noisy c cr client server k -> k_to_server k = (data, l) :: q -> same_steps hurt l ->
    open_session c cr server hurt (k_server k) = (x, r) ->
    noisy c cr client server (mkLink (k_client k) r q (k_to_client k) true (k_sent_client k) (k_sent_server k))
| noi_client_receives k data l q hurt x r :
    noisy c cr client server k -> k_to_client k = (data, l) :: q -> same_steps hurt l ->
    open_session c cr client hurt (k_client k) = (x, r) ->
    noisy c cr client server (mkLink r (k_server k) (k_to_server k) q (k_met k) (k_sent_client k) (k_sent_server k)).
