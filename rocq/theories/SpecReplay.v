(** Specification vocabulary for forged and replayed letters in wire sessions (no proofs). *)
From Verif Require Import Prelude Letter Tools Crypto Session Core SpecKeys SpecOpen SpecWire SpecRatchet.

(** The chain key the next letter is received (or sent) with; none before the first letter of a session. *)
Definition receive_key (r : rt) : option bytes :=
  match r_wire r with Some w => if (w_msgno w =? 0)%N then None else Some (w_recv w) | None => None end.
Definition send_key (r : rt) : option bytes :=
  match r_wire r with Some w => if (w_msgno w =? 0)%N then None else Some (w_send w) | None => None end.

(** [k'] is what the key derivation function made of the chain key [k], with some nonce and new key material. *)
Definition chain_step (cr : crypto) (s : session) (k : option bytes) (k' : bytes) : Prop :=
  exists nonce new, nonce <> [] /\ cr_kdf cr (kdf_name s) (kdf_hash s) nonce (chain_secret new k) 0 (chain_length s k) = Some k'.

(** Any number of times in a row; a chain that has started stays started. *)
Inductive descends (cr : crypto) (s : session) : option bytes -> option bytes -> Prop :=
| de_same k : descends cr s k k
| de_step k k1 k2 : chain_step cr s k k1 -> descends cr s (Some k1) k2 -> descends cr s k k2.
