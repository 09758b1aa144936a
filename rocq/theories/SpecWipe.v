(** Specification of what is left of message keys (C75). *)
From Coq Require Import Init.Byte.
From Verif Require Import Prelude Letter Tools Crypto Session Core SpecCore.

(** Burned memory: every byte is 0xFF. *)
Definition burnt (b : bytes) : Prop := forall x, In x b -> x = xff.
(** No cipher or MAC of the session holds a key or nonce. *)
Definition blank (s : session) (r : rt) : Prop :=
  forall i, In i (s_stateful s) -> burnt (ts_key (r_tools r (i_idx i))) /\ burnt (ts_iv (r_tools r (i_idx i))).
(** The answer is a result, or the letter failed authentication. *)
Definition came_to_end (a : answer) : Prop :=
  match a with
  | ALetter (Ok _) _ | AData (Ok _) _ | ADone (Ok _) _ => True
  | ALetter (Err e) _ | AData (Err e) _ | ADone (Err e) _ => e = EIntegrity
  | _ => False
  end.
