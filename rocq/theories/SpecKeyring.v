(** Specification of the keyring store (C61): per store name, a map from ID and kind to signets and one from names to envelopes. *)
From Verif Require Import Prelude Tools Session KeyStore Signets TrustStore SpecStore Keyring.

Section Spec.
Context {e : ext}.
(** One event in the life of a keyring: a call of a store with some name, or another program that changes its own entries. *)
Inductive kcall :=
| KNew (l1 l2 : luck)
| KGet (l : luck) (id : bytes) (recipient : bool) | KStore (l : luck) (s : fsignet e) | KDelete (l : luck) (id : bytes) (recipient : bool)
| KGetEnv (l : luck) (n : bytes) | KStoreEnv (l : luck) (v : edata) | KDeleteEnv (l : luck) (n : bytes)
| KSelect | KAllEnv.
Inductive kevent :=
| Call (store : bytes) (c : kcall)
| Foreign (service user : bytes) (value : option bytes).
Inductive kanswer := KGot (r : outcome (fsignet e)) | KGotEnv (r : outcome edata) | KStored (r : outcome unit) | KDone (ok : bool) | KEnvStored (ok : bool) (left : edata)
  | KSelected (r : outcome (list (fsignet e))) | KListed (r : outcome (list edata)) | KNothing.

(** [serialise]: what is kept of a signet; [load]: the signet that is made of it again. *)
Variables (serialise : fsignet e -> outcome sdata) (load : sdata -> outcome (fsignet e)) (can_dump : edata -> bool).
Definition stores := bytes -> maps.
Definition set_store (st : stores) (n : bytes) (m : maps) : stores := fun x => if bytes_eqb x n then m else st x.
(** A refused change does not happen; one whose outcome is unsure happens; both are reported as errors.  A failed
    read is "not found". *)
Definition kspec (name : bytes) (c : kcall) (m : maps) : kanswer * maps :=
  match c with
  | KNew l1 l2 => (KDone (reported l1 && reported l2), m)
  | KGet l id r => (KGot (if reported l then match m_sig m id r with Some d => load d | None => Err ESignetNotFound end else Err ESignetNotFound), m)
  | KStore l s =>
      match serialise s with
      | Ok d => (KStored (if reported l then Ok tt else Err EOther), if happens l then put m (d_id (f_data s)) (d_public (f_data s)) (Some d) else m)
      | Err x => (KStored (Err x), m)
      | Panic => (KStored Panic, m)
      end
  | KDelete l id r => match m_sig m id r with
                      | Some _ => (KDone (reported l), if happens l then put m id r None else m)
                      | None => (KDone false, m)
                      end
  | KGetEnv l n => (KGotEnv (if reported l then of_option EEnvelopeNotFound (m_env m n) else Err EEnvelopeNotFound), m)
  | KStoreEnv l v => if can_dump (clean v)
                     then (KEnvStored (reported l) (clean v), if happens l then put_env m (ev_name v) (Some (clean v)) else m)
                     else (KEnvStored false (clean v), m)
  | KDeleteEnv l n => match m_env m n with
                      | Some _ => (KDone (reported l), if happens l then put_env m n None else m)
                      | None => (KDone false, m)
                      end
  | KSelect => (KSelected (Err EOther), m)
  | KAllEnv => (KListed (Err EOther), m)
  end.
Definition kspec_event (ev : kevent) (st : stores) : kanswer * stores :=
  match ev with
  | Call n c => let (a, m) := kspec n c (st n) in (a, set_store st n m)
  | Foreign _ _ _ => (KNothing, st)
  end.
Fixpoint run_kspec (evs : list kevent) (st : stores) : list kanswer :=
  match evs with [] => [] | ev :: r => let (a, st') := kspec_event ev st in a :: run_kspec r st' end.
End Spec.
Arguments kcall : clear implicits. Arguments kevent : clear implicits. Arguments kanswer : clear implicits.
