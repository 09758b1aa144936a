(** truststores/keyring.go: the trust store in the system keyring.  The keyring (github.com/zalando/go-keyring) is a map
    from (service, user) to text that all programs share; each access may fail, with or without having had its effect. *)
From Verif Require Import Prelude Encodings Tools Session KeyStore Signets TrustStore.

Definition ring := list ((bytes * bytes) * bytes).
Definition slot_eqb (a b : bytes * bytes) : bool := bytes_eqb (fst a) (fst b) && bytes_eqb (snd a) (snd b).
(** How an access ends: as it should, refused, or done but reported as failed. *)
Inductive luck := Fine | Refused | Unsure.
Definition happens (l : luck) : bool := match l with Refused => false | _ => true end.
Definition reported (l : luck) : bool := match l with Fine => true | _ => false end.
Definition ring_get (l : luck) (r : ring) (s u : bytes) : option bytes := if reported l then a_get slot_eqb (s, u) r else None.
Definition ring_set (l : luck) (r : ring) (s u v : bytes) : bool * ring :=
  (reported l, if happens l then a_set slot_eqb (s, u) v r else r).
(** Deleting what is not there is an error. *)
Definition ring_del (l : luck) (r : ring) (s u : bytes) : bool * ring :=
  match a_get slot_eqb (s, u) r with
  | None => (false, r)
  | Some _ => (reported l, if happens l then a_del slot_eqb (s, u) r else r)
  end.

Section Keyring.
Context {e : ext}.
Variables (reg : list tool).
Variables (dump : sdata -> option bytes) (undump : bytes -> option sdata).
Variables (edump : edata -> option bytes) (eundump : bytes -> option edata).

(** keyring.go:12-31: the service name of a store. *)
Definition service (name : bytes) : bytes := lit "jess:" ++ name.
Definition self_key : bytes := lit "_selfcheck".
Definition self_value : bytes := lit "!selfcheck".
(** 28-46 NewKeyringTrustStore; whether it is returned, and the keyring after. *)
Definition kr_new (l1 l2 : luck) (name : bytes) (r : ring) : bool * ring :=
  let (ok, r1) := ring_set l1 r (service name) self_key self_value in
  if ok then match ring_get l2 r1 (service name) self_key with
             | Some v => (bytes_eqb v self_value, r1)
             | None => (false, r1)
             end
  else (false, r1).
(** 50-66 GetSignet, with signet.go:280-318 (from_base58). *)
Definition kr_get (l : luck) (name : bytes) (r : ring) (id : bytes) (recipient : bool) : outcome (fsignet e) :=
  match ring_get l r (service name) (storage_id id recipient) with
  | None => Err ESignetNotFound
  | Some t => from_base58 reg undump t
  end.
(** 69-86 StoreSignet: the ID is made before the key is serialised. *)
Definition kr_store (l : luck) (name : bytes) (r : ring) (s : fsignet e) : outcome unit * ring :=
  match to_base58 reg dump s with
  | Ok (t, _) => let (ok, r') := ring_set l r (service name) (storage_id (d_id (f_data s)) (d_public (f_data s))) t in
                 (if ok then Ok tt else Err EOther, r')
  | Err x => (Err x, r)
  | Panic => (Panic, r)
  end.
(** 89-99 DeleteSignet. *)
Definition kr_delete (l : luck) (name : bytes) (r : ring) (id : bytes) (recipient : bool) : bool * ring :=
  ring_del l r (service name) (storage_id id recipient).
(** 107-119 GetEnvelope, with envelope.go:318-327 and 342-351: no check of the suite. *)
Definition kr_get_envelope (l : luck) (name : bytes) (r : ring) (n : bytes) : outcome edata :=
  match ring_get l r (service name) (n ++ lit ".envelope") with
  | None => Err EEnvelopeNotFound
  | Some t => do b <- b58_decode t; of_option EOther (eundump b)
  end.
(** 122-134 StoreEnvelope, with envelope.go:303-339: the envelope of the caller is cleaned; it is the second result. *)
Definition kr_store_envelope (l : luck) (name : bytes) (r : ring) (v : edata) : bool * edata * ring :=
  match edump (clean v) with
  | None => (false, clean v, r)
  | Some b => let (ok, r') := ring_set l r (service name) (ev_name v ++ lit ".envelope") (b58_encode b) in (ok, clean v, r')
  end.
(** 137-143 DeleteEnvelope. *)
Definition kr_delete_envelope (l : luck) (name : bytes) (r : ring) (n : bytes) : bool * ring :=
  ring_del l r (service name) (n ++ lit ".envelope").
(** 102-104 SelectSignets and 146-148 AllEnvelopes. *)
Definition kr_select : outcome (list (fsignet e)) := Err EOther.
Definition kr_all_envelopes : outcome (list edata) := Err EOther.
End Keyring.
