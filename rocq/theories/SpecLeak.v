(** Specification of what of a letter depends on the data in it (C74). *)
From Verif Require Import Prelude Letter Tools Crypto Session Core SpecCore.

(** Two letters look the same from outside: all but the data, the MAC and the signature values is equal; and if the
    (encrypted) data is equal too, everything is. *)
Record same_cover (a b : letter) : Prop := {
  sc_version : l_version a = l_version b;
  sc_suite : l_suite a = l_suite b;
  sc_nonce : l_nonce a = l_nonce b;
  sc_keys : l_keys a = l_keys b;
  sc_apply : l_apply a = l_apply b;
  sc_sigs : map (fun v => (seal_scheme v, seal_id v)) (l_sigs a) = map (fun v => (seal_scheme v, seal_id v)) (l_sigs b);
  sc_data : l_data a = l_data b -> a = b }.

(** The same conversation but for the data that is closed. *)
Inductive same_request : request -> request -> Prop :=
| sr_close f1 d1 f2 d2 : same_request (QClose f1 d1) (QClose f2 d2)
| sr_open l : same_request (QOpen l) (QOpen l)
| sr_verify l : same_request (QVerify l) (QVerify l).
Inductive same_answer : answer -> answer -> Prop :=
| sa_letter a b x y : same_cover a b -> same_answer (ALetter (Ok a) x) (ALetter (Ok b) y)
| sa_refused e x y : same_answer (ALetter (Err e) x) (ALetter (Err e) y)
| sa_panic x y : same_answer (ALetter Panic x) (ALetter Panic y)
| sa_data o x : same_answer (AData o x) (AData o x)
| sa_done o x : same_answer (ADone o x) (ADone o x).
(** All answers to a list of requests. *)
Fixpoint replies (c : config) (cr : crypto) (s : session) (qs : list request) (r : rt) : list answer :=
  match qs with [] => [] | q :: qs' => fst (serve c cr s q r) :: replies c cr s qs' (snd (serve c cr s q r)) end.
Definition closed (a : answer) : Prop := match a with ALetter (Ok _) _ => True | ALetter _ _ => False | _ => True end.
