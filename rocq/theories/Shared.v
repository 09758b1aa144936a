(** truststore.go:28-60 and envelope.go:166-274 once more, for goroutines that share a
    MemTrustStore: the store hands out the stored *Signet itself, and LoadKey (signet.go:169-187)
    writes into it without a lock.  A goroutine is a program of atomic accesses to the shared
    memory; the memory is sequentially consistent (a real run with such a race may do worse).
    The signets an envelope brings along itself and everything else (suite, callbacks, random
    source) belong to the goroutine, and nobody stores or deletes signets meanwhile. *)
From Verif Require Import Prelude Requirements Tools Crypto Letter Session Core Envelope.

(** The signets in memory, by address. *)
Definition heap := nat -> signet.

Inductive prog (A : Type) : Type :=
| Done (x : outcome A)
| Get (id : bytes) (recipient : bool) (k : option nat -> prog A)     (* storage.GetSignet, under its lock *)
| Look (p : nat) (k : signet -> prog A)                               (* reads of fields of a shared signet *)
| PutPub (p : nat) (b : bytes) (k : prog A)                           (* signet.loadedPublicKey = ... *)
| PutPriv (p : nat) (b : privkey) (k : prog A).                       (* signet.loadedPrivateKey = ... *)
Arguments Done {A}. Arguments Get {A}. Arguments Look {A}. Arguments PutPub {A}. Arguments PutPriv {A}.

Fixpoint pbind {A B} (m : prog A) (f : A -> prog B) : prog B :=
  match m with
  | Done (Ok a) => f a
  | Done (Err e) => Done (Err e)
  | Done Panic => Done Panic
  | Get id r k => Get id r (fun x => pbind (k x) f)
  | Look p k => Look p (fun x => pbind (k x) f)
  | PutPub p b k => PutPub p b (pbind k f)
  | PutPriv p b k => PutPriv p b (pbind k f)
  end.

(** A signet in an envelope after preparation: the envelope's own, or one of the store. *)
Inductive held := Own (sg : signet) | At (p : nat).

Section Programs.
Variables (sreg : list suite) (reg : list tool) (cr : crypto).
Variables (create : option (signet -> Z -> outcome signet)) (ask : option (signet -> outcome signet)).

(** signet.go:169-187 LoadKey, 127-130 SetLoadedKeys (two assignments, the public key first; the
    tools' LoadKey end with it: x25519.go:76, nist.go:104, ed25519.go:101, rsa-keys.go:102).  The fields read at the start other
    than the public key never change. *)
Definition load_shared (p : nat) : prog unit :=
  Look p (fun sg =>
    match sg_pub sg with
    | Some _ => Done (Ok tt)
    | None =>
        match (if sg_prot sg then Err EOther else
               do t <- tools_get reg (sg_scheme sg);
               if uses_signets t then cr_load cr (t_name t) (sg_key sg) (sg_public sg) else Err EOther) with
        | Ok (b, k) => PutPub p b (PutPriv p k (Done (Ok tt)))
        | Err e => Done (Err e)
        | Panic => Done Panic
        end
    end).

(** envelope.go:254-268. *)
Definition named_prog (sg : signet) : prog signet :=
  if match sg_info sg with Some i => nonempty (in_name i) | None => false end then Done (Ok sg)
  else if nonempty (sg_id sg)
  then Get (sg_id sg) false (fun o =>
         match o with
         | None => Done (Ok sg)
         | Some p => Look p (fun n =>
             Done (Ok match sg_info n with
                      | Some i => match sg_info sg with
                                  | None => set_info sg (Some i)
                                  | Some i0 => set_info sg (Some (mkInfo (in_name i) (in_rest i0)))
                                  end
                      | None => sg
                      end))
         end)
  else Done (Ok sg).

(** envelope.go:245-274 fillPassword. *)
Definition fill_prog (sg : signet) (new : bool) (level : Z) : prog signet :=
  if new
  then match create with None => Done (Ok sg) | Some f => pbind (named_prog sg) (fun n => Done (other (f n level))) end
  else match ask with None => Done (Ok sg) | Some f => pbind (named_prog sg) (fun n => Done (other (f n))) end.

(** envelope.go:198-238 for a signet given by its ID only. *)
Definition fetch_prog (sg : signet) (recipients : bool) : prog nat :=
  if negb (nonempty (sg_id sg)) then Done (Err EOther) else
  Get (sg_id sg) recipients (fun o =>
    match o with
    | None => Done (Err EOther)
    | Some p => Look p (fun n =>
        if nonempty (sg_scheme sg) && negb (bytes_eqb (sg_scheme sg) (sg_scheme n)) then Done (Err EOther)
        else if sg_prot n then Done (Err EOther)
        else if bytes_eqb (sg_scheme n) scheme_key || bytes_eqb (sg_scheme n) scheme_pw then Done (Ok p)
        else pbind (load_shared p) (fun _ => Done (Ok p)))
    end).

(** envelope.go:181-243 prepSignets. *)
Fixpoint prep_prog (level : Z) (recipients : bool) (l : list signet) : prog (list held) :=
  match l with
  | [] => Done (Ok [])
  | sg :: l' =>
      if nonempty (sg_key sg)
      then pbind (Done (prep_loaded reg cr sg)) (fun n => pbind (prep_prog level recipients l') (fun ns => Done (Ok (Own n :: ns))))
      else if bytes_eqb (sg_scheme sg) scheme_pw
      then pbind (fill_prog sg (negb recipients) level) (fun n => pbind (prep_prog level recipients l') (fun ns => Done (Ok (Own n :: ns))))
      else let rec := if bytes_eqb (sg_scheme sg) scheme_key then false else recipients in
           pbind (fetch_prog sg rec) (fun p => pbind (prep_prog level rec l') (fun ns => Done (Ok (At p :: ns))))
  end.

(** The keys as the session finds them.  The real code looks at them one by one while it makes
    and uses the session; here each is read once. *)
Fixpoint read_prog (l : list held) : prog (list signet) :=
  match l with
  | [] => Done (Ok [])
  | Own sg :: l' => pbind (read_prog l') (fun ns => Done (Ok (sg :: ns)))
  | At p :: l' => Look p (fun sg => pbind (read_prog l') (fun ns => Done (Ok (sg :: ns))))
  end.

(** envelope.go:56-77 initCorrespondence and 166-178 PrepareSignets; [use] is what then happens with the session. *)
Definition use_prog {A} (e : envelope) (use : envelope -> outcome A) : prog A :=
  match load_suite sreg e with
  | Ok su =>
      pbind (prep_prog (su_level su) (e_opening e) (e_secrets e)) (fun a =>
      pbind (prep_prog (su_level su) (e_opening e) (e_senders e)) (fun b =>
      pbind (prep_prog (su_level su) (negb (e_opening e)) (e_recipients e)) (fun d =>
      pbind (read_prog a) (fun a => pbind (read_prog b) (fun b => pbind (read_prog d) (fun d =>
      Done (use (set_signets e su a b d))))))))
  | Err x => Done (Err x)
  | Panic => Done Panic
  end.

(** letter.go:108-120 Letter.Open. *)
Definition open_prog (c : config) (hreg : list hashtool) (required : option reqs) (r : raw_letter) (d : nat) : prog bytes :=
  match letter_envelope sreg required r with
  | Ok e => use_prog e (fun e' => do s <- new_session c reg hreg cr e'; fst (open_session c cr s (complete r) (rt_start d None)))
  | Err x => Done (Err x)
  | Panic => Done Panic
  end.
(** letter.go:123-135 Letter.Verify. *)
Definition verify_prog (c : config) (hreg : list hashtool) (required : option reqs) (r : raw_letter) (d : nat) : prog unit :=
  match letter_envelope sreg required r with
  | Ok e => use_prog e (fun e' => do s <- new_session c reg hreg cr e'; fst (verify_session cr s (complete r) (rt_start d None)))
  | Err x => Done (Err x)
  | Panic => Done Panic
  end.
End Programs.

(** ** Goroutines *)
Section Run.
Variable store : bytes -> bool -> option nat.
Context {A : Type}.

Definition set_cell (h : heap) (p : nat) (sg : signet) : heap := fun q => if (q =? p)%nat then sg else h q.
Definition with_pub (sg : signet) (b : bytes) : signet := set_loaded sg b (sg_priv sg).
Definition with_priv (sg : signet) (k : privkey) : signet :=
  mkSignet (sg_version sg) (sg_id sg) (sg_scheme sg) (sg_key sg) (sg_public sg) (sg_prot sg) (sg_info sg) (sg_pub sg) k.

(** One access. *)
Definition access (h : heap) (m : prog A) : heap * prog A :=
  match m with
  | Done x => (h, Done x)
  | Get id r k => (h, k (store id r))
  | Look p k => (h, k (h p))
  | PutPub p b k => (set_cell h p (with_pub (h p) b), k)
  | PutPriv p b k => (set_cell h p (with_priv (h p) b), k)
  end.

Fixpoint set_prog (i : nat) (m : prog A) (l : list (prog A)) : list (prog A) :=
  match l, i with [], _ => [] | _ :: r, O => m :: r | x :: r, S j => x :: set_prog j m r end.

(** A schedule says whose turn it is; goroutines that have ended (or do not exist) do nothing. *)
Fixpoint interleave (sched : list nat) (h : heap) (l : list (prog A)) : heap * list (prog A) :=
  match sched with
  | [] => (h, l)
  | i :: r => match nth_error l i with
              | Some m => let (h', m') := access h m in interleave r h' (set_prog i m' l)
              | None => interleave r h l
              end
  end.
End Run.
