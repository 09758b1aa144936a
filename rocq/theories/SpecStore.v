(** Specification of the trust stores (C31-C33, C50, C52, C53): a map from ID and kind to signets, and one from names to envelopes. *)
From Verif Require Import Prelude Tools Signets TrustStore.

Inductive call := CGet (id : bytes) (recipient : bool) | CStore (d : sdata) | CDelete (id : bytes) (recipient : bool)
  | CGetEnv (name : bytes) | CStoreEnv (v : edata) | CDeleteEnv (name : bytes).
Inductive answer := AGot (r : outcome sdata) | AGotEnv (r : outcome edata) | ADone (ok : bool).
Record maps := mkMaps { m_sig : bytes -> bool -> option sdata; m_env : bytes -> option edata }.
Definition no_maps : maps := mkMaps (fun _ _ => None) (fun _ => None).
Definition put (m : maps) (id : bytes) (r : bool) (x : option sdata) : maps :=
  mkMaps (fun id' r' => if bytes_eqb id' id && Bool.eqb r' r then x else m_sig m id' r') (m_env m).
Definition put_env (m : maps) (name : bytes) (x : option edata) : maps :=
  mkMaps (m_sig m) (fun n => if bytes_eqb n name then x else m_env m n).

(** The in-memory store: every ID but the empty one can be stored; there are no envelopes. *)
Definition mem_spec (c : call) (m : maps) : answer * maps :=
  match c with
  | CGet id r => (AGot (of_option ESignetNotFound (m_sig m id r)), m)
  | CStore d => match d_id d with [] => (ADone false, m) | _ => (ADone true, put m (d_id d) (d_public d) (Some d)) end
  | CDelete id r => (ADone true, put m id r None)
  | _ => (ADone false, m)
  end.
(** The directory store: only some characters are allowed in IDs and names; deleting what is not there is an error;
    an envelope whose suite is not known can be stored, but not be got. *)
Section DirSpec.
Variables (can_dump : sdata -> bool) (can_dump_env : edata -> bool) (suites : list suite).
Definition dir_spec (c : call) (m : maps) : answer * maps :=
  match c with
  | CGet id r => (AGot (if nice id then of_option ESignetNotFound (m_sig m id r) else Err EOther), m)
  | CStore d => if negb (bytes_eqb (d_id d) []) && nice (d_id d) && can_dump d then (ADone true, put m (d_id d) (d_public d) (Some d)) else (ADone false, m)
  | CDelete id r => if nice id then match m_sig m id r with Some _ => (ADone true, put m id r None) | None => (ADone false, m) end else (ADone false, m)
  | CGetEnv n => (AGotEnv (if nice n then match m_env m n with
                           | None => Err EEnvelopeNotFound
                           | Some v => match get_suite suites (ev_suite v) with Some _ => Ok v | None => Err EOther end end else Err EOther), m)
  | CStoreEnv v => if negb (bytes_eqb (ev_name v) []) && nice (ev_name v) && can_dump_env v then (ADone true, put_env m (ev_name v) (Some v)) else (ADone false, m)
  | CDeleteEnv n => if nice n then match m_env m n with Some _ => (ADone true, put_env m n None) | None => (ADone false, m) end else (ADone false, m)
  end.
End DirSpec.
Fixpoint run_spec (step : call -> maps -> answer * maps) (cs : list call) (m : maps) : list answer * maps :=
  match cs with [] => ([], m) | c :: r => let (a, m1) := step c m in let (l, m2) := run_spec step r m1 in (a :: l, m2) end.

(** A file directly inside the directory. *)
Definition child (dir name : bytes) : path := mkPath (p_rooted (clean_path dir)) (p_elems (clean_path dir) ++ [name]).
Definition plain (name : bytes) : Prop := ~ In slash name /\ name <> [] /\ name <> lit "." /\ name <> lit "..".
(** Two file systems with the same files directly inside the directory. *)
Definition same_children (dir : bytes) (w w' : fs) : Prop := forall name, plain name -> read w (child dir name) = read w' (child dir name).

(** What a selection should be: the entries of the right kind and scheme, in the order of the list. *)
Definition of_scheme (schemes : list bytes) (d : sdata) : Prop := schemes = [] \/ In (d_scheme d) schemes.
Definition of_kind (f : filter_kind) (d : sdata) : Prop :=
  match f with FilterAny => True | FilterSignetOnly => d_public d = false | FilterRecipientOnly => d_public d = true end.
Definition selected (f : filter_kind) (schemes : list bytes) (l sel : list sdata) : Prop :=
  exists keep, (forall d, keep d = true <-> of_scheme schemes d /\ of_kind f d) /\ sel = filter keep l.
(** The entries among the files. *)
Definition signet_files (l : list (path * bytes)) : list bytes := map snd (filter (fun e => path_suffix (fst e) (lit ".signet") || path_suffix (fst e) (lit ".recipient")) l).
Definition envelope_files (l : list (path * bytes)) : list bytes := map snd (filter (fun e => path_suffix (fst e) (lit ".envelope")) l).
(** All of them decode. *)
Definition decode_all {A} (f : bytes -> option A) (l : list bytes) : option (list A) :=
  fold_right (fun b r => match f b, r with Some a, Some x => Some (a :: x) | _, _ => None end) (Some []) l.
