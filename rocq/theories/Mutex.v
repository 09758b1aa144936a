(** truststore.go:28-101 and truststores/dir.go:28-241 for goroutines that call the methods of one store at the same time.
    Every method takes the store's mutex around all of its accesses to the map or to the files (some first check the
    arguments); the accesses of one goroutine and the steps of others may interleave in every order.  The memory is
    sequentially consistent, the mutex is that of package sync: Lock waits until nobody has it. *)
From Verif Require Import Prelude Tools Signets TrustStore SpecStore.

(** ** Goroutines, methods and mutexes *)
(** The part of a method between Lock and Unlock: atomic accesses; the next one may depend on what this one found. *)
Inductive body (Sh Re : Type) : Type :=
| Return (r : Re)
| Access (change : Sh -> Sh) (next : Sh -> body Sh Re).               (* [next] is given the state before the change *)
Arguments Return {Sh Re}. Arguments Access {Sh Re}.
Inductive method (Sh Re : Type) : Type := Early (r : Re) | Locked (b : body Sh Re).
Arguments Early {Sh Re}. Arguments Locked {Sh Re}.

(** What is seen from outside: call number [n], made by goroutine [t], is made; it returns. *)
Inductive event (Op Re : Type) : Type := Inv (n t : nat) (o : Op) | Res (n t : nat) (r : Re).
Arguments Inv {Op Re}. Arguments Res {Op Re}.

Section System.
Context {Sh Op Re : Type}.
Variables (code : Op -> method Sh Re) (lock_of : nat -> nat).       (* which mutex a goroutine's store has *)

Inductive status := Idle | Called (n : nat) (o : Op) | Inside (n : nat) (o : Op) (b : body Sh Re) | Left (n : nat) (o : Op) (r : Re).
Record sys := mkSys { shared : Sh; threads : nat -> status; locks : nat -> option nat; past : list (event Op Re) }.
Definition upd {A} (f : nat -> A) (k : nat) (v : A) : nat -> A := fun x => if (x =? k)%nat then v else f x.

Inductive step : sys -> sys -> Prop :=
| st_call y t o : threads y t = Idle ->
    step y (mkSys (shared y) (upd (threads y) t (Called (length (past y)) o)) (locks y) (past y ++ [Inv (length (past y)) t o]))
| st_early y t n o r : threads y t = Called n o -> code o = Early r ->
    step y (mkSys (shared y) (upd (threads y) t (Left n o r)) (locks y) (past y))
| st_lock y t n o b : threads y t = Called n o -> code o = Locked b -> locks y (lock_of t) = None ->
    step y (mkSys (shared y) (upd (threads y) t (Inside n o b)) (upd (locks y) (lock_of t) (Some t)) (past y))
| st_access y t n o change next : threads y t = Inside n o (Access change next) ->
    step y (mkSys (change (shared y)) (upd (threads y) t (Inside n o (next (shared y)))) (locks y) (past y))
| st_unlock y t n o r : threads y t = Inside n o (Return r) ->
    step y (mkSys (shared y) (upd (threads y) t (Left n o r)) (upd (locks y) (lock_of t) None) (past y))
| st_return y t n o r : threads y t = Left n o r ->
    step y (mkSys (shared y) (upd (threads y) t Idle) (locks y) (past y ++ [Res n t r])).

Definition sys_start (s : Sh) : sys := mkSys s (fun _ => Idle) (fun _ => None) [].
Inductive reachable (s : Sh) : sys -> Prop :=
| reach_start : reachable s (sys_start s)
| reach_step y y' : reachable s y -> step y y' -> reachable s y'.
End System.
Arguments status : clear implicits. Arguments sys : clear implicits.

(** ** MemTrustStore *)
Inductive mem_op := MCall (c : call) | MSelect (f : filter_kind) (schemes : list bytes) (order : mem -> list bytes).
Inductive mem_re := MAnswer (a : answer) | MSelected (l : list sdata).
(** truststore.go:78-98: the iteration; an entry deleted before it is reached is left out. *)
Fixpoint mem_iterate (f : filter_kind) (schemes : list bytes) (keys : list bytes) (selection : list sdata) : body mem mem_re :=
  match keys with
  | [] => Return (MSelected selection)
  | k :: r => Access (fun m => m) (fun m =>
      match a_get bytes_eqb k m with
      | None => mem_iterate f schemes r selection
      | Some d => if negb (scheme_ok schemes d) then Return (MSelected [])
                  else mem_iterate f schemes r (if kind_ok f d then selection ++ [d] else selection)
      end)
  end.
Definition mem_code (o : mem_op) : method mem mem_re :=
  match o with
  | MCall (CGet id r) => Locked (Access (fun m => m) (fun m => Return (MAnswer (AGot (of_option ESignetNotFound (a_get bytes_eqb (storage_id id r) m))))))   (* 35-46 *)
  | MCall (CStore d) => match d_id d with                                                                                                                   (* 49-61 *)
                        | [] => Early (MAnswer (ADone false))
                        | _ => Locked (Access (a_set bytes_eqb (storage_id (d_id d) (d_public d)) d) (fun _ => Return (MAnswer (ADone true))))
                        end
  | MCall (CDelete id r) => Locked (Access (a_del bytes_eqb (storage_id id r)) (fun _ => Return (MAnswer (ADone true))))                                     (* 64-71 *)
  | MCall _ => Early (MAnswer (ADone false))                                                                                                                 (* not offered *)
  | MSelect f schemes order => Locked (Access (fun m => m) (fun m => mem_iterate f schemes (order m) []))                                                   (* 74-101 *)
  end.

(** ** DirTrustStore *)
Section DirCode.
Variables (dump : sdata -> option bytes) (undump : bytes -> option sdata).
Variables (edump : edata -> option bytes) (eundump : bytes -> option edata).
Variables (suites : list suite) (dir : bytes).
Variable walk : fs -> list path.                                     (* filepath.Walk: the files under the directory *)

Inductive dir_op := DCall (c : call) | DSelect (f : filter_kind) (schemes : list bytes) | DEnvelopes.
Inductive dir_re := DAnswer (a : answer) | DSelected (r : outcome (list sdata)) | DListed (r : outcome (list edata)).

(** os.WriteFile: the file is created or truncated, then the bytes are written one after the other at their offsets (a
    file that is gone meanwhile is written to no more; a hole reads as zeros). *)
Definition put_at (p : path) (i : nat) (x : byte) (w : fs) : fs :=
  match read w p with
  | None => w
  | Some c => write w p (firstn i (c ++ repeat (n2b 0) (i - length c)) ++ x :: skipn (S i) c)
  end.
Fixpoint write_rest (p : path) (i : nat) (rest : bytes) (k : body fs dir_re) : body fs dir_re :=
  match rest with [] => k | x :: r => Access (put_at p i x) (fun _ => write_rest p (S i) r k) end.
Definition write_file (p : path) (b : bytes) (k : body fs dir_re) : body fs dir_re :=
  Access (fun w => write w p []) (fun _ => write_rest p 0 b k).
(** os.Remove. *)
Definition remove_file (p : path) : body fs dir_re :=
  Access (fun w => match read w p with None => w | Some _ => a_del path_eqb p w end)
         (fun w => Return (DAnswer (ADone match read w p with None => false | Some _ => true end))).
(** dir.go:91-139, file by file. *)
Fixpoint visit_signets (f : filter_kind) (schemes : list bytes) (files : list path) (selection : list sdata) : body fs dir_re :=
  match files with
  | [] => Return (DSelected (Ok selection))
  | p :: r =>
      if path_suffix p (lit ".signet") || path_suffix p (lit ".recipient") then
        Access (fun w => w) (fun w =>
          match load_signet_file undump w p with
          | Ok d => visit_signets f schemes r (if scheme_ok schemes d && kind_ok f d then selection ++ [d] else selection)
          | _ => Return (DSelected (Err EOther))
          end)
      else visit_signets f schemes r selection
  end.
(** dir.go:207-233. *)
Fixpoint visit_envelopes (files : list path) (all : list edata) : body fs dir_re :=
  match files with
  | [] => Return (DListed (Ok all))
  | p :: r =>
      if path_suffix p (lit ".envelope") then
        Access (fun w => w) (fun w =>
          match (do b <- of_option EOther (read w p); load_envelope eundump suites b) with
          | Ok v => visit_envelopes r (all ++ [v])
          | _ => Return (DListed (Err EOther))
          end)
      else visit_envelopes r all
  end.
Definition dir_code (o : dir_op) : method fs dir_re :=
  match o with
  | DCall (CGet id r) =>                                              (* 35-54 *)
      if nice id then Locked (Access (fun w => w) (fun w => Return (DAnswer (AGot (load_signet_file undump w (join_path dir (storage_id id r)))))))
      else Early (DAnswer (AGot (Err EOther)))
  | DCall (CStore d) =>                                               (* 57-65, io.go:13-36 *)
      Locked match d_id d with
             | [] => Return (DAnswer (ADone false))
             | _ => if nice (d_id d) then
                      match dump d with
                      | None => Return (DAnswer (ADone false))
                      | Some b => write_file (join_path dir (storage_id (d_id d) (d_public d))) b (Return (DAnswer (ADone true)))
                      end
                    else Return (DAnswer (ADone false))
             end
  | DCall (CDelete id r) =>                                           (* 68-82 *)
      if nice id then Locked (remove_file (join_path dir (storage_id id r))) else Early (DAnswer (ADone false))
  | DCall (CGetEnv n) =>                                              (* 150-169 *)
      if nice n then Locked (Access (fun w => w) (fun w =>
        Return (DAnswer (AGotEnv match read w (envelope_path dir n) with None => Err EEnvelopeNotFound | Some b => load_envelope eundump suites b end))))
      else Early (DAnswer (AGotEnv (Err EOther)))
  | DCall (CStoreEnv v) =>                                            (* 172-180, io.go:58-81 *)
      Locked match ev_name v with
             | [] => Return (DAnswer (ADone false))
             | _ => if nice (ev_name v) then
                      match edump v with
                      | None => Return (DAnswer (ADone false))
                      | Some b => write_file (envelope_path dir (ev_name v)) b (Return (DAnswer (ADone true)))
                      end
                    else Return (DAnswer (ADone false))
             end
  | DCall (CDeleteEnv n) =>                                           (* 183-197 *)
      if nice n then Locked (remove_file (envelope_path dir n)) else Early (DAnswer (ADone false))
  | DSelect f schemes => Locked (Access (fun w => w) (fun w => visit_signets f schemes (walk w) []))       (* 85-147 *)
  | DEnvelopes => Locked (Access (fun w => w) (fun w => visit_envelopes (walk w) []))                       (* 200-241 *)
  end.
End DirCode.
