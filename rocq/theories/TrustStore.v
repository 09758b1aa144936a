(** truststore.go (MemTrustStore) and truststores/dir.go, io.go (DirTrustStore).  Calls are under a mutex, so a history is a
    sequence of calls.  Signets are values here: the in-memory store really keeps the caller's pointer. *)
From Coq Require Import Permutation.
From Verif Require Import Prelude Tools Signets.

(** truststore.go:110-115 and dir.go:286-291 makeStorageID. *)
Definition storage_id (id : bytes) (recipient : bool) : bytes := id ++ (if recipient then lit ".recipient" else lit ".signet").

(** A Go map with string keys, and a file system: both by association lists. *)
Section Assoc.
Context {K V : Type} (eqb : K -> K -> bool).
Fixpoint a_get (k : K) (l : list (K * V)) : option V :=
  match l with [] => None | (k', v) :: r => if eqb k' k then Some v else a_get k r end.
Fixpoint a_set (k : K) (v : V) (l : list (K * V)) : list (K * V) :=
  match l with [] => [(k, v)] | (k', v') :: r => if eqb k' k then (k, v) :: r else (k', v') :: a_set k v r end.
Fixpoint a_del (k : K) (l : list (K * V)) : list (K * V) :=
  match l with [] => [] | (k', v') :: r => if eqb k' k then a_del k r else (k', v') :: a_del k r end.
End Assoc.

(** The filter of SelectSignets: truststore.go:10-14.  Other values of the byte select everything. *)
Inductive filter_kind := FilterAny | FilterSignetOnly | FilterRecipientOnly.
Definition kind_ok (f : filter_kind) (d : sdata) : bool :=
  match f with FilterAny => true | FilterSignetOnly => negb (d_public d) | FilterRecipientOnly => d_public d end.
Definition scheme_ok (schemes : list bytes) (d : sdata) : bool :=
  match schemes with [] => true | _ => existsb (fun s => bytes_eqb s (d_scheme d)) schemes end.

(** ** MemTrustStore *)
Definition mem := list (bytes * sdata).
(** truststore.go:35-46. *)
Definition mem_get (m : mem) (id : bytes) (recipient : bool) : outcome sdata := of_option ESignetNotFound (a_get bytes_eqb (storage_id id recipient) m).
(** truststore.go:49-61. *)
Definition mem_store (m : mem) (d : sdata) : outcome mem :=
  match d_id d with [] => Err EOther | _ => Ok (a_set bytes_eqb (storage_id (d_id d) (d_public d)) d m) end.
(** truststore.go:64-71. *)
Definition mem_delete (m : mem) (id : bytes) (recipient : bool) : mem := a_del bytes_eqb (storage_id id recipient) m.
(** truststore.go:74-101, over the entries in the order the map iteration has this time. *)
Fixpoint mem_select (f : filter_kind) (schemes : list bytes) (entries : list sdata) (selection : list sdata) : list sdata :=
  match entries with
  | [] => selection
  | d :: r => if negb (scheme_ok schemes d) then []                     (* return nil, nil *)
              else if kind_ok f d then mem_select f schemes r (selection ++ [d]) else mem_select f schemes r selection
  end.

(** ** Paths: path/filepath on a Unix system *)
Definition slash : byte := Coq.Init.Byte.x2f.
Fixpoint split_slash (acc s : bytes) : list bytes :=
  match s with [] => [rev acc] | b :: r => if byte_eqb b slash then rev acc :: split_slash [] r else split_slash (b :: acc) r end.
(** filepath.Clean: whether the path is rooted, and its elements. *)
Definition rooted (p : bytes) : bool := match p with b :: _ => byte_eqb b slash | [] => false end.
Definition clean_step (r : bool) (stack : list bytes) (x : bytes) : list bytes :=     (* the stack is in reverse *)
  if bytes_eqb x [] || bytes_eqb x (lit ".") then stack
  else if bytes_eqb x (lit "..") then
    match stack with
    | [] => if r then [] else [x]
    | t :: s => if bytes_eqb t (lit "..") then x :: stack else s
    end
  else x :: stack.
Record path := mkPath { p_rooted : bool; p_elems : list bytes }.
Definition clean_path (p : bytes) : path := mkPath (rooted p) (rev (fold_left (clean_step (rooted p)) (split_slash [] p) [])).
(** filepath.Join(dir, name): empty elements are ignored. *)
Definition join_path (dir name : bytes) : path := clean_path match dir with [] => name | _ => dir ++ [slash] ++ name end.
Fixpoint elems_eqb (a b : list bytes) : bool :=
  match a, b with [], [] => true | x :: a', y :: b' => bytes_eqb x y && elems_eqb a' b' | _, _ => false end.
Definition path_eqb (a b : path) : bool := Bool.eqb (p_rooted a) (p_rooted b) && elems_eqb (p_elems a) (p_elems b).
Definition fs := list (path * bytes).

(** ** DirTrustStore *)
(** dir.go:19 and 265-273 NamePlaysNiceWithFS (no byte of a character outside ASCII is permitted). *)
Definition permitted : bytes := lit "abcdefghijklmnopqrstuvwxyzABCDEFGHIJKLMNOPQRSTUVWXYZ0123456789- ._+@".
Definition nice (s : bytes) : bool := forallb (fun b => existsb (byte_eqb b) permitted) s.

Section Dir.
Variables (dump : sdata -> option bytes) (undump : bytes -> option sdata).        (* dsd.DumpIndent(.., JSON), dsd.Load *)
Variables (edump : edata -> option bytes) (eundump : bytes -> option edata).
Variable suites : list suite.
Variable dir : bytes.

Definition read (w : fs) (p : path) : option bytes := a_get path_eqb p w.
Definition write (w : fs) (p : path) (b : bytes) : fs := a_set path_eqb p b w.
(** io.go:39-55 LoadSignetFromFile. *)
Definition load_signet_file (w : fs) (p : path) : outcome sdata :=
  match read w p with None => Err ESignetNotFound | Some b => of_option EOther (undump b) end.
(** dir.go:35-54 GetSignet. *)
Definition dir_get (w : fs) (id : bytes) (recipient : bool) : outcome sdata :=
  if nice id then load_signet_file w (join_path dir (storage_id id recipient)) else Err EOther.
(** dir.go:57-65 StoreSignet, io.go:13-36 WriteSignetToFile.  On an error nothing is written. *)
Definition dir_store (w : fs) (d : sdata) : outcome fs :=
  match d_id d with
  | [] => Err EOther
  | _ => if nice (d_id d) then
           match dump d with
           | None => Err EOther
           | Some b => Ok (write w (join_path dir (storage_id (d_id d) (d_public d))) b)
           end
         else Err EOther
  end.
(** dir.go:68-82 DeleteSignet: removing a file that does not exist is an error. *)
Definition dir_delete (w : fs) (id : bytes) (recipient : bool) : outcome fs :=
  if nice id then
    let p := join_path dir (storage_id id recipient) in
    match read w p with None => Err EOther | Some _ => Ok (a_del path_eqb p w) end
  else Err EOther.
(** strings.HasSuffix(path, suffix) for a suffix without a slash. *)
Definition has_suffix (s suffix : bytes) : bool := has_prefix (rev s) (rev suffix).
Definition path_suffix (p : path) (suffix : bytes) : bool := match rev (p_elems p) with x :: _ => has_suffix x suffix | [] => false end.
(** dir.go:85-147 SelectSignets, over the files under the directory (also in subdirectories) in the order of the walk. *)
Fixpoint dir_select (f : filter_kind) (schemes : list bytes) (files : list (path * bytes)) (selection : list sdata) : outcome (list sdata) :=
  match files with
  | [] => Ok selection
  | (p, b) :: r =>
      if path_suffix p (lit ".signet") || path_suffix p (lit ".recipient") then
        match undump b with
        | None => Err EOther                                          (* return err ends the walk: nil, err *)
        | Some d => if scheme_ok schemes d && kind_ok f d then dir_select f schemes r (selection ++ [d]) else dir_select f schemes r selection
        end
      else dir_select f schemes r selection
  end.
(** io.go:84-107 LoadEnvelopeFromFile, with envelope.go:106-115 LoadSuite. *)
Definition load_envelope (b : bytes) : outcome edata :=
  do v <- of_option EOther (eundump b);
  match get_suite suites (ev_suite v) with Some _ => Ok v | None => Err EOther end.
(** dir.go:150-169 GetEnvelope, 172-180 StoreEnvelope with io.go:58-81 WriteEnvelopeToFile, dir.go:183-197 DeleteEnvelope. *)
Definition envelope_path (name : bytes) : path := join_path dir (name ++ lit ".envelope").
Definition dir_get_envelope (w : fs) (name : bytes) : outcome edata :=
  if nice name then
    match read w (envelope_path name) with None => Err EEnvelopeNotFound | Some b => load_envelope b end
  else Err EOther.
Definition dir_store_envelope (w : fs) (v : edata) : outcome fs :=
  match ev_name v with
  | [] => Err EOther
  | _ => if nice (ev_name v) then
           match edump v with None => Err EOther | Some b => Ok (write w (envelope_path (ev_name v)) b) end
         else Err EOther
  end.
Definition dir_delete_envelope (w : fs) (name : bytes) : outcome fs :=
  if nice name then match read w (envelope_path name) with None => Err EOther | Some _ => Ok (a_del path_eqb (envelope_path name) w) end
  else Err EOther.
(** dir.go:200-241 AllEnvelopes. *)
Fixpoint dir_envelopes (files : list (path * bytes)) (all : list edata) : outcome (list edata) :=
  match files with
  | [] => Ok all
  | (p, b) :: r => if path_suffix p (lit ".envelope") then do v <- load_envelope b; dir_envelopes r (all ++ [v]) else dir_envelopes r all
  end.
End Dir.
