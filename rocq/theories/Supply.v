(** supply/supply.go: the signet supply.  A signet is known by the number of its generation; whether a
    generation succeeds is up to an oracle (jess.GenerateKey may fail).  The notification channels are not modelled. *)
From Coq Require Import ZArith Permutation.
From Verif Require Import Prelude.

(** supply.go:21-28; [sc_level] is a Go int. *)
Record cache := mkCache { sc_stock : list (option nat); sc_iter : nat; sc_level : nat }.
(** supply.go:31-42 and 57-61: the size is at least 1. *)
Definition stock_size (cacheSize : Z) : nat := Z.to_nat (if (cacheSize <? 1)%Z then 1 else cacheSize).
Definition new_cache (cacheSize : Z) : cache := mkCache (repeat None (stock_size cacheSize)) 0 0.

Definition slot (stock : list (option nat)) (i : nat) : option nat := nth i stock None.
Fixpoint set_slot (stock : list (option nat)) (i : nat) (v : option nat) : list (option nat) :=
  match stock, i with
  | [], _ => []
  | _ :: r, O => v :: r
  | x :: r, S j => x :: set_slot r j v
  end.

(** supply.go:97-118 get: under the lock of the cache. *)
Definition cache_get (c : cache) : option nat * cache :=
  match slot (sc_stock c) (sc_iter c) with
  | None => (None, c)
  | Some s => (Some s, mkCache (set_slot (sc_stock c) (sc_iter c) None) ((sc_iter c + 1) mod length (sc_stock c)) (sc_level c - 1))
  end.

(** Addition of Go ints (64 bit): wraps around. *)
Definition go_add (a b : Z) : Z := ((a + b + 2 ^ 63) mod 2 ^ 64 - 2 ^ 63)%Z.

(** supply.go:151-177 the loop; [todo] = fillUpTo - stockFillLevel.  Result: full, error; the cache; the next number. *)
Fixpoint fill_loop (g : nat -> bool) (todo : nat) (i next : nat) (c : cache) : bool * bool * cache * nat :=
  match todo with
  | O => (sc_level c =? length (sc_stock c), false, c, next)
  | S k =>
      match slot (sc_stock c) i with
      | Some _ => (true, false, c, next)
      | None =>
          if g next then
            fill_loop g k ((i + 1) mod length (sc_stock c)) (S next) (mkCache (set_slot (sc_stock c) i (Some next)) (sc_iter c) (S (sc_level c)))
          else (false, true, c, S next)
      end
  end.
(** supply.go:139-179 fill: under the lock of the cache. *)
Definition cache_fill (g : nat -> bool) (amount : Z) (next : nat) (c : cache) : bool * bool * cache * nat :=
  let up := go_add (Z.of_nat (sc_level c)) amount in
  let size := length (sc_stock c) in
  let up := if (up >? Z.of_nat size)%Z then Z.of_nat size else up in
  fill_loop g (Z.to_nat (up - Z.of_nat (sc_level c))) ((sc_iter c + sc_level c) mod size) next c.

(** ** The supply under concurrent use.  Steps are the sections under a lock (and the generation of a signet). *)
Inductive thread :=
| TGet (scheme : bytes)                    (* GetSignet: not started *)
| TMiss (scheme : bytes)                   (* no cache was found, the tool exists: one is about to be saved *)
| THave (scheme : bytes) (cid : nat)       (* the cache is known *)
| TEmpty (scheme : bytes)                  (* the cache was empty: generate *)
| TGot (r : option nat)                    (* returned a signet, or an error *)
| TFill (amount : Z)                       (* Fill: not started *)
| TFilling (amount : Z) (todo : list nat)  (* holds the read lock *)
| TFilled.                                 (* returned *)
Record supply := mkSupply {
  su_caches : list (bytes * nat);           (* the index: scheme to cache; Go map *)
  su_heap : list cache;                     (* all caches ever made *)
  su_next : nat;                            (* number of the next signet *)
  su_readers : nat;                         (* read locks held over a step *)
  su_threads : list thread }.
Fixpoint find_cache (k : bytes) (l : list (bytes * nat)) : option nat :=
  match l with [] => None | (k', v) :: r => if bytes_eqb k' k then Some v else find_cache k r end.
Fixpoint index_cache (k : bytes) (v : nat) (l : list (bytes * nat)) : list (bytes * nat) :=
  match l with [] => [(k, v)] | (k', v') :: r => if bytes_eqb k' k then (k, v) :: r else (k', v') :: index_cache k v r end.
Fixpoint set_cache (l : list cache) (i : nat) (c : cache) : list cache :=
  match l, i with [], _ => [] | _ :: r, O => c :: r | x :: r, S j => x :: set_cache r j c end.

Section Steps.
Variables (cacheSize : Z) (known : bytes -> bool).     (* tools.Get finds the scheme *)
Inductive step : supply -> supply -> Prop :=
| step_call s t : (exists k, t = TGet k) \/ (exists a, t = TFill a) ->
    step s (mkSupply (su_caches s) (su_heap s) (su_next s) (su_readers s) (su_threads s ++ [t]))
(* supply.go:46-48 *)
| step_found s a k b cid : su_threads s = a ++ TGet k :: b -> find_cache k (su_caches s) = Some cid ->
    step s (mkSupply (su_caches s) (su_heap s) (su_next s) (su_readers s) (a ++ THave k cid :: b))
(* supply.go:51-56 *)
| step_miss s a k b : su_threads s = a ++ TGet k :: b -> find_cache k (su_caches s) = None -> known k = true ->
    step s (mkSupply (su_caches s) (su_heap s) (su_next s) (su_readers s) (a ++ TMiss k :: b))
| step_unknown s a k b : su_threads s = a ++ TGet k :: b -> find_cache k (su_caches s) = None -> known k = false ->
    step s (mkSupply (su_caches s) (su_heap s) (su_next s) (su_readers s) (a ++ TGot None :: b))
(* supply.go:57-65: the write lock needs that no read lock is held *)
| step_save s a k b : su_threads s = a ++ TMiss k :: b -> su_readers s = 0 ->
    step s (mkSupply (index_cache k (length (su_heap s)) (su_caches s)) (su_heap s ++ [new_cache cacheSize]) (su_next s) 0
                     (a ++ THave k (length (su_heap s)) :: b))
(* supply.go:68-79 *)
| step_get s a k cid b c : su_threads s = a ++ THave k cid :: b -> nth_error (su_heap s) cid = Some c ->
    step s (mkSupply (su_caches s) (set_cache (su_heap s) cid (snd (cache_get c))) (su_next s) (su_readers s)
                     (a ++ match fst (cache_get c) with Some x => TGot (Some x) | None => TEmpty k end :: b))
(* supply.go:87-94 *)
| step_make s a k b ok : su_threads s = a ++ TEmpty k :: b ->
    step s (mkSupply (su_caches s) (su_heap s) (S (su_next s)) (su_readers s) (a ++ TGot (if ok : bool then Some (su_next s) else None) :: b))
(* supply.go:121-125: caches in any order *)
| step_fill s a n b todo : su_threads s = a ++ TFill n :: b -> Permutation todo (map snd (su_caches s)) ->
    step s (mkSupply (su_caches s) (su_heap s) (su_next s) (S (su_readers s)) (a ++ TFilling n todo :: b))
(* supply.go:126-133 *)
| step_fill1 s a n cid todo b c g : su_threads s = a ++ TFilling n (cid :: todo) :: b -> nth_error (su_heap s) cid = Some c ->
    step s (let '(_, _, c', next) := cache_fill g n (su_next s) c in
            mkSupply (su_caches s) (set_cache (su_heap s) cid c') next (su_readers s) (a ++ TFilling n todo :: b))
| step_filled s a n b : su_threads s = a ++ TFilling n [] :: b ->
    step s (mkSupply (su_caches s) (su_heap s) (su_next s) (su_readers s - 1) (a ++ TFilled :: b)).
Definition empty_supply : supply := mkSupply [] [] 0 0 [].
Inductive reachable : supply -> Prop :=
| reach_start : reachable empty_supply
| reach_step s s' : reachable s -> step s s' -> reachable s'.
End Steps.
