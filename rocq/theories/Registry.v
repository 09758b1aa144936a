(** tools/tools.go:8-61, hashtools/tools.go:10-65 and suites.go:22-52: what is registered, and what is found of it. *)
From Coq Require Import Sorting.Permutation Sorting.Sorted.
From Verif Require Import Prelude Tools Report.

(** ** tools.Register, hashtools.Register: [X] is Tool or HashTool, [name] the field that the map is keyed by. *)
Section Registry.
Variable X : Type.
Variable name : X -> bytes.
(** toolMap and toolList (hashToolMap and hashToolList). *)
Record registry := mkReg { r_map : bytes -> option X; r_list : list X }.
Definition empty_registry : registry := mkReg (fun _ => None) [].
Definition map_put (m : bytes -> option X) (x : X) : bytes -> option X := fun n => if bytes_eqb (name x) n then Some x else m n.
(** tools.go:52-61, hashtools/tools.go:54-65: sortableToolList.Less is < on strings, bytewise; sort.Sort is not stable: any
    permutation in which no element is less than an earlier one. *)
Definition less (x y : X) : bool := key_ltb (name x) (name y).
Definition sort_result (l l' : list X) : Prop := Permutation l l' /\ StronglySorted (fun x y => less y x = false) l'.
(** tools.go:14-19, hashtools/tools.go:19-23. *)
Inductive register (x : X) (s : registry) : registry -> Prop :=
| Register l : sort_result (r_list s ++ [x]) l -> register x s (mkReg (map_put (r_map s) x) l).
(** The registrations of a program in their order (init functions). *)
Inductive registers : list X -> registry -> Prop :=
| RNone : registers [] empty_registry
| RMore h s x s' : registers h s -> register x s s' -> registers (h ++ [x]) s'.
(** tools.go:22-28, hashtools/tools.go:26-32. *)
Definition registry_get (s : registry) (n : bytes) : outcome X := match r_map s n with Some x => Ok x | None => Err ENotFound end.
End Registry.
Arguments r_map {X}. Arguments r_list {X}. Arguments mkReg {X}. Arguments registers {X}. Arguments registry_get {X}. Arguments register {X}. Arguments sort_result {X}.

(** ** suites.go:22-52 *)
Record suites_state := mkSuites { ss_map : bytes -> option suite; ss_list : list suite }.
Definition no_suites : suites_state := mkSuites (fun _ => None) [].
Definition register_suite (s : suite) (st : suites_state) : suites_state * bytes :=
  match ss_map st (su_id s) with
  | Some _ => (st, su_id s)
  | None => (mkSuites (fun n => if bytes_eqb (su_id s) n then Some s else ss_map st n) (ss_list st ++ [s]), su_id s)
  end.
Definition register_suites (l : list suite) : suites_state := fold_left (fun st s => fst (register_suite s st)) l no_suites.
Definition find_suite (st : suites_state) (n : bytes) : option suite := ss_map st n.
