(** Specification of checksums in JSON files (C49), independent of the operations in Json.v. *)
From Coq Require Import Permutation Sorted.
From Verif Require Import Prelude Lhash Json.

(** The same document up to the order of members. *)
Inductive same_json : json -> json -> Prop :=
| same_str s : same_json (JStr s) (JStr s)
| same_atom s : same_json (JAtom s) (JAtom s)
| same_arr l l' : Forall2 same_json l l' -> same_json (JArr l) (JArr l')
| same_obj ms ms' ms'' : Forall2 (fun a b => fst a = fst b /\ same_json (snd a) (snd b)) ms ms' -> Permutation ms' ms'' ->
    same_json (JObj ms) (JObj ms'').

(** Bytewise order of keys. *)
Inductive key_le : bytes -> bytes -> Prop :=
| key_nil b : key_le [] b
| key_lt x y a b : (b2n x < b2n y)%N -> key_le (x :: a) (y :: b)
| key_eq x a b : key_le a b -> key_le (x :: a) (x :: b).
(** All objects list their members in the order of the keys. *)
Inductive sorted_json : json -> Prop :=
| sorted_str s : sorted_json (JStr s)
| sorted_atom s : sorted_json (JAtom s)
| sorted_arr l : Forall sorted_json l -> sorted_json (JArr l)
| sorted_obj ms : Forall (fun m => sorted_json (snd m)) ms -> StronglySorted (fun a b => key_le (fst a) (fst b)) ms -> sorted_json (JObj ms).

Section Spec.
Variable unesc : bytes -> bytes.
(** No object has two members with the same key. *)
Inductive plain : json -> Prop :=
| plain_str s : plain (JStr s)
| plain_atom s : plain (JAtom s)
| plain_arr l : Forall plain l -> plain (JArr l)
| plain_obj ms : Forall (fun m => plain (snd m)) ms -> NoDup (map (fun m => unesc (fst m)) ms) -> plain (JObj ms).
(** The member of the document with key [k] is the string [s], or an array with it. *)
Definition listed (k : bytes) (d : json) (s : bytes) : Prop :=
  exists ms k' v raw, d = JObj ms /\ In (k', v) ms /\ unesc k' = k /\ s = unesc raw /\ (v = JStr raw \/ exists l, v = JArr l /\ In (JStr raw) l).
(** What checksums and signatures are about: the members but those for checksums and signatures, in the order of
    the keys. *)
Definition meta_key (k : bytes) : Prop := k = lit "_jess-checksum" \/ k = lit "_jess-signature".
Definition json_content (d content : json) : Prop :=
  exists ms kept, d = JObj ms /\ (forall m, In m kept <-> In m ms /\ ~ meta_key (unesc (fst m))) /\ NoDup kept
    /\ same_json (JObj kept) content /\ sorted_json content.
Definition json_checksum_of (H : N -> bytes -> bytes) (render : json -> bytes) (s : bytes) (content : json) : Prop :=
  exists h, lh_from_base58 s = Ok h /\ H (lh_alg h) (render content) = lh_digest h.
End Spec.
