(** Specification vocabulary for key derivation (no proofs): which part of the key
    derivation stream each tool gets. *)
From Verif Require Import Prelude Tools Crypto Session Core.

(** The parts of the stream, as (offset, size): each keyed tool takes its key - of its own
    size, or the session's default - and then, if it needs one, its IV or nonce. *)
Fixpoint slots (dks : Z) (l : list inst) (off : nat) : list (inst * (nat * nat) * (nat * nat)) :=
  match l with
  | [] => []
  | i :: l' =>
      let nk := Z.to_nat (if (0 <? t_keysize (i_tool i))%Z then t_keysize (i_tool i) else dks) in
      let nv := if has_iv i
                then Z.to_nat (if (0 <? t_noncesize (i_tool i))%Z then t_noncesize (i_tool i) else dks)
                else 0 in
      (i, (off, nk), (off + nk, nv)) :: slots dks l' (off + nk + nv)
  end.

(** The keys and IVs read from those parts. *)
Fixpoint derived (cr : crypto) (kdf hash nonce secret : bytes) (l : list (inst * (nat * nat) * (nat * nat)))
  : option (list (inst * bytes * bytes)) :=
  match l with
  | [] => Some []
  | (i, (o1, n1), (o2, n2)) :: l' =>
      match cr_kdf cr kdf hash nonce secret o1 n1,
            (if has_iv i then cr_kdf cr kdf hash nonce secret o2 n2 else Some []) with
      | Some k, Some v =>
          match derived cr kdf hash nonce secret l' with
          | Some r => Some ((i, k, v) :: r)
          | None => None
          end
      | _, _ => None
      end
  end.
