(** C47, continued: the security levels in the registries. *)
From Verif Require Import Prelude Tools.
Local Open Scope Z_scope.

(** No registered tool or hash claims more security than its sizes can give: a hash half of its digest in bits (finding
    collisions costs 2^(n/2)), a cipher or MAC with a fixed key size that of its key. *)
Theorem C47_honest_levels :
  (forall h, In h hash_registry -> 0 < h_level h /\ 2 * h_level h <= 8 * h_digest h)
  /\ (forall t, In t tool_registry -> 0 < t_keysize t -> 0 < t_level t <= 8 * t_keysize t).
Proof.
  split.
  - apply Forall_forall. repeat constructor; cbn; lia.
  - intros t H. revert t H. refine (proj1 (Forall_forall (fun t => 0 < t_keysize t -> 0 < t_level t <= 8 * t_keysize t) _) _).
    repeat (constructor; [cbn; lia|]). constructor.
Qed.
Print Assumptions C47_honest_levels.

(** The cases are there: 15 hashes, 9 tools with a key of fixed size. *)
Example C47_honest_levels_met : length hash_registry = 15%nat /\ length (filter (fun t => 0 <? t_keysize t) tool_registry) = 9%nat.
Proof. split; reflexivity. Qed.
