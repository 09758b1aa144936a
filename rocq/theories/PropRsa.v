(** C30: RSA key sizes and security levels (tools/gostdlib/rsa-keys.go:181-213, modelled in Tools.v). *)
From Verif Require Import Prelude Tools.

Ltac cases := repeat match goal with
  | |- context [(?a <=? ?b)%Z] => let E := fresh in destruct (a <=? b)%Z eqn:E; [apply Z.leb_le in E|apply Z.leb_gt in E]
  | |- context [(?a >=? ?b)%Z] => let E := fresh in rewrite (Z.geb_leb a b); destruct (b <=? a)%Z eqn:E; [apply Z.leb_le in E|apply Z.leb_gt in E]
  end.
(** The key size chosen for a level is rated at that level or above exactly if the level is at most 256 ... *)
Theorem C30_strong_enough : forall level, (level <= rsa_level_for_size (rsa_size_for_level level) <-> level <= 256)%Z.
Proof. intro l. unfold rsa_size_for_level. cases; change (rsa_level_for_size 2048) with 112%Z; change (rsa_level_for_size 3072) with 128%Z; change (rsa_level_for_size 7680) with 192%Z; change (rsa_level_for_size 15360) with 256%Z; change (rsa_level_for_size 256) with (-1)%Z; lia. Qed.
(** ... a longer key is never rated lower ... *)
Theorem C30_monotone : forall a b, (a <= b -> rsa_level_for_size a <= rsa_level_for_size b)%Z.
Proof. intros a b L. unfold rsa_level_for_size. cases; lia. Qed.
(** ... and from level 81 on, no shorter key would do. *)
Theorem C30_shortest : forall level size, (80 < level <= 256 -> level <= rsa_level_for_size size -> rsa_size_for_level level <= size)%Z.
Proof. intros l n L H. revert H. unfold rsa_size_for_level, rsa_level_for_size. cases; lia. Qed.
(** Above 256 a key of 256 bits would be generated, which is rated as broken. *)
Theorem C30_above_256_refuted : forall level, (256 < level)%Z -> rsa_size_for_level level = 256%Z /\ rsa_level_for_size (rsa_size_for_level level) = (-1)%Z.
Proof. intros l L. assert (E : rsa_size_for_level l = 256%Z) by (unfold rsa_size_for_level; cases; lia). rewrite E. auto. Qed.
