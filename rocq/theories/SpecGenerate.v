(** Specification of `generate` (C64). *)
From Coq Require Import Init.Byte.
From Verif Require Import Prelude Tools Session KeyStore SpecKeyStore Signets TrustStore Wizard SpecWizard Generate.
From Verif Require Text.

(** The text of a random (version 4) UUID: xxxxxxxx-xxxx-4xxx-yxxx-xxxxxxxxxxxx. *)
Definition hexes : bytes := lit "0123456789abcdef".
Definition uuid4 (id : bytes) : Prop := length id = 36 /\ forall i b, nth_error id i = Some b ->
  In b (if existsb (Nat.eqb i) [8; 13; 18; 23] then [x2d] else if Nat.eqb i 14 then [x34] else if Nat.eqb i 19 then lit "89ab" else hexes).
(** The same random bits: all but the six that a version 4 UUID fixes. *)
Definition same_bits (u v : bytes) : Prop := length u = length v /\ forall i a b, nth_error u i = Some a -> nth_error v i = Some b ->
  if Nat.eqb i 6 then (b2n a mod 16 = b2n b mod 16)%N else if Nat.eqb i 8 then (b2n a mod 64 = b2n b mod 64)%N else a = b.

(** What the user asked for: the flags, or, where they are blank, the answers in turn (name, then a line of the scheme menu). *)
Definition name_asked (f : flags) (rs rs1 : list reply) (name : bytes) : Prop := name <> []
  /\ (name = Text.trim_space (g_name f) /\ rs1 = rs \/ Text.trim_space (g_name f) = [] /\ rs = Choose name :: rs1).
Definition scheme_asked (f : flags) (rs1 : list reply) (scheme : bytes) : Prop :=
  scheme = Text.trim_space (g_scheme f) /\ scheme <> []
  \/ Text.trim_space (g_scheme f) = [] /\ exists line rest, rs1 = Choose line :: rest /\ hd_error (fields line) = Some scheme.
Definition asked (f : flags) (rs : list reply) (name scheme : bytes) : Prop := exists rs1, name_asked f rs rs1 name /\ scheme_asked f rs1 scheme.

Section Spec.
Variable jdump : sdata -> option bytes.
Variable dir : bytes.
(** The store holds this signet; and nothing else changed. *)
Definition holds (w : fs) (d : sdata) : Prop := exists b, jdump d = Some b /\ read w (signet_path dir d) = Some b.
Definition only_signets (l : list sdata) (w w' : fs) : Prop := forall p, (forall d, In d l -> p <> signet_path dir d) -> read w' p = read w p.
End Spec.
(** The stored forms of one key pair: the private one gives the pair back, the public one the public key only. *)
Definition stored_pair {e} (scheme : bytes) (pub : pubkey e) (prv : prvkey e) (key pkey : bytes) : Prop :=
  load_keys scheme key false = Ok (pub, prv) /\ (exists none, load_keys scheme pkey true = Ok (pub, none) /\ usable none = false)
  /\ store_keys scheme pub (@SNil e) = Ok (pkey, true).
