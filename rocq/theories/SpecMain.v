(** Specification of the global flags (C67). *)
From Coq Require Import Init.Byte.
From Verif Require Import Prelude Requirements Tools Crypto Letter Session SpecSession Core Envelope TrustStore Lhash Search Armor FileSig SpecFile Cmd SpecCmd SpecReport Main.

(** [x] is the first of the values that is not empty. *)
Definition first_given (l : list bytes) (x : bytes) : Prop := exists a b, l = a ++ x :: b /\ x <> [] /\ forall y, In y a -> y = [].
Definition none_given (l : list bytes) : Prop := forall y, In y l -> y = [].

Section Spec.
Variables (env : bytes -> option bytes) (stat : path -> option bool) (ring_works : bytes -> bool).
Definition variable (k : bytes) : bytes := match env k with Some v => v | None => [] end.
Definition directories (fl : flags) : list bytes := [fl_dir fl; variable (lit "JESS_TS_DIR"); variable (lit "JESS_TSDIR")].
Definition keyrings (fl : flags) : list bytes := [fl_ring fl; variable (lit "JESS_TS_KEYRING"); variable (lit "JESS_TSKEYRING")].
(** The trust store: a directory, if one is named, else a keyring, if one is named. *)
Inductive the_store (fl : flags) : option trust_store -> Prop :=
  | In_dir d : first_given (directories fl) d -> stat (clean_path d) = Some true -> the_store fl (Some (DirStore d))
  | In_ring n : none_given (directories fl) -> first_given (keyrings fl) n -> ring_works n = true -> the_store fl (Some (RingStore n))
  | No_store : none_given (directories fl) -> none_given (keyrings fl) -> the_store fl None.
End Spec.

(** The abbreviations of the attributes. *)
Definition abbreviation (a : N) : bytes :=
  match a with 0%N => lit "C" | 1%N => lit "I" | 2%N => lit "R" | 3%N => lit "S" | _ => [] end.
Definition spec_char (b : byte) : Prop := In b (lit "CIRS").
Definition removed (no : bytes) (a : N) : Prop := exists b, In b no /\ abbreviation a = [b].
(** What --no asks for: nothing said if it is empty, else the four attributes without those named. *)
Inductive the_requirements (no : bytes) : option reqs -> Prop :=
  | Not_given : no = [] -> the_requirements no None
  | Given q : no <> [] -> (forall b, In b no -> spec_char b) -> (forall a, In a q <-> (a < 4)%N /\ ~ removed no a) -> the_requirements no (Some q).
(** The settings of the process: by default level 128 and 16 byte keys, no minimum. *)
Definition the_settings (fl : flags) (c : config) : Prop :=
  (((0 < fl_level fl)%Z /\ c_min_level c = fl_level fl /\ c_default_level c = fl_level fl) \/ ((fl_level fl <= 0)%Z /\ c_min_level c = 0%Z /\ c_default_level c = 128%Z))
  /\ (((0 < fl_keysize fl)%Z /\ c_min_ks c = fl_keysize fl /\ c_default_ks c = fl_keysize fl) \/ ((fl_keysize fl <= 0)%Z /\ c_min_ks c = 0%Z /\ c_default_ks c = 16%Z)).
(** A correspondence at a level: its suite has it, its session has it, and so has every part of it (tool, key, password) that has
    a level at all. *)
Definition at_level (cr : crypto) (level : Z) (su : suite) (s : session) : Prop :=
  (level <= su_level su)%Z /\ (level <= s_level s)%Z /\ forall i sg, part_of s i sg -> exists l, rated cr i sg l /\ (l = 0%Z \/ (level <= l)%Z).
(** The letter is opened (or verified) at a level with the trust store. *)
Definition letter_at (c : config) (cr : crypto) (w : world) (level : Z) (r : raw_letter) : Prop :=
  exists req e su s, get_suite suite_registry (l_suite (rw_letter r)) = Some su /\ letter_envelope suite_registry req r = Ok e
    /\ correspondence c suite_registry tool_registry hash_registry cr w e = Ok s /\ at_level cr level su s.
(** A letter that the verify command looks at for the file [t]. *)
Definition looked_at (load : bytes -> option raw_letter) (parse : bytes -> outcome raw_letter) (contents : bytes -> option bytes) (stdin t : bytes) (r : raw_letter) : Prop :=
  (letter_name t /\ exists data, (if bytes_eqb t (lit "-") then data = stdin else contents t = Some data) /\ parse data = Ok r)
  \/ (~ letter_name t /\ exists f text, data_file t f /\ contents (f ++ lit ".sig") = Some text /\ In r (fst (parse_sig_file load text))).
