(** Specification of the sign command (C65). *)
From Coq Require Import Init.Byte.
From Verif Require Import Prelude Requirements Tools Crypto Letter Session Core Envelope Lhash Encodings FileSig SpecFile SpecReport Cmd CmdFiles SpecCmdFiles.

(** The name of the signature file: given, or derived from the data file. *)
Definition sign_output (flag f out : bytes) : Prop :=
  (flag <> [] /\ out = flag) \/ (flag = [] /\ out = f ++ lit ".sig" /\ forall a, f <> a ++ lit ".sig").

Section Spec.
Variable sy : system.
(** [part] is in the file [out] (whatever it is called, also "-"), and no other file is changed.  A file that was there keeps its
    mode, a new one may be read by everybody (0644). *)
Definition holds (out part : bytes) (done : list event) : Prop :=
  (exists m, disk_after sy done (sy_node sy out) = Some (File m part)
     /\ ((exists old, sy_disk sy (sy_node sy out) = Some (File m old)) \/ (sy_disk sy (sy_node sy out) = None /\ m = 420%N)))
  /\ forall n, n <> sy_node sy out -> disk_after sy done n = sy_disk sy n.
(** What the signature file was before: it can be read, or it does not exist. *)
Definition old_signatures (out : bytes) (sr : sig_read) : Prop :=
  sy_no_read sy out = false
  /\ ((sr = SigMissing /\ sy_disk sy (sy_node sy out) = None) \/ exists m old, sr = SigText old /\ sy_disk sy (sy_node sy out) = Some (File m old)).
End Spec.

(** What is printed about the file data of a new signature. *)
Definition receipt (f out : bytes) (fd : filedata) (t : bytes) : Prop :=
  exists h entries, lh_load (fd_hash fd) = Ok h /\ listed (fd_meta fd) entries
    /\ t = text_of ([lit "Verification: OK"; []; lit "Hash Alg: " ++ alg_name (lh_alg h); lit "Hash Sum: " ++ hex_encode (lh_digest h)]
                    ++ meta_lines entries
                    ++ [[]; lit "File: " ++ f; lit "Sig:  " ++ out]).
(** What the files hold for a command that runs afterwards. *)
Definition contents_after (sy : system) (es : list event) (f : bytes) : option bytes :=
  match disk_after sy es (sy_node sy f) with Some (File _ b) => Some b | _ => None end.
