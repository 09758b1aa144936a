(** Specification of file signatures (C39). *)
From Verif Require Import Prelude Tools Crypto Letter Session Envelope Lhash FileSig.

(** The metadata map holds [v] for [k]. *)
Definition meta_has (meta : list (bytes * bytes)) (k v : bytes) : Prop :=
  exists pre post, meta = pre ++ (k, v) :: post /\ forall v', ~ In (k, v') pre.

(** The letter [r] is a valid signature of a file with content [data], with all required metadata: it
    opens for the trust store of [w] with the file signature requirements, and [fd], read from the letter's
    data, has the metadata and the hash. *)
Definition signature_of (c : config) (cr : crypto) (w : world) (H : N -> bytes -> bytes) (load_fd : bytes -> option filedata)
  (required : list (bytes * bytes)) (d : nat) (data : bytes) (r : raw_letter) (fd : filedata) : Prop :=
  load_fd (l_data (rw_letter r)) = Some fd
  /\ (exists opened, letter_open c suite_registry tool_registry hash_registry cr w
        (Some [Requirements.Integrity; Requirements.SenderAuthentication]) r d = Ok opened)
  /\ (forall k v, In (k, v) required -> meta_has (fd_meta fd) k v)
  /\ exists h, lh_load (fd_hash fd) = Ok h /\ H (lh_alg h) data = lh_digest h.
