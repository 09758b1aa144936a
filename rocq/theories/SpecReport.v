(** Specification of what the verify and sign commands print (C66). *)
From Coq Require Import Init.Byte Sorting.Sorted.
From Verif Require Import Prelude Requirements Tools Crypto Letter Session Core Envelope Lhash Encodings FileSig SpecFile.

(** The order of strings: bytewise. *)
Inductive before : bytes -> bytes -> Prop :=
  | B_end y b : before [] (y :: b)
  | B_here x y a b : (b2n x < b2n y)%N -> before (x :: a) (y :: b)
  | B_later x a b : before a b -> before (x :: a) (x :: b).
(** [l] lists the entries of the map [m], in the order of the keys. *)
Definition listed (m l : list (bytes * bytes)) : Prop :=
  (forall k v, In (k, v) l <-> meta_has m k v) /\ StronglySorted (fun a b => before (fst a) (fst b)) l.

(** The text made of lines. *)
Definition text_of (l : list bytes) : bytes := concat (map (fun x => x ++ [x0a]) l).

(** The lines about the metadata, if there are any. *)
Definition meta_lines (l : list (bytes * bytes)) : list bytes :=
  match l with [] => [] | _ => [[]; lit "Metadata:"] ++ map (fun kv => lit "    " ++ fst kv ++ lit ": " ++ snd kv) l end.

Section Spec.
Variable names : bytes -> option (option bytes).       (* trustStore.GetSignet(id, true), see Report.v *)
(** How a signer is shown: with the name the trust store has for the ID, if it knows the ID. *)
Inductive printed_as (v : seal) : bytes -> Prop :=
  | S_id : names (seal_id v) = None -> printed_as v (seal_id v)
  | S_name n : names (seal_id v) = Some (Some n) -> printed_as v (n ++ lit " (" ++ seal_id v ++ lit ")").
(** [by_] are the signers of the letters, all of them, in order. *)
Definition signed_by (letters : list raw_letter) (by_ : list bytes) : Prop :=
  Forall2 (fun s t => exists v, s = Some v /\ printed_as v t) (flat_map rw_sigs letters) by_.

(** The report about one letter [r] with the file data [fd], whose checksum is [h]. *)
Definition report (r : raw_letter) (fd : filedata) (t : bytes) : Prop :=
  exists by_ h entries, signed_by [r] by_ /\ lh_load (fd_hash fd) = Ok h /\ listed (fd_meta fd) entries
    /\ t = text_of ([lit "Verification: OK"; []] ++ map (fun s => lit "Signed By: " ++ s) by_
                    ++ [[]; lit "Hash Alg: " ++ alg_name (lh_alg h); lit "Hash Sum: " ++ hex_encode (lh_digest h)]
                    ++ meta_lines entries).
(** The report about all letters of the signature file of [f]: nothing is said about the letters if there are three or more. *)
Definition reports (f : bytes) (letters : list raw_letter) (fds : list filedata) (t : bytes) : Prop :=
  exists body, t = body ++ text_of [[]; lit "File: " ++ f; lit "Sig:  " ++ f ++ lit ".sig"]
    /\ match letters, fds with
       | [r], [fd] => report r fd body
       | [r1; r2], [fd1; fd2] => exists b1 b2, report r1 fd1 b1 /\ report r2 fd2 b2
            /\ body = text_of [lit "2 Signatures:"; []; []] ++ b1 ++ text_of [[]; []] ++ text_of [lit "2 Signatures:"; []; []] ++ b2 ++ text_of [[]; []]
       | _, _ => body = []
       end.
End Spec.

(** The signature [v] of a letter is genuine: the trust store knows the signer, and the signer's public key verifies the
    signature over everything that the signature covers. *)
Definition signature_genuine (cr : crypto) (w : world) (r : raw_letter) (v : seal) : Prop :=
  exists g n p h, w_signet w = Some g /\ g (seal_id v) true = Ok n
    /\ (sg_pub n = Some p \/ sg_pub n = None /\ exists k, cr_load cr (sg_scheme n) (sg_key n) (sg_public n) = Ok (p, k))
    /\ cr_verify cr (sg_scheme n) h p (cr_hash cr h (l_data (complete r) ++ assoc_signing_data (complete r) (assoc_data (complete r)))) (seal_value v) = true.
(** The data file of a name on the command line: without ".sig". *)
Definition data_file (f g : bytes) : Prop := f = g ++ lit ".sig" \/ f = g /\ forall a, f <> a ++ lit ".sig".
