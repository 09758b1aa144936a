(** Property theorems C01-C06: letter formats and associated data.
    [w] is the number of bytes the third-party varint reader consumes for a
    two-byte uint8 (Container.v, [get_n8]). *)
From Verif Require Import LetterFacts.

(** ** C01: wire round trip *)

Theorem C01_wire_round_trip : forall w l,
  letter_fits l -> length (l_keys l) <= 255 ->
  (w = 2 \/ ((l_version l < 128)%N /\ length (l_keys l) <= 127)) ->
  exists l', letter_from_wire_data w (to_wire l) = Ok l'
    /\ l_version l' = l_version l /\ l_nonce l' = l_nonce l /\ l_data l' = l_data l
    /\ l_mac l' = l_mac l /\ l_apply l' = l_apply l
    /\ map (fun s => (seal_id s, seal_value s)) (l_keys l') = map (fun s => (seal_id s, seal_value s)) (l_keys l)
    /\ (l_version l <> 0%N -> l_suite l' = l_suite l)
    /\ l_sigs l' = [].
Proof. exact C01_lemma. Qed.
Print Assumptions C01_wire_round_trip.

(** Whatever follows the letter in the container is left there untouched. *)
Theorem C01_wire_stream : forall w l r,
  letter_fits l -> length (l_keys l) <= 255 ->
  (w = 2 \/ ((l_version l < 128)%N /\ length (l_keys l) <= 127)) ->
  exists l', letter_from_wire w (to_wire l ++ r) = Ok (l', r) /\ letter_from_wire_data w (to_wire l) = Ok l'
    /\ letter_from_wire_data w (to_wire l ++ r) = Ok l'.
Proof. exact C01_stream_lemma. Qed.
Print Assumptions C01_wire_stream.

(** More than 255 seals: ToWire succeeds, but no receiver can read the letter. *)
Theorem C01_many_keys_refuted : exists l, letter_fits l /\ l_version l = 1%N /\ length (l_keys l) = 256 /\
  forall w, letter_from_wire_data w (to_wire l) = Err EVarint.
Proof. exact C01_many_keys_lemma. Qed.
Print Assumptions C01_many_keys_refuted.

(** And so for every letter with more than 255 seals (whatever bytes follow it). *)
Theorem C01_many_keys_rejected : forall w l r,
  letter_fits l -> 255 < length (l_keys l) -> w = 2 \/ (l_version l < 128)%N ->
  letter_from_wire w (to_wire l ++ r) = Err EVarint.
Proof. intros w l r F L W. now apply from_to_wire_many. Qed.
Print Assumptions C01_many_keys_rejected.

Example C01_hypotheses_met : let l := sample_letter in
  letter_fits l /\ length (l_keys l) <= 255 /\ (l_version l < 128)%N /\ length (l_keys l) <= 127
  /\ letter_from_wire_data 2 (to_wire l) = Ok (set_sigs l []).
Proof. exact sample_letter_ok. Qed.

(** ** C02: truncation *)

Theorem C02_truncation_rejected : forall w l p x,
  letter_fits l -> length (l_keys l) <= 255 ->
  (w = 2 \/ (w <= 2 /\ (l_version l < 128)%N /\ length (l_keys l) <= 127)) ->
  to_wire l = p ++ x -> x <> [] ->
  forall l', letter_from_wire_data w p <> Ok l'.
Proof. exact wire_prefix_rejected. Qed.
Print Assumptions C02_truncation_rejected.

Example C02_hypotheses_met : exists p x, to_wire sample_letter = p ++ x /\ x <> [] /\ p <> [].
Proof. exact sample_prefix. Qed.

(** ** C03: file format; [dump]/[load] is the JSON header codec (third party). *)

Theorem C03_file_round_trip : forall w dump load l,
  (forall l0 h, dump l0 = Ok h -> load (h ++ [n2b 10]) = Ok l0 /\ fits (h ++ [n2b 10])) ->
  fits (l_data l) ->
  forall c, fst (to_file_format dump l) = Ok c ->
  letter_from_file_format w load c = Ok l.
Proof. exact file_round_trip. Qed.
Print Assumptions C03_file_round_trip.

Theorem C03_letter_unchanged_on_success : forall dump l c,
  fst (to_file_format dump l) = Ok c -> snd (to_file_format dump l) = l.
Proof. exact file_unchanged. Qed.
Print Assumptions C03_letter_unchanged_on_success.

(** When writing the header fails, the letter has lost its data. *)
Theorem C03_letter_unchanged_refuted : exists dump l e,
  fst (to_file_format dump l) = Err e /\ l_data l <> [] /\ l_data (snd (to_file_format dump l)) = [].
Proof. exact C03_refuted_lemma. Qed.
Print Assumptions C03_letter_unchanged_refuted.

Theorem C03_failure_loses_data : forall dump l,
  (forall c, fst (to_file_format dump l) <> Ok c) -> snd (to_file_format dump l) = set_data l [].
Proof. intros dump l N. unfold to_file_format in *. destruct (dump (set_data l [])) as [h| |]; [destruct (N _ eq_refl)|reflexivity..]. Qed.
Print Assumptions C03_failure_loses_data.

Example C03_hypotheses_met : exists dump load : _,
  (forall l0 h, dump l0 = Ok h -> load (h ++ [n2b 10]) = Ok l0 /\ fits (h ++ [n2b 10]))
  /\ exists c, fst (to_file_format dump (set_data l_empty (lit "content"))) = Ok c.
Proof. exact C03_sample. Qed.

(** ** C04: the associated data determines the header *)

Theorem C04_associated_data_binds_header : forall l1 l2,
  letter_fits l1 -> letter_fits l2 ->
  (length (l_keys l1) <= 16 \/
   (Forall (fun s => seal_value s <> []) (l_keys l1) /\ Forall (fun s => seal_value s <> []) (l_keys l2))) ->
  assoc_data l1 = assoc_data l2 ->
  l_version l1 = l_version l2 /\ l_suite l1 = l_suite l2 /\ l_nonce l1 = l_nonce l2 /\ l_keys l1 = l_keys l2.
Proof. exact C04_lemma. Qed.
Print Assumptions C04_associated_data_binds_header.

(** With 17 seals, the index of a seal can be read as a field of its predecessor. *)
Theorem C04_associated_data_binds_header_refuted : exists l1 l2,
  letter_fits l1 /\ letter_fits l2 /\ length (l_keys l1) = 17 /\ length (l_keys l2) = 17
  /\ l_keys l1 <> l_keys l2 /\ assoc_data l1 = assoc_data l2.
Proof. exact C04_refuted_lemma. Qed.
Print Assumptions C04_associated_data_binds_header_refuted.

Example C04_hypotheses_met : letter_fits sample_letter /\ length (l_keys sample_letter) <= 16
  /\ assoc_data sample_letter <> assoc_data (set_keys sample_letter []).
Proof. exact C04_sample. Qed.

(** ** C05: ApplyKeys is not authenticated, by neither MAC nor signature. *)

Theorem C05_apply_keys_not_authenticated_refuted : exists l1 l2,
  letter_fits l1 /\ letter_fits l2 /\ l_apply l1 <> l_apply l2
  /\ to_wire l1 <> to_wire l2
  /\ l_data l1 = l_data l2 /\ l_mac l1 = l_mac l2
  /\ assoc_data l1 = assoc_data l2
  /\ forall ad, assoc_signing_data l1 ad = assoc_signing_data l2 ad.
Proof. exact C05_refuted_lemma. Qed.
Print Assumptions C05_apply_keys_not_authenticated_refuted.

(** Indeed, whatever the letter: the flag can be flipped on the way and nothing that is authenticated changes, while the
    receiver reads the flipped flag from the bytes it gets. *)
Theorem C05_apply_keys_never_authenticated : forall w l b,
  letter_fits l -> length (l_keys l) <= 255 -> (w = 2 \/ ((l_version l < 128)%N /\ length (l_keys l) <= 127)) ->
  let l2 := mkLetter (l_version l) (l_suite l) (l_nonce l) (l_keys l) (l_data l) (l_mac l) (l_sigs l) b in
  assoc_data l2 = assoc_data l /\ (forall ad, assoc_signing_data l2 ad = assoc_signing_data l ad)
  /\ exists r1 r2, letter_from_wire_data w (to_wire l) = Ok r1 /\ letter_from_wire_data w (to_wire l2) = Ok r2
       /\ l_apply r1 = l_apply l /\ l_apply r2 = b /\ assoc_data r1 = assoc_data r2 /\ l_data r1 = l_data r2 /\ l_mac r1 = l_mac r2.
Proof.
  intros w l b F L W l2. split; [reflexivity|]. split; [reflexivity|].
  assert (F2 : letter_fits l2) by (destruct F; split; assumption). exists (wire_view l), (wire_view l2). unfold letter_from_wire_data.
  rewrite <- (app_nil_r (to_wire l)), <- (app_nil_r (to_wire l2)), !from_to_wire by assumption. repeat split.
Qed.
Print Assumptions C05_apply_keys_never_authenticated.

(** ** C06: data and associated data are concatenated without separation. *)

(** What is signed for each letter: data followed by the signing data. *)
Theorem C06_same_length : forall l1 l2 ad1 ad2,
  letter_fits l1 -> letter_fits l2 ->
  (length (l_keys l1) <= 16 \/
   (Forall (fun s => seal_value s <> []) (l_keys l1) /\ Forall (fun s => seal_value s <> []) (l_keys l2))) ->
  (ad1 = [] \/ ad1 = assoc_data l1) -> (ad2 = [] \/ ad2 = assoc_data l2) ->
  length (l_data l1) = length (l_data l2) ->
  l_data l1 ++ assoc_signing_data l1 ad1 = l_data l2 ++ assoc_signing_data l2 ad2 ->
  l_data l1 = l_data l2
  /\ (l_version l1 = l_version l2 /\ l_suite l1 = l_suite l2 /\ l_nonce l1 = l_nonce l2 /\ l_keys l1 = l_keys l2)
  /\ l_mac l1 = l_mac l2.
Proof. exact C06_lemma. Qed.
Print Assumptions C06_same_length.

(** Every signed letter of suite sign_v1 can be turned into a letter with other
    data that has the same signed bytes (so the same signature is valid). *)
Theorem C06_signature_moves_to_other_content_refuted : forall d nonce,
  (blen nonce < 2 ^ 32)%N -> nonce <> [] -> (blen d < 2 ^ 32)%N ->
  exists l1 l2, letter_fits l1 /\ letter_fits l2
    /\ l_data l1 <> l_data l2
    /\ l_version l1 = 1%N /\ l_suite l1 = lit "sign_v1" /\ l_nonce l1 = nonce /\ l_keys l1 = [] /\ l_mac l1 = []
    /\ l_data l2 = d
    /\ l_version l2 = 1%N /\ l_suite l2 = lit "sign_v1" /\ l_keys l2 = []
    /\ l_data l1 ++ assoc_signing_data l1 [] = l_data l2 ++ assoc_signing_data l2 [].
Proof. exact C06_refuted_lemma. Qed.
Print Assumptions C06_signature_moves_to_other_content_refuted.

(** C05 and C06 apply to a letter with nonce, seals, data and MAC; its content is not determined for other lengths only. *)
Example C05_hypotheses_met : letter_fits sample_letter /\ length (l_keys sample_letter) <= 255 /\ l_keys sample_letter <> [] /\ l_data sample_letter <> [].
Proof. split; [apply sample_letter_ok|]. split; [cbn; lia|]. split; discriminate. Qed.
Example C06_hypotheses_met : letter_fits sample_letter /\ length (l_keys sample_letter) <= 16 /\ l_keys sample_letter <> []
  /\ assoc_signing_data sample_letter [] = assoc_signing_data sample_letter (assoc_data sample_letter)
  /\ l_data sample_letter ++ assoc_signing_data sample_letter [] <> l_data sample_letter ++ assoc_signing_data (set_keys sample_letter []) [].
Proof. split; [apply sample_letter_ok|]. split; [cbn; lia|]. split; [discriminate|]. split; [reflexivity|discriminate]. Qed.
