(** Specification of exports (C27-C29): which signets there are, and what may be in an exported text. *)
From Verif Require Import Prelude Encodings Tools Letter Session KeyStore SpecKeyStore Signets.

(** [private_signet s pub prv]: an unprotected signet of an asymmetric scheme with this key pair; either as generated (the
    keys are loaded, nothing is stored yet) or with the pair stored, and then loaded or not. *)
Definition private_signet {e} (s : fsignet e) (pub : pubkey e) (prv : prvkey e) : Prop :=
  let d := f_data s in
  (exists l, logic_of (d_scheme d) = Some l /\ generated e l pub prv) /\ d_public d = false /\ d_prot d = None
  /\ (d_key d = [] /\ f_pub s = Some pub /\ f_prv s = prv
      \/ store_keys (d_scheme d) pub prv = Ok (d_key d, false) /\ (f_pub s = None \/ f_pub s = Some pub /\ f_prv s = prv)).
(** [public_signet s pub]: a recipient with this public key; freshly made by AsRecipient, or with the key stored, and then loaded or not. *)
Definition public_signet {e} (s : fsignet e) (pub : pubkey e) : Prop :=
  let d := f_data s in
  (exists l prv, logic_of (d_scheme d) = Some l /\ generated e l pub prv) /\ d_public d = true /\ d_prot d = None
  /\ (d_key d = [] /\ f_pub s = Some pub /\ f_prv s = SNil
      \/ store_keys (d_scheme d) pub (@SNil e) = Ok (d_key d, true) /\ (f_pub s = None \/ f_pub s = Some pub)).

(** How names and schemes appear in a text: the runs of (ASCII) letters and digits in lower case, joined by dashes. *)
Definition name_chars : bytes := lit "ABCDEFGHIJKLMNOPQRSTUVWXYZabcdefghijklmnopqrstuvwxyz0123456789".
Definition in_lower (b : byte) : byte := match b2n b with n => if ((65 <=? n) && (n <=? 90))%N then n2b (n + 32) else b end.
Fixpoint name_words (s word : bytes) : list bytes :=
  match s with
  | [] => match word with [] => [] | _ => [word] end
  | b :: r => if existsb (byte_eqb b) name_chars then name_words r (word ++ [b])
              else match word with [] => name_words r [] | _ => word :: name_words r [] end
  end.
Fixpoint joined (ws : list bytes) : bytes :=
  match ws with [] => [] | [w] => w | w :: r => w ++ lit "-" ++ joined r end.
Definition plain_name (s : bytes) : bytes := map in_lower (joined (name_words s [])).

(** The text of a recipient: made from these data and nothing else. *)
Definition recipient_text (dump : sdata -> option bytes) (short : bool) (version : N) (id scheme : bytes) (info : option sinfo) (key : bytes) (sig : option letter) : outcome bytes :=
  match dump (mkData version id scheme key true None info sig) with
  | None => Err EOther
  | Some b =>
      if short then Ok (lit "recipient:" ++ b58_encode b)
      else match info with
           | None => Panic
           | Some i => Ok (lit "recipient:public-" ++ plain_name scheme ++ lit "-key:" ++ plain_name (in_name i) ++ lit ":" ++ b58_encode b)
           end
  end.
(** The codec gives this value back. *)
Definition codec_ok {A} (dump : A -> option bytes) (undump : bytes -> option A) (a : A) : Prop :=
  exists b, dump a = Some b /\ b <> [] /\ undump b = Some a.
(** The references of an envelope: nothing else of its signets. *)
Definition references (v : edata) : list (list (N * bytes * bytes)) :=
  map (map (fun d => (d_version d, d_id d, d_scheme d))) [ev_secrets v; ev_senders v; ev_recipients v].
Definition bare (d : sdata) : Prop := d_key d = [] /\ d_public d = false /\ d_prot d = None /\ d_info d = None /\ d_sig d = None.
