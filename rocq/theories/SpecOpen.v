(** Specification vocabulary for opening letters: what it means that the integrity tools
    of a suite and the signers' keys accept a letter (no proofs). *)
From Verif Require Import Prelude Letter Tools Crypto Session Core SpecKeys.

(** [kv] gives each keyed tool of the session the key and IV that are derived from [nonce]
    and the shared [secret]. *)
Definition key_schedule (cr : crypto) (s : session) (nonce secret : bytes) (off : nat) (kv : inst -> bytes * bytes) : Prop :=
  Forall (fun x => let '(i, (o1, n1), (o2, n2)) := x in
            cr_kdf cr (kdf_name s) (kdf_hash s) nonce secret o1 n1 = Some (fst (kv i))
            /\ (has_iv i = true -> cr_kdf cr (kdf_name s) (kdf_hash s) nonce secret o2 n2 = Some (snd (kv i))))
         (slots (s_dks s) (s_stateful s) off).

(** The AEAD tools, in the order of the list, open [ct] to [pt]. *)
Inductive aead_chain (cr : crypto) (kv : inst -> bytes * bytes) (ad : bytes) : list inst -> bytes -> bytes -> Prop :=
| chain_nil d : aead_chain cr kv ad [] d d
| chain_cons i l ct d pt :
    cr_open cr (i_name i) (fst (kv i)) (snd (kv i)) ad ct = Some d ->
    aead_chain cr kv ad l d pt -> aead_chain cr kv ad (i :: l) ct pt.

(** The stream ciphers, applied in the order of the list. *)
Definition unmask (cr : crypto) (kv : inst -> bytes * bytes) (l : list inst) (d : bytes) : bytes :=
  fold_left (fun d i => xor_bytes d (cr_stream cr (i_name i) (fst (kv i)) (snd (kv i)) (length d))) l d.

(** The MAC is the concatenation of the tags of all MAC tools over data and header. *)
Definition mac_tags (cr : crypto) (kv : inst -> bytes * bytes) (l : list inst) (msg : bytes) : bytes :=
  concat (map (fun i => cr_mac cr (i_name i) (i_arg i) (fst (kv i)) msg) l).

Definition accepted (cr : crypto) (s : session) (kv : inst -> bytes * bytes) (l : letter) (data : bytes) : Prop :=
  (s_macs s <> [] -> l_mac l = mac_tags cr kv (s_macs s) (l_data l ++ assoc_data l))
  /\ exists inner, aead_chain cr kv (assoc_data l) (rev (s_aead s)) (l_data l) inner
                   /\ data = unmask cr kv (rev (s_ciph s)) inner.

(** The header and the content of two letters agree. *)
Definition same_header (a b : letter) : Prop :=
  l_version a = l_version b /\ l_suite a = l_suite b /\ l_nonce a = l_nonce b /\ l_keys a = l_keys b.

(** What a signer signs, and when a signature verifies. *)
Definition signed_message (l : letter) : bytes := l_data l ++ assoc_signing_data l (assoc_data l).
Definition signature_valid (cr : crypto) (i : inst) (sg : signet) (l : letter) (v : seal) : Prop :=
  exists p, sg_pub sg = Some p
    /\ cr_verify cr (i_name i) (i_arg i) p (cr_hash cr (i_arg i) (signed_message l)) (seal_value v) = true.

(** What one secret or recipient contributes to a letter with the given nonce: the seal in
    the letter's key list, and the key material that goes into the derived keys. *)
Inductive contributes (c : config) (cr : crypto) (s : session) (nonce : bytes) (sg : signet) : seal -> bytes -> Prop :=
| con_key : sg_scheme sg = scheme_key ->
    contributes c cr s nonce sg (mkSeal scheme_key (sg_id sg) []) (sg_key sg)
| con_pw i k : sg_scheme sg = scheme_pw -> s_pass s = Some i ->
    cr_pwd cr (i_name i) (sg_key sg) nonce (helper_dks c s) = Some k ->
    contributes c cr s nonce sg (mkSeal scheme_pw (sg_id sg) []) k
| con_kx i pub priv p : In i (s_kx s) -> sg_scheme sg = i_name i -> sg_pub sg = Some p ->
    pair_ok cr (i_name i) pub priv ->   (* made for this letter *)
    contributes c cr s nonce sg (mkSeal [] (sg_id sg) (cr_store_pub cr (i_name i) pub)) (cr_shared cr (i_name i) priv p)
| con_ke i k p v d j : In i (s_ke s) -> sg_scheme sg = i_name i -> sg_pub sg = Some p ->
    cr_rand cr j (Z.to_nat (helper_dks c s)) = Some k ->
    cr_encap cr (i_name i) (i_arg i) p k d = Some v ->
    contributes c cr s nonce sg (mkSeal [] (sg_id sg) v) k.

(** A signature of [sg] over the letter. *)
Definition signs (cr : crypto) (s : session) (l : letter) (sg : signet) (v : seal) : Prop :=
  exists i k d, In i (s_signers s) /\ i_name i = sg_scheme sg /\ sg_priv sg = PKey k
    /\ seal_scheme v = sg_scheme sg /\ seal_id v = sg_id sg
    /\ cr_sign cr (i_name i) (i_arg i) k (cr_hash cr (i_arg i) (signed_message l)) d = Some (seal_value v).
