(** Property theorems C64: `jess generate`. *)
From Coq Require Import Init.Byte.
From Verif Require Import Prelude PreludeFacts Encodings EncodingsFacts Tools Letter Session KeyStore SpecKeyStore PropKeyStore Signets SpecExport PropExport TrustStore SpecStore PropStore Wizard SpecWizard PropWizard PropManage PropRsa Generate SpecGenerate.
From Verif Require Text.

(** ** UUIDs *)
Lemma hi_in b : In (hex_digit (b2n b / 16)) hexes.
Proof. apply (proj1 (existsb_exists (byte_eqb (hex_digit (b2n b / 16))) hexes : _)) || idtac. destruct b; vm_compute; tauto. Qed.
Lemma lo_in b : In (hex_digit (b2n b mod 16)) hexes.
Proof. destruct b; vm_compute; tauto. Qed.
Lemma version_hi b : hex_digit (b2n (set_version4 b) / 16) = x34.
Proof. destruct b; reflexivity. Qed.
Lemma variant_hi b : In (hex_digit (b2n (set_variant b) / 16)) (lit "89ab").
Proof. destruct b; vm_compute; tauto. Qed.
Lemma version_low b : (b2n (set_version4 b) mod 16 = b2n b mod 16)%N.
Proof. destruct b; reflexivity. Qed.
Lemma variant_low b : (b2n (set_variant b) mod 64 = b2n b mod 64)%N.
Proof. destruct b; reflexivity. Qed.
Lemma hex_pair_inj a b : hex_digit (b2n a / 16) = hex_digit (b2n b / 16) -> hex_digit (b2n a mod 16) = hex_digit (b2n b mod 16) -> a = b.
Proof.
  intros H1 H2. assert (H : hex_encode [a] = hex_encode [b]) by (cbn [hex_encode]; congruence). apply (f_equal hex_decode) in H. rewrite !hex_round_trip in H. now injection H.
Qed.
Ltac sixteen u H := do 16 (destruct u as [|? u]; [discriminate H|]); destruct u; [|discriminate H].

Theorem C64_uuid : forall u, length u = 16 -> uuid4 (uuid_of u).
Proof.
  intros u H. sixteen u H. split; [reflexivity|]. unfold uuid_of. cbn [set_at uuid_string firstn skipn hex_encode app]. intros i x E.
  do 36 (destruct i as [|i]; [cbn [nth_error] in E; injection E as <-; cbn [existsb Nat.eqb orb]; first [apply hi_in|apply lo_in|apply variant_hi|left; reflexivity|left; symmetry; apply version_hi]|]).
  destruct i; discriminate E.
Qed.
Theorem C64_distinct : forall u v, length u = 16 -> length v = 16 -> uuid_of u = uuid_of v -> same_bits u v.
Proof.
  intros u v H1 H2. sixteen u H1. sixteen v H2. intro E. unfold uuid_of in E. cbn [set_at uuid_string firstn skipn hex_encode app] in E. injection E. clear E. intros.
  split; [reflexivity|]. intros i x y X Y.
  do 16 (destruct i as [|i]; [cbn [nth_error] in X, Y; injection X as <-; injection Y as <-; cbn [Nat.eqb];
    first [ apply hex_pair_inj; assumption
          | rewrite <- (version_low b5), <- (version_low b21); f_equal; f_equal; apply hex_pair_inj; assumption
          | rewrite <- version_low; symmetry; rewrite <- version_low; f_equal; f_equal; apply hex_pair_inj; congruence
          | rewrite <- variant_low; symmetry; rewrite <- variant_low; f_equal; f_equal; apply hex_pair_inj; congruence ]|]).
  destruct i; discriminate X.
Qed.

(** The ID is a name the store accepts, and one word in the menus. *)
Lemma forallb_nth (p : byte -> bool) l : (forall i b, nth_error l i = Some b -> p b = true) -> forallb p l = true.
Proof. intro H. apply forallb_forall. intros b I. apply In_nth_error in I as [i E]. exact (H i b E). Qed.
Lemma uuid4_chars id : uuid4 id -> forall b, In b id -> In b (x2d :: hexes).
Proof.
  intros [_ H] b I. apply In_nth_error in I as [i E]. apply H in E. destruct (existsb _ _); [left; destruct E as [E|[]]; exact E|].
  destruct (Nat.eqb i 14); [destruct E as [<-|[]]; vm_compute; tauto|]. destruct (Nat.eqb i 19); [|right; exact E]. repeat (destruct E as [<-|E]; [vm_compute; tauto|]). destruct E.
Qed.
Theorem C64_id : forall u, length u = 16 -> nice (uuid_of u) = true /\ one_word (uuid_of u).
Proof.
  intros u L. pose proof (C64_uuid u L) as U. pose proof (uuid4_chars _ U) as C.
  assert (A : forall p : byte -> bool, forallb p (x2d :: hexes) = true -> forallb p (uuid_of u) = true).
  { intros p P. apply forallb_forall. intros b I. rewrite forallb_forall in P. apply P, C, I. }
  split; [apply A; reflexivity|]. apply word_ascii; [|apply A; reflexivity]. intro E. destruct U as [LU _]. rewrite E in LU. discriminate LU.
Qed.

(** ** What was asked for *)
Lemma asked_exact f rs name scheme : asked f rs name scheme <-> exists rs1 rs2, ask_name f rs = Ok (name, rs1) /\ ask_scheme f rs1 = Ok (scheme, rs2).
Proof.
  unfold asked, name_asked, scheme_asked, ask_name, ask_scheme. split.
  - intros (rs1 & (NE & N) & S). exists rs1.
    assert (SX : exists rs2, match Text.trim_space (g_scheme f) with [] => match rs1 with Choose line :: rs' => match fields line with [] => Panic | s :: _ => Ok (s, rs') end | _ => Err EOther end | _ :: _ => Ok (Text.trim_space (g_scheme f), rs1) end = Ok (scheme, rs2)).
    { destruct S as [[-> SN]|[-> (line & rest & -> & H)]]; [destruct (Text.trim_space (g_scheme f)); [now elim SN|eexists; reflexivity]|].
      destruct (fields line); [discriminate H|]. injection H as ->. eexists; reflexivity. }
    destruct SX as [rs2 SX]. exists rs2. split; [|destruct (Text.trim_space (g_scheme f)); exact SX]. destruct N as [[-> ->]|[-> ->]]; [destruct (Text.trim_space (g_name f)); [now elim NE|reflexivity]|]. destruct name; [now elim NE|reflexivity].
  - intros (rs1 & rs2 & N & S). exists rs1. split.
    + destruct (Text.trim_space (g_name f)) eqn:T; [|injection N as <- <-; split; [discriminate|left; auto]]. destruct rs as [|[[|b n]|ls] r]; try discriminate N. injection N as <- <-. split; [discriminate|right; auto].
    + destruct (Text.trim_space (g_scheme f)) eqn:T; [|injection S as <- <-; left; split; [reflexivity|discriminate]]. right. split; [reflexivity|]. destruct rs1 as [|[line|ls] r]; try discriminate S. destruct (fields line) eqn:F; [discriminate S|]. injection S as <- <-. exists line, r. rewrite F. auto.
Qed.

Lemma suited scheme l : logic_of scheme = Some l -> exists t, tools_get tool_registry scheme = Ok t /\ t_name t = scheme /\ bytes_eqb scheme scheme_pw = false /\ bytes_eqb scheme scheme_key = false
  /\ has_option t ONeedsDefaultKeySize = false /\ (l <> LR -> has_option t ONeedsSecurityLevel = false)
  /\ (t_purpose t = PKeyExchange \/ t_purpose t = PKeyEncapsulation \/ t_purpose t = PSigning).
Proof.
  unfold logic_of. intro H.
  assert (N : In scheme [lit "ECDH-X25519"; lit "ECDH-P224"; lit "ECDH-P256"; lit "ECDH-P384"; lit "ECDH-P521"; lit "Ed25519"] \/ l = LR /\ In scheme [lit "RSA-OAEP"; lit "RSA-PSS"]).
  { destruct (bytes_eqb scheme (lit "ECDH-X25519")) eqn:B; [apply bytes_eqb_eq in B; left; left; now symmetry|]. destruct (existsb _ _) eqn:X.
    - apply existsb_exists in X as (y & I & Y). apply bytes_eqb_eq in Y. subst y. left. cbn [In] in *. tauto.
    - destruct (bytes_eqb scheme (lit "Ed25519")) eqn:B1; [apply bytes_eqb_eq in B1; left; do 5 right; left; now symmetry|]. destruct (bytes_eqb scheme (lit "RSA-OAEP")) eqn:B2.
      + apply bytes_eqb_eq in B2. injection H as <-. right. split; [reflexivity|left; now symmetry].
      + destruct (bytes_eqb scheme (lit "RSA-PSS")) eqn:B3; [|discriminate H]. apply bytes_eqb_eq in B3. injection H as <-. right. split; [reflexivity|right; left; now symmetry]. }
  clear H. destruct N as [N|[-> N]]; cbn [In] in N; repeat (destruct N as [<-|N]; [eexists; split; [vm_compute; reflexivity|]; repeat split; try (intro X; now elim X); auto|]); destruct N.
Qed.

Section Generate.
Context {e : ext}.
Variables (dump : sdata -> option bytes) (undump : bytes -> option sdata) (jdump : sdata -> option bytes).
Variable dir : bytes.
Variable rand : nat -> nat -> option bytes.
Variable gen : bytes -> Z -> option (pubkey e * prvkey e).
Variable now : bytes.
Variable writes : bool -> bool.
Notation make_key := (@make_key e rand gen).
Notation draft := (@draft e rand gen now).
Notation new_signet := (@new_signet e jdump dir rand gen now writes).
Notation generate := (@generate e dump jdump dir rand gen now writes).
(** Assumptions: key generation gives pairs of its scheme, and randomness as many bytes as asked for (io.ReadFull). *)
Hypothesis gen_ok : forall t n p k, gen t n = Some (p, k) -> exists l, logic_of t = Some l /\ generated e l p k.
Hypothesis rand_ok : forall i n b, rand i n = Some b -> length b = n.
(** The signet that is made, of which there may be two forms. *)
Definition made (u name scheme key : bytes) (public : bool) : sdata := mkData 1 (uuid_of u) scheme key public None (Some (mkInfo name now)) None.

Lemma draft_inv f rs s : draft f rs = Ok s -> exists name scheme u s0, asked f rs name scheme /\ rand 1 16 = Some u /\ make_key f scheme = Ok s0 /\ s = with_id_info now s0 (uuid_of u) name.
Proof using Type.
  unfold Generate.draft. destruct (ask_name f rs) as [[name rs1]| |] eqn:N; cbn [bind]; try (intro X; discriminate X). destruct (ask_scheme f rs1) as [[scheme rs2]| |] eqn:S; cbn [bind]; try (intro X; discriminate X).
  destruct (make_key f scheme) as [s0| |] eqn:M; cbn [bind]; try (intro X; discriminate X). destruct (rand 1 16) as [u|] eqn:R; cbn [bind of_option]; [|intro X; discriminate X]. injection 1 as <-.
  exists name, scheme, u, s0. split; [apply asked_exact; eauto|]. auto.
Qed.
Lemma get_name scheme t : tools_get tool_registry scheme = Ok t -> t_name t = scheme.
Proof using Type.
  unfold tools_get. destruct (find _ _) as [t'|] eqn:F; cbn [of_option]; [|intro X; discriminate X]. injection 1 as <-. apply find_some in F as [_ F]. now apply bytes_eqb_eq in F.
Qed.
Lemma key_inv f scheme s0 : make_key f scheme = Ok s0 ->
  scheme = scheme_pw /\ s0 = mkF (new_base scheme []) None SNil
  \/ scheme = scheme_key /\ (0 < g_symsize f)%Z /\ (exists k, rand 0 (Z.to_nat (g_symsize f)) = Some k /\ length k = Z.to_nat (g_symsize f) /\ s0 = mkF (new_base scheme k) None SNil)
  \/ exists l p k key, scheme <> scheme_pw /\ scheme <> scheme_key /\ logic_of scheme = Some l /\ generated e l p k /\ gen scheme (rsa_size_for_level (rsa_level f)) = Some (p, k)
      /\ (l = LR -> (0 < g_seclevel f)%Z) /\ store_keys scheme p k = Ok (key, false) /\ s0 = mkF (new_base scheme key) (Some p) k.
Proof using gen_ok.
  unfold Generate.make_key. destruct (bytes_eqb scheme scheme_pw) eqn:PW; [intro H; injection H as <-; apply bytes_eqb_eq in PW; subst; left; auto|].
  destruct (bytes_eqb scheme scheme_key) eqn:KY.
  - apply bytes_eqb_eq in KY. subst scheme. destruct (Z.eqb_spec (g_symsize f) 0) as [|NZ]; [intro X; discriminate X|]. unfold random_bytes.
    destruct (Z.ltb_spec (g_symsize f) 0) as [|L]; [intro X; discriminate X|]. destruct (rand 0 _) as [k|] eqn:R; [|intro X; discriminate X].
    destruct (Nat.eqb_spec (length k) (Z.to_nat (g_symsize f))) as [E|]; [|intro X; discriminate X]. intro H. injection H as <-. right. left. split; [reflexivity|]. split; [clear -L NZ; lia|]. eauto.
  - destruct (tools_get tool_registry scheme) as [t| |] eqn:T; cbn [bind]; try (intro X; discriminate X). pose proof (get_name _ _ T) as TN. rewrite TN.
    destruct (has_option t ONeedsSecurityLevel && (g_seclevel f <=? 0)%Z) eqn:NS; [intro X; discriminate X|]. destruct (has_option t ONeedsDefaultKeySize && (g_symsize f <=? 0)%Z); [intro X; discriminate X|].
    intro H. assert (G : exists p k, gen scheme (rsa_size_for_level (rsa_level f)) = Some (p, k) /\ store_signet tool_registry (mkF (new_base scheme []) (Some p) k) = Ok s0).
    { destruct (t_purpose t); try discriminate H; destruct (gen scheme _) as [[p k]|]; try discriminate H; eauto. }
    destruct G as (p & k & G & S). destruct (gen_ok _ _ _ _ G) as (l & L & GE). destruct (C26_round_trip e _ l p k L GE) as (key & SK & _). right. right. exists l, p, k, key.
    split; [intros ->; rewrite bytes_eqb_refl in PW; discriminate PW|]. split; [intros ->; rewrite bytes_eqb_refl in KY; discriminate KY|]. split; [exact L|]. split; [exact GE|]. split; [exact G|]. split.
    + intros ->. assert (O : has_option t ONeedsSecurityLevel = true).
      { unfold logic_of in L. destruct (bytes_eqb scheme (lit "ECDH-X25519")); [discriminate L|]. destruct (existsb _ _); [discriminate L|]. destruct (bytes_eqb scheme (lit "Ed25519")); [discriminate L|].
        destruct (bytes_eqb scheme (lit "RSA-OAEP")) eqn:B1; [apply bytes_eqb_eq in B1; rewrite B1 in T; vm_compute in T; injection T as <-; reflexivity|].
        destruct (bytes_eqb scheme (lit "RSA-PSS")) eqn:B2; [apply bytes_eqb_eq in B2; rewrite B2 in T; vm_compute in T; injection T as <-; reflexivity|]. discriminate L. }
      rewrite O in NS. cbn [andb] in NS. now apply Z.leb_gt in NS.
    + split; [exact SK|]. unfold Signets.store_signet in S. cbn [f_data new_base d_key d_scheme f_pub f_prv] in S. rewrite T in S. cbn [bind] in S. rewrite TN, SK in S. cbn [bind] in S. injection S as <-. reflexivity.
Qed.

Lemma pair_facts (s : fsignet e) scheme l p k key u name : logic_of scheme = Some l -> generated e l p k -> store_keys scheme p k = Ok (key, false) ->
  s = with_id_info now (mkF (new_base scheme key) (Some p) k) (uuid_of u) name ->
  private_signet s p k /\ exists r r' pkey, as_recipient tool_registry s = Ok r /\ public_signet r p /\ d_info (f_data r) = Some (mkInfo name now) /\ store_signet tool_registry r = Ok r' /\ f_data r' = made u name scheme pkey true
    /\ public_signet r' p /\ stored_pair scheme p k key pkey.
Proof using Type.
  intros L G S ->. set (s := with_id_info _ _ _ _). assert (PS : private_signet s p k).
  { split; [exists l; split; [exact L|exact G]|]. split; [reflexivity|]. split; [reflexivity|]. right. split; [exact S|]. right. split; reflexivity. }
  split; [exact PS|]. destruct (private_recipient e s p k PS) as (r & R & PR & K & SN & FD). destruct (public_store e r p PR) as (pkey & none & SP & LD & U & r' & SS & FD').
  exists r, r', pkey. split; [exact R|]. split; [exact PR|]. split; [rewrite FD; reflexivity|]. split; [exact SS|]. rewrite FD in SP, LD, FD'. cbn [d_scheme] in SP, LD. split; [rewrite FD'; reflexivity|].
  assert (SC : d_scheme (f_data s) = scheme) by reflexivity. rewrite SC in SP, LD. split.
  - split; [exists l, k; rewrite FD'; split; [exact L|exact G]|]. rewrite FD'. split; [reflexivity|]. split; [reflexivity|]. right. split; [exact SP|].
    right. unfold Signets.store_signet in SS. rewrite K in SS. destruct (tools_get _ _) as [t| |]; cbn [bind] in SS; try discriminate SS. pose proof PR as [_ (_ & _ & C)].
    destruct (f_pub r) as [q|] eqn:Q; [|discriminate SS]. destruct (store_keys (t_name t) q (f_prv r)) as [[ka kb]| |]; cbn [bind] in SS; try discriminate SS. injection SS as <-. cbn [f_pub].
    destruct C as [(_ & H & _)|[_ [H|H]]]; [exact H|discriminate H|exact H].
  - destruct (private_pair e s p k PS) as (key' & S' & LD' & _). rewrite SC, S in S'. injection S' as <-. split; [exact LD'|]. split; [exists none; auto|exact SP].
Qed.
Lemma put_inv w d w' u : length u = 16 -> d_id d = uuid_of u -> put jdump dir writes w d = Ok w' -> writes (d_public d) = true /\ exists b, jdump d = Some b /\ w' = write w (signet_path dir d) b.
Proof using Type.
  intros L I. unfold put. destruct (writes (d_public d)); [|intro X; discriminate X]. destruct (C64_id u L) as (NI & NE & _). unfold dir_store, signet_path. rewrite I. rewrite NI. destruct (uuid_of u); [now elim NE|].
  destruct (jdump d) as [jb|]; [|intro X; discriminate X]. intro H. injection H as <-. eauto.
Qed.
Lemma put_works w d u b : length u = 16 -> d_id d = uuid_of u -> writes (d_public d) = true -> jdump d = Some b -> put jdump dir writes w d = Ok (write w (signet_path dir d) b).
Proof using Type.
  intros L I W J. unfold put. rewrite W. destruct (C64_id u L) as (NI & NE & _). unfold dir_store, signet_path. rewrite I, NI, J. destruct (uuid_of u); [now elim NE|reflexivity].
Qed.
Lemma held_one w d b : jdump d = Some b -> holds jdump dir (write w (signet_path dir d) b) d /\ only_signets dir [d] w (write w (signet_path dir d) b).
Proof using Type.
  intro J. split; [exists b; split; [exact J|apply read_write_same]|]. intros q H. apply read_write_other. intro E. apply (H d); [now left|now symmetry].
Qed.
Lemma held_two w d d' b b' : signet_path dir d <> signet_path dir d' -> jdump d = Some b -> jdump d' = Some b' ->
  let w' := write (write w (signet_path dir d) b) (signet_path dir d') b' in holds jdump dir w' d /\ holds jdump dir w' d' /\ only_signets dir [d; d'] w w'.
Proof using Type.
  intros D J J'. cbv zeta. split; [exists b; split; [exact J|]; rewrite read_write_other by (intro E; apply D; now symmetry); apply read_write_same|].
  split; [exists b'; split; [exact J'|apply read_write_same]|]. intros q H. rewrite !read_write_other; [reflexivity| |]; intro E; [apply (H d)|apply (H d')]; try (now symmetry); cbn; auto.
Qed.
Lemma two_paths u name scheme key key' : length u = 16 -> signet_path dir (made u name scheme key false) <> signet_path dir (made u name scheme key' true).
Proof using Type.
  intros L E. destruct (C64_id u L) as [NI _]. destruct (C33_distinct_files dir (uuid_of u) false (uuid_of u) true (uuid_of u) (uuid_of u) NI NI NI NI) as [H _].
  destruct (H E) as [_ X]. discriminate X.
Qed.

(** ** C64: what the trust store holds afterwards *)
Theorem C64_saved : forall f rs w o w', g_textonly f = false -> generate f rs w = (Ok o, w') ->
  o = None /\ exists name scheme u, asked f rs name scheme /\ rand 1 16 = Some u /\ uuid4 (uuid_of u)
  /\ (scheme = scheme_pw /\ holds jdump dir w' (made u name scheme [] false) /\ only_signets dir [made u name scheme [] false] w w'
      \/ scheme = scheme_key /\ (exists k, rand 0 (Z.to_nat (g_symsize f)) = Some k /\ k <> [] /\ Z.of_nat (length k) = g_symsize f
            /\ holds jdump dir w' (made u name scheme k false) /\ only_signets dir [made u name scheme k false] w w')
      \/ exists pub prv key pkey, gen scheme (rsa_size_for_level (rsa_level f)) = Some (pub, prv) /\ stored_pair scheme pub prv key pkey
            /\ holds jdump dir w' (made u name scheme key false) /\ holds jdump dir w' (made u name scheme pkey true)
            /\ only_signets dir [made u name scheme key false; made u name scheme pkey true] w w').
Proof using gen_ok rand_ok.
  intros f rs w o w' TO. unfold Generate.generate, Generate.new_signet. rewrite TO. cbn [negb]. destruct (draft f rs) as [s| |] eqn:D; try (intro X; discriminate X).
  destruct (draft_inv _ _ _ D) as (name & scheme & u & s0 & A & R & M & ->). pose proof (rand_ok _ _ _ R) as LU. set (s := with_id_info _ _ _ _).
  destruct (put jdump dir writes w (f_data s)) as [w1| |] eqn:P; try (intro X; discriminate X).
  assert (SU : d_id (f_data s) = uuid_of u) by reflexivity. destruct (put_inv _ _ _ u LU SU P) as (_ & b & J & ->).
  intro H. assert (ON : o = None).
  { destruct (bytes_eqb _ scheme_pw || _); [injection H as <- _; reflexivity|]. destruct (do r <- _; do r' <- _; _); injection H; intros; subst; congruence. }
  split; [exact ON|]. exists name, scheme, u. split; [exact A|]. split; [exact R|]. split; [apply C64_uuid, LU|].
  destruct (key_inv _ _ _ M) as [(-> & E)|[(-> & SZ & k & RK & LK & E)|(l & p & k & key & N1 & N2 & L & G & GE & _ & SK & E)]].
  - left. split; [reflexivity|]. assert (ED : f_data s = made u name scheme_pw [] false) by (unfold s; rewrite E; reflexivity). rewrite ED in *. change (bytes_eqb (d_scheme (made u name scheme_pw [] false)) scheme_pw) with true in H. cbn [orb] in H.
    assert (W : w' = write w (signet_path dir (made u name scheme_pw [] false)) b) by (injection H; intros; subst; reflexivity). rewrite W. now apply held_one.
  - right. left. split; [reflexivity|]. exists k. split; [exact RK|]. split; [intros ->; cbn [length] in LK; clear -LK SZ; lia|]. split; [rewrite LK; clear -SZ; lia|].
    assert (ED : f_data s = made u name scheme_key k false) by (unfold s; rewrite E; reflexivity). rewrite ED in *. change (bytes_eqb (d_scheme (made u name scheme_key k false)) scheme_pw) with false in H. change (bytes_eqb (d_scheme (made u name scheme_key k false)) scheme_key) with true in H. cbn [orb] in H.
    assert (W : w' = write w (signet_path dir (made u name scheme_key k false)) b) by (injection H; intros; subst; reflexivity). rewrite W. now apply held_one.
  - right. right. assert (ES : s = with_id_info now (mkF (new_base scheme key) (Some p) k) (uuid_of u) name) by (unfold s; rewrite E; reflexivity).
    destruct (pair_facts s scheme l p k key u name L G SK ES) as (PS & r & r' & pkey & AR & PR & DI & SR & FR & PR' & SP). exists p, k, key, pkey. split; [exact GE|]. split; [exact SP|].
    assert (ED : f_data s = made u name scheme key false) by (rewrite ES; reflexivity). rewrite ED in *. rewrite AR in H. cbn [bind] in H. rewrite SR in H. cbn [bind] in H. rewrite FR in H.
    change (d_scheme (made u name scheme key false)) with scheme in H.
    assert (B1 : bytes_eqb scheme scheme_pw = false) by (apply bytes_eqb_neq; exact N1). assert (B2 : bytes_eqb scheme scheme_key = false) by (apply bytes_eqb_neq; exact N2). rewrite B1, B2 in H. cbn [orb] in H.
    destruct (put jdump dir writes _ (made u name scheme pkey true)) as [w2| |] eqn:P2; try discriminate H.
    assert (SU2 : d_id (made u name scheme pkey true) = uuid_of u) by reflexivity. destruct (put_inv _ _ _ u LU SU2 P2) as (_ & b2 & J2 & ->).
    assert (W : w' = write (write w (signet_path dir (made u name scheme key false)) b) (signet_path dir (made u name scheme pkey true)) b2) by (injection H; intros; subst; reflexivity).
    rewrite W. apply held_two; [apply two_paths, LU|exact J|exact J2].
Qed.

(** It works when nothing fails outside the command. *)
Lemma draft_works f rs name scheme s0 u : asked f rs name scheme -> make_key f scheme = Ok s0 -> rand 1 16 = Some u -> draft f rs = Ok (with_id_info now s0 (uuid_of u) name).
Proof using Type.
  intros A M R. apply asked_exact in A as (rs1 & rs2 & N & S). unfold Generate.draft. rewrite N. cbn [bind]. rewrite S. cbn [bind]. rewrite M. cbn [bind]. rewrite R. reflexivity.
Qed.
Theorem C64_works : forall f rs w name scheme, g_textonly f = false -> asked f rs name scheme ->
  rand 1 16 <> None -> (forall id key public, jdump (mkData 1 id scheme key public None (Some (mkInfo name now)) None) <> None) -> (forall r, writes r = true) ->
  (scheme = scheme_pw \/ scheme = scheme_key /\ (0 < g_symsize f)%Z /\ rand 0 (Z.to_nat (g_symsize f)) <> None
   \/ exists l, logic_of scheme = Some l /\ (l = LR -> (0 < g_seclevel f)%Z) /\ gen scheme (rsa_size_for_level (rsa_level f)) <> None) ->
  exists w', generate f rs w = (Ok None, w').
Proof using gen_ok rand_ok.
  intros f rs w name scheme TO A R J W C. destruct (rand 1 16) as [u|] eqn:RU; [|now elim R]. pose proof (rand_ok _ _ _ RU) as LU.
  assert (PW : forall w key public, exists w', put jdump dir writes w (made u name scheme key public) = Ok w').
  { intros w0 key public. destruct (jdump (made u name scheme key public)) as [b|] eqn:JD; [|elim (J _ _ _ JD)]. eexists. apply (put_works w0 (made u name scheme key public) u b LU eq_refl (W _) JD). }
  unfold Generate.generate, Generate.new_signet. rewrite TO. cbn [negb].
  destruct C as [->|[(-> & SZ & RK)|(l & L & SL & GN)]].
  - assert (M : make_key f scheme_pw = Ok (mkF (new_base scheme_pw []) None SNil)) by reflexivity. rewrite (draft_works _ _ _ _ _ u A M RU). destruct (PW w [] false) as [w1 P]. change (made u name scheme_pw [] false) with (f_data (with_id_info now (mkF (new_base scheme_pw []) None (@SNil e)) (uuid_of u) name)) in P.
    rewrite P. eexists; reflexivity.
  - destruct (rand 0 (Z.to_nat (g_symsize f))) as [k|] eqn:RK0; [|now elim RK]. assert (M : make_key f scheme_key = Ok (mkF (new_base scheme_key k) None SNil)).
    { unfold Generate.make_key. change (bytes_eqb scheme_key scheme_pw) with false. rewrite bytes_eqb_refl. destruct (Z.eqb_spec (g_symsize f) 0) as [Z0|_]; [clear -Z0 SZ; lia|].
      unfold random_bytes. destruct (Z.ltb_spec (g_symsize f) 0) as [Z0|_]; [clear -Z0 SZ; lia|]. rewrite RK0, (rand_ok _ _ _ RK0), Nat.eqb_refl. reflexivity. }
    rewrite (draft_works _ _ _ _ _ u A M RU). destruct (PW w k false) as [w1 P]. change (made u name scheme_key k false) with (f_data (with_id_info now (mkF (new_base scheme_key k) None (@SNil e)) (uuid_of u) name)) in P. rewrite P. eexists; reflexivity.
  - destruct (suited _ _ L) as (t & T & TN & B1 & B2 & O1 & O2 & PU). destruct (gen scheme _) as [[p k]|] eqn:G; [|now elim GN]. destruct (gen_ok _ _ _ _ G) as (l' & L' & GE). rewrite L in L'. injection L' as <-.
    destruct (C26_round_trip e _ l p k L GE) as (key & SK & _).
    assert (M : make_key f scheme = Ok (mkF (new_base scheme key) (Some p) k)).
    { unfold Generate.make_key. rewrite B1, B2, T. cbn [bind]. rewrite O1, TN, G. assert (O : has_option t ONeedsSecurityLevel && (g_seclevel f <=? 0)%Z = false).
      { destruct l; try (rewrite O2 by discriminate; reflexivity). specialize (SL eq_refl). apply Z.leb_gt in SL. rewrite SL. apply andb_false_r. }
      rewrite O. cbn [andb]. unfold Signets.store_signet. cbn [f_data new_base d_key d_scheme f_pub f_prv]. rewrite T. cbn [bind]. rewrite TN, SK. cbn [bind]. destruct PU as [->|[->| ->]]; reflexivity. }
    rewrite (draft_works _ _ _ _ _ u A M RU). set (s := with_id_info _ _ _ _). destruct (PW w key false) as [w1 P]. change (made u name scheme key false) with (f_data s) in P. rewrite P.
    destruct (pair_facts s scheme l p k key u name L GE SK eq_refl) as (PS & r & r' & pkey & AR & PR & DI & SR & FR & PR' & SP). rewrite AR. cbn [bind]. rewrite SR. cbn [bind]. rewrite FR.
    destruct (PW w1 pkey true) as [w2 P2]. rewrite P2. change (d_scheme (f_data s)) with scheme. rewrite B1, B2. eexists; reflexivity.
Qed.

(** If it fails, nothing was stored, or only the private signet because storing the recipient failed. *)
Theorem C64_failure : forall f rs w w', (exists x, generate f rs w = (Err x, w')) \/ generate f rs w = (Panic, w') ->
  w' = w \/ exists name scheme u key, asked f rs name scheme /\ let d := made u name scheme key false in holds jdump dir w' d /\ only_signets dir [d] w w'
     /\ (writes true = false \/ exists pkey, jdump (made u name scheme pkey true) = None).
Proof using gen_ok rand_ok.
  intros f rs w w' H0. assert (H : exists r, generate f rs w = (r, w') /\ forall o, r <> Ok o) by (destruct H0 as [[x E]|E]; [exists (Err x)|exists Panic]; (split; [exact E|intros o X; discriminate X])). clear H0.
  destruct H as (res & H & NOK). unfold Generate.generate, Generate.new_signet in H. destruct (draft f rs) as [s| |] eqn:D; [|injection H as _ <-; now left..].
  destruct (draft_inv _ _ _ D) as (name & scheme & u & s0 & A & R & M & ->). pose proof (rand_ok _ _ _ R) as LU. revert H. set (s := with_id_info _ _ _ _). intro H.
  destruct (g_textonly f); cbn [negb] in H; [injection H as _ <-; now left|]. destruct (put jdump dir writes w (f_data s)) as [w1| |] eqn:P; [|injection H as _ <-; now left..].
  assert (SU : d_id (f_data s) = uuid_of u) by reflexivity. destruct (put_inv _ _ _ u LU SU P) as (_ & b & J & ->).
  destruct (bytes_eqb (d_scheme (f_data s)) scheme_pw || bytes_eqb (d_scheme (f_data s)) scheme_key) eqn:B; [injection H as <- _; elim (NOK None eq_refl)|].
  destruct (key_inv _ _ _ M) as [(-> & E)|[(-> & SZ & k & RK & LK & E)|(l & p & k & key & N1 & N2 & L & G & GE & _ & SK & E)]]; [unfold s in B; rewrite E in B; discriminate B..|].
  assert (ES : s = with_id_info now (mkF (new_base scheme key) (Some p) k) (uuid_of u) name) by (unfold s; rewrite E; reflexivity).
  destruct (pair_facts s scheme l p k key u name L G SK ES) as (PS & r & r' & pkey & AR & PR & DI & SR & FR & PR' & SP).
  assert (ED : f_data s = made u name scheme key false) by (rewrite ES; reflexivity). rewrite AR in H. cbn [bind] in H. rewrite SR in H. cbn [bind] in H. rewrite FR in H. rewrite ED in *.
  set (w1 := write w (signet_path dir (made u name scheme key false)) b) in *. right. exists name, scheme, u, key. split; [exact A|]. cbv zeta.
  assert (X : w' = w1 /\ forall w2, put jdump dir writes w1 (made u name scheme pkey true) <> Ok w2).
  { destruct (put jdump dir writes w1 (made u name scheme pkey true)) as [w2| |]; [injection H as <- _; elim (NOK None eq_refl)|..]; (split; [injection H; auto|intros w2 X; discriminate X]). }
  destruct X as [-> NP]. destruct (held_one w _ b J) as [HO ON]. split; [exact HO|]. split; [exact ON|].
  destruct (writes true) eqn:WT; [|now left]. right. exists pkey. destruct (jdump (made u name scheme pkey true)) as [b2|] eqn:J2; [|reflexivity].
  elim (NP _ (put_works w1 (made u name scheme pkey true) u b2 LU eq_refl WT J2)).
Qed.

(** With --textonly the store is not touched, and the printed texts are a backup of the pair and an export of its public key. *)
Theorem C64_textonly_store : forall f rs w, g_textonly f = true -> snd (generate f rs w) = w.
Proof using Type.
  intros f rs w TO. unfold Generate.generate, Generate.new_signet. rewrite TO. cbn [negb]. destruct (draft f rs); reflexivity.
Qed.
Theorem C64_textonly : forall f rs w o w', g_textonly f = true -> (forall d b, dump d = Some b -> b <> [] /\ undump b = Some d) -> generate f rs w = (Ok o, w') ->
  exists b x name scheme u pub prv key pkey, o = Some (b, x) /\ asked f rs name scheme /\ rand 1 16 = Some u
  /\ gen scheme (rsa_size_for_level (rsa_level f)) = Some (pub, prv) /\ stored_pair scheme pub prv key pkey
  /\ sender_from_text tool_registry undump b = Ok (mkF (made u name scheme key false) (Some pub) prv)
  /\ exists none, usable none = false /\ recipient_from_text tool_registry undump x = Ok (mkF (made u name scheme pkey true) (Some pub) none).
Proof using gen_ok rand_ok.
  intros f rs w o w' TO CO. unfold Generate.generate, Generate.new_signet. rewrite TO. cbn [negb]. destruct (draft f rs) as [s| |] eqn:D; try (intro X; discriminate X).
  destruct (draft_inv _ _ _ D) as (name & scheme & u & s0 & A & R & M & ->). set (s := with_id_info _ _ _ _). intro H.
  destruct (backup tool_registry dump false s) as [b| |] eqn:BK; cbn [bind] in H; try discriminate H.
  destruct (as_recipient tool_registry s) as [r| |] eqn:AR; cbn [bind] in H; try discriminate H. destruct (store_signet tool_registry r) as [r'| |] eqn:SR; cbn [bind] in H; try discriminate H.
  destruct (export tool_registry dump false r') as [x| |] eqn:EX; cbn [bind] in H; try discriminate H. assert (O : o = Some (b, x)) by (injection H as <- _; reflexivity). clear H.
  destruct (key_inv _ _ _ M) as [(-> & E)|[(-> & SZ & k & RK & LK & E)|(l & p & k & key & N1 & N2 & L & G & GE & _ & SK & E)]]; [unfold s in AR; rewrite E in AR; discriminate AR..|].
  assert (ES : s = with_id_info now (mkF (new_base scheme key) (Some p) k) (uuid_of u) name) by (unfold s; rewrite E; reflexivity).
  destruct (pair_facts s scheme l p k key u name L G SK ES) as (PS & r1 & r1' & pkey & AR' & PR & DI & SR' & FR & PR' & SP). rewrite AR in AR'. injection AR' as <-. rewrite SR in SR'. injection SR' as <-.
  assert (ED : f_data s = made u name scheme key false) by (rewrite ES; reflexivity).
  exists b, x, name, scheme, u, p, k, key, pkey. split; [exact O|]. split; [exact A|]. split; [exact R|]. split; [exact GE|]. split; [exact SP|].
  assert (CD : forall d t, dump d = Some t -> codec_ok dump undump d) by (intros d t X; destruct (CO d t X); exists t; auto).
  assert (D1 : dump (made u name scheme key false) <> None).
  { intro DN. unfold Signets.backup in BK. rewrite ED in BK. cbn [made d_public] in BK. unfold Signets.to_text, to_base58, Signets.store_signet in BK. rewrite ED in BK. cbn [made d_key] in BK.
    destruct key as [|kb kr]; [apply store_nonempty in SK; now elim SK|]. cbn [bind] in BK. rewrite ED in BK. fold (made u name scheme (kb :: kr) false) in BK. rewrite DN in BK. discriminate BK. }
  assert (D2 : dump (made u name scheme pkey true) <> None).
  { intro DN. unfold Signets.export in EX. rewrite FR in EX. cbn [made d_public] in EX. unfold Signets.to_text, to_base58, Signets.store_signet in EX. rewrite FR in EX. cbn [made d_key] in EX.
    destruct pkey as [|kb kr]; [destruct SP as (_ & _ & SP); apply store_nonempty in SP; now elim SP|]. cbn [bind] in EX. rewrite FR in EX. fold (made u name scheme (kb :: kr) true) in EX. rewrite DN in EX. discriminate EX. }
  split.
  - assert (CK : forall key0, store_keys (d_scheme (f_data s)) p k = Ok (key0, false) -> codec_ok dump undump (set_key (f_data s) key0 false)).
    { intros key0 S0. rewrite ED in S0; rewrite ED. cbn [made d_scheme] in S0. rewrite SK in S0. injection S0 as <-. change (set_key (made u name scheme key false) key false) with (made u name scheme key false).
      destruct (dump (made u name scheme key false)) as [t|] eqn:DT; [|now elim D1]. exact (CD _ _ DT). }
    assert (NI : d_info (f_data s) <> None) by (rewrite ED; discriminate).
    destruct (C28_backup e dump undump s p k false PS (or_intror NI) CK) as (t & i & key0 & BT & ST & S0 & FI & PI & KI). rewrite BK in BT. injection BT as <-. rewrite ST. f_equal. destruct i as [di pi ki]. cbn [f_data f_pub f_prv] in *.
    rewrite ED in FI, S0. cbn [made d_scheme] in S0. rewrite SK in S0. injection S0 as <-. rewrite FI, PI, KI. reflexivity.
  - assert (SP3 : store_keys scheme p SNil = Ok (pkey, true)) by apply SP.
    assert (CK : forall key0, store_keys (d_scheme (f_data r')) p (@SNil e) = Ok (key0, true) -> codec_ok dump undump (set_key (f_data r') key0 true)).
    { intros key0 S0. rewrite FR in S0; rewrite FR. cbn [made d_scheme] in S0. rewrite SP3 in S0. injection S0 as <-. change (set_key (made u name scheme pkey true) pkey true) with (made u name scheme pkey true).
      destruct (dump (made u name scheme pkey true)) as [t|] eqn:DT; [|now elim D2]. exact (CD _ _ DT). }
    assert (NI : d_info (f_data r') <> None) by (rewrite FR; discriminate).
    destruct (C28_export_recipient e dump undump r' p false PR' (or_intror NI) CK) as (t & i & key0 & BT & ST & S0 & FI & PI & KI). rewrite EX in BT. injection BT as <-. rewrite ST. destruct i as [di pi ki]. cbn [f_data f_pub f_prv] in *.
    rewrite FR in FI, S0. cbn [made d_scheme] in S0. rewrite SP3 in S0. injection S0 as <-. exists ki. split; [exact KI|]. rewrite FI, PI. reflexivity.
Qed.

(** What cannot be made is refused, and nothing is stored: an unknown tool or one without keys, RSA without a security level, a key without a size. *)
Theorem C64_refused : forall f rs w name scheme, asked f rs name scheme ->
  scheme <> scheme_pw /\ scheme <> scheme_key /\ logic_of scheme = None \/ logic_of scheme = Some LR /\ (g_seclevel f <= 0)%Z \/ scheme = scheme_key /\ g_symsize f = 0%Z ->
  exists x, generate f rs w = (Err x, w).
Proof using gen_ok.
  intros f rs w name scheme A C. assert (M : exists x, make_key f scheme = Err x).
  { unfold Generate.make_key. destruct C as [(N1 & N2 & L)|[[L SL]|[-> SZ]]].
    - rewrite (proj2 (bytes_eqb_neq _ _) N1), (proj2 (bytes_eqb_neq _ _) N2). destruct (tools_get tool_registry scheme) as [t|x|] eqn:T; cbn [bind]; [|exists x; reflexivity|].
      + pose proof (get_name _ _ T) as TN. rewrite TN. destruct (_ && _); [eexists; reflexivity|]. destruct (_ && _); [eexists; reflexivity|].
        assert (G : gen scheme (rsa_size_for_level (rsa_level f)) = None).
        { destruct (gen scheme _) as [[p k]|] eqn:G; [|reflexivity]. destruct (gen_ok _ _ _ _ G) as (l & L' & _). rewrite L in L'. discriminate L'. }
        rewrite G. destruct (t_purpose t); eexists; reflexivity.
      + unfold tools_get in T. destruct (find _ _); discriminate T.
    - destruct (suited _ _ L) as (t & T & TN & B1 & B2 & O1 & _ & _). rewrite B1, B2, T. cbn [bind].
      assert (O : has_option t ONeedsSecurityLevel = true).
      { unfold logic_of in L. destruct (bytes_eqb scheme (lit "ECDH-X25519")); [discriminate L|]. destruct (existsb _ _); [discriminate L|]. destruct (bytes_eqb scheme (lit "Ed25519")); [discriminate L|].
        destruct (bytes_eqb scheme (lit "RSA-OAEP")) eqn:X1; [apply bytes_eqb_eq in X1; rewrite X1 in T; vm_compute in T; injection T as <-; reflexivity|].
        destruct (bytes_eqb scheme (lit "RSA-PSS")) eqn:X2; [apply bytes_eqb_eq in X2; rewrite X2 in T; vm_compute in T; injection T as <-; reflexivity|]. discriminate L. }
      apply Z.leb_le in SL. rewrite O, SL. eexists; reflexivity.
    - change (bytes_eqb scheme_key scheme_pw) with false. rewrite bytes_eqb_refl, SZ. eexists; reflexivity. }
  destruct M as [x M]. exists x. apply asked_exact in A as (rs1 & rs2 & N & S). unfold Generate.generate, Generate.new_signet, Generate.draft. rewrite N. cbn [bind]. rewrite S. cbn [bind]. rewrite M. reflexivity.
Qed.
(** A password reference or a key is never printed. *)
Theorem C64_secret_not_printed : forall f rs w name scheme o, g_textonly f = true -> asked f rs name scheme -> scheme = scheme_pw \/ scheme = scheme_key -> fst (generate f rs w) <> Ok o.
Proof using gen_ok.
  intros f rs w name scheme o TO A C H. unfold Generate.generate, Generate.new_signet in H. rewrite TO in H. cbn [negb] in H. destruct (draft f rs) as [s| |] eqn:D; try discriminate H.
  destruct (draft_inv _ _ _ D) as (name' & scheme' & u & s0 & A' & R & M & ->). assert (SE : scheme' = scheme).
  { apply asked_exact in A as (a1 & a2 & N & S). apply asked_exact in A' as (b1 & b2 & N' & S'). rewrite N in N'. injection N' as <- <-. rewrite S in S'. now injection S' as <- _. }
  subst scheme'. revert H. set (s := with_id_info _ _ _ _). intro H. cbn [fst] in H.
  assert (AR : as_recipient tool_registry s = Err EOther).
  { unfold as_recipient. replace (d_scheme (f_data s)) with scheme; [destruct C as [-> | ->]; reflexivity|].
    destruct (key_inv _ _ _ M) as [(-> & E)|[(-> & SZ & k & RK & LK & E)|(l & p & k & key & N1 & N2 & _)]]; [unfold s; rewrite E; reflexivity..|]. destruct C; [now elim N1|now elim N2]. }
  destruct (backup tool_registry dump false s) as [b| |]; cbn [bind] in H; try discriminate H. rewrite AR in H. discriminate H.
Qed.
(** It does not crash, for a size that is not negative ... *)
Lemma text_calm (s : fsignet e) short : d_key (f_data s) <> [] -> d_info (f_data s) <> None -> to_text tool_registry dump short s <> Panic.
Proof using Type.
  intros K I. unfold Signets.to_text, to_base58, Signets.store_signet. destruct (d_key (f_data s)) eqn:E; [now elim K|]. cbn [bind]. destruct (dump (f_data s)); cbn [bind]; [|discriminate].
  destruct (bytes_eqb _ scheme_pw); cbn [bind]; [discriminate|]. destruct (bytes_eqb _ scheme_key); [destruct (d_public (f_data s)); cbn [bind]; [discriminate|]|destruct (d_public (f_data s)); cbn [bind]];
    (destruct short; [discriminate|]; destruct (d_info (f_data s)); [discriminate|now elim I]).
Qed.
Theorem C64_no_panic : forall f rs w, (0 <= g_symsize f)%Z -> no_blank rs -> fst (generate f rs w) <> Panic.
Proof using gen_ok rand_ok.
  intros f rs w SZ [NB _]. assert (ND : draft f rs <> Panic).
  { unfold Generate.draft. assert (QN : ask_name f rs = Err EOther \/ exists n rs1, ask_name f rs = Ok (n, rs1) /\ forall r, In r rs1 -> In r rs).
    { unfold ask_name. destruct (Text.trim_space (g_name f)) as [|nb nr]; [|right; eexists; eexists; split; [reflexivity|auto]]. destruct rs as [|[[|cb cn]|ls] r]; [now left|now left| |now left]. right. eexists. eexists. split; [reflexivity|]. intros x I. now right. }
    destruct QN as [->|(n & rs1 & -> & IN)]; cbn [bind]; [discriminate|].
    assert (QS : ask_scheme f rs1 <> Panic).
    { unfold ask_scheme. destruct (Text.trim_space (g_scheme f)); [|discriminate]. destruct rs1 as [|[line|ls] r]; [discriminate| |discriminate]. assert (F : fields line <> []) by (apply NB, IN; now left). destruct (fields line); [now elim F|discriminate]. }
    destruct (ask_scheme f rs1) as [[scheme rs2]| |]; cbn [bind]; [|discriminate|now elim QS].
    assert (QK : make_key f scheme <> Panic).
    { unfold Generate.make_key. destruct (bytes_eqb scheme scheme_pw); [discriminate|]. destruct (bytes_eqb scheme scheme_key).
      - destruct (_ =? 0)%Z; [discriminate|]. unfold random_bytes. destruct (Z.ltb_spec (g_symsize f) 0) as [Z0|_]; [clear -Z0 SZ; lia|]. destruct (rand 0 _) as [k|]; [destruct (_ =? _)|]; cbn [bind]; discriminate.
      - destruct (tools_get tool_registry scheme) as [t| |] eqn:T; cbn [bind]; [|discriminate|unfold tools_get in T; destruct (find _ _); discriminate T]. pose proof (get_name _ _ T) as TN. rewrite TN.
        destruct (_ && _); [discriminate|]. destruct (_ && _); [discriminate|]. destruct (gen scheme _) as [[p k]|] eqn:G; [|destruct (t_purpose t); discriminate].
        destruct (gen_ok _ _ _ _ G) as (l & L & GE). destruct (C26_round_trip e _ l p k L GE) as (key & SK & _). unfold Signets.store_signet. cbn [f_data new_base d_key d_scheme f_pub f_prv]. rewrite T. cbn [bind]. rewrite TN, SK. cbn [bind].
        destruct (t_purpose t); discriminate. }
    destruct (make_key f scheme); cbn [bind]; [|discriminate|now elim QK]. destruct (rand 1 16); discriminate. }
  assert (NP : forall w0 d, put jdump dir writes w0 d <> Panic).
  { intros w0 d. unfold put, dir_store. destruct (writes _); [|discriminate]. destruct (d_id d); [discriminate|]. destruct (nice _); [|discriminate]. destruct (jdump d); discriminate. }
  unfold Generate.generate, Generate.new_signet. destruct (draft f rs) as [s| |] eqn:D; [|discriminate|now elim ND].
  destruct (draft_inv _ _ _ D) as (name & scheme & u & s0 & A & R & M & ->). set (s := with_id_info _ _ _ _).
  destruct (key_inv _ _ _ M) as [(SE & E)|[(SE & ZZ & k & RK & LK & E)|(l & p & k & key & N1 & N2 & L & G & GE & _ & SK & E)]].
  - assert (ES : s = with_id_info now (mkF (new_base scheme []) None SNil) (uuid_of u) name) by (unfold s; rewrite E; reflexivity). destruct (g_textonly f); cbn [negb].
    + rewrite ES, SE. cbn [fst]. assert (B : backup tool_registry dump false (with_id_info now (mkF (new_base scheme_pw []) None (@SNil e)) (uuid_of u) name) = Err ENotFound) by reflexivity. rewrite B. discriminate.
    + specialize (NP w (f_data s)). destruct (put _ _ _ w (f_data s)); [|discriminate|now elim NP]. rewrite ES, SE. discriminate.
  - assert (ES : s = with_id_info now (mkF (new_base scheme k) None SNil) (uuid_of u) name) by (unfold s; rewrite E; reflexivity). destruct (g_textonly f); cbn [negb].
    + assert (B : backup tool_registry dump false s <> Panic).
      { unfold Signets.backup. replace (d_public (f_data s)) with false by (rewrite ES; reflexivity). apply text_calm; rewrite ES; [|discriminate]. cbn [with_id_info f_data new_base d_key]. intros ->. cbn [length] in LK. clear -LK ZZ. lia. }
      destruct (backup tool_registry dump false s); cbn [bind fst]; [|discriminate|now elim B]. rewrite ES, SE. discriminate.
    + specialize (NP w (f_data s)). destruct (put _ _ _ w (f_data s)); [|discriminate|now elim NP]. rewrite ES, SE. discriminate.
  - assert (ES : s = with_id_info now (mkF (new_base scheme key) (Some p) k) (uuid_of u) name) by (unfold s; rewrite E; reflexivity).
    destruct (pair_facts s scheme l p k key u name L G SK ES) as (PS & r & r' & pkey & AR & PR & DI & SR & FR & PR' & SP).
    destruct (g_textonly f); cbn [negb].
    + assert (B : backup tool_registry dump false s <> Panic).
      { unfold Signets.backup. replace (d_public (f_data s)) with false by (rewrite ES; reflexivity). apply text_calm; rewrite ES; [|discriminate]. cbn [with_id_info f_data new_base d_key]. exact (store_nonempty _ _ _ _ _ _ SK). }
      destruct (backup tool_registry dump false s); cbn [bind fst]; [|discriminate|now elim B]. rewrite AR. cbn [bind]. rewrite SR. cbn [bind].
      assert (X : export tool_registry dump false r' <> Panic).
      { unfold Signets.export. replace (d_public (f_data r')) with true by (rewrite FR; reflexivity). apply text_calm; rewrite FR; [|discriminate]. cbn [made d_key]. destruct SP as (_ & _ & SP). exact (store_nonempty _ _ _ _ _ _ SP). }
      destruct (export tool_registry dump false r'); cbn [bind]; [discriminate|discriminate|now elim X].
    + pose proof (NP w (f_data s)) as NP1. destruct (put _ _ _ w (f_data s)) as [w1| |]; [|discriminate|now elim NP1]. destruct (_ || _); [discriminate|]. rewrite AR. cbn [bind]. rewrite SR. cbn [bind].
      pose proof (NP w1 (f_data r')) as NP2. destruct (put _ _ _ w1 (f_data r')); [discriminate|discriminate|now elim NP2].
Qed.
(** ... and does for a negative one. *)
Theorem C64_negative_size_refuted : forall f rs w name, (g_symsize f < 0)%Z -> asked f rs name scheme_key -> fst (generate f rs w) = Panic.
Proof using Type.
  intros f rs w name SZ A. apply asked_exact in A as (rs1 & rs2 & N & S). unfold Generate.generate, Generate.new_signet, Generate.draft. rewrite N. cbn [bind]. rewrite S. cbn [bind].
  assert (M : make_key f scheme_key = Panic).
  { unfold Generate.make_key. change (bytes_eqb scheme_key scheme_pw) with false. rewrite bytes_eqb_refl. destruct (Z.eqb_spec (g_symsize f) 0) as [Z0|_]; [clear -Z0 SZ; lia|]. unfold random_bytes. apply Z.ltb_lt in SZ. rewrite SZ. reflexivity. }
  rewrite M. reflexivity.
Qed.
(** RSA: the key is as strong as --seclevel asks for, up to level 256 ... *)
Theorem C64_rsa : forall f rs w o w' name scheme, generate f rs w = (Ok o, w') -> asked f rs name scheme -> logic_of scheme = Some LR -> (g_seclevel f <= 256)%Z ->
  exists bits key, gen scheme bits = Some key /\ (0 < g_seclevel f <= rsa_level_for_size bits)%Z.
Proof using gen_ok.
  intros f rs w o w' name scheme H A L SL. unfold Generate.generate, Generate.new_signet in H. destruct (draft f rs) as [s| |] eqn:D; [|discriminate H..]. clear H.
  destruct (draft_inv _ _ _ D) as (name' & scheme' & u & s0 & A' & R & M & ->). assert (SE : scheme' = scheme).
  { apply asked_exact in A as (a1 & a2 & N & S). apply asked_exact in A' as (b1 & b2 & N' & S'). rewrite N in N'. injection N' as <- <-. rewrite S in S'. now injection S' as <- _. }
  subst scheme'. destruct (key_inv _ _ _ M) as [(-> & E)|[(-> & _)|(l & p & k & key & N1 & N2 & L' & G & GE & SP & SK & E)]]; [discriminate L..|].
  rewrite L in L'. injection L' as <-. exists (rsa_size_for_level (rsa_level f)), (p, k). split; [exact GE|]. specialize (SP eq_refl). split; [exact SP|].
  unfold rsa_level. rewrite (proj2 (Z.ltb_lt _ _) SP). now apply C30_strong_enough.
Qed.
(** ... and useless above: 256 bits. *)
Theorem C64_rsa_above_256_refuted : forall f rs w o w' name scheme, generate f rs w = (Ok o, w') -> asked f rs name scheme -> logic_of scheme = Some LR -> (256 < g_seclevel f)%Z -> gen scheme 256 <> None.
Proof using gen_ok.
  intros f rs w o w' name scheme H A L SL. unfold Generate.generate, Generate.new_signet in H. destruct (draft f rs) as [s| |] eqn:D; [|discriminate H..]. clear H.
  destruct (draft_inv _ _ _ D) as (name' & scheme' & u & s0 & A' & R & M & ->). assert (SE : scheme' = scheme).
  { apply asked_exact in A as (a1 & a2 & N & S). apply asked_exact in A' as (b1 & b2 & N' & S'). rewrite N in N'. injection N' as <- <-. rewrite S in S'. now injection S' as <- _. }
  subst scheme'. destruct (key_inv _ _ _ M) as [(-> & E)|[(-> & _)|(l & p & k & key & N1 & N2 & L' & G & GE & SP & SK & E)]]; [discriminate L..|].
  rewrite L in L'. injection L' as <-. specialize (SP eq_refl). unfold rsa_level in GE. rewrite (proj2 (Z.ltb_lt _ _) SP) in GE. destruct (C30_above_256_refuted _ SL) as [E256 _]. rewrite E256 in GE. rewrite GE. discriminate.
Qed.
End Generate.

(** ** A concrete run *)
Definition demo_rand (i n : nat) : option bytes := Some (repeat (n2b (N.of_nat i + 17)) n).
Definition demo_gen (t : bytes) (n : Z) : option (pubkey demo_ext * prvkey demo_ext) := if bytes_eqb t (lit "Ed25519") then Some (PubE demo_pub, SE (demo_prv ++ demo_pub)) else None.
Definition demo_generate (f : flags) (rs : list reply) (w : fs) := @generate demo_ext demo_dump demo_dump (lit "/ts") demo_rand demo_gen (lit "now") (fun _ => true) f rs w.
Definition demo_id : bytes := lit "12121212-1212-4212-9212-121212121212".
Example C64_hypotheses_met : (forall t n p k, demo_gen t n = Some (p, k) -> exists l, logic_of t = Some l /\ generated demo_ext l p k)
  /\ (forall i n b, demo_rand i n = Some b -> length b = n)
  /\ asked (mkFlags (lit " Ann ") [] false 0 0) [Choose (lit "Ed25519   Signing")] (lit "Ann") (lit "Ed25519")
  /\ (let r := demo_generate (mkFlags (lit " Ann ") [] false 0 0) [Choose (lit "Ed25519   Signing")] [] in fst r = Ok None
       /\ map fst (snd r) = [join_path (lit "/ts") (demo_id ++ lit ".signet"); join_path (lit "/ts") (demo_id ++ lit ".recipient")])
  /\ (let r := demo_generate (mkFlags [] (lit "key") false 4 0) [Choose (lit "K")] [] in fst r = Ok None /\ length (snd r) = 1)
  /\ (exists b x, demo_generate (mkFlags (lit "Ann") (lit "Ed25519") true 0 0) [] [] = (Ok (Some (b, x)), []) /\ starts (lit "sender:private-ed25519-key:ann:") b /\ starts (lit "recipient:public-ed25519-key:ann:") x).
Proof.
  split; [intros t n p k H; unfold demo_gen in H; destruct (bytes_eqb t _) eqn:B; [|discriminate H]; apply bytes_eqb_eq in B; subst t; assert (HP : PubE demo_pub = p) by congruence; assert (HK : SE (demo_prv ++ demo_pub) = k) by congruence; rewrite <- HP, <- HK; exists LE; split; [reflexivity|]; apply (gen_ed25519 demo_ext demo_prv demo_pub); reflexivity|].
  split; [intros i n b H; injection H as <-; apply repeat_length|].
  split; [exists [Choose (lit "Ed25519   Signing")]; split; [split; [discriminate|left; split; reflexivity]|right; split; [reflexivity|]; eexists; eexists; split; [reflexivity|vm_compute; reflexivity]]|].
  split; [split; vm_compute; reflexivity|]. split; [split; vm_compute; reflexivity|].
  eexists. eexists. split; [vm_compute; reflexivity|]. split; eexists; reflexivity.
Qed.
Print Assumptions C64_saved.
Print Assumptions C64_works.
Print Assumptions C64_failure.
Print Assumptions C64_textonly.
Print Assumptions C64_no_panic.
Print Assumptions C64_distinct.
