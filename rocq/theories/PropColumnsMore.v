(** C76: what `jess list` says of every suite, tool and hash tool. *)
From Coq Require Import Init.Byte.
From Verif Require Import Prelude PreludeFacts Requirements Tools Crypto Letter Session Core Envelope Signets TrustStore Wizard SpecWizard PropManage Columns SpecColumns ColumnsFacts SessionProps PropColumns SpecColumnsMore.

Lemma fits_spaced runes r : forall ws, fits runes r ws -> spaced r (filled runes ws r).
Proof.
  induction r as [|c r IH]; intros ws [L F]; [discriminate|]. destruct r as [|d r].
  - destruct ws; [|discriminate]. cbn. rewrite app_nil_r. constructor.
  - destruct ws as [|w ws]; [discriminate|]. change (filled runes (w :: ws) (c :: d :: r)) with (c ++ repeat x20 (w - runes c) ++ filled runes ws (d :: r)). constructor.
    + specialize (F 0 c w eq_refl eq_refl). lia.
    + apply IH. split; [cbn [length] in *; lia|]. intros j x v X V. exact (F (S j) x v X V).
Qed.
Lemma Forall2_combine {A B C} (P : A -> C -> Prop) (Q : A -> B -> Prop) (l : list A) (q : list B) (z : list C) (f : A * B -> C -> Prop) :
  Forall2 Q l q -> Forall2 f (combine l q) z -> (forall a b c, Q a b -> f (a, b) c -> P a c) -> Forall2 P l z.
Proof.
  intros F G H. revert z G. induction F as [|a b l q X F IH]; intros z G; cbn [combine] in G; inversion G; subst; constructor; [eapply H; eauto|apply IH; assumption].
Qed.
Theorem C76_cells_are_shown : forall runes m k t,
  (forall c, runes c <= length c) -> t <> [] -> plain_table t -> small_table m k t ->
  Forall2 shows t (format_columns runes t).
Proof.
  intros runes m k t RB N P SM. destruct (C76_one_line_per_row runes m k t RB N P SM) as (s & wss & SH & F & _ & O & _).
  assert (SP : Forall2 spaced s (format_columns runes t)).
  { refine (Forall2_combine _ _ _ _ _ _ F O _). intros r ws l FT E. cbn [fst snd] in E. subst l. now apply fits_spaced. }
  destruct SH as (u & x & E & [[A ->]|[A ->]]).
  - clear -SP. induction SP; constructor; auto. now left.
  - rewrite E. apply Forall2_app_inv_l in SP as (z1 & z2 & S1 & S2 & Ez). rewrite E in Ez. rewrite Ez. apply Forall2_app.
    + clear -S1. induction S1; constructor; auto. now left.
    + inversion S2 as [|p q pl ql PQ PN]; subst. inversion PN; subst. constructor; [now right|constructor].
Qed.
Print Assumptions C76_cells_are_shown.

Lemma table_shows (runes : bytes -> nat) (m : nat) (header : list bytes) (rows : list (list bytes)) :
  (forall c, runes c <= length c) -> (6 * (2 * N.of_nat m + 8) < 65536)%N ->
  (forall r, In r (header :: rows) -> 3 <= length r <= 5 /\ one_word (hd [] r) /\ forall c, In c r -> plain_text c /\ length c <= m) ->
  Forall2 shows (header :: rows) (format_columns runes (header :: rows)).
Proof.
  intros RB SZ H. apply (C76_cells_are_shown runes m 5); [exact RB|discriminate| |].
  - split.
    + intros r I. destruct (H r I) as (L & _ & C). split; [intros ->; cbn in L; lia|]. intros c J. now apply C.
    + assert (I : In (last (header :: rows) [[]]) (header :: rows)).
      { destruct (@exists_last _ (header :: rows)) as (a & b & E); [discriminate|]. rewrite E, last_last. apply in_or_app. right. now left. }
      destruct (H _ I) as (_ & [W _] & _). exact W.
  - split; [|exact SZ]. intros r I. destruct (H r I) as (L & _ & C). split; [lia|]. intros c J. now apply C.
Qed.

Lemma comma_join_list l : comma_list l (comma_join l).
Proof. induction l as [|w l IH]; [constructor|]. destruct l as [|v l]; constructor; exact IH. Qed.
Lemma level_cell_text l : (0 <= l < 2 ^ 63)%Z -> level_text l (level_cell l).
Proof. intro B. destruct (C76_level_cell l B) as (ds & E & R). now exists ds. Qed.
Lemma status_remark s : remark s (status_cell s).
Proof.
  unfold status_cell, remark. destruct (s =? 0)%N eqn:E0; [apply N.eqb_eq in E0; auto|]. apply N.eqb_neq in E0.
  destruct (s =? 2)%N eqn:E2; [apply N.eqb_eq in E2; auto|]. apply N.eqb_neq in E2. auto.
Qed.
Lemma purpose_cell_text p : purpose_text p (purpose_cell p).
Proof. destruct p; unfold purpose_text; cbn; tauto. Qed.
Lemma has_option_in t o : has_option t o = true <-> In o (t_options t).
Proof.
  unfold has_option. rewrite existsb_exists. split.
  - intros (x & I & E). assert (x = o) by (destruct x, o; try reflexivity; discriminate E). now subst.
  - intro I. exists o. split; [exact I|]. now destruct o.
Qed.
Lemma tool_level_cell_text t : (0 <= t_level t < 2 ^ 63)%Z -> tool_level_text t (tool_level_cell t).
Proof.
  intro B. unfold tool_level_text, tool_level_cell. destruct (has_option t ONeedsSecurityLevel) eqn:E.
  - left. split; [now apply has_option_in|reflexivity].
  - right. split; [intro I; apply has_option_in in I; congruence|]. destruct (t_level t =? 0)%Z eqn:Z0.
    + left. split; [now apply Z.eqb_eq|reflexivity].
    + right. split; [now apply Z.eqb_neq|]. now apply level_cell_text.
Qed.
Lemma Forall2_rows {A} (f : A -> list bytes) (P : A -> bytes -> Prop) (l : list A) z :
  Forall2 shows (map f l) z -> (forall a x, In a l -> shows (f a) x -> P a x) -> Forall2 P l z.
Proof.
  revert z. induction l as [|a l IH]; intros z F H; cbn [map] in F; inversion F; subst; constructor.
  - apply H; [now left|assumption].
  - apply IH; [assumption|]. intros; apply H; [now right|assumption].
Qed.
Definition level_ok (z : Z) : bool := (0 <=? z)%Z && (z <? 2 ^ 63)%Z.
Lemma level_ok_bounds z : level_ok z = true -> (0 <= z < 2 ^ 63)%Z.
Proof. intro H. apply andb_true_iff in H as [H1 H2]. apply Z.leb_le in H1. apply Z.ltb_lt in H2. auto. Qed.

(** What is printed: three titles, under each of them a header and one line per entry, which says everything of the entry. *)
Theorem C76_list_says : forall runes who what suites tools hashes,
  (forall c, runes c <= length c) -> author_text who -> author_text what ->
  incl suites suite_registry -> incl tools tool_registry -> incl hashes hash_registry ->
  exists h1 l1 h2 l2 h3 l3,
  list_command runes who what suites tools hashes =
    concat (map (fun l => l ++ [x0a]) ([lit "Suites"; []] ++ (h1 :: l1) ++ [[]; []; lit "Tools"; []] ++ (h2 :: l2) ++ [[]; []; lit "HashTools"; []] ++ (h3 :: l3)))
  /\ shows [lit "Name/ID"; lit "Provides"; lit "Security Level"; lit "Tools"; lit "Notes"] h1
  /\ Forall2 says_suite suites l1
  /\ shows [lit "Name/ID"; lit "Purpose"; lit "Security Level"; lit "Author"; lit "Comment"] h2
  /\ Forall2 (says_tool who what) tools l2
  /\ shows [lit "Name/ID"; lit "Security Level"; lit "Author"; lit "Comment"] h3
  /\ Forall2 (says_hash who what) hashes l3.
Proof.
  intros runes who what suites tools hashes RB A1 A2 IS IT IH.
  assert (F1 : Forall2 shows (suites_table suites) (format_columns runes (suites_table suites))).
  { unfold suites_table. apply (table_shows runes 500); [exact RB|vm_compute; reflexivity|]. intros r [<-|I].
    + split; [cbn; lia|]. split; [apply word_b_ok; vm_compute; reflexivity|]. apply cells_b_ok. vm_compute. reflexivity.
    + apply in_map_iff in I as (s & <- & I). apply IS in I. split; [cbn; lia|].
      assert (X : forallb (fun s => word_b (su_id s) && cells_b 500 (suite_cells s)) suite_registry = true) by (vm_compute; reflexivity).
      rewrite forallb_forall in X. specialize (X s I). apply andb_true_iff in X as [X Y]. split; [now apply word_b_ok|now apply cells_b_ok]. }
  assert (F2 : Forall2 shows (tools_table who what tools) (format_columns runes (tools_table who what tools))).
  { unfold tools_table. apply (table_shows runes 500); [exact RB|vm_compute; reflexivity|]. intros r [<-|I].
    + split; [cbn; lia|]. split; [apply word_b_ok; vm_compute; reflexivity|]. apply cells_b_ok. vm_compute. reflexivity.
    + apply in_map_iff in I as (t & <- & I). apply IT in I. split; [cbn; lia|].
      assert (X : forallb (fun t => word_b (t_name t) && cells_b 500 [t_name t; purpose_cell (t_purpose t); tool_level_cell t]) tool_registry = true) by (vm_compute; reflexivity).
      rewrite forallb_forall in X. specialize (X t I). apply andb_true_iff in X as [X Y]. split; [now apply word_b_ok|].
      intros c J. change (tool_cells who what t) with ([t_name t; purpose_cell (t_purpose t); tool_level_cell t] ++ [who (t_name t); what (t_name t)]) in J.
      apply in_app_or in J as [J|[<-|[<-|[]]]]; [exact (cells_b_ok _ _ Y c J)|apply A1|apply A2]. }
  assert (F3 : Forall2 shows (hashes_table who what hashes) (format_columns runes (hashes_table who what hashes))).
  { unfold hashes_table. apply (table_shows runes 500); [exact RB|vm_compute; reflexivity|]. intros r [<-|I].
    + split; [cbn; lia|]. split; [apply word_b_ok; vm_compute; reflexivity|]. apply cells_b_ok. vm_compute. reflexivity.
    + apply in_map_iff in I as (h & <- & I). apply IH in I. split; [cbn; lia|].
      assert (X : forallb (fun h => word_b (h_name h) && cells_b 500 [h_name h; level_cell (h_level h)]) hash_registry = true) by (vm_compute; reflexivity).
      rewrite forallb_forall in X. specialize (X h I). apply andb_true_iff in X as [X Y]. split; [now apply word_b_ok|].
      intros c J. change (hash_cells who what h) with ([h_name h; level_cell (h_level h)] ++ [who (h_name h); what (h_name h)]) in J.
      apply in_app_or in J as [J|[<-|[<-|[]]]]; [exact (cells_b_ok _ _ Y c J)|apply A1|apply A2]. }
  unfold list_command. remember (format_columns runes (suites_table suites)) as t1 eqn:T1. remember (format_columns runes (tools_table who what tools)) as t2 eqn:T2.
  remember (format_columns runes (hashes_table who what hashes)) as t3 eqn:T3. clear T1 T2 T3.
  unfold suites_table in F1. unfold tools_table in F2. unfold hashes_table in F3.
  inversion F1 as [|? h1 ? l1 H1 R1 E1a E1b]. inversion F2 as [|? h2 ? l2 H2 R2 E2a E2b]. inversion F3 as [|? h3 ? l3 H3 R3 E3a E3b]. subst.
  exists h1, l1, h2, l2, h3, l3. split; [|split; [exact H1|split; [|split; [exact H2|split; [|split; [exact H3|]]]]]].
  - change println with (fun l : bytes => l ++ [x0a]). rewrite !map_app, !concat_app. cbn [map concat app]. rewrite <- ?app_assoc. cbn [app]. reflexivity.
  - refine (Forall2_rows suite_cells _ _ _ R1 _). intros s l I S. apply IS in I.
    assert (X : forallb (fun s => level_ok (su_level s)) suite_registry = true) by (vm_compute; reflexivity). rewrite forallb_forall in X.
    exact (says_suite_of s l _ _ _ (level_cell_text _ (level_ok_bounds _ (X s I))) (comma_join_list _) (status_remark _) S).
  - refine (Forall2_rows (tool_cells who what) _ _ _ R2 _). intros t l I S. apply IT in I.
    assert (X : forallb (fun t => level_ok (t_level t)) tool_registry = true) by (vm_compute; reflexivity). rewrite forallb_forall in X.
    exact (says_tool_of who what t l _ _ (purpose_cell_text _) (tool_level_cell_text _ (level_ok_bounds _ (X t I))) S).
  - refine (Forall2_rows (hash_cells who what) _ _ _ R3 _). intros h l I S. apply IH in I.
    assert (X : forallb (fun h => level_ok (h_level h)) hash_registry = true) by (vm_compute; reflexivity). rewrite forallb_forall in X.
    exact (says_hash_of who what h l _ (level_cell_text _ (level_ok_bounds _ (X h I))) S).
Qed.
Print Assumptions C76_list_says.

(** The hypotheses are met: the whole registries. *)
Example c76_list_met :
  let who := fun _ : bytes => lit "ISO/IEC 10118-3" in
  (forall c : bytes, length c <= length c) /\ author_text who /\ incl suite_registry suite_registry /\ incl tool_registry tool_registry /\ incl hash_registry hash_registry
  /\ length suite_registry = 14 /\ In [lit "v1"; lit "CIRS"; lit "128 b/s"; lit "ECDH-X25519, Ed25519(BLAKE2b-256), HKDF(BLAKE2b-256), CHACHA20-POLY1305"; lit "recommended"] (suites_table suite_registry).
Proof.
  cbn zeta. split; [lia|]. split; [intro n; split; [apply plain_b_ok; vm_compute; reflexivity|cbn; lia]|]. split; [apply incl_refl|]. split; [apply incl_refl|]. split; [apply incl_refl|].
  split; [reflexivity|]. vm_compute. tauto.
Qed.
