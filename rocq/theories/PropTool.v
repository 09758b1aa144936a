(** C48: tool identifiers. *)
From Coq Require Import Init.Byte.
From Verif Require Import Prelude PreludeFacts Requirements Tools Crypto Session SpecSession SessionFacts Toy SuiteFacts.

(** [reads id name arg]: the identifier is a name without "(", or such a name and "(" followed by the argument.  The argument has
    no "(" and no ")" at its ends; any ")" around it, and anything from the next "(" on, is dropped. *)
Definition no_open (s : bytes) : Prop := ~ In x28 s.
Definition closing (s : bytes) : Prop := forall b, In b s -> b = x29.
Definition bare_arg (a : bytes) : Prop := no_open a /\ (forall r, a <> x29 :: r) /\ (forall r, a <> r ++ [x29]).
Inductive reads : bytes -> bytes -> bytes -> Prop :=
  | R_plain name : no_open name -> reads name name []
  | R_arg name l a r tail : no_open name -> closing l -> bare_arg a -> closing r -> tail = [] \/ (exists x, tail = x28 :: x) ->
      reads (name ++ [x28] ++ l ++ a ++ r ++ tail) name a.

Lemma is_open_iff b : is_open b = true <-> b = x28.
Proof. destruct b; vm_compute; split; congruence. Qed.
Lemma is_paren_iff b : is_paren b = true <-> b = x28 \/ b = x29.
Proof. destruct b; vm_compute; split; try congruence; try (intros [|]; congruence); intros _; auto. Qed.
Lemma is_open_false b : b <> x28 -> is_open b = false.
Proof. intro N. destruct (is_open b) eqn:E; [apply is_open_iff in E; congruence|reflexivity]. Qed.
Lemma before_no s : no_open (before_paren s).
Proof. induction s as [|b s IH]; cbn; [intros []|]. destruct (is_open b) eqn:E; [intros []|]. intros [->|I]; [now rewrite (proj2 (is_open_iff x28) eq_refl) in E|exact (IH I)]. Qed.
Lemma after_some s r : after_paren s = Some r -> s = before_paren s ++ x28 :: r.
Proof. induction s as [|b s IH]; cbn; [discriminate|]. destruct (is_open b) eqn:E; [apply is_open_iff in E; subst; now intros [= ->]|]. intro A. cbn. now rewrite <- IH. Qed.
Lemma after_none s : after_paren s = None <-> no_open s.
Proof.
  induction s as [|b s IH]; cbn; [split; [intros _ []|reflexivity]|]. destruct (is_open b) eqn:E.
  - apply is_open_iff in E. subst. split; [discriminate|]. intro N. exfalso. apply N. now left.
  - rewrite IH. split; intros N I; apply N; [destruct I as [->|I]; [now rewrite (proj2 (is_open_iff x28) eq_refl) in E|exact I]|now right].
Qed.
Lemma before_app n r : no_open n -> before_paren (n ++ x28 :: r) = n /\ after_paren (n ++ x28 :: r) = Some r.
Proof.
  induction n as [|b n IH]; intro N; cbn; [change (is_open x28) with true; auto|]. assert (is_open b = false) as -> by (apply is_open_false; intros ->; apply N; now left). destruct IH as [A B]; [intro I; apply N; now right|]. now rewrite A, B.
Qed.
Lemma before_self n : no_open n -> before_paren n = n.
Proof. induction n as [|b n IH]; intro N; cbn; [reflexivity|]. rewrite is_open_false by (intros ->; apply N; now left). now rewrite IH by (intro I; apply N; now right). Qed.
(** Dropping parentheses at the front of a part without "(". *)
Lemma drop_split s : exists l, s = l ++ drop_parens s /\ forall b, In b l -> is_paren b = true.
Proof. induction s as [|b s (l & E & F)]; cbn; [exists []; split; [reflexivity|intros ? []]|]. destruct (is_paren b) eqn:P; [exists (b :: l); split; [now rewrite E at 1|intros x [<-|I]; auto]|exists []; split; [reflexivity|intros ? []]]. Qed.
Lemma drop_head s b r : drop_parens s = b :: r -> is_paren b = false.
Proof. induction s as [|x s IH]; cbn; [discriminate|]. destruct (is_paren x) eqn:P; [exact IH|]. now intros [= <- _]. Qed.
Lemma drop_app l s : (forall b, In b l -> is_paren b = true) -> (forall b r, s = b :: r -> is_paren b = false) -> drop_parens (l ++ s) = s.
Proof.
  induction l as [|x l IH]; intros L S; cbn; [destruct s as [|b s]; [reflexivity|]; cbn; now rewrite (S b s eq_refl)|]. rewrite L by now left. apply IH; [intros b I; apply L; now right|exact S].
Qed.
Lemma drop_all l : (forall b, In b l -> is_paren b = true) -> drop_parens l = [].
Proof. induction l as [|x l IH]; intro L; cbn; [reflexivity|]. rewrite L by now left. apply IH. intros b I. apply L. now right. Qed.
Lemma trim_spec s : no_open s -> exists l r, s = l ++ trim_parens s ++ r /\ closing l /\ closing r /\ bare_arg (trim_parens s).
Proof.
  intro N. unfold trim_parens. destruct (drop_split s) as (l & E & L). set (m := drop_parens s) in *. destruct (drop_split (rev m)) as (r & E' & R). set (k := drop_parens (rev m)) in *.
  assert (M : m = rev k ++ rev r) by (rewrite <- (rev_involutive m), E', rev_app_distr; reflexivity).
  assert (C : forall b, In b s -> is_paren b = true -> b = x29) by (intros b I P; apply is_paren_iff in P as [->|P]; [contradiction|exact P]).
  assert (IM : forall b, In b m -> In b s) by (intros b I; rewrite E; apply in_app_iff; now right).
  exists l, (rev r). split; [now rewrite <- M|]. split; [intros b I; apply C; [rewrite E; apply in_app_iff; now left|now apply L]|]. split; [intros b I; apply C; [apply IM; rewrite M; apply in_app_iff; now right|apply R; now apply in_rev]|].
  split; [intro I; apply N, IM; rewrite M; apply in_app_iff; now left|]. split; intros t T.
  - assert (X : m = x29 :: t ++ rev r) by (rewrite M, T; reflexivity). apply drop_head in X. discriminate X.
  - assert (X : k = x29 :: rev t) by (rewrite <- (rev_involutive k), T, rev_app_distr; reflexivity). apply drop_head in X. discriminate X.
Qed.
Lemma closing_paren l : closing l -> forall b, In b l -> is_paren b = true.
Proof. intros C b I. rewrite (C b I). reflexivity. Qed.
Lemma bare_head a b r : bare_arg a -> a = b :: r -> is_paren b = false.
Proof.
  intros (N & F & _) ->. destruct (is_paren b) eqn:P; [|reflexivity]. apply is_paren_iff in P as [->| ->]; [exfalso; apply N; now left|exfalso; now apply (F r)].
Qed.
Lemma bare_last a b r : bare_arg a -> rev a = b :: r -> is_paren b = false.
Proof.
  intros (N & _ & F) E. assert (A : a = rev r ++ [b]) by (rewrite <- (rev_involutive a), E; reflexivity). destruct (is_paren b) eqn:P; [|reflexivity]. apply is_paren_iff in P as [->| ->]; [exfalso; apply N; rewrite A; apply in_app_iff; right; now left|exfalso; now apply (F (rev r))].
Qed.
Lemma trim_of l a r : closing l -> bare_arg a -> closing r -> trim_parens (l ++ a ++ r) = a.
Proof.
  intros L A R. unfold trim_parens. destruct a as [|x a].
  - cbn [app]. assert (D : drop_parens (l ++ r) = []); [|now rewrite D]. apply drop_all. intros b I. apply in_app_iff in I as [I|I]; [now apply (closing_paren l)|now apply (closing_paren r)].
  - rewrite drop_app; [|now apply closing_paren|intros b t E; cbn in E; injection E as <- _; now apply (bare_head (x :: a) x a)]. rewrite rev_app_distr, drop_app; [apply rev_involutive| |].
    + intros b I. apply (closing_paren r R). now apply in_rev.
    + intros b t E. now apply (bare_last (x :: a) b t).
Qed.
(** The parser gives exactly this reading. *)
Theorem C48_parse_exact : forall id name arg, parse_tool_id id = (name, arg) <-> reads id name arg.
Proof.
  intros id name arg. unfold parse_tool_id. split.
  - destruct (after_paren id) as [rest|] eqn:A.
    + intro E. injection E as <- <-. pose proof (after_some _ _ A) as S. destruct (trim_spec (before_paren rest) (before_no rest)) as (l & r & E & L & R & B).
      assert (T : exists tail, rest = before_paren rest ++ tail /\ (tail = [] \/ exists x, tail = x28 :: x)).
      { destruct (after_paren rest) as [q|] eqn:AR; [exists (x28 :: q); split; [now apply after_some|eauto]|]. apply after_none in AR. exists []. split; [rewrite before_self by exact AR; now rewrite app_nil_r|now left]. }
      destruct T as (tail & RT & TT). pose proof (R_arg (before_paren id) l (trim_parens (before_paren rest)) r tail (before_no id) L B R TT) as X.
      replace (before_paren id ++ [x28] ++ l ++ trim_parens (before_paren rest) ++ r ++ tail) with id in X; [exact X|]. rewrite S at 1. f_equal. cbn [app]. f_equal. rewrite RT at 1. rewrite E at 1. now rewrite <- !app_assoc.
    + intro E. injection E as <- <-. constructor. now apply after_none.
  - intros [n N|n l a r tail N L B R T].
    + apply after_none in N. now rewrite N.
    + cbn [app]. destruct (before_app n (l ++ a ++ r ++ tail) N) as [-> ->]. f_equal. replace (before_paren (l ++ a ++ r ++ tail)) with (l ++ a ++ r); [now apply trim_of|].
      assert (NO : no_open (l ++ a ++ r)). { intro I. rewrite !in_app_iff in I. destruct I as [I|[I|I]]; [apply L in I; discriminate|now apply B in I|apply R in I; discriminate]. }
      replace (l ++ a ++ r ++ tail) with ((l ++ a ++ r) ++ tail) by (now rewrite <- !app_assoc). destruct T as [->|[x ->]]; [rewrite app_nil_r, before_self by exact NO; reflexivity|]. symmetry. now apply before_app.
Qed.
(** So the two documented forms are read as documented, and differently for different names and arguments. *)
Theorem C48_documented : forall name arg, no_open name -> ~ In x28 arg -> ~ In x29 arg ->
  parse_tool_id name = (name, []) /\ parse_tool_id (name ++ lit "(" ++ arg ++ lit ")") = (name, arg).
Proof.
  intros name arg N A1 A2. split; apply C48_parse_exact; [now constructor|]. change (name ++ lit "(" ++ arg ++ lit ")") with (name ++ [x28] ++ [] ++ arg ++ [x29]). replace (arg ++ [x29]) with (arg ++ [x29] ++ []) by reflexivity.
  apply R_arg; [exact N|intros ? []| |intros b [<-|[]]; reflexivity|now left]. split; [exact A1|]. split; intros r ->; apply A2; [now left|apply in_app_iff; right; now left].
Qed.

(** ** Resolving *)
(** session.go:117-129 and 188-236, the part of the tool loop of newSession (Session.v, init_tool) that finds the tool and its hash. *)
Definition resolve (reg : list tool) (hreg : list hashtool) (id : bytes) : outcome (tool * option hashtool) :=
  let (name, arg) := parse_tool_id id in
  do t <- other (tools_get reg name);
  do h <- other (tool_hash hreg (t_purpose t) arg (t_options t) None);
  Ok (t, h).
Definition needs_hash (t : tool) : Prop := In OManagedHasher (t_options t) \/ In ODedicatedHasher (t_options t).
(** The identifier names the registered tool, and the registered hash tool if the tool needs one. *)
Definition names_tool (id : bytes) (t : tool) (h : option hashtool) : Prop := exists name arg, reads id name arg /\ In t tool_registry /\ t_name t = name
  /\ (needs_hash t -> exists ht, h = Some ht /\ In ht hash_registry /\ h_name ht = arg) /\ (~ needs_hash t -> h = None).
Lemma find_name {A} (f : A -> bytes) (l : list A) n x : NoDup (map f l) -> (find (fun t => bytes_eqb (f t) n) l = Some x <-> In x l /\ f x = n).
Proof.
  intro D. split; [intro E; apply find_some in E as [I E]; apply bytes_eqb_eq in E; auto|]. induction l as [|y l IH]; intros [I E]; [destruct I|]. inversion D as [|? ? ND DD]; subst. cbn. destruct (bytes_eqb (f y) (f x)) eqn:B.
  - apply bytes_eqb_eq in B. destruct I as [->|I]; [reflexivity|]. exfalso. apply ND. rewrite B. now apply in_map.
  - destruct I as [->|I]; [now rewrite bytes_eqb_refl in B|]. auto.
Qed.
Lemma nodup_b (l : list bytes) : nodupb l = true -> NoDup l.
Proof.
  induction l as [|x l IH]; cbn; [constructor|]. intro E. apply andb_true_iff in E as [E1 E2]. constructor; [|auto]. intro I. apply negb_true_iff in E1. assert (existsb (bytes_eqb x) l = true) by (apply existsb_exists; exists x; split; [exact I|apply bytes_eqb_refl]). congruence.
Qed.
Lemma tool_names : NoDup (map t_name tool_registry). Proof. apply nodup_b. vm_compute. reflexivity. Qed.
Lemma hash_names : NoDup (map h_name hash_registry). Proof. apply nodup_b. vm_compute. reflexivity. Qed.
Definition opt_b (o : toption) : bool := match o with OManagedHasher | ODedicatedHasher => true | _ => false end.
(** Of the registered tools, each has at most one hasher option, and a managed hasher only for MACs and signatures. *)
Definition hash_step (t : tool) (arg : bytes) : outcome (option hashtool) := if existsb opt_b (t_options t) then do h <- hash_get hash_registry arg; Ok (Some h) else Ok None.
Lemma hash_of t arg : In t tool_registry -> tool_hash hash_registry (t_purpose t) arg (t_options t) None = hash_step t arg.
Proof.
  intro I. unfold hash_step. unfold tool_registry in I. cbn [In] in I.
  repeat match type of I with _ \/ _ => destruct I as [<-|I]; [cbn [t_options t_purpose tool_hash existsb opt_b orb]; try reflexivity; destruct (hash_get hash_registry arg); reflexivity|] end. destruct I.
Qed.
Lemma needs_iff t : needs_hash t <-> existsb opt_b (t_options t) = true.
Proof.
  unfold needs_hash. rewrite existsb_exists. split; [intros [I|I]; eauto|]. intros ([] & I & E); try discriminate E; auto.
Qed.
(** Resolving an identifier gives a tool exactly if the identifier names one (and then only that one), and never crashes. *)
Theorem C48_resolve_exact : forall id t h, resolve tool_registry hash_registry id = Ok (t, h) <-> names_tool id t h.
Proof.
  intros id t h. unfold resolve. destruct (parse_tool_id id) as [name arg] eqn:P. apply C48_parse_exact in P.
  assert (TG : forall x, tools_get tool_registry name = Ok x <-> In x tool_registry /\ t_name x = name).
  { intro x. unfold tools_get. rewrite <- (find_name t_name tool_registry name x tool_names). destruct (find _ _); cbn; split; congruence. }
  assert (HG : forall x, hash_get hash_registry arg = Ok x <-> In x hash_registry /\ h_name x = arg).
  { intro x. unfold hash_get. rewrite <- (find_name h_name hash_registry arg x hash_names). destruct (find _ _); cbn; split; congruence. }
  split.
  - intro E. apply bind_ok in E as (t' & T & E). apply bind_ok in E as (h' & HH & E). injection E as -> ->. destruct (tools_get tool_registry name) as [x| |] eqn:G; cbn in T; try discriminate T. injection T as ->. destruct (proj1 (TG t) eq_refl) as [I N].
    exists name, arg. split; [exact P|]. split; [exact I|]. split; [exact N|]. rewrite hash_of in HH by exact I. unfold hash_step in HH. rewrite needs_iff. destruct (existsb opt_b (t_options t)).
    + split; [intros _|congruence]. destruct (hash_get hash_registry arg) as [x| |] eqn:G2; cbn in HH; try discriminate HH. injection HH as <-. pose proof (proj1 (HG x) eq_refl). eauto.
    + cbn in HH. injection HH as <-. split; [discriminate|reflexivity].
  - intros (n & a & R & I & N & H1 & H2). apply C48_parse_exact in R. apply C48_parse_exact in P. assert (n = name /\ a = arg) as [-> ->] by (split; congruence).
    rewrite (proj2 (TG t) (conj I N)). cbn [other bind]. rewrite hash_of by exact I. unfold hash_step. rewrite needs_iff in H1, H2. destruct (existsb opt_b (t_options t)).
    + destruct H1 as (ht & -> & IH & NH); [reflexivity|]. now rewrite (proj2 (HG ht) (conj IH NH)).
    + rewrite H2 by discriminate. reflexivity.
Qed.
Theorem C48_never_panics : forall id, resolve tool_registry hash_registry id <> Panic.
Proof.
  intros id. unfold resolve. destruct (parse_tool_id id) as [name arg]. unfold tools_get. destruct (find _ tool_registry) as [t|] eqn:F; cbn [of_option other bind]; [|discriminate]. apply find_some in F as [I _]. rewrite hash_of by exact I.
  unfold hash_step, hash_get. destruct (existsb opt_b _); [destruct (find _ hash_registry)|]; discriminate.
Qed.
(** It is what newSession does: the tools of a session are those its suite's identifiers name, in order. *)
Theorem C48_new_session : forall c cr env s, new_session c tool_registry hash_registry cr env = Ok s -> exists su, e_suite env = Some su
  /\ Forall2 (fun id i => names_tool id (i_tool i) (i_hash i)) (su_tools su) (s_all s).
Proof.
  intros c cr env s E. apply new_session_ok in E as (su & ESU & O). exists su. split; [exact ESU|]. pose proof (so_res _ _ _ _ _ _ _ O) as R. clear O. revert R. generalize (s_all s). generalize 0. induction (su_tools su) as [|id ids IH]; intros n l R; inversion R as [|? i ? is H1 H2]; subst; constructor; [|now apply (IH (S n))].
  apply C48_resolve_exact. destruct H1 as (_ & T & A & HH). cbn [snd] in *. unfold resolve. destruct (parse_tool_id id) as [name arg]. cbn [fst snd] in *. rewrite T. cbn [other bind]. unfold i_purpose in HH. rewrite A in HH. now rewrite HH.
Qed.
(** The documented forms are not the only ones accepted. *)
Theorem C48_sloppy_refuted : resolve tool_registry hash_registry (lit "Ed25519(BLAKE3") = resolve tool_registry hash_registry (lit "Ed25519(BLAKE3)")
  /\ resolve tool_registry hash_registry (lit "Ed25519()))BLAKE3))))(and more)") = resolve tool_registry hash_registry (lit "Ed25519(BLAKE3)")
  /\ resolve tool_registry hash_registry (lit "CHACHA20-POLY1305(nonsense)") = resolve tool_registry hash_registry (lit "CHACHA20-POLY1305")
  /\ exists t h, resolve tool_registry hash_registry (lit "Ed25519(BLAKE3)") = Ok (t, h).
Proof. repeat (split; [vm_compute; reflexivity|]). eexists. eexists. vm_compute. reflexivity. Qed.
(** So the check for duplicate tools can be evaded: this suite signs twice with the same tool. *)
Theorem C48_duplicates_refuted : exists s, new_session default_config tool_registry hash_registry toy
    (toy_env (mkSuite (lit "twice") [lit "Ed25519(BLAKE3)"; lit "Ed25519(BLAKE3"] [Integrity; SenderAuthentication] 128 2) [] [toy_signet "alice" "Ed25519" 5] []) = Ok s
  /\ length (s_signers s) = 2.
Proof. eexists. split; vm_compute; reflexivity. Qed.
Example C48_hypotheses_met : exists t h, names_tool (lit "HKDF(BLAKE2b-256)") t h /\ needs_hash t /\ exists t', names_tool (lit "ECDH-X25519") t' None /\ ~ needs_hash t'.
Proof.
  eexists. eexists. split; [apply C48_resolve_exact; vm_compute; reflexivity|]. split; [apply needs_iff; reflexivity|]. eexists. split; [apply C48_resolve_exact; vm_compute; reflexivity|]. rewrite needs_iff. discriminate.
Qed.
Print Assumptions C48_resolve_exact.
