(** A toy instance of the primitives, used only to show that hypotheses about
    them can be met (no property theorem depends on it). *)
From Coq Require Import Init.Byte.
From Verif Require Import PreludeFacts Tools Crypto Session.

Definition toy_sum (l : bytes) : N := fold_left (fun a b => (a * 3 + b2n b + 1)%N) l 0%N.
Definition toy_mix (l : bytes) : N := fold_left (fun a b => ((a * a + 7 * b2n b + a + 1) mod 65521)%N) l 1%N.
Definition toy_tag (k n ad d : bytes) : bytes :=
  repeat (n2b (toy_mix (k ++ n ++ ad ++ d))) 16.

Definition toy_open (k n ad c : bytes) : option bytes :=
  let d := firstn (length c - 16) c in
  if bytes_eqb c (d ++ toy_tag k n ad d) then Some d else None.

Definition toy : crypto := {|
  cr_rand := fun i n => Some (repeat (n2b (N.of_nat i)) n);
  cr_hash := fun t m => t ++ m;
  cr_kdf := fun t h nc s o n => Some (map (fun k => n2b (N.of_nat (o + k) + toy_mix (nc ++ s))) (seq 0 n));
  cr_stream := fun t k iv n => repeat (n2b (toy_sum (k ++ iv))) n;
  cr_seal := fun t k n ad d => d ++ toy_tag k n ad d;
  cr_open := fun t k n ad c => toy_open k n ad c;
  cr_mac := fun t h k m => repeat (n2b (toy_sum (k ++ m))) 16;
  cr_pwd := fun t p s n => Some (repeat (n2b (toy_sum (p ++ s))) (Z.to_nat n));
  cr_gen := fun t i => Some ([n2b (N.of_nat i)], [n2b (N.of_nat i)]);
  cr_shared := fun t s p => [xor_byte (hd x00 s) (hd x00 p)];
  cr_encap := fun t h p k i => Some (p ++ k);
  cr_unwrap := fun t h s w => match w with b :: r => if bytes_eqb [b] s then Some r else None | [] => None end;
  cr_sign := fun t h s m i => Some (s ++ h ++ m);
  cr_verify := fun t h p m sg => bytes_eqb (p ++ h ++ m) sg;
  cr_load := fun t k pub => match k with [] => Err EOther | _ => Ok (k, if pub then PNil else PKey k) end;
  cr_store_pub := fun t p => p;
  cr_rsa_bits := fun p => 2048%Z;
  cr_pw_level := fun p it => (8 * Z.of_nat (length p))%Z
|}.

Lemma toy_laws : crypto_laws toy.
Proof.
  split; cbn [toy cr_rand cr_kdf cr_stream cr_open cr_seal cr_shared cr_encap cr_unwrap cr_sign cr_verify cr_load cr_store_pub].
  - intros i n b H. injection H as <-. apply repeat_length.
  - intros t h nc s o n b H. injection H as <-. now rewrite map_length, seq_length.
  - intros. apply repeat_length.
  - intros t k n ad d. unfold toy_open.
    assert (L : length (d ++ toy_tag k n ad d) - 16 = length d).
    { rewrite app_length. unfold toy_tag. rewrite repeat_length. lia. }
    rewrite L, firstn_app_exact, bytes_eqb_refl. reflexivity.
  - intros t p1 s1 p2 s2 (i & E1) (j & E2). cbn in *. injection E1 as <- <-. injection E2 as <- <-. cbn.
    unfold xor_byte. f_equal. f_equal. apply N.lxor_comm.
  - intros t h p s k i w (j & E) H. cbn in *. injection E as <- <-. injection H as <-. cbn.
    now rewrite byte_eqb_refl.
  - intros t h p s m i sg (j & E) H. cbn in *. injection E as <- <-. injection H as <-. cbn.
    rewrite byte_eqb_refl. apply bytes_eqb_refl.
  - intros t p s (j & E). cbn in *. injection E as <- <-. cbn. eexists. reflexivity.
Qed.

(** Signets of the toy instance: key pair number [i]. *)
Definition toy_key (i : N) : bytes := [n2b i].
Definition toy_signet (id scheme : Coq.Strings.String.string) (i : N) : signet :=
  mkSignet 1 (lit id) (lit scheme) (toy_key i) false false None (Some (toy_key i)) (PKey (toy_key i)).
Definition toy_recipient (id scheme : Coq.Strings.String.string) (i : N) : signet :=
  mkSignet 1 (lit id) (lit scheme) (toy_key i) true false None (Some (toy_key i)) PNil.
Definition toy_secret (id : Coq.Strings.String.string) : signet :=
  mkSignet 1 (lit id) scheme_key (repeat x41 32) false false None None PNil.
Definition toy_password (id : Coq.Strings.String.string) : signet :=
  mkSignet 1 (lit id) scheme_pw (repeat x42 32) false false None None PNil.
Arguments toy_signet (id scheme)%string_scope i%N_scope.
Arguments toy_recipient (id scheme)%string_scope i%N_scope.
Arguments toy_secret id%string_scope.
Arguments toy_password id%string_scope.

Definition toy_env (su : suite) (secrets senders recipients : list signet) : envelope :=
  mkEnvelope 1 [] (su_id su) (Some su) secrets senders recipients 0 false.

Definition suite_named (id : bytes) : suite :=
  match get_suite suite_registry id with Some s => s | None => mkSuite [] [] [] 0 0 end.
