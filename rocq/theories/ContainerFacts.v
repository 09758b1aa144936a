From Verif Require Export PreludeFacts Container.
Local Open Scope N_scope.

Lemma get_n64_aux_spec f n r :
  n < 2 * 128 ^ N.of_nat f -> get_n64_aux f (uvarint_aux f n ++ r) = Ok (n, r).
Proof.
  revert n; induction f as [|f IH]; intros n Hn; cbn [uvarint_aux get_n64_aux].
  - cbn [app get_n64_aux]. rewrite b2n_n2b. cbn in Hn.
    rewrite N.mod_small by lia. destruct (N.ltb_spec n 2); [easy|lia].
  - destruct (N.ltb_spec n 128) as [Hlt|Hge].
    + cbn [app]. rewrite b2n_n2b, N.mod_small by lia.
      destruct (N.ltb_spec n 128); [easy|lia].
    + cbn [app]. rewrite b2n_n2b. rewrite (N.mod_small (n mod 128 + 128)) by lia.
      destruct (N.ltb_spec (n mod 128 + 128) 128); [lia|].
      rewrite IH.
      * cbn [bind]. do 2 f_equal. lia.
      * rewrite Nat2N.inj_succ, N.pow_succ_r' in Hn. lia.
Qed.

Lemma get_n64_uvarint n r : n < 2 ^ 64 -> get_n64 (uvarint n ++ r) = Ok (n, r).
Proof. intro H. apply get_n64_aux_spec. cbn. lia. Qed.

Lemma uvarint_small n : n < 128 -> uvarint n = [n2b n].
Proof. intro H. unfold uvarint. cbn [uvarint_aux]. destruct (N.ltb_spec n 128); [easy|lia]. Qed.

Lemma uvarint_inj n m r s :
  n < 2 ^ 64 -> m < 2 ^ 64 -> uvarint n ++ r = uvarint m ++ s -> n = m /\ r = s.
Proof.
  intros Hn Hm H. pose proof (get_n64_uvarint n r Hn) as E.
  rewrite H, (get_n64_uvarint m s Hm) in E. injection E as -> ->. easy.
Qed.

Lemma uvarint_ne n : uvarint n <> [].
Proof. unfold uvarint; cbn [uvarint_aux]; destruct (n <? 128); discriminate. Qed.

Lemma uvarint_two n : 128 <= n < 256 -> uvarint n = [n2b n; n2b 1].
Proof.
  intro H. unfold uvarint. cbn [uvarint_aux].
  destruct (N.ltb_spec n 128); [lia|].
  assert (n / 128 = 1) as -> by lia.
  assert (n mod 128 + 128 = n) as -> by lia. reflexivity.
Qed.

Lemma get_n8_small w n r : n < 128 -> get_n8 w (uvarint n ++ r) = Ok (n, r).
Proof.
  intro H. rewrite uvarint_small by easy. cbn [app get_n8].
  rewrite b2n_n2b, N.mod_small by lia. destruct (N.ltb_spec n 128); [easy|lia].
Qed.

Lemma get_n8_two n r : n < 256 -> get_n8 2 (uvarint n ++ r) = Ok (n, r).
Proof.
  intro H. destruct (N.lt_ge_cases n 128) as [Hl|Hg]; [now apply get_n8_small|].
  rewrite uvarint_two by easy. cbn [app get_n8].
  rewrite b2n_n2b, N.mod_small by lia. destruct (N.ltb_spec n 128); [lia|]. reflexivity.
Qed.

Lemma get_n8_big w n r : 256 <= n -> get_n8 w (uvarint n ++ r) = Err EVarint.
Proof.
  intro H. unfold uvarint. cbn [uvarint_aux].
  destruct (N.ltb_spec n 128); [lia|]. cbn [app get_n8].
  rewrite b2n_n2b, N.mod_small by lia. destruct (N.ltb_spec (n mod 128 + 128) 128); [lia|].
  destruct (N.ltb_spec (n / 128) 128); cbn [app]; rewrite b2n_n2b.
  - rewrite N.mod_small by lia. destruct (N.eqb_spec (n / 128) 1); [lia|easy].
  - rewrite N.mod_small by lia. destruct (N.eqb_spec ((n / 128) mod 128 + 128) 1); [lia|easy].
Qed.

Lemma get_bytes_app b r : fits b -> get_bytes (blen b) (b ++ r) = Ok (b, r).
Proof.
  unfold fits, get_bytes, blen. intro H.
  destruct (N.leb_spec (2 ^ 63) (N.of_nat (length b))) as [H1|_]; [lia|].
  rewrite app_length.
  destruct (N.ltb_spec (N.of_nat (length b + length r)) (N.of_nat (length b))) as [H1|_]; [lia|].
  rewrite Nat2N.id, firstn_app_exact, skipn_app_exact. reflexivity.
Qed.

Lemma get_block_block b r : fits b -> get_block (block b ++ r) = Ok (b, r).
Proof.
  intro H. unfold get_block, block. rewrite <- app_assoc, get_n64_uvarint by (unfold fits in H; lia).
  cbn [bind]. now apply get_bytes_app.
Qed.

Lemma block_inj a b r s : fits a -> fits b -> block a ++ r = block b ++ s -> a = b /\ r = s.
Proof.
  intros Ha Hb H. pose proof (get_block_block a r Ha) as E.
  rewrite H, (get_block_block b s Hb) in E. injection E as -> ->. easy.
Qed.

(** Parsers only look at what they consume. *)
Lemma get_n64_aux_mono f c v r x :
  get_n64_aux f c = Ok (v, r) -> get_n64_aux f (c ++ x) = Ok (v, r ++ x).
Proof.
  revert c v r; induction f as [|f IH]; intros [|b c] v r; cbn [get_n64_aux app]; try discriminate.
  - destruct (b2n b <? 2); [|discriminate]. intro H; injection H as <- <-; reflexivity.
  - destruct (b2n b <? 128). { intro H; injection H as <- <-; reflexivity. }
    intro H. apply bind_ok in H as ((v' & r') & H1 & H2). rewrite (IH _ _ _ H1).
    cbn [bind]. injection H2 as <- <-. reflexivity.
Qed.
Lemma get_n64_mono c v r x : get_n64 c = Ok (v, r) -> get_n64 (c ++ x) = Ok (v, r ++ x).
Proof. apply get_n64_aux_mono. Qed.

Lemma get_n8_mono w c v r x :
  (w <= 2)%nat -> get_n8 w c = Ok (v, r) -> get_n8 w (c ++ x) = Ok (v, r ++ x).
Proof.
  intro Hw. destruct c as [|b [|b1 c]]; cbn [get_n8 app]; try discriminate.
  - destruct (b2n b <? 128); [|discriminate]. intro H; injection H as <- <-; reflexivity.
  - destruct (b2n b <? 128). { intro H; injection H as <- <-; reflexivity. }
    destruct (b2n b1 =? 1); [|discriminate]. intro H; injection H as <- <-.
    destruct w as [|[|[|w]]]; cbn; try reflexivity. lia.
Qed.

Lemma get_bytes_mono n c b r x : get_bytes n c = Ok (b, r) -> get_bytes n (c ++ x) = Ok (b, r ++ x).
Proof.
  unfold get_bytes. destruct (2 ^ 63 <=? n). { intro H; injection H as <- <-; reflexivity. }
  unfold blen. destruct (N.ltb_spec (N.of_nat (length c)) n) as [|H0]; [discriminate|].
  intro H; injection H as <- <-. rewrite app_length.
  destruct (N.ltb_spec (N.of_nat (length c + length x)) n) as [H1|_]; [lia|].
  rewrite firstn_app, skipn_app. assert (N.to_nat n - length c = 0)%nat as -> by lia.
  cbn. now rewrite app_nil_r.
Qed.

Lemma get_block_mono c b r x : get_block c = Ok (b, r) -> get_block (c ++ x) = Ok (b, r ++ x).
Proof.
  unfold get_block. intro H. apply bind_ok in H as ((n & c1) & H1 & H2).
  rewrite (get_n64_mono _ _ _ _ H1). cbn [bind]. now apply get_bytes_mono.
Qed.

Lemma fitsb_fits b : fitsb b = true <-> fits b.
Proof. unfold fitsb, fits. apply N.ltb_lt. Qed.
