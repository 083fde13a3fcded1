(** Top-level lemmas about [pack]/[unpack], in the form used by PropBytePacker.v *)
From Verif Require Import Base BytePacker BitStream BytePackerProofs BytePackerWhole.
From Coq Require Import ZifyBool ZifyNat ZifyN.
Local Open Scope N_scope.
Ltac Zify.zify_post_hook ::= Z.div_mod_to_equations.

Lemma supported_cases b : supported b ->
  b = 2 \/ b = 3 \/ b = 4 \/ b = 6 \/ b = 8 \/ b = 10 \/ b = 12 \/ b = 16.
Proof.
  unfold supported. intro H. repeat (destruct H as [H|H]; [subst; tauto|]). destruct H.
Qed.

Lemma pack_layout_lem b n dest symbols :
  supported b ->
  (n <= length symbols)%nat -> (bsz n b <= length dest)%nat ->
  fits b (firstn n symbols) ->
  pack b dest symbols n =
  Ok (digits 8 (bsz n b) (value b (firstn n symbols)) ++ skipn (bsz n b) dest).
Proof.
  intros Hb Hs Hd Hf. unfold pack.
  rewrite <- (firstn_skipn n symbols) at 1. rewrite <- (firstn_skipn (bsz n b) dest) at 1.
  assert (L1 : length (firstn n symbols) = n) by (rewrite firstn_length; lia).
  assert (L2 : length (firstn (bsz n b) dest) = bsz n b) by (rewrite firstn_length; lia).
  destruct (supported_cases b Hb) as [E|[E|[E|[E|[E|[E|[E|E]]]]]]]; subst b; cbn [packM].
  - now apply pack2_ok.
  - now apply pack3_ok.
  - now apply pack4_ok.
  - now apply pack6_ok.
  - now apply pack8_ok.
  - now apply pack10_ok.
  - now apply pack12_ok.
  - now apply pack16_ok.
Qed.

Lemma unpack_layout_lem b n symbols packed :
  supported b ->
  (n <= length symbols)%nat -> (bsz n b <= length packed)%nat ->
  fits 8 packed ->
  unpack b symbols packed n =
  Ok (digits b n (value 8 (firstn (bsz n b) packed)) ++ skipn n symbols).
Proof.
  intros Hb Hs Hd Hf. unfold unpack.
  rewrite <- (firstn_skipn n symbols) at 1. rewrite <- (firstn_skipn (bsz n b) packed) at 1.
  assert (L1 : length (firstn n symbols) = n) by (rewrite firstn_length; lia).
  assert (L2 : length (firstn (bsz n b) packed) = bsz n b) by (rewrite firstn_length; lia).
  assert (Hf' : fits 8 (firstn (bsz n b) packed)).
  { unfold fits in *. rewrite <- (firstn_skipn (bsz n b) packed) in Hf. now apply Forall_app in Hf. }
  destruct (supported_cases b Hb) as [E|[E|[E|[E|[E|[E|[E|E]]]]]]]; subst b; cbn [unpackM].
  - now apply unpack2_ok.
  - now apply unpack3_ok.
  - now apply unpack4_ok.
  - now apply unpack6_ok.
  - now apply unpack8_ok.
  - now apply unpack10_ok.
  - now apply unpack12_ok.
  - now apply unpack16_ok.
Qed.

Lemma bsz_least n b : least_bytes (N.of_nat n * b) (N.of_nat (bsz n b)).
Proof. unfold least_bytes, bsz, bufferSize. split; [lia|]. intros c Hc. lia. Qed.

Lemma value_lt n b l : length l = n -> fits b l -> value b l < 2 ^ (8 * N.of_nat (bsz n b)).
Proof.
  intros Hl Hf. pose proof (value_bound b l Hf) as H. rewrite Hl in H.
  eapply N.lt_le_trans; [exact H|]. apply N.pow_le_mono_r; [discriminate|].
  pose proof (bsz_least n b) as [H1 _]. lia.
Qed.

Lemma pack_unpack_lem b n dest symbols out0 packed :
  supported b ->
  (n <= length symbols)%nat -> (bsz n b <= length dest)%nat -> (n <= length out0)%nat ->
  fits b (firstn n symbols) -> fits 8 dest ->
  pack b dest symbols n = Ok packed ->
  unpack b out0 packed n = Ok (firstn n symbols ++ skipn n out0).
Proof.
  intros Hb Hs Hd Ho Hf Hd8 Hp. rewrite pack_layout_lem in Hp by assumption.
  injection Hp as <-.
  assert (L0 : length (digits 8 (bsz n b) (value b (firstn n symbols))) = bsz n b)
    by apply digits_length.
  rewrite unpack_layout_lem; try assumption.
  - apply f_equal. f_equal.
    rewrite firstn_app, L0, Nat.sub_diag. cbn [firstn]. rewrite app_nil_r.
    rewrite <- L0 at 1. rewrite firstn_all. rewrite value_digits.
    assert (L1 : length (firstn n symbols) = n) by (rewrite firstn_length; lia).
    rewrite N.mod_small by (now apply value_lt).
    rewrite <- L1 at 1. now apply digits_value.
  - rewrite app_length, L0. lia.
  - unfold fits. apply Forall_app. split; [apply digits_fits|].
    unfold fits in Hd8. rewrite <- (firstn_skipn (bsz n b) dest) in Hd8. now apply Forall_app in Hd8.
Qed.

Lemma nth_digits w k v i : (i < k)%nat ->
  nth i (digits w k v) 0 = (v / 2 ^ (w * N.of_nat i)) mod 2 ^ w.
Proof.
  revert v i; induction k as [|k IH]; intros v i Hi; [lia|]. cbn [digits].
  destruct i as [|i]; cbn [nth].
  - now rewrite N.mul_0_r, N.pow_0_r, N.div_1_r.
  - rewrite IH by lia. f_equal. rewrite N.div_div by (apply N.pow_nonzero; discriminate).
    rewrite <- N.pow_add_r. f_equal. f_equal. lia.
Qed.

Lemma supported_pos b : supported b -> 0 < b.
Proof. intro H. destruct (supported_cases b H) as [E|[E|[E|[E|[E|[E|[E|E]]]]]]]; subst; reflexivity. Qed.

Lemma pack_bits_lem b n dest symbols packed :
  supported b ->
  (n <= length symbols)%nat -> (bsz n b <= length dest)%nat ->
  fits b (firstn n symbols) ->
  pack b dest symbols n = Ok packed ->
  length packed = length dest /\
  (forall k j, (k < bsz n b)%nat ->
     N.testbit (nth k packed 0) j =
     if j <? 8 then stream_bit b (firstn n symbols) (8 * N.of_nat k + j) else false) /\
  (forall k, (bsz n b <= k)%nat -> nth k packed 0 = nth k dest 0).
Proof.
  intros Hb Hs Hd Hf Hp. rewrite pack_layout_lem in Hp by assumption. injection Hp as <-.
  assert (L0 : length (digits 8 (bsz n b) (value b (firstn n symbols))) = bsz n b)
    by apply digits_length.
  repeat split.
  - rewrite app_length, L0, skipn_length. lia.
  - intros k j Hk. rewrite app_nth1 by lia. rewrite nth_digits by assumption.
    rewrite testbit_mod. destruct (N.ltb_spec j 8); [|reflexivity].
    rewrite N.div_pow2_bits. rewrite stream_bit_value; [f_equal; lia| |assumption].
    now apply supported_pos.
  - intros k Hk. rewrite app_nth2 by lia. rewrite L0.
    rewrite <- (firstn_skipn (bsz n b) dest) at 2. rewrite app_nth2 by (rewrite firstn_length; lia).
    rewrite firstn_length. f_equal. lia.
Qed.

Lemma unpack_bits_lem b n symbols packed out :
  supported b ->
  (n <= length symbols)%nat -> (bsz n b <= length packed)%nat ->
  fits 8 packed ->
  unpack b symbols packed n = Ok out ->
  length out = length symbols /\
  (forall i j, (i < n)%nat ->
     N.testbit (nth i out 0) j =
     if j <? b then stream_bit 8 packed (b * N.of_nat i + j) else false) /\
  (forall i, (i < n)%nat -> nth i out 0 < 2 ^ b) /\
  (forall k, (n <= k)%nat -> nth k out 0 = nth k symbols 0).
Proof.
  intros Hb Hs Hd Hf Hp. rewrite unpack_layout_lem in Hp by assumption. injection Hp as <-.
  set (V := value 8 (firstn (bsz n b) packed)).
  assert (L0 : length (digits b n V) = n) by apply digits_length.
  assert (Hf' : fits 8 (firstn (bsz n b) packed)).
  { unfold fits in *. rewrite <- (firstn_skipn (bsz n b) packed) in Hf. now apply Forall_app in Hf. }
  repeat split.
  - rewrite app_length, L0, skipn_length. lia.
  - intros i j Hi. rewrite app_nth1 by lia. rewrite nth_digits by assumption.
    rewrite testbit_mod. destruct (N.ltb_spec j b) as [Hj|Hj]; [|reflexivity].
    rewrite N.div_pow2_bits. unfold V. rewrite stream_bit_value by (reflexivity || assumption).
    replace (j + b * N.of_nat i) with (b * N.of_nat i + j) by lia.
    unfold stream_bit. set (m := b * N.of_nat i + j).
    assert (Hm : (N.to_nat (m / 8) < bsz n b)%nat).
    { pose proof (bsz_least n b) as [H1 _]. unfold m.
      assert (b * N.of_nat i + j < 8 * N.of_nat (bsz n b)) by nia.
      assert ((b * N.of_nat i + j) / 8 < N.of_nat (bsz n b)) by (apply N.div_lt_upper_bound; lia). lia. }
    f_equal. rewrite <- (firstn_skipn (bsz n b) packed) at 2. rewrite app_nth1; [reflexivity|].
    rewrite firstn_length. lia.
  - intros i Hi. rewrite app_nth1 by lia. rewrite nth_digits by assumption.
    apply N.mod_lt, N.pow_nonzero. discriminate.
  - intros k Hk. rewrite app_nth2 by lia. rewrite L0.
    rewrite <- (firstn_skipn n symbols) at 2. rewrite app_nth2 by (rewrite firstn_length; lia).
    rewrite firstn_length. f_equal. lia.
Qed.

(* ------------------------------------------------------------------ *)
(** Exceptions *)

Definition nothrow (m : M) : Prop := forall p, m p <> Throw.

Lemma nt_seq a b : nothrow a -> nothrow b -> nothrow (a ;; b).
Proof. intros Ha Hb p. unfold seqM. destruct (a p) eqn:E; cbn; [apply Hb|now elim (Ha p)|discriminate]. Qed.
Lemma nt_st w e : nothrow (st w e).
Proof. intros p. unfold st. destruct (sr p), (dr p); discriminate. Qed.
Lemma nt_orst w e : nothrow (orst w e).
Proof. intros p. unfold orst. destruct (sr p), (dr p); discriminate. Qed.
Lemma nt_incS : nothrow incS.
Proof. intros p. unfold incS. destruct (sr p); discriminate. Qed.
Lemma nt_incD : nothrow incD.
Proof. intros p. unfold incD. destruct (dr p); discriminate. Qed.
Lemma nt_skip : nothrow skip.
Proof. intros p. discriminate. Qed.
Lemma nt_loop n b : nothrow b -> nothrow (loop n b).
Proof. intro H. induction n; cbn [loop]; [apply nt_skip|now apply nt_seq]. Qed.
Lemma nt_ifmore a b m : nothrow m -> nothrow (ifmore a b m).
Proof. unfold ifmore. destruct (Nat.eqb a b); [intros _; apply nt_skip|tauto]. Qed.

Ltac nt :=
  repeat first [ apply nt_seq | apply nt_st | apply nt_orst | apply nt_incS | apply nt_incD
               | apply nt_skip | apply nt_loop | apply nt_ifmore ].

Lemma packM_nothrow b n : supported b -> nothrow (packM b n).
Proof.
  intro H. destruct (supported_cases b H) as [E|[E|[E|[E|[E|[E|[E|E]]]]]]]; subst b; cbn [packM].
  - unfold pack2, pack2_group, pack2_tail. nt.
  - unfold pack3, pack3_group, pack3_tail. nt.
  - unfold pack4, pack4_group, pack4_tail. nt.
  - unfold pack6, pack6_group, pack6_tail. nt.
  - unfold pack8. nt.
  - unfold pack10, pack10_group, pack10_tail. nt.
  - unfold pack12, pack12_group, pack12_tail. nt.
  - unfold pack16. nt.
Qed.

Lemma unpackM_nothrow b n : supported b -> nothrow (unpackM b n).
Proof.
  intro H. destruct (supported_cases b H) as [E|[E|[E|[E|[E|[E|[E|E]]]]]]]; subst b; cbn [unpackM].
  - unfold unpack2, unpack2_group, unpack2_tail. nt.
  - unfold unpack3, unpack3_group, unpack3_tail. nt.
  - unfold unpack4, unpack4_group, unpack4_tail. nt.
  - unfold unpack6, unpack6_group, unpack6_tail. nt.
  - unfold unpack8. nt.
  - unfold unpack10, unpack10_group, unpack10_tail. nt.
  - unfold unpack12, unpack12_group, unpack12_tail. nt.
  - unfold unpack16. nt.
Qed.

Lemma run_nothrow m s d : nothrow m -> run m s d <> Throw.
Proof. intros H. unfold run. destruct (m _) eqn:E; cbn; [discriminate|now elim (H (mkP [] s [] d))|discriminate]. Qed.

Lemma unsupported_throw b n : ~ supported b ->
  (forall p, packM b n p = Throw) /\ (forall p, unpackM b n p = Throw).
Proof.
  intro H. unfold supported in H. cbn [In] in H.
  destruct b as [|p]; [split; reflexivity|].
  do 5 (try (destruct p as [p|p|]));
    split; try reflexivity; exfalso; apply H; tauto.
Qed.

Lemma supported_dec b : supported b \/ ~ supported b.
Proof.
  unfold supported. destruct (in_dec N.eq_dec b [2; 3; 4; 6; 8; 10; 12; 16]); tauto.
Qed.

Lemma pack_throws_lem b dest symbols n : pack b dest symbols n = Throw <-> ~ supported b.
Proof.
  split.
  - intros H Hb. revert H. apply run_nothrow. now apply packM_nothrow.
  - intro H. unfold pack, run. destruct (unsupported_throw b n H) as [E _]. now rewrite E.
Qed.

Lemma unpack_throws_lem b symbols packed n : unpack b symbols packed n = Throw <-> ~ supported b.
Proof.
  split.
  - intros H Hb. revert H. apply run_nothrow. now apply unpackM_nothrow.
  - intro H. unfold unpack, run. destruct (unsupported_throw b n H) as [_ E]. now rewrite E.
Qed.

(* ------------------------------------------------------------------ *)
(** Framing: memory behind the pointers is irrelevant to a run that
    succeeds; hence a run on too small buffers can not succeed. *)

Definition ext (s d : list N) (p : ptrs) : ptrs := mkP (sl p) (sr p ++ s) (dl p) (dr p ++ d).
Definition framed (m : M) : Prop :=
  forall s d p q, m p = Ok q -> m (ext s d p) = Ok (ext s d q).

Lemma fr_seq a b : framed a -> framed b -> framed (a ;; b).
Proof.
  intros Ha Hb s d p q H. unfold seqM in *. destruct (a p) eqn:E; cbn in H; try discriminate.
  rewrite (Ha s d p a0 E). cbn. now apply Hb.
Qed.
Lemma fr_st w e : framed (st w e).
Proof.
  intros s d [l r x y] q H. unfold st, ext in *. cbn in *.
  destruct r; [discriminate|]. destruct y; [discriminate|]. injection H as <-. reflexivity.
Qed.
Lemma fr_orst w e : framed (orst w e).
Proof.
  intros s d [l r x y] q H. unfold orst, ext in *. cbn in *.
  destruct r; [discriminate|]. destruct y; [discriminate|]. injection H as <-. reflexivity.
Qed.
Lemma fr_incS : framed incS.
Proof.
  intros s d [l r x y] q H. unfold incS, ext in *. cbn in *.
  destruct r; [discriminate|]. injection H as <-. reflexivity.
Qed.
Lemma fr_incD : framed incD.
Proof.
  intros s d [l r x y] q H. unfold incD, ext in *. cbn in *.
  destruct y; [discriminate|]. injection H as <-. reflexivity.
Qed.
Lemma fr_skip : framed skip.
Proof. intros s d p q H. injection H as <-. reflexivity. Qed.
Lemma fr_loop n b : framed b -> framed (loop n b).
Proof. intro H. induction n; cbn [loop]; [apply fr_skip|now apply fr_seq]. Qed.
Lemma fr_ifmore a b m : framed m -> framed (ifmore a b m).
Proof. unfold ifmore. destruct (Nat.eqb a b); [intros _; apply fr_skip|tauto]. Qed.

Ltac fr :=
  repeat first [ apply fr_seq | apply fr_st | apply fr_orst | apply fr_incS | apply fr_incD
               | apply fr_skip | apply fr_loop | apply fr_ifmore ].

Lemma packM_framed b n : supported b -> framed (packM b n).
Proof.
  intro H. destruct (supported_cases b H) as [E|[E|[E|[E|[E|[E|[E|E]]]]]]]; subst b; cbn [packM].
  - unfold pack2, pack2_group, pack2_tail. fr.
  - unfold pack3, pack3_group, pack3_tail. fr.
  - unfold pack4, pack4_group, pack4_tail. fr.
  - unfold pack6, pack6_group, pack6_tail. fr.
  - unfold pack8. fr.
  - unfold pack10, pack10_group, pack10_tail. fr.
  - unfold pack12, pack12_group, pack12_tail. fr.
  - unfold pack16. fr.
Qed.

Lemma unpackM_framed b n : supported b -> framed (unpackM b n).
Proof.
  intro H. destruct (supported_cases b H) as [E|[E|[E|[E|[E|[E|[E|E]]]]]]]; subst b; cbn [unpackM].
  - unfold unpack2, unpack2_group, unpack2_tail. fr.
  - unfold unpack3, unpack3_group, unpack3_tail. fr.
  - unfold unpack4, unpack4_group, unpack4_tail. fr.
  - unfold unpack6, unpack6_group, unpack6_tail. fr.
  - unfold unpack8. fr.
  - unfold unpack10, unpack10_group, unpack10_tail. fr.
  - unfold unpack12, unpack12_group, unpack12_tail. fr.
  - unfold unpack16. fr.
Qed.

Lemma run_framed m s d src dst out : framed m -> run m src dst = Ok out ->
  run m (src ++ s) (dst ++ d) = Ok (out ++ d).
Proof.
  intros Hm H. unfold run in *. destruct (m _) as [q| |] eqn:E; cbn in H; try discriminate.
  injection H as <-. apply (Hm s d) in E. unfold ext in E. cbn in E. rewrite E. cbn.
  now rewrite app_assoc.
Qed.

Lemma fits_app w a b : fits w (a ++ b) <-> fits w a /\ fits w b.
Proof. apply Forall_app. Qed.
Lemma fits_firstn w n a : fits w a -> fits w (firstn n a).
Proof. intro H. rewrite <- (firstn_skipn n a) in H. now apply fits_app in H. Qed.
Lemma fits_repeat w n x : x < 2 ^ w -> fits w (repeat x n).
Proof. intro H. induction n; constructor; assumption. Qed.

Lemma digits_ext_inj (l1 l2 : list N) w k :
  fits w l1 -> fits w l2 -> length l1 = length l2 ->
  (w * N.of_nat (length l1) <= 8 * N.of_nat k) ->
  digits 8 k (value w l1) = digits 8 k (value w l2) -> l1 = l2.
Proof.
  intros F1 F2 HL Hk H. apply (f_equal (value 8)) in H. rewrite !value_digits in H.
  assert (P : 2 ^ (w * N.of_nat (length l1)) <= 2 ^ (8 * N.of_nat k))
    by (apply N.pow_le_mono_r; [discriminate|assumption]).
  pose proof (value_bound w l1 F1). pose proof (value_bound w l2 F2). rewrite <- HL in *.
  rewrite !N.mod_small in H by lia.
  rewrite <- (digits_value w l1 F1), <- (digits_value w l2 F2). now rewrite HL, H.
Qed.

Lemma app_inj_len (A : Type) (a1 a2 b1 b2 : list A) :
  a1 ++ b1 = a2 ++ b2 -> length a1 = length a2 -> a1 = a2.
Proof.
  revert a2; induction a1 as [|x a1 IH]; intros [|y a2] H HL; try discriminate; [reflexivity|].
  injection H as -> H. f_equal. apply IH; [assumption|now injection HL].
Qed.

Lemma pow2_gt1 w : 0 < w -> 1 < 2 ^ w.
Proof. intro. apply N.pow_gt_1; lia. Qed.

(** [pack] succeeds exactly on large enough buffers *)
Lemma pack_exact_lem b n dest symbols :
  supported b -> fits b symbols ->
  ((n <= length symbols)%nat /\ (bsz n b <= length dest)%nat <-> is_ok (pack b dest symbols n) = true) /\
  (~ ((n <= length symbols)%nat /\ (bsz n b <= length dest)%nat) -> pack b dest symbols n = UB).
Proof.
  intros Hb Hf.
  assert (Hok : (n <= length symbols)%nat /\ (bsz n b <= length dest)%nat ->
                is_ok (pack b dest symbols n) = true).
  { intros [H1 H2]. rewrite pack_layout_lem by (assumption || now apply fits_firstn). reflexivity. }
  assert (Hno : ~ ((n <= length symbols)%nat /\ (bsz n b <= length dest)%nat) ->
                pack b dest symbols n = UB).
  { intro H. destruct (pack b dest symbols n) as [out| |] eqn:E; [exfalso|exfalso|reflexivity].
    2:{ now apply pack_throws_lem in E. }
    pose proof (pow2_gt1 b (supported_pos b Hb)) as Hb1.
    assert (K : forall x y, x < 2 ^ b ->
      let ss := symbols ++ repeat x n in let dd := dest ++ repeat y (bsz n b) in
      digits 8 (bsz n b) (value b (firstn n ss)) ++ skipn (bsz n b) dd = out ++ repeat y (bsz n b)).
    { intros x y Hx ss dd.
      pose proof (run_framed (packM b n) (repeat x n) (repeat y (bsz n b)) symbols dest out
                    (packM_framed b n Hb) E) as R.
      fold ss dd in R. change (run (packM b n) ss dd) with (pack b dd ss n) in R.
      rewrite pack_layout_lem in R; try assumption.
      - now injection R.
      - unfold ss. rewrite app_length, repeat_length. lia.
      - unfold dd. rewrite app_length, repeat_length. lia.
      - apply fits_firstn, fits_app. split; [assumption|now apply fits_repeat]. }
    assert (Hlen : length out = length dest).
    { specialize (K 0 0 ltac:(lia)). cbv zeta in K. apply (f_equal (@length N)) in K.
      rewrite !app_length, digits_length, skipn_length, app_length, repeat_length in K. lia. }
    destruct (Nat.le_gt_cases (bsz n b) (length dest)) as [Hd|Hd].
    - (* symbols too short *)
      assert (Hs : (length symbols < n)%nat) by lia.
      pose proof (K 0 0 ltac:(lia)) as K0. pose proof (K 1 0 Hb1) as K1. cbv zeta in K0, K1.
      rewrite <- K1 in K0. apply app_inj_len in K0; [|now rewrite !digits_length].
      apply digits_ext_inj in K0.
      + rewrite !firstn_app in K0. apply app_inv_head in K0.
        destruct (n - length symbols)%nat as [|k] eqn:En; [lia|].
        destruct n as [|n']; [lia|]. cbn in K0. discriminate.
      + apply fits_firstn, fits_app. split; [assumption|apply fits_repeat; lia].
      + apply fits_firstn, fits_app. split; [assumption|apply fits_repeat; lia].
      + rewrite !firstn_length, !app_length, !repeat_length. lia.
      + rewrite firstn_length, app_length, repeat_length.
        pose proof (bsz_least n b) as [H1 _]. nia.
    - (* dest too short *)
      pose proof (K 0 0 ltac:(lia)) as K0. pose proof (K 0 1 ltac:(lia)) as K1. cbv zeta in K0, K1.
      apply (f_equal (fun l => nth (length dest) l 0)) in K0.
      apply (f_equal (fun l => nth (length dest) l 0)) in K1.
      rewrite app_nth1 in K0 by (rewrite digits_length; lia).
      rewrite app_nth1 in K1 by (rewrite digits_length; lia).
      rewrite K1 in K0. rewrite !app_nth2 in K0 by lia. rewrite Hlen, Nat.sub_diag in K0.
      destruct (bsz n b); [lia|]. cbn in K0. discriminate. }
  split; [split; [exact Hok|]|exact Hno].
  intro H. destruct (Nat.le_gt_cases n (length symbols)), (Nat.le_gt_cases (bsz n b) (length dest));
    try (split; assumption); rewrite Hno in H by lia; discriminate.
Qed.

(** [unpack] succeeds exactly on large enough buffers *)
Lemma unpack_exact_lem b n symbols packed :
  supported b -> fits 8 packed ->
  ((n <= length symbols)%nat /\ (bsz n b <= length packed)%nat <-> is_ok (unpack b symbols packed n) = true) /\
  (~ ((n <= length symbols)%nat /\ (bsz n b <= length packed)%nat) -> unpack b symbols packed n = UB).
Proof.
  intros Hb Hf.
  assert (Hok : (n <= length symbols)%nat /\ (bsz n b <= length packed)%nat ->
                is_ok (unpack b symbols packed n) = true).
  { intros [H1 H2]. rewrite unpack_layout_lem by assumption. reflexivity. }
  assert (Hno : ~ ((n <= length symbols)%nat /\ (bsz n b <= length packed)%nat) ->
                unpack b symbols packed n = UB).
  { intro H. destruct (unpack b symbols packed n) as [out| |] eqn:E; [exfalso|exfalso|reflexivity].
    2:{ now apply unpack_throws_lem in E. }
    pose proof (supported_pos b Hb) as Hb0.
    assert (K : forall x y, x < 2 ^ 8 ->
      let pp := packed ++ repeat x (bsz n b) in let ss := symbols ++ repeat y n in
      digits b n (value 8 (firstn (bsz n b) pp)) ++ skipn n ss = out ++ repeat y n).
    { intros x y Hx pp ss.
      pose proof (run_framed (unpackM b n) (repeat x (bsz n b)) (repeat y n) packed symbols out
                    (unpackM_framed b n Hb) E) as R.
      fold ss pp in R. change (run (unpackM b n) pp ss) with (unpack b ss pp n) in R.
      rewrite unpack_layout_lem in R; try assumption.
      - now injection R.
      - unfold ss. rewrite app_length, repeat_length. lia.
      - unfold pp. rewrite app_length, repeat_length. lia.
      - apply fits_app. split; [assumption|now apply fits_repeat]. }
    assert (Hlen : length out = length symbols).
    { specialize (K 0 0 ltac:(lia)). cbv zeta in K. apply (f_equal (@length N)) in K.
      rewrite !app_length, digits_length, skipn_length, app_length, repeat_length in K. lia. }
    destruct (Nat.le_gt_cases n (length symbols)) as [Hd|Hd].
    - (* packed too short: the last byte decides the last symbol *)
      assert (Hs : (length packed < bsz n b)%nat) by lia.
      pose proof (K 0 0 ltac:(lia)) as K0. pose proof (K 255 0 ltac:(reflexivity)) as K1. cbv zeta in K0, K1.
      rewrite <- K1 in K0.
      apply app_inj_len in K0; [|now rewrite !digits_length].
      set (m := length packed) in *. set (B := bsz n b) in *.
      (* compare the bit at position 8*(B-1) *)
      set (pos := 8 * (N.of_nat B - 1)).
      assert (Hpos : pos < b * N.of_nat n).
      { destruct (bsz_least n b) as [_ Hl]. fold B in Hl.
        destruct (N.lt_ge_cases pos (b * N.of_nat n)) as [?|Hge]; [assumption|exfalso].
        assert (N.of_nat n * b <= 8 * (N.of_nat B - 1)) by (unfold pos in Hge; lia).
        apply Hl in H0. lia. }
      apply (f_equal (value b)) in K0. rewrite !value_digits in K0.
      apply (f_equal (fun v => N.testbit v pos)) in K0.
      rewrite !testbit_mod in K0. apply N.ltb_lt in Hpos. rewrite Hpos in K0.
      rewrite !stream_bit_value in K0; try reflexivity.
      2,3: apply fits_firstn, fits_app; split; [assumption|apply fits_repeat; reflexivity].
      unfold stream_bit in K0.
      replace (N.to_nat (pos / 8)) with (B - 1)%nat in K0 by (unfold pos; lia).
      replace (pos mod 8) with 0 in K0 by (unfold pos; lia).
      assert (Nf : forall x, nth (B - 1) (firstn B (packed ++ repeat x B)) 0 = x).
      { intro x. rewrite firstn_app. fold m. rewrite app_nth2 by (rewrite firstn_length; fold m; lia).
        rewrite firstn_length. fold m.
        replace (B - 1 - Nat.min B m)%nat with (B - 1 - m)%nat by lia.
        assert (Hr : forall k j, (j < k)%nat -> nth j (repeat x k) 0 = x).
        { clear. intros k. induction k as [|k IH]; intros j Hj; [lia|]. destruct j; cbn; [reflexivity|].
          apply IH. lia. }
        assert (Hfr : forall k j, firstn j (repeat x k) = repeat x (Nat.min j k)).
        { clear. intros k. induction k as [|k IH]; intros [|j]; cbn; try reflexivity. now rewrite IH. }
        rewrite Hfr. apply Hr. lia. }
      rewrite !Nf in K0. discriminate.
    - (* destination too short *)
      pose proof (K 0 0 ltac:(lia)) as K0. pose proof (K 0 1 ltac:(lia)) as K1. cbv zeta in K0, K1.
      apply (f_equal (fun l => nth (length symbols) l 0)) in K0.
      apply (f_equal (fun l => nth (length symbols) l 0)) in K1.
      rewrite app_nth1 in K0 by (rewrite digits_length; lia).
      rewrite app_nth1 in K1 by (rewrite digits_length; lia).
      rewrite K1 in K0. rewrite !app_nth2 in K0 by lia. rewrite Hlen, Nat.sub_diag in K0.
      destruct n; [lia|]. cbn in K0. discriminate. }
  split; [split; [exact Hok|]|exact Hno].
  intro H. destruct (Nat.le_gt_cases n (length symbols)), (Nat.le_gt_cases (bsz n b) (length packed));
    try (split; assumption); rewrite Hno in H by lia; discriminate.
Qed.

Lemma roundtrip_lem b n dest symbols out0 :
  supported b ->
  (n <= length symbols)%nat -> (bsz n b <= length dest)%nat -> (n <= length out0)%nat ->
  fits b (firstn n symbols) -> fits 8 dest ->
  exists packed, pack b dest symbols n = Ok packed /\ length packed = length dest /\
    unpack b out0 packed n = Ok (firstn n symbols ++ skipn n out0).
Proof.
  intros Hb Hs Hd Ho Hf Hd8.
  pose proof (pack_layout_lem b n dest symbols Hb Hs Hd Hf) as E.
  eexists. split; [exact E|]. split.
  - rewrite app_length, digits_length, skipn_length. lia.
  - eapply pack_unpack_lem; eassumption.
Qed.
