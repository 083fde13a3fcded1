(** The table of the uniform encoder (/repo/stochasticencoder.cc:97-103): its levels are the
    quantiles of the uniform distribution with standard deviation 1.  Proof file. *)
From Coq Require Import Reals Lra Psatz Lia.
From Flocq Require Import Core.
From Verif Require Import Base BaseLemmas Floats FloatLemmas StochasticEncoder EncSpec EncoderCtorProofs TimeBlockEncoders TbeSpec TableSpec TableProofs GaussianTable.
Local Open Scope R_scope.

Lemma uni_sharp s c N : is_finite s = true -> 0 <= B2R s <= 2 -> (1 <= N < 2 ^ 62)%Z -> (0 <= c <= 2 * N)%Z ->
  is_finite (uni s c N) = true /\
  Rabs (B2R (uni s c N) - B2R s * (-1 + IZR c / IZR N)) <= bpow radix2 (-24) * Rabs (B2R s * (-1 + IZR c / IZR N)) + bpow radix2 (-50).
Proof.
  intros Fs Hs HN Hc. unfold uni.
  destruct (int80 c ltac:(lia)) as (Fc & Ec). destruct (int80 N ltac:(lia)) as (FN & EN).
  destruct (int80 (-1) ltac:(lia)) as (F1 & E1).
  assert (N0 : 0 < IZR N) by (apply IZR_lt; lia).
  assert (Hr : 0 <= IZR c / IZR N <= 2).
  { split.
    - apply Rmult_le_pos; [apply IZR_le; lia|]. now apply Rlt_le, Rinv_0_lt_compat.
    - apply Rmult_le_reg_r with (IZR N); trivial. unfold Rdiv. rewrite Rmult_assoc, Rinv_l by lra.
      rewrite Rmult_1_r, <- mult_IZR. apply IZR_le. lia. }
  set (r := IZR c / IZR N) in *.
  assert (T60 : bpow radix2 (-60) <= / 1024 / 1024 / 1024 / 1024).
  { change (/ 1024 / 1024 / 1024 / 1024) with (/ 1024 * / 1024 * / 1024 * / 1024).
    change (/ 1024) with (bpow radix2 (-10)). rewrite <- !bpow_plus. apply bpow_le. lia. }
  assert (T60p : 0 < bpow radix2 (-60)) by apply bpow_gt_0.
  set (t := bpow radix2 (-60)) in *.
  (* division *)
  destruct (op_ok_bounded _ _ 1 (div_ok (of80 c) (of80 N) Fc FN ltac:(rewrite EN; lra))) as (Fd & Ed & Bd).
  { rewrite Ec, EN. fold r. rewrite Rabs_pos_eq by lra. change (bpow radix2 1) with 2. lra. }
  { lia. }
  fold (div80 (of80 c) (of80 N)) in *. set (d := div80 (of80 c) (of80 N)) in *.
  rewrite Ec, EN in Ed. fold r in Ed.
  assert (Hd : Rabs (B2R d - r) <= t) by (rewrite Ed; apply err80; rewrite Rabs_pos_eq; lra).
  change (bpow radix2 1) with 2 in Bd. apply Rabs_le_inv in Bd. apply Rabs_le_inv in Hd.
  (* addition *)
  destruct (op_ok_bounded _ _ 2 (plus_ok (of80 (-1)) d F1 Fd)) as (Fw & Ew & Bw).
  { rewrite E1. apply Rabs_le. change (bpow radix2 2) with 4. lra. }
  { lia. }
  fold (add80 (of80 (-1)) d) in *. set (w := add80 (of80 (-1)) d) in *. rewrite E1 in Ew.
  assert (Hw : Rabs (B2R w - (-1 + B2R d)) <= t) by (rewrite Ew; apply err80; apply Rabs_le; lra).
  apply Rabs_le_inv in Hw.
  assert (Hw' : -1 - 2 * t <= B2R w <= 1 + 2 * t) by lra.
  (* product *)
  destruct (conv_widen (p':=64) (e':=16384) s ltac:(lia) ltac:(lia) Fs) as (Fs' & Es').
  fold (to80 s) in *.
  assert (Hsw : Rabs (B2R s * B2R w) <= 2 + 4 * t) by (apply Rabs_le; nra).
  destruct (op_ok_bounded _ _ 2 (mult_ok (to80 s) w Fs' Fw)) as (Fp & Ep & Bp).
  { rewrite Es'. change (bpow radix2 2) with 4. lra. }
  { lia. }
  fold (mul80 (to80 s) w) in *. set (p := mul80 (to80 s) w) in *. rewrite Es' in Ep.
  assert (Hp : Rabs (B2R p - B2R s * B2R w) <= t) by (rewrite Ep; apply err80; lra).
  apply Rabs_le_inv in Hp. apply Rabs_le_inv in Hsw.
  (* conversion to float *)
  change (bpow radix2 2) with 4 in Bp.
  destruct (op_ok_bounded _ _ 2 (conv_ok (p':=24) (e':=128) p Fp)) as (Fr & Er & Br).
  { change (bpow radix2 2) with 4. exact Bp. }
  { lia. }
  fold (to32 p) in *. split; trivial.
  pose proof (err32 (B2R p) Bp) as Hf. rewrite <- Er in Hf.
  assert (S1 : Rabs (B2R s * B2R w - B2R s * (-1 + r)) <= 4 * t).
  { replace (B2R s * B2R w - B2R s * (-1 + r)) with (B2R s * (B2R w - (-1 + r))) by ring.
    rewrite Rabs_mult, (Rabs_pos_eq (B2R s)) by lra.
    apply Rle_trans with (2 * (2 * t)); [|lra]. apply Rmult_le_compat; try lra; [apply Rabs_pos|].
    apply Rabs_le. lra. }
  set (v := B2R s * (-1 + r)) in *. apply Rabs_le_inv in S1.
  assert (Pv : Rabs (B2R p - v) <= 5 * t) by (apply Rabs_le; lra).
  assert (Pa : Rabs (B2R p) <= Rabs v + 5 * t).
  { replace (B2R p) with (v + (B2R p - v)) by ring. apply Rle_trans with (1 := Rabs_triang _ _). lra. }
  assert (Q24 : bpow radix2 (-24) * Rabs (B2R p) <= bpow radix2 (-24) * (Rabs v + 5 * t)).
  { apply Rmult_le_compat_l; [apply bpow_ge_0|exact Pa]. }
  assert (Q64 : bpow radix2 (-64) <= t) by (apply bpow_le; lia).
  assert (Q50 : 1024 * t <= bpow radix2 (-50)).
  { change 1024 with (bpow radix2 10). unfold t. rewrite <- bpow_plus. apply bpow_le. lia. }
  change (bpow radix2 (-24)) with (/ 16777216) in *.
  replace (B2R (to32 p) - v) with ((B2R (to32 p) - B2R p) + (B2R p - v)) by ring. apply Rle_trans with (1 := Rabs_triang _ _). lra.
Qed.

Lemma s3_val : is_finite (scaled_stddev (of32 1)) = true /\ B2R (scaled_stddev (of32 1)) = S3.
Proof.
  assert (G : B2SF (scaled_stddev (of32 1)) = SpecFloat.S754_finite false 14529495 (-23)) by (vm_compute; reflexivity).
  split; [vm_compute; reflexivity|].
  rewrite <- (SF2R_B2SF 24 128), G. cbn -[bpow]. unfold F2R. cbn -[bpow]. change (bpow radix2 (-23)) with (/ 8388608). unfold S3. lra.
Qed.

Section UniformTable.
Context (q : nat) (Hq : (3 <= q)%nat) (Hq2 : (Z.of_nat q <= 65536)%Z) (ea da : list f32) (Hea : length ea = (q - 1)%nat) (Hda : length da = q).
Notation s := (scaled_stddev (of32 1)).

Lemma uniform_near c : (0 <= c <= 2 * (Z.of_nat q - 1))%Z -> is_finite (uni s c (Z.of_nat q - 1)) = true /\
  Rabs (B2R (uni s c (Z.of_nat q - 1)) - S3 * (2 * (IZR c / (2 * IZR (Z.of_nat q - 1))) - 1)) <= bpow radix2 (-24) * Rabs (S3 * (2 * (IZR c / (2 * IZR (Z.of_nat q - 1))) - 1)) + bpow radix2 (-50).
Proof.
  intros Hc. destruct s3_val as (Fs & Es). destruct (uni_sharp s c (Z.of_nat q - 1) Fs) as (F & E); [rewrite Es; unfold S3; lra|lia|lia|].
  split; trivial. rewrite Es in E. assert (N0 : 2 <= IZR (Z.of_nat q - 1)) by (apply IZR_le; lia).
  replace (2 * (IZR c / (2 * IZR (Z.of_nat q - 1))) - 1) with (-1 + IZR c / IZR (Z.of_nat q - 1)) by (field; lra). exact E.
Qed.

Lemma uniform_table : exists e, uniform_encoder q (of32 1) ea da = Ok e /\ table_of (fun p z => z = sqrt 3 * (2 * p - 1)) q e.
Proof.
  assert (N0 : 2 <= IZR (Z.of_nat q - 1)) by (apply IZR_le; lia). assert (N1 : IZR (Z.of_nat q - 1) <= 65535) by (apply IZR_le; lia).
  assert (H0 : / 131070 <= / (2 * IZR (Z.of_nat q - 1)) <= / 4) by (split; apply Rinv_le_contravar; lra).
  assert (B50 : 0 < bpow radix2 (-50) <= / 1000000000000) by (split; [apply bpow_gt_0|apply Rle_trans with (bpow radix2 (-40)); [apply bpow_le; lia|change (bpow radix2 (-40)) with (/ 1099511627776); lra]]).
  pose proof S3_sqrt as D. assert (S : 1.732 < S3 < 1.7321) by (unfold S3; lra).
  unfold uniform_encoder. apply (table_ok q (uniform_bnd s q) (uniform_val s q) ea da (fun p v => v = S3 * (2 * p - 1)) (bpow radix2 (-24)) (bpow radix2 (-50)) Hq Hea Hda);
    change (bpow radix2 (-24)) with (/ 16777216) in *; change (bpow radix2 (-22)) with (/ 4194304).
  - lra.
  - lra.
  - intros p _. eauto.
  - intros i Hi. rewrite uniform_bnd_uni by lia. destruct (uniform_near (2 * Z.of_nat i)) as (F & E); [lia|]. split; trivial. intros v ->.
    unfold bnd_p. replace (2 * (IZR (Z.of_nat i) / IZR (Z.of_nat q - 1))) with (2 * (IZR (2 * Z.of_nat i) / (2 * IZR (Z.of_nat q - 1)))) by (rewrite mult_IZR; field; lra). exact E.
  - intros i Hi. rewrite uniform_val_uni by lia. destruct (uniform_near (2 * Z.of_nat i + 1)) as (F & E); [lia|]. split; trivial. intros v ->.
    unfold val_p. replace (2 * ((IZR (Z.of_nat i) + / 2) / IZR (Z.of_nat q - 1))) with (2 * (IZR (2 * Z.of_nat i + 1) / (2 * IZR (Z.of_nat q - 1)))) by (rewrite plus_IZR, mult_IZR; field; lra). exact E.
  - intros p p' v v' H1 H2 H3 -> ->. assert (A : forall x, 0 <= x <= 1 -> Rabs (S3 * (2 * x - 1)) <= 2) by (intros x Hx; apply Rabs_le; nra).
    pose proof (A p ltac:(lra)). pose proof (A p' ltac:(lra)). replace (S3 * (2 * p' - 1) - S3 * (2 * p - 1)) with (2 * S3 * (p' - p)) by ring. nra.
  - intros p v _ ->. ring.
  - intros v ->. split; nra.
  - intros p z x -> H. specialize (H _ eq_refl). unfold close32. change (bpow radix2 (-22)) with (/ 4194304). change (bpow radix2 (-26)) with (/ 67108864).
    replace (B2R x - sqrt 3 * (2 * p - 1)) with ((B2R x - S3 * (2 * p - 1)) + (S3 - sqrt 3) * (2 * p - 1)) by ring. apply Rle_trans with (1 := Rabs_triang _ _).
    assert (B : 1.732 < sqrt 3) by (rewrite <- (sqrt_square 1.732) by lra; apply sqrt_lt_1; lra).
    rewrite (Rabs_mult (S3 - sqrt 3)), (Rabs_mult (sqrt 3)), (Rabs_pos_eq (sqrt 3)) by lra. rewrite Rabs_mult, (Rabs_pos_eq S3) in H by lra. pose proof (Rabs_pos (2 * p - 1)) as Pz. nra.
Qed.
End UniformTable.
