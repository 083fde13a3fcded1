(** Facts about the standard normal distribution.  Proof file. *)
From Coq Require Import Reals Lra Psatz.
From Verif Require Import NormalSpec.
Local Open Scope R_scope.

Lemma root_bounds : 2.449 <= sqrt (2 * PI) <= 2.829.
Proof.
  assert (3 < PI) by (pose proof PI2_3_2; lra). pose proof PI_4. split.
  - rewrite <- (sqrt_square 2.449) by lra. apply sqrt_le_1_alt. lra.
  - rewrite <- (sqrt_square 2.829) by lra. apply sqrt_le_1_alt. lra.
Qed.

Lemma root_inv : / 2.829 <= / sqrt (2 * PI) <= / 2.449.
Proof. pose proof root_bounds. split; apply Rinv_le_contravar; lra. Qed.

Lemma density_pos x : 0 < density x.
Proof. pose proof root_bounds. unfold density. apply Rdiv_lt_0_compat; [apply exp_pos|lra]. Qed.

Lemma density_even x : density (- x) = density x.
Proof. unfold density. do 2 f_equal. lra. Qed.

Lemma exp_le x y : x <= y -> exp x <= exp y.
Proof. intros [H| ->]; [now apply Rlt_le, exp_increasing|apply Rle_refl]. Qed.

Lemma density_mono x y : 0 <= x <= y -> density y <= density x.
Proof.
  intros H. pose proof root_inv. unfold density, Rdiv. apply Rmult_le_compat_r; [lra|]. apply exp_le. assert (x * x <= y * y) by nra. lra.
Qed.

Lemma density_half x : density x <= / 2.
Proof.
  pose proof root_inv as R. apply Rle_trans with (1 * / 2.449); [|lra]. unfold density, Rdiv. apply Rmult_le_compat; try lra.
  - apply Rlt_le, exp_pos.
  - rewrite <- exp_0. apply exp_le. assert (0 <= x * x) by nra. lra.
Qed.

(** numerical bounds of the exponential *)
Lemma exp_pow a (n : nat) : exp (INR n * a) = exp a ^ n.
Proof.
  induction n as [|n IH]; [cbn [INR pow]; now rewrite Rmult_0_l, exp_0|].
  rewrite S_INR, Rmult_plus_distr_r, exp_plus, IH, Rmult_1_l. cbn [pow]. ring.
Qed.

Lemma exp_lower (n : nat) : (63 / 64) ^ n <= exp (- (INR n / 64)).
Proof.
  replace (- (INR n / 64)) with (INR n * (- (1 / 64))) by lra. rewrite exp_pow. apply pow_incr. split; [lra|].
  pose proof (exp_ineq1_le (- (1 / 64))). lra.
Qed.

Lemma exp_upper (n : nat) : exp (- (INR n / 16)) <= / (17 / 16) ^ n.
Proof.
  replace (- (INR n / 16)) with (- (INR n * (1 / 16))) by lra. rewrite exp_Ropp, exp_pow. apply Rinv_le_contravar; [apply pow_lt; lra|].
  apply pow_incr. split; [lra|]. pose proof (exp_ineq1_le (1 / 16)). lra.
Qed.

Lemma pow_step (a b : R) (n m : nat) (v w : R) : 0 <= v -> 0 <= w -> v <= a ^ n -> w <= a ^ m -> b <= v * w -> b <= a ^ (n + m).
Proof. intros V W H1 H2 H. rewrite pow_add. apply Rle_trans with (v * w); trivial. now apply Rmult_le_compat. Qed.

Lemma up_162 : 18300 <= (17 / 16) ^ 162.
Proof.
  assert (H2 : 1.1289 <= (17 / 16) ^ 2) by (cbn [pow]; lra).
  assert (H4 : 1.2744 <= (17 / 16) ^ (2 + 2)) by (apply (pow_step _ _ _ _ 1.1289 1.1289); trivial; lra).
  assert (H8 : 1.624 <= (17 / 16) ^ (4 + 4)) by (apply (pow_step _ _ _ _ 1.2744 1.2744); trivial; lra).
  assert (H16 : 2.637 <= (17 / 16) ^ (8 + 8)) by (apply (pow_step _ _ _ _ 1.624 1.624); trivial; lra).
  assert (H32 : 6.953 <= (17 / 16) ^ (16 + 16)) by (apply (pow_step _ _ _ _ 2.637 2.637); trivial; lra).
  assert (H64 : 48.34 <= (17 / 16) ^ (32 + 32)) by (apply (pow_step _ _ _ _ 6.953 6.953); trivial; lra).
  assert (H128 : 2336 <= (17 / 16) ^ (64 + 64)) by (apply (pow_step _ _ _ _ 48.34 48.34); trivial; lra).
  assert (H160 : 16242 <= (17 / 16) ^ (128 + 32)) by (apply (pow_step _ _ _ _ 2336 6.953); trivial; lra).
  apply (pow_step _ _ 160 2 16242 1.1289); trivial; lra.
Qed.

Lemma low_pow :
  0.000225 <= (63 / 64) ^ 532 /\ 0.0000033 <= (63 / 64) ^ 800.
Proof.
  assert (H2 : 0.9689 <= (63 / 64) ^ 2) by (cbn [pow]; lra).
  assert (H4 : 0.9389 <= (63 / 64) ^ 4) by (cbn [pow]; lra).
  assert (H8 : 0.88160 <= (63 / 64) ^ 8) by (cbn [pow]; lra).
  assert (H16 : 0.77721 <= (63 / 64) ^ (8 + 8)) by (apply (pow_step _ _ _ _ 0.88160 0.88160); trivial; lra).
  assert (H32 : 0.60405 <= (63 / 64) ^ (16 + 16)) by (apply (pow_step _ _ _ _ 0.77721 0.77721); trivial; lra).
  assert (H64 : 0.36487 <= (63 / 64) ^ (32 + 32)) by (apply (pow_step _ _ _ _ 0.60405 0.60405); trivial; lra).
  assert (H128 : 0.13313 <= (63 / 64) ^ (64 + 64)) by (apply (pow_step _ _ _ _ 0.36487 0.36487); trivial; lra).
  assert (H256 : 0.017723 <= (63 / 64) ^ (128 + 128)) by (apply (pow_step _ _ _ _ 0.13313 0.13313); trivial; lra).
  assert (H512 : 0.00031410 <= (63 / 64) ^ (256 + 256)) by (apply (pow_step _ _ _ _ 0.017723 0.017723); trivial; lra).
  assert (H528 : 0.00024 <= (63 / 64) ^ (512 + 16)) by (apply (pow_step _ _ _ _ 0.00031410 0.77721); trivial; lra).
  assert (H532 : 0.000225 <= (63 / 64) ^ (528 + 4)) by (apply (pow_step _ _ _ _ 0.00024 0.9389); trivial; lra).
  assert (H768 : 0.0000055667 <= (63 / 64) ^ (512 + 256)) by (apply (pow_step _ _ _ _ 0.00031410 0.017723); trivial; lra).
  assert (H800 : 0.0000033 <= (63 / 64) ^ (768 + 32)) by (apply (pow_step _ _ _ _ 0.0000055667 0.60405); trivial; lra).
  split; trivial.
Qed.

Lemma density_4 : / 16384 <= density (65 / 16).
Proof.
  pose proof root_inv. pose proof (proj1 low_pow). pose proof (exp_lower 532) as E. rewrite INR_IZR_INZ in E.
  change (Z.of_nat 532) with 532%Z in E.
  assert (exp (- (532 / 64)) <= exp (- (65 / 16 * (65 / 16)) / 2)) by (apply exp_le; lra).
  unfold density, Rdiv. apply Rle_trans with (0.000225 * / 2.829); [lra|]. apply Rmult_le_compat; lra.
Qed.

Lemma density_5 : / 1048576 <= density 5.
Proof.
  pose proof root_inv. pose proof (proj2 low_pow). pose proof (exp_lower 800) as E. rewrite INR_IZR_INZ in E.
  change (Z.of_nat 800) with 800%Z in E.
  assert (exp (- (800 / 64)) <= exp (- (5 * 5) / 2)) by (apply exp_le; lra).
  unfold density, Rdiv. apply Rle_trans with (0.0000033 * / 2.829); [lra|]. apply Rmult_le_compat; lra.
Qed.

Lemma density_45 : density 4.5 <= / 40000.
Proof.
  pose proof root_inv. pose proof up_162 as U. pose proof (exp_upper 162) as E. rewrite INR_IZR_INZ in E.
  change (Z.of_nat 162) with 162%Z in E.
  assert (exp (- (4.5 * 4.5) / 2) <= exp (- (162 / 16))) by (apply exp_le; lra).
  assert (/ (17 / 16) ^ 162 <= / 18300) by (apply Rinv_le_contravar; lra).
  unfold density, Rdiv. apply Rle_trans with (/ 18300 * / 2.449); [|lra]. apply Rmult_le_compat; try lra. apply Rlt_le, exp_pos.
Qed.

Lemma density_deriv x : derivable_pt_lim density x (- x * density x).
Proof.
  unfold density. replace (- x * (exp (- (x * x) / 2) / sqrt (2 * PI))) with (exp (- (x * x) / 2) * (- x) * / sqrt (2 * PI)) by (unfold Rdiv; ring).
  apply (derivable_pt_lim_ext (fun y => exp (- (y * y) / 2) * / sqrt (2 * PI))); [reflexivity|].
  apply (derivable_pt_lim_ext (mult_real_fct (/ sqrt (2 * PI)) (fun y => exp (- (y * y) / 2)))); [intros y; unfold mult_real_fct; ring|].
  rewrite (Rmult_comm _ (/ sqrt (2 * PI))). apply derivable_pt_lim_scal.
  apply (derivable_pt_lim_comp (fun y => - (y * y) / 2) exp); [|apply derivable_pt_lim_exp].
  replace (- x) with (- / 2 * (1 * x + x * 1)) by lra.
  apply (derivable_pt_lim_ext (mult_real_fct (- / 2) (fun y => y * y))); [intros y; unfold mult_real_fct; lra|].
  apply derivable_pt_lim_scal. apply (derivable_pt_lim_mult id id); apply derivable_pt_lim_id.
Qed.

Section Cdf.
Context (Phi : R -> R) (N : normal_cdf Phi).

Lemma mean x y : x < y -> exists z, x < z < y /\ Phi y - Phi x = density z * (y - x).
Proof.
  intros H. destruct (MVT_cor2 Phi density x y H) as (z & E & Bz); [intros; apply N|]. now exists z.
Qed.

Lemma cdf_incr x y : x < y -> Phi x < Phi y.
Proof. intros H. destruct (mean x y H) as (z & _ & E). pose proof (density_pos z). nra. Qed.

Lemma cdf_le x y : x <= y -> Phi x <= Phi y.
Proof. intros [H| ->]; [now apply Rlt_le, cdf_incr|lra]. Qed.

Lemma cdf_lip x y : x <= y -> Phi y - Phi x <= (y - x) / 2.
Proof.
  intros [H| ->]; [|lra]. destruct (mean x y H) as (z & _ & ->). pose proof (density_half z). nra.
Qed.

Lemma cdf_slope b s x y : s <= density b -> 0 <= x <= y -> y <= b -> s * (y - x) <= Phi y - Phi x.
Proof.
  intros Hs [H0 [H| ->]] Hb; [|lra]. destruct (mean x y H) as (z & Bz & ->). pose proof (density_mono z b ltac:(lra)). nra.
Qed.

Lemma cdf_sym x : Phi (- x) = 1 - Phi x.
Proof.
  assert (C : forall y, derivable_pt_lim (fun y => Phi y + Phi (- y)) y 0).
  { intros y. replace 0 with (density y + density (- y) * -1) by (rewrite density_even; lra).
    apply (derivable_pt_lim_plus Phi (fun y => Phi (- y))); [apply N|].
    apply (derivable_pt_lim_comp Ropp Phi); [|apply N]. apply (derivable_pt_lim_opp id y 1), derivable_pt_lim_id. }
  assert (E : forall a b, a < b -> Phi a + Phi (- a) = Phi b + Phi (- b)).
  { intros a b H. destruct (MVT_cor2 (fun y => Phi y + Phi (- y)) (fun _ => 0) a b H) as (z & E & _); [intros; apply C|]. lra. }
  assert (Phi x + Phi (- x) = Phi 0 + Phi (- 0)).
  { destruct (Rtotal_order x 0) as [H|[->|H]]; [now apply E|reflexivity|symmetry; now apply E]. }
  rewrite Ropp_0, (nc_half _ N) in H. lra.
Qed.

Lemma cdf_bounds x : 0 <= Phi x <= 1.
Proof. pose proof (nc_le _ N x). pose proof (nc_le _ N (- x)) as H2. rewrite cdf_sym in H2. lra. Qed.

Lemma cdf_tail : 1 - / 160000 <= Phi 4.5.
Proof.
  apply Rnot_lt_le. intros H. destruct (nc_one _ N (1 - / 160000 - Phi 4.5) ltac:(lra)) as (y & Hy).
  pose proof density_45 as D.
  assert (Hlt : 4.5 < y). { apply Rnot_le_lt. intros L. pose proof (cdf_le y 4.5 L). lra. }
  destruct (MVT_cor2 (fun x => Phi x + / 4 * density x) (fun x => density x + / 4 * (- x * density x)) 4.5 y Hlt) as (z & E & Bz).
  { intros x _. apply (derivable_pt_lim_plus Phi (mult_real_fct (/ 4) density)); [apply N|]. apply derivable_pt_lim_scal, density_deriv. }
  pose proof (density_pos z) as Pz. pose proof (density_pos y) as Py.
  assert ((density z + / 4 * (- z * density z)) * (y - 4.5) <= 0).
  { replace ((density z + / 4 * (- z * density z)) * (y - 4.5)) with (- (density z * ((z / 4 - 1) * (y - 4.5)))) by lra.
    assert (0 <= (z / 4 - 1) * (y - 4.5)) by (apply Rmult_le_pos; lra). assert (0 <= density z * ((z / 4 - 1) * (y - 4.5))) by (apply Rmult_le_pos; lra). lra. }
  lra.
Qed.

Lemma cdf_cont : continuity Phi.
Proof. intros x. apply derivable_continuous_pt. exists (density x). apply N. Qed.

Lemma quantile_up p : / 2 <= p <= 1 - / 160000 -> exists z, 0 <= z <= 4.5 /\ Phi z = p.
Proof.
  intros H. pose proof cdf_tail as T. destruct (IVT_cor (fun x => Phi x - p) 0 4.5) as (z & Bz & E).
  - apply (continuity_minus Phi (fun _ => p)); [apply cdf_cont|]. apply continuity_const. now intros ? ?.
  - lra.
  - cbn beta. rewrite (nc_half _ N). nra.
  - exists z. split; [lra|]. cbn beta in E. lra.
Qed.

Lemma quantile p : / 160000 <= p <= 1 - / 160000 -> exists z, -4.5 <= z <= 4.5 /\ Phi z = p.
Proof.
  intros H. destruct (Rle_or_lt (/ 2) p) as [L|L].
  - destruct (quantile_up p ltac:(lra)) as (z & B & E). exists z. split; [lra|trivial].
  - destruct (quantile_up (1 - p) ltac:(lra)) as (z & B & E). exists (- z). split; [lra|]. rewrite cdf_sym. lra.
Qed.

Lemma cdf_inj x y : Phi x = Phi y -> x = y.
Proof. intros E. destruct (Rtotal_order x y) as [H|[H|H]]; trivial; apply cdf_incr in H; lra. Qed.

(** quantiles are at least twice as far apart as their probabilities *)
Lemma quantile_gap x y : Phi x <= Phi y -> 2 * (Phi y - Phi x) <= y - x.
Proof.
  intros H. destruct (Rle_or_lt x y) as [L|L]; [pose proof (cdf_lip x y L); lra|]. pose proof (cdf_incr y x L). lra.
Qed.

(** and between -4.5 and 4.5 no more than 2^20 times *)
Lemma quantile_near x y : -4.5 <= x <= y -> y <= 4.5 -> / 1048576 * (y - x) <= Phi y - Phi x.
Proof.
  intros [Hx [H| ->]] Hy; [|lra]. destruct (mean x y H) as (z & Bz & ->).
  assert (/ 1048576 <= density z).
  { apply Rle_trans with (1 := density_5). destruct (Rle_or_lt 0 z); [apply density_mono; lra|]. rewrite <- (density_even z). apply density_mono. lra. }
  nra.
Qed.
End Cdf.
