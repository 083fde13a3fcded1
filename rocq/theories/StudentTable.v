(** The tables of the Student-T and the truncated Gaussian encoders.  Proof file. *)
From Coq Require Import Reals Lra Psatz Lia.
From Flocq Require Import Core.
From Verif Require Import Base BaseLemmas Floats FloatLemmas StochasticEncoder EncSpec EncoderTables InvCumulativeProofs InvAccuracy NormalSpec NormalProofs GaussianInv
  EncoderCtorProofs TimeBlockEncoders TbeSpec TableSpec TableProofs GaussianTable.
Local Open Scope R_scope.

(** ** Peaked distributions *)
Section Peaked.
Context (T d : R -> R) (D : peaked_cdf T d).

Lemma pk_mean x y : x < y -> exists z, x < z < y /\ T y - T x = d z * (y - x).
Proof. intros H. destruct (MVT_cor2 T d x y H) as (z & E & Bz); [intros; apply D|]. now exists z. Qed.

Lemma pk_incr x y : x < y -> T x < T y.
Proof. intros H. destruct (pk_mean x y H) as (z & _ & E). pose proof (sd_pos _ _ D z). nra. Qed.

Lemma pk_le x y : x <= y -> T x <= T y.
Proof. intros [H| ->]; [now apply Rlt_le, pk_incr|lra]. Qed.

Lemma pk_inv_lt x y : T x < T y -> x < y.
Proof. intros H. apply Rnot_le_lt. intros L. apply pk_le in L. lra. Qed.

Lemma pk_inj x y : T x = T y -> x = y.
Proof. intros E. destruct (Rtotal_order x y) as [H|[H|H]]; trivial; apply pk_incr in H; lra. Qed.

Lemma pk_sym x : T (- x) = 1 - T x.
Proof.
  assert (C : forall y, derivable_pt_lim (fun y => T y + T (- y)) y 0).
  { intros y. replace 0 with (d y + d (- y) * -1) by (rewrite (sd_even _ _ D); lra).
    apply (derivable_pt_lim_plus T (fun y => T (- y))); [apply D|].
    apply (derivable_pt_lim_comp Ropp T); [|apply D]. apply (derivable_pt_lim_opp id y 1), derivable_pt_lim_id. }
  assert (E : forall a b, a < b -> T a + T (- a) = T b + T (- b)).
  { intros a b H. destruct (MVT_cor2 (fun y => T y + T (- y)) (fun _ => 0) a b H) as (z & E & _); [intros; apply C|]. lra. }
  assert (H : T x + T (- x) = T 0 + T (- 0)).
  { destruct (Rtotal_order x 0) as [H|[->|H]]; [now apply E|reflexivity|symmetry; now apply E]. }
  rewrite Ropp_0, (sd_half _ _ D) in H. lra.
Qed.

Lemma pk_half x : d x <= / 2.
Proof.
  apply Rle_trans with (2 := sd_max _ _ D). destruct (Rle_or_lt 0 x); [apply (sd_decr _ _ D); lra|].
  rewrite <- (sd_even _ _ D). apply (sd_decr _ _ D). lra.
Qed.

(** the density at [z] times [z] is below the probability between 0 and [z] *)
Lemma pk_area z : 0 <= z -> z * d z <= / 2.
Proof.
  intros [H| <-]; [|lra]. destruct (pk_mean 0 z H) as (y & By & E). pose proof (sd_decr _ _ D y z ltac:(lra)) as L.
  pose proof (sd_le _ _ D z). rewrite (sd_half _ _ D) in E. nra.
Qed.

Lemma pk_gap_abs x y : T x <= T y -> 2 * (T y - T x) <= y - x.
Proof.
  intros H. destruct (Rtotal_order x y) as [L|[->|L]]; [|lra|apply pk_incr in L; lra]. destruct (pk_mean x y L) as (z & _ & E). pose proof (pk_half z). nra.
Qed.

Lemma pk_gap_rel x y : 0 <= x -> T x <= T y -> 2 * x * (T y - T x) <= y - x.
Proof.
  intros Hx H. destruct (Rtotal_order x y) as [L|[->|L]]; [|lra|apply pk_incr in L; lra]. destruct (pk_mean x y L) as (z & Bz & E).
  pose proof (sd_decr _ _ D x z ltac:(lra)) as Dz. pose proof (pk_area x Hx) as A. pose proof (sd_pos _ _ D z) as P.
  assert (x * d z <= / 2) by nra. rewrite E. nra.
Qed.

Lemma pk_gap x y del : 0 < del <= / 2 -> del <= T y - T x -> Rabs x + Rabs y <= (y - x) * (/ del + 1).
Proof.
  intros Hd H. pose proof (pk_gap_abs x y ltac:(lra)) as G. assert (L : x < y) by lra.
  assert (Id : 0 < / del) by (apply Rinv_0_lt_compat; lra). assert (E : del * / del = 1) by (apply Rinv_r; lra).
  assert (half : forall a b, 0 <= a < b -> del <= T b - T a -> a + b <= (b - a) * (/ del + 1)).
  { intros a b Hab Hdel. pose proof (pk_gap_rel a b ltac:(lra) ltac:(lra)) as R. assert (2 * a * del <= b - a) by nra.
    assert (2 * a * del * / del <= (b - a) * / del) by (apply Rmult_le_compat_r; lra). assert (2 * a * del * / del = 2 * a) by (rewrite Rmult_assoc, E; lra). lra. }
  destruct (Rle_or_lt 0 x) as [Hx|Hx].
  - rewrite !Rabs_pos_eq by lra. apply half; lra.
  - destruct (Rle_or_lt y 0) as [Hy|Hy].
    + rewrite !Rabs_left1 by lra. pose proof (pk_sym x). pose proof (pk_sym y). pose proof (half (- y) (- x) ltac:(lra) ltac:(lra)). lra.
    + rewrite (Rabs_left x), (Rabs_pos_eq y) by lra. nra.
Qed.

Lemma pk_cont : continuity T.
Proof. intros x. apply derivable_continuous_pt. exists (d x). apply D. Qed.

Lemma pk_quantile p : 0 < p < 1 -> exists z, T z = p.
Proof.
  intros H. destruct (sd_one _ _ D (1 - p) ltac:(lra)) as (y & Hy). destruct (sd_one _ _ D p ltac:(lra)) as (x & Hx).
  pose proof (pk_sym x) as Sx.
  assert (L : - x < y) by (apply pk_inv_lt; lra).
  destruct (IVT_cor (fun x => T x - p) (- x) y) as (z & Bz & E).
  - apply (continuity_minus T (fun _ => p)); [apply pk_cont|]. apply continuity_const. now intros ? ?.
  - lra.
  - cbn beta. nra.
  - exists z. cbn beta in E. lra.
Qed.

(** quantiles of close probabilities are close *)
Lemma pk_close r z del : / 140000 <= T r <= 1 - / 140000 -> / 140000 <= T z <= 1 - / 140000 -> Rabs (T r - T z) <= del -> del <= / 1000000000000 ->
  Rabs (r - z) <= 8388608 * del * (1 + Rabs z).
Proof.
  intros Hr Hz H Hdel.
  assert (main : exists y, Rmin r z <= y <= Rmax r z /\ Rabs (T r - T z) = d y * Rabs (r - z)).
  { destruct (Rtotal_order r z) as [L|[->|L]].
    - destruct (pk_mean r z L) as (y & By & E). exists y. rewrite Rmin_left, Rmax_right by lra. split; [lra|].
      rewrite Rabs_minus_sym, (Rabs_minus_sym r), E, Rabs_mult, (Rabs_pos_eq (d y)) by (pose proof (sd_pos _ _ D y); lra). reflexivity.
    - exists z. rewrite Rmin_left, Rmax_right by lra. split; [lra|]. rewrite !Rminus_diag_eq, Rabs_R0 by trivial. lra.
    - destruct (pk_mean z r L) as (y & By & E). exists y. rewrite Rmin_right, Rmax_left by lra. split; [lra|].
      rewrite E, Rabs_mult, (Rabs_pos_eq (d y)) by (pose proof (sd_pos _ _ D y); lra). reflexivity. }
  destruct main as (y & By & E).
  assert (Ty : / 140000 <= T y <= 1 - / 140000).
  { destruct (Rle_or_lt r z) as [L|L].
    - rewrite Rmin_left, Rmax_right in By by lra. pose proof (pk_le r y ltac:(lra)). pose proof (pk_le y z ltac:(lra)). lra.
    - rewrite Rmin_right, Rmax_left in By by lra. pose proof (pk_le z y ltac:(lra)). pose proof (pk_le y r ltac:(lra)). lra. }
  destruct (sd_spread _ _ D y Ty) as (_ & Sp). change (bpow radix2 (-22)) with (/ 4194304) in Sp.
  assert (Ay : Rabs y <= Rabs z + Rabs (r - z)).
  { assert (Q : Rabs (y - z) <= Rabs (r - z)).
    { destruct (Rle_or_lt r z) as [L|L].
      - rewrite Rmin_left, Rmax_right in By by lra. rewrite !Rabs_left1; lra.
      - rewrite Rmin_right, Rmax_left in By by lra. rewrite !Rabs_pos_eq; lra. }
    replace y with (z + (y - z)) by lra. pose proof (Rabs_triang z (y - z)). lra. }
  set (w := Rabs (r - z)) in *. pose proof (Rabs_pos (r - z)) as Pw. fold w in Pw. pose proof (Rabs_pos z) as Pz. pose proof (Rabs_pos y) as Py.
  pose proof (sd_pos _ _ D y) as Pd.
  assert (A1 : / 4194304 * w <= d y * w * (1 + Rabs y)) by nra.
  assert (A2 : d y * w * (1 + Rabs y) <= del * (1 + Rabs z + w)) by (apply Rmult_le_compat; try lra; nra).
  nra.
Qed.
End Peaked.

Lemma b22 : bpow radix2 (-22) = / 4194304 /\ bpow radix2 (-24) = / 16777216 /\ bpow radix2 (-28) = / 268435456 /\ bpow radix2 (-29) = / 536870912 /\
  bpow radix2 (-30) = / 1073741824 /\ bpow radix2 (-34) = / 17179869184 /\ bpow radix2 (-52) = / 4503599627370496 /\ bpow radix2 (-53) = / 9007199254740992.
Proof. cbn. lra. Qed.

(** conversion of a probability to double *)
Lemma prob64 c p : prob_of c p -> 0 <= p <= 1 -> is_finite (to64 c) = true /\ Rabs (B2R (to64 c) - p) <= / 7000000000000000.
Proof.
  intros (Fc & Ec & _) Hp. pose proof small_u as U. destruct b22 as (_ & _ & _ & _ & _ & _ & _ & V).
  apply Rabs_le_inv in Ec. assert (Bc : Rabs (B2R c) <= 1 + / 1000) by (apply Rabs_le; lra).
  destruct (op_ok_bounded _ _ 1 (conv_ok (p' := 53) (e' := 1024) c Fc)) as (Fd & Ed & _); [change (bpow radix2 1) with 2; lra|lia|].
  fold (to64 c) in Fd, Ed. split; [exact Fd|]. pose proof (rn64_err (B2R c) ltac:(lra)) as E. rewrite <- Ed, V in E.
  assert (bpow radix2 (-100) <= / 1000000000000000000) by (apply Rle_trans with (bpow radix2 (-60)); [apply bpow_le; lia|cbn; lra]).
  apply Rabs_le_inv in E. apply Rabs_le; lra.
Qed.

(** rounding of a number close to [z] to float *)
Lemma to32_near (y : f64) : is_finite y = true -> Rabs (B2R y) <= bpow radix2 120 ->
  is_finite (to32 y) = true /\ Rabs (B2R (to32 y) - B2R y) <= / 16777216 * Rabs (B2R y) + / 1000000000000.
Proof.
  intros Fy By. destruct b22 as (_ & V & _).
  destruct (op_ok_bounded _ _ 120 (conv_ok (p' := 24) (e' := 128) y Fy)) as (Fm & Em & _); [exact By|lia|]. fold (to32 y) in Fm, Em.
  split; [exact Fm|]. pose proof (rne_err (p := 24) (e := 128) (B2R y)) as E. rewrite <- Em in E. change (- (24))%Z with (-24)%Z in E. rewrite V in E.
  assert (bpow radix2 (2 - 128 - 24) <= / 1000000000000) by (apply Rle_trans with (bpow radix2 (-60)); [apply bpow_le; lia|cbn; lra]). lra.
Qed.

Lemma mul_one (y : f64) : is_finite y = true -> is_finite (mul64 y (of64 1)) = true /\ B2R (mul64 y (of64 1)) = B2R y.
Proof.
  intros Fy. destruct (ofZ_exact (p := 53) (e := 1024) 1 ltac:(lia)) as (F1 & E1). fold (of64 1) in F1, E1.
  destruct (op_ok_exact _ _ y (mult_ok y (of64 1) Fy F1) Fy ltac:(rewrite E1; lra)) as (A & B). fold (mul64 y (of64 1)) in A, B. split; [exact A|]. rewrite B, E1. lra.
Qed.

(** relative and absolute error of the entries *)
Definition ea2 : R := / 16777216 + / 150000000.
Definition eb2 : R := / 400000000.

Section Size.
Context (q : nat) (Hq : (3 <= q)%nat) (Hq2 : (Z.of_nat q <= 65536)%Z).
Notation Nq := (IZR (Z.of_nat q - 1)).

Lemma bnd_prob_of i : (1 <= i <= q - 2)%nat -> prob_of (bnd_prob q i) (bnd_p q i) /\ / (2 * Nq) <= bnd_p q i <= 1 - / (2 * Nq).
Proof.
  intros Hi. pose proof (Nq_val q Hq Hq2) as Bn. unfold bnd_prob. destruct (int80_val (Z.of_nat i) ltac:(lia)) as (Fi & Ei).
  assert (Bi : 1 <= IZR (Z.of_nat i) <= Nq - 1) by (rewrite <- minus_IZR; split; apply IZR_le; lia). split.
  - apply prob_div; trivial; [lia|lra].
  - unfold bnd_p. assert (I : 0 < / (2 * Nq)) by (apply Rinv_0_lt_compat; lra). assert (E : Nq * / (2 * Nq) = / 2) by (field; lra).
    replace (IZR (Z.of_nat i) / Nq) with (2 * IZR (Z.of_nat i) * / (2 * Nq)) by (field; lra). set (v := / (2 * Nq)) in *. nra.
Qed.

Lemma val_prob_of i : (i <= q - 2)%nat -> prob_of (val_prob q i) (val_p q i) /\ / (2 * Nq) <= val_p q i <= 1 - / (2 * Nq).
Proof.
  intros Hi. pose proof (Nq_val q Hq Hq2) as Bn. unfold val_prob. destruct (half_add (Z.of_nat i) ltac:(lia)) as (Fi & Ei).
  assert (Bi : 0 <= IZR (Z.of_nat i) <= Nq - 1) by (rewrite <- minus_IZR; split; apply IZR_le; lia). split.
  - apply prob_div; trivial; [lia|lra].
  - unfold val_p. assert (I : 0 < / (2 * Nq)) by (apply Rinv_0_lt_compat; lra). assert (E : Nq * / (2 * Nq) = / 2) by (field; lra).
    replace ((IZR (Z.of_nat i) + / 2) / Nq) with ((2 * IZR (Z.of_nat i) + 1) * / (2 * Nq)) by (field; lra). set (v := / (2 * Nq)) in *. nra.
Qed.

Lemma h_bounds : / 131070 <= / (2 * Nq) <= / 4.
Proof. pose proof (Nq_val q Hq Hq2) as Bn. split; apply Rinv_le_contravar; lra. Qed.

Context (ea da : list f32) (Hea : length ea = (q - 1)%nat) (Hda : length da = q).

(** ** Student-T *)
Section Student.
Context (T d : R -> R) (D : peaked_cdf T d) (inv : f64 -> f64 -> f64) (nu : f64) (Hinv : quantile_accurate T (fun p => inv p nu)).

Lemma student_near c p : prob_of c p -> / 135000 <= p <= 1 - / 135000 ->
  is_finite (student_entry inv nu (of64 1) c) = true /\ forall z, T z = p -> Rabs (B2R (student_entry inv nu (of64 1) c) - z) <= ea2 * Rabs z + eb2.
Proof.
  intros Hc Hp. destruct (prob64 c p Hc ltac:(lra)) as (F64 & E64). apply Rabs_le_inv in E64. set (c64 := to64 c) in *.
  destruct (pk_quantile T d D (B2R c64) ltac:(lra)) as (r & Er). destruct (pk_quantile T d D p ltac:(lra)) as (z & Ez).
  destruct (Hinv c64 r F64 ltac:(lra) Er) as (Fy & Ey). set (y := inv c64 nu) in *.
  assert (C : Rabs (r - z) <= 8388608 * / 7000000000000000 * (1 + Rabs z)).
  { apply (pk_close T d D); try lra. rewrite Er, Ez. apply Rabs_le. lra. }
  destruct (sd_spread _ _ D r ltac:(lra)) as (Mr & _). destruct b22 as (_ & _ & _ & _ & V30 & V34 & _). rewrite V30, V34 in Ey.
  assert (B1 : 1 <= bpow radix2 100) by (change 1 with (bpow radix2 0); apply bpow_le; lia).
  assert (My : Rabs (B2R y) <= bpow radix2 120).
  { apply Rle_trans with (4 * bpow radix2 100); [|change 4 with (bpow radix2 2); rewrite <- bpow_plus; apply bpow_le; lia].
    replace (B2R y) with ((B2R y - r) + r) by lra. pose proof (Rabs_triang (B2R y - r) r). pose proof (Rabs_pos r). lra. }
  destruct (mul_one y Fy) as (Fm & Em). unfold student_entry. fold c64. fold y.
  destruct (to32_near (mul64 y (of64 1)) Fm ltac:(rewrite Em; exact My)) as (F32 & E32). rewrite Em in E32. split; [exact F32|].
  intros z' Ez'. assert (z' = z) by (apply (pk_inj T d D); congruence). subst z'. set (x := to32 (mul64 y (of64 1))) in *.
  assert (Ar : Rabs r <= Rabs z + Rabs (r - z)) by (replace r with (z + (r - z)) at 1 by lra; apply Rabs_triang).
  assert (Dy : Rabs (B2R y - z) <= Rabs (B2R y - r) + Rabs (r - z)) by (replace (B2R y - z) with ((B2R y - r) + (r - z)) by lra; apply Rabs_triang).
  assert (Ay : Rabs (B2R y) <= Rabs z + Rabs (B2R y - z)) by (replace (B2R y) with (z + (B2R y - z)) at 1 by lra; apply Rabs_triang).
  assert (Dx : Rabs (B2R x - z) <= Rabs (B2R x - B2R y) + Rabs (B2R y - z)) by (replace (B2R x - z) with ((B2R x - B2R y) + (B2R y - z)) by lra; apply Rabs_triang).
  pose proof (Rabs_pos z). unfold ea2, eb2. lra.
Qed.

Lemma student_table : exists e, student_encoder inv q nu (of64 1) ea da = Ok e /\ table_of (fun p z => T z = p) q e.
Proof.
  pose proof h_bounds as Hh. unfold student_encoder. set (gb := fun i => student_entry inv nu (of64 1) (bnd_prob q i)). set (gv := fun i => student_entry inv nu (of64 1) (val_prob q i)).
  assert (Gb : forall i, (1 <= i <= q - 2)%nat -> is_finite (gb i) = true /\ forall z, T z = bnd_p q i -> Rabs (B2R (gb i) - z) <= ea2 * Rabs z + eb2).
  { intros i Hi. destruct (bnd_prob_of i Hi) as (A & B). apply student_near; trivial. lra. }
  assert (Gv : forall i, (i <= q - 2)%nat -> is_finite (gv i) = true /\ forall z, T z = val_p q i -> Rabs (B2R (gv i) - z) <= ea2 * Rabs z + eb2).
  { intros i Hi. destruct (val_prob_of i Hi) as (A & B). apply student_near; trivial. lra. }
  destruct b22 as (V22 & _).
  destruct (table_ok q gb gv ea da (fun p v => T v = p) ea2 eb2 Hq Hea Hda ltac:(unfold ea2; lra) ltac:(unfold eb2; lra)) with (quantile := fun p z => T z = p) as (e & Ee & Te).
  - intros p Hp. apply (pk_quantile T d D). lra.
  - exact Gb.
  - exact Gv.
  - intros p p' v v' G1 G2 G3 Ev Ev'. pose proof (pk_gap T d D v v' (/ 131072) ltac:(lra) ltac:(lra)) as G. pose proof (pk_gap_abs T d D v v' ltac:(lra)) as G'.
    rewrite Rinv_inv in G. unfold ea2, eb2. lra.
  - intros p v Hp Ev. rewrite (pk_sym T d D). lra.
  - intros v Ev. pose proof (pk_gap_abs T d D 0 v ltac:(rewrite (sd_half _ _ D); lra)) as G. rewrite (sd_half _ _ D) in G. unfold ea2, eb2. rewrite V22. lra.
  - intros p z x Ez A. specialize (A z Ez). unfold ea2, eb2 in A. unfold close32. rewrite V22. change (bpow radix2 (-26)) with (/ 67108864).
    pose proof (Rabs_pos z). lra.
  - exists e. split; [exact Ee|exact Te].
Qed.
End Student.

(** ** Truncated Gaussian *)
Section Truncated.
Context (Phi : R -> R) (N : normal_cdf Phi) (P : f64 -> f64 -> f64) (inv : f64 -> f64 -> f64) (trunc : f64).
Context (Ft : is_finite trunc = true) (Ht : / 4 <= B2R trunc).
Context (HP : is_finite (P (Bopp trunc) (of64 1)) = true /\ Rabs (B2R (P (Bopp trunc) (of64 1)) - Phi (- B2R trunc)) <= bpow radix2 (-52)).
Context (Hinv : quantile_accurate Phi (fun p => inv p (of64 1))).
Notation mass := (P (Bopp trunc) (of64 1)).
Notation m := (Phi (- B2R trunc)).

(** the probability within the truncated range *)
Definition tp (p : R) : R := p * (1 - 2 * m) + m.

Lemma mass_bounds : 0 <= m <= / 2 - / 12.
Proof.
  pose proof (cdf_bounds Phi N (- B2R trunc)) as B. split; [lra|].
  pose proof (cdf_le Phi N (- B2R trunc) (- (1 / 4)) ltac:(lra)) as L. pose proof (cdf_sym Phi N (1 / 4)) as S.
  assert (Dn : / 3 <= density (1 / 4)).
  { pose proof root_inv. pose proof (exp_ineq1_le (- (1 / 4 * (1 / 4)) / 2)) as E. unfold density, Rdiv at 1. apply Rle_trans with (0.96 * / 2.829); [lra|]. apply Rmult_le_compat; lra. }
  pose proof (cdf_slope Phi N (1 / 4) (/ 3) 0 (1 / 4) Dn ltac:(lra) ltac:(lra)) as Sl. rewrite (nc_half _ N) in Sl. lra.
Qed.

Lemma tp_range p h : 0 <= h -> h <= p <= 1 - h -> h <= tp p <= 1 - h.
Proof. intros Hh Hp. pose proof mass_bounds as B. unfold tp. split; nra. Qed.

Lemma factor_val : is_finite (sub64 (of64 1) (mul64 (of64 2) mass)) = true /\ Rabs (B2R (sub64 (of64 1) (mul64 (of64 2) mass)) - (1 - 2 * m)) <= 3 * bpow radix2 (-52).
Proof.
  destruct HP as (Fm & Em). destruct (ofZ_exact (p := 53) (e := 1024) 1 ltac:(lia)) as (F1 & E1). fold (of64 1) in F1, E1.
  destruct (ofZ_exact (p := 53) (e := 1024) 2 ltac:(lia)) as (F2 & E2). fold (of64 2) in F2, E2. pose proof mass_bounds as Bm.
  destruct b22 as (_ & _ & _ & _ & _ & _ & V52 & V53). rewrite V52 in *. apply Rabs_le_inv in Em.
  assert (D2 : is_finite (mul64 (of64 2) mass) = true /\ B2R (mul64 (of64 2) mass) = 2 * B2R mass).
  { destruct (op_ok_bounded _ _ 1 (mult_ok (of64 2) mass F2 Fm)) as (A & B & _); [rewrite E2; change (bpow radix2 1) with 2; apply Rabs_le; lra|lia|]. split; [exact A|].
    fold (mul64 (of64 2) mass) in B. rewrite B, E2. exact (rne_scale mass 1 ltac:(lia)). }
  destruct D2 as (Fd & Ed).
  destruct (op_ok_bounded _ _ 1 (minus_ok (of64 1) (mul64 (of64 2) mass) F1 Fd)) as (A & B & _); [rewrite E1, Ed; change (bpow radix2 1) with 2; apply Rabs_le; lra|lia|].
  fold (sub64 (of64 1) (mul64 (of64 2) mass)) in A, B. split; [exact A|]. rewrite E1, Ed in B.
  assert (A2 : Rabs (1 - 2 * B2R mass) <= 1.001) by (apply Rabs_le; lra). pose proof (rn64_err (1 - 2 * B2R mass) ltac:(lra)) as E. rewrite <- B, V53 in E.
  assert (bpow radix2 (-100) <= / 1000000000000000000) by (apply Rle_trans with (bpow radix2 (-60)); [apply bpow_le; lia|cbn; lra]).
  apply Rabs_le_inv in E. apply Rabs_le. lra.
Qed.

Lemma truncated_near c p : prob_of c p -> / 135000 <= p <= 1 - / 135000 ->
  is_finite (truncated_entry inv mass (of64 1) c) = true /\ forall z, Phi z = tp p -> Rabs (B2R (truncated_entry inv mass (of64 1) c) - z) <= ea2 * Rabs z + eb2.
Proof.
  intros Hc Hp. destruct (prob64 c p Hc ltac:(lra)) as (F64 & E64). apply Rabs_le_inv in E64. destruct factor_val as (Ff & Ef). destruct HP as (Fm & Em).
  pose proof mass_bounds as Bm. destruct b22 as (_ & _ & _ & _ & V30 & V34 & V52 & V53). rewrite V52 in *. apply Rabs_le_inv in Em, Ef.
  assert (V100 : bpow radix2 (-100) <= / 1000000000000000000) by (apply Rle_trans with (bpow radix2 (-60)); [apply bpow_le; lia|cbn; lra]).
  pose proof (tp_range p (/ 135000) ltac:(lra) Hp) as Bt.
  unfold truncated_entry. set (f := sub64 (of64 1) (mul64 (of64 2) mass)) in *. set (c64 := to64 c) in *.
  assert (Bcf : Rabs (B2R c64 * B2R f - p * (1 - 2 * m)) <= / 7000000000000000 + 3 * / 4503599627370496 + / 100000000000000000).
  { replace (B2R c64 * B2R f - p * (1 - 2 * m)) with ((B2R c64 - p) * (1 - 2 * m) + p * (B2R f - (1 - 2 * m)) + (B2R c64 - p) * (B2R f - (1 - 2 * m))) by ring.
    apply Rabs_le. set (a := B2R c64 - p) in *. set (b := B2R f - (1 - 2 * m)) in *. assert (0 <= 1 - 2 * m <= 1) by lra.
    assert (- / 7000000000000000 <= a * (1 - 2 * m) <= / 7000000000000000) by nra.
    assert (- (3 * / 4503599627370496) <= p * b <= 3 * / 4503599627370496) by nra.
    assert (- / 100000000000000000 <= a * b <= / 100000000000000000) by nra. lra. }
  apply Rabs_le_inv in Bcf.
  assert (Bpm : 0 <= p * (1 - 2 * m) <= 1) by nra.
  destruct (op_ok_bounded _ _ 1 (mult_ok c64 f F64 Ff)) as (Fx & Ex & _); [change (bpow radix2 1) with 2; apply Rabs_le; lra|lia|].
  fold (mul64 c64 f) in Fx, Ex. assert (A2 : Rabs (B2R c64 * B2R f) <= 1.001) by (apply Rabs_le; lra). pose proof (rn64_err (B2R c64 * B2R f) ltac:(lra)) as E1. rewrite <- Ex, V53 in E1.
  apply Rabs_le_inv in E1. set (x := mul64 c64 f) in *.
  destruct (op_ok_bounded _ _ 1 (plus_ok x mass Fx Fm)) as (Fs & Es & _); [change (bpow radix2 1) with 2; apply Rabs_le; lra|lia|].
  fold (add64 x mass) in Fs, Es. assert (A3 : Rabs (B2R x + B2R mass) <= 2) by (apply Rabs_le; lra). pose proof (rn64_err (B2R x + B2R mass) ltac:(lra)) as E2. rewrite <- Es, V53 in E2.
  apply Rabs_le_inv in E2. set (s := add64 x mass) in *.
  assert (Dt : Rabs (B2R s - tp p) <= / 600000000000000) by (unfold tp; apply Rabs_le; lra).
  apply Rabs_le_inv in Dt.
  destruct (quantile Phi N (B2R s) ltac:(lra)) as (r & Br & Er). destruct (quantile Phi N (tp p) ltac:(lra)) as (z & Bz & Ez).
  destruct (Hinv s r Fs ltac:(lra) Er) as (Fy & Ey). set (y := inv s (of64 1)) in *. rewrite V30, V34 in Ey.
  assert (C : Rabs (r - z) <= 1048577 * / 600000000000000).
  { destruct (Rle_or_lt r z) as [L|L].
    - pose proof (quantile_near Phi N r z ltac:(lra) ltac:(lra)) as Q. rewrite Rabs_left1; lra.
    - pose proof (quantile_near Phi N z r ltac:(lra) ltac:(lra)) as Q. rewrite Rabs_pos_eq; lra. }
  assert (Ar : Rabs r <= Rabs z + Rabs (r - z)) by (replace r with (z + (r - z)) at 1 by lra; apply Rabs_triang).
  assert (Dy : Rabs (B2R y - z) <= Rabs (B2R y - r) + Rabs (r - z)) by (replace (B2R y - z) with ((B2R y - r) + (r - z)) by lra; apply Rabs_triang).
  assert (Ay : Rabs (B2R y) <= Rabs z + Rabs (B2R y - z)) by (replace (B2R y) with (z + (B2R y - z)) at 1 by lra; apply Rabs_triang).
  assert (Az : Rabs z <= 4.5) by (apply Rabs_le; lra).
  assert (My : Rabs (B2R y) <= bpow radix2 120).
  { apply Rle_trans with (bpow radix2 3); [change (bpow radix2 3) with 8; lra|apply bpow_le; lia]. }
  destruct (to32_near y Fy My) as (F32 & E32). split; [exact F32|].
  intros z' Ez'. assert (z' = z) by (apply (cdf_inj Phi N); congruence). subst z'. set (v := to32 y) in *.
  assert (Dx : Rabs (B2R v - z) <= Rabs (B2R v - B2R y) + Rabs (B2R y - z)) by (replace (B2R v - z) with ((B2R v - B2R y) + (B2R y - z)) by lra; apply Rabs_triang).
  pose proof (Rabs_pos z). unfold ea2, eb2. lra.
Qed.

Lemma truncated_table : exists e, truncated_encoder P inv q trunc (of64 1) ea da = Ok e /\ table_of (fun p z => Phi z = m + p * (1 - 2 * m)) q e.
Proof.
  pose proof h_bounds as Hh. pose proof mass_bounds as Bm. unfold truncated_encoder. set (gb := fun i => truncated_entry inv mass (of64 1) (bnd_prob q i)). set (gv := fun i => truncated_entry inv mass (of64 1) (val_prob q i)).
  assert (Gb : forall i, (1 <= i <= q - 2)%nat -> is_finite (gb i) = true /\ forall z, Phi z = tp (bnd_p q i) -> Rabs (B2R (gb i) - z) <= ea2 * Rabs z + eb2).
  { intros i Hi. destruct (bnd_prob_of i Hi) as (A & B). apply truncated_near; trivial. lra. }
  assert (Gv : forall i, (i <= q - 2)%nat -> is_finite (gv i) = true /\ forall z, Phi z = tp (val_p q i) -> Rabs (B2R (gv i) - z) <= ea2 * Rabs z + eb2).
  { intros i Hi. destruct (val_prob_of i Hi) as (A & B). apply truncated_near; trivial. lra. }
  destruct b22 as (V22 & _).
  destruct (table_ok q gb gv ea da (fun p v => Phi v = tp p) ea2 eb2 Hq Hea Hda ltac:(unfold ea2; lra) ltac:(unfold eb2; lra)) with (quantile := fun p z => Phi z = m + p * (1 - 2 * m)) as (e & Ee & Te).
  - intros p Hp. destruct (quantile Phi N (tp p)) as (z & _ & Ez); [pose proof (tp_range p (/ 131070) ltac:(lra) ltac:(lra)); lra|eauto].
  - exact Gb.
  - exact Gv.
  - intros p p' v v' G1 G2 G3 Ev Ev'. pose proof (tp_range p (/ 131070) ltac:(lra) ltac:(lra)) as R1. pose proof (tp_range p' (/ 131070) ltac:(lra) ltac:(lra)) as R2.
    pose proof (z_range Phi N (tp p) v ltac:(lra) Ev) as Bv. pose proof (z_range Phi N (tp p') v' ltac:(lra) Ev') as Bv'.
    assert (Gt : / 6 * (p' - p) <= tp p' - tp p) by (unfold tp; nra). pose proof (quantile_gap Phi N v v' ltac:(lra)) as G. rewrite Ev, Ev' in G.
    assert (Rabs v <= 4.5) by (apply Rabs_le; lra). assert (Rabs v' <= 4.5) by (apply Rabs_le; lra).
    assert (ea2 * (Rabs v + Rabs v') <= ea2 * 9) by (apply Rmult_le_compat_l; [unfold ea2; lra|lra]). unfold ea2, eb2 in *. lra.
  - intros p v Hp Ev. rewrite (cdf_sym Phi N), Ev. unfold tp. lra.
  - intros v Ev. assert (Gt : / 2 + / 24 <= tp (1 - / (2 * Nq))) by (unfold tp; nra).
    pose proof (quantile_gap Phi N 0 v ltac:(rewrite (nc_half _ N); lra)) as G. rewrite (nc_half _ N) in G. unfold ea2, eb2. rewrite V22. lra.
  - intros p z x Ez A. specialize (A z ltac:(unfold tp; lra)). unfold ea2, eb2 in A. unfold close32. rewrite V22. change (bpow radix2 (-26)) with (/ 67108864).
    pose proof (Rabs_pos z). lra.
  - exists e. split; [exact Ee|exact Te].
Qed.
End Truncated.
End Size.
