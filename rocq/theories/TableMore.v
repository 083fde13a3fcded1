(** The search for an inverse ends; a truncation of zero; examples of the
    distributions and library functions that the table theorems are about.
    Proof file. *)
From Coq Require Import Reals Lra Psatz Lia Ratan.
From Flocq Require Import Core.
From Verif Require Import Base BaseLemmas Floats FloatLemmas StochasticEncoder EncSpec EncoderTables InvCumulativeProofs InvAccuracy NormalSpec NormalProofs NormalExists GaussianInv
  EncoderCtorProofs TimeBlockEncoders TbeSpec TableSpec TableProofs GaussianTable StudentTable.
Local Open Scope R_scope.

(** ** The search ends *)
Lemma inv_ends cumul err c : (forall p, Bltb p (of80 1) = true -> exists k, (0 <= k < 16000)%Z /\ Bltb (cumul (pw k)) p = false) ->
  exists n x, forall fuel, (n <= fuel)%nat -> invCumulative cumul err fuel c = Some x.
Proof.
  intros H.
  assert (up : forall c, Bltb c half80 = false -> exists n x, invCumulative cumul err n c = Some x).
  { intros p Hp. destruct (Beqb p half80) eqn:E1; [exists 1%nat, (of80 0); cbn [invCumulative]; now rewrite Hp, E1|].
    destruct (Beqb p (of80 1)) eqn:E2; [exists 1%nat, (B754_infinity false); cbn [invCumulative]; now rewrite Hp, E1, E2|].
    destruct (Bltb (of80 1) p) eqn:E3; [exists 1%nat, B754_nan; cbn [invCumulative]; now rewrite Hp, E1, E2, E3|].
    destruct (is_nan p) eqn:Np.
    - destruct (search_ends cumul p err 0 ltac:(lia)) as (n & x & E); [now rewrite Bltb_nan_r|].
      exists (S n), x. cbn [invCumulative]. now rewrite Hp, E1, E2, E3.
    - assert (L : Bltb p (of80 1) = true).
      { apply Bltb_K; trivial. destruct (Rtotal_order (K p) (K (of80 1))) as [L|[L|L]]; trivial.
        - apply Beqb_K in L; trivial. congruence.
        - apply Bltb_K in L; trivial. congruence. }
      destruct (H p L) as (k & Hk & Ek). destruct (search_ends cumul p err k Hk Ek) as (n & x & E).
      exists (S n), x. cbn [invCumulative]. now rewrite Hp, E1, E2, E3. }
  assert (all : exists n x, invCumulative cumul err n c = Some x).
  { destruct (Bltb c half80) eqn:B; [|now apply up]. destruct (up (sub80 (of80 1) c)) as (n & x & E).
    - destruct half80_val as (Fh & Eh & _). destruct one80_val as (F1 & E1 & _).
      destruct (is_finite c) eqn:Fc.
      + apply bltb_lt in B; trivial. destruct (Bltb (sub80 (of80 1) c) half80) eqn:Q; trivial. exfalso.
        destruct (minus_ok (of80 1) c F1 Fc) as (No & Ko). fold (sub80 (of80 1) c) in No, Ko. apply Bltb_true in Q. destruct Q as (_ & _ & Q).
        assert (G : RN (p := 64) (e := 16384) (B2R half80) <= RN (B2R (of80 1) - B2R c)) by (apply RN_le; lra).
        rewrite <- Ko, RN_B2R, <- K_finite in G by trivial. lra.
      + destruct c as [s|[]| |s mm ee Hb]; try discriminate. reflexivity.
    - exists (S n), (Bopp x). cbn [invCumulative]. now rewrite B, E. }
  destruct all as (n & x & E). exists n, x. intros fuel Hf.
  exact (more_le (fun n => invCumulative cumul err n c) (fun n x => inv_more cumul err n c x) n fuel x Hf E).
Qed.

(** with an error function that is 1 at 16 / sqrt 2 *)
Lemma erf_ends erf err c : erf (to64 (div80 (of80 16) sqrt2l)) = of64 1 -> exists n x, forall fuel, (n <= fuel)%nat -> invCumulative (cumulative erf) err fuel c = Some x.
Proof.
  intros H. apply inv_ends. intros p Hp. exists 4%Z. split; [lia|].
  assert (E : pw 4 = of80 16) by (apply B2SF_inj; vm_compute; reflexivity). rewrite E.
  assert (C : cumulative erf (of80 16) = of80 1) by (unfold cumulative; rewrite H; apply B2SF_inj; vm_compute; reflexivity). rewrite C.
  destruct (Bltb (of80 1) p) eqn:Q; trivial. apply Bltb_true in Q, Hp. lra.
Qed.

(** ** A truncation of zero *)
Lemma truncated_zero (P inv : f64 -> f64 -> f64) q ea da : (3 <= q)%nat -> (Z.of_nat q <= 65536)%Z -> length ea = (q - 1)%nat -> length da = q ->
  P (Bopp (of64 0)) (of64 1) = dy 1 (-1) -> inv (dy 1 (-1)) (of64 1) = of64 0 ->
  exists e, truncated_encoder P inv q (of64 0) (of64 1) ea da = Ok e /\ forall i, (i < q - 1)%nat -> Decode e i = Ok (of32 0).
Proof.
  intros Hq Hq2 Hea Hda EP Ei. unfold truncated_encoder. rewrite EP, construct_ok by (trivial; lia). eexists. split; [reflexivity|].
  intros i Hi. unfold Decode. cbn [dec slack]. apply rd_nth. rewrite nth_error_app1 by (rewrite map_length, seq_length; lia). rewrite map_seq_nth by lia. f_equal. cbn [Nat.add].
  destruct (val_prob_of q Hq Hq2 i ltac:(lia)) as (Hc & Bp). pose proof (h_bounds q Hq Hq2) as Hh. destruct (prob64 _ _ Hc ltac:(lra)) as (F64 & E64). unfold truncated_entry.
  set (c := to64 (val_prob q i)) in *. set (f := sub64 (of64 1) (mul64 (of64 2) (dy 1 (-1)))).
  assert (Ef : f = of64 0) by (apply B2SF_inj; vm_compute; reflexivity).
  destruct (dy_exact (p := 53) (e := 1024) 1 (-1) ltac:(lia) ltac:(lia) ltac:(lia)) as (Fh & Eh). assert (F0 : is_finite (of64 0) = true) by reflexivity.
  assert (E0 : B2R (of64 0) = 0) by reflexivity.
  destruct (op_ok_exact _ _ (of64 0) (mult_ok c (of64 0) F64 F0) F0 ltac:(rewrite E0; lra)) as (Fm & Em). fold (mul64 c (of64 0)) in Fm, Em. rewrite E0, Rmult_0_r in Em.
  destruct (op_ok_exact _ _ (dy 1 (-1)) (plus_ok (mul64 c (of64 0)) (dy 1 (-1)) Fm Fh) Fh ltac:(rewrite Em; lra)) as (Fs & Es). fold (add64 (mul64 c (of64 0)) (dy 1 (-1))) in Fs, Es.
  assert (E : add64 (mul64 c (of64 0)) (dy 1 (-1)) = dy 1 (-1)).
  { assert (Ph : 0 < B2R (dy 1 (-1) : f64)) by (rewrite Eh; cbn; lra). apply B2R_Bsign_inj; trivial; [rewrite Es, Em; lra|]. rewrite !sign_gt0; trivial. rewrite Es, Em. lra. }
  rewrite Ef, E, Ei. apply B2SF_inj. vm_compute. reflexivity.
Qed.

(** ** Distributions *)
Lemma normal_peaked Phi : normal_cdf Phi -> peaked_cdf Phi density.
Proof.
  intros N. split; try apply N.
  - apply density_even.
  - apply density_pos.
  - intros x y H. apply density_mono. lra.
  - apply density_half.
  - intros z Hz. pose proof (z_range Phi N (Phi z) z ltac:(lra) eq_refl) as Bz. split.
    + apply Rle_trans with (bpow radix2 3); [change (bpow radix2 3) with 8; apply Rabs_le; lra|apply bpow_le; lia].
    + change (bpow radix2 (-22)) with (/ 4194304). pose proof density_5 as D5.
      assert (D : / 1048576 <= density z).
      { apply Rle_trans with (1 := D5). destruct (Rle_or_lt 0 z); [apply density_mono; lra|]. rewrite <- (density_even z). apply density_mono; lra. }
      pose proof (Rabs_pos z). nra.
Qed.

(** the Cauchy distribution is Student-T with one degree of freedom *)
Definition cauchy (x : R) : R := / 2 + atan x / PI.
Definition cauchy_density (x : R) : R := / (PI * (1 + x * x)).

Lemma PI_bounds : 3 < PI <= 4.
Proof. pose proof PI2_3_2. pose proof PI_4. lra. Qed.

Lemma cauchy_deriv x : derivable_pt_lim cauchy x (cauchy_density x).
Proof.
  pose proof PI_bounds as B. unfold cauchy_density. assert (0 <= x * x) by apply Rle_0_sqr.
  replace (/ (PI * (1 + x * x))) with (0 + / PI * (/ (1 + x ^ 2))) by (field; split; nra).
  apply (derivable_pt_lim_ext (fun y => / 2 + mult_real_fct (/ PI) atan y)); [intros y; unfold cauchy, mult_real_fct, Rdiv; ring|].
  apply (derivable_pt_lim_plus (fun _ => / 2) (mult_real_fct (/ PI) atan)); [apply derivable_pt_lim_const|].
  apply derivable_pt_lim_scal. pose proof (derivable_pt_lim_atan x) as D. exact D.
Qed.

Lemma atan_small y : 0 < y -> atan y <= y.
Proof.
  intros H. destruct (MVT_cor2 atan (fun t => / (1 + t ^ 2)) 0 y H) as (c & E & Bc).
  { intros t _. pose proof (derivable_pt_lim_atan t) as D. exact D. }
  rewrite atan_0 in E. assert (/ (1 + c ^ 2) <= / 1) by (apply Rinv_le_contravar; nra). rewrite Rinv_1 in *. nra.
Qed.

Lemma cauchy_tail z : 0 < z -> cauchy z <= 1 - / 140000 -> z <= 46667.
Proof.
  intros Hz H. pose proof PI_bounds as B. unfold cauchy in H. assert (Iz : 0 < / z) by now apply Rinv_0_lt_compat. pose proof (atan_small (/ z) Iz) as S. rewrite atan_inv in S by trivial.
  assert (A : atan z <= (/ 2 - / 140000) * PI).
  { apply Rmult_le_reg_r with (/ PI); [apply Rinv_0_lt_compat; lra|]. rewrite Rmult_assoc, Rinv_r by lra. unfold Rdiv in H. lra. }
  assert (Q : 3 * / 140000 <= / z) by lra. apply Rinv_le_contravar in Q; [|lra]. rewrite Rinv_inv in Q. lra.
Qed.

Lemma cauchy_odd z : cauchy (- z) = 1 - cauchy z.
Proof. unfold cauchy. rewrite atan_opp. lra. Qed.

Lemma cauchy_peaked : peaked_cdf cauchy cauchy_density.
Proof.
  pose proof PI_bounds as B. assert (P : forall x, 0 < 1 + x * x) by (intros x; nra).
  split.
  - apply cauchy_deriv.
  - intros x. unfold cauchy_density. do 3 f_equal. ring.
  - intros x. apply Rinv_0_lt_compat. specialize (P x). nra.
  - intros x y H. apply Rinv_le_contravar; [specialize (P x); nra|]. apply Rmult_le_compat_l; nra.
  - unfold cauchy_density. apply Rinv_le_contravar; lra.
  - unfold cauchy. rewrite atan_0. lra.
  - intros x. unfold cauchy. pose proof (atan_bound x) as A. apply Rplus_le_reg_l with (- / 2). apply Rmult_le_reg_r with PI; [lra|].
    replace ((- / 2 + (/ 2 + atan x / PI)) * PI) with (atan x) by (field; lra). lra.
  - intros eps He. set (m := Rmin eps (/ 2)). assert (Bm : 0 < m <= / 2) by (unfold m; split; [apply Rmin_glb_lt; lra|apply Rmin_r]). assert (Le : m <= eps) by apply Rmin_l.
    set (t := (1 - m) * (PI / 2)). exists (tan t). unfold cauchy. rewrite atan_tan by (unfold t; split; nra). unfold t. replace ((1 - m) * (PI / 2) / PI) with ((1 - m) / 2) by (field; lra). lra.
  - intros z Hz. assert (Az : Rabs z <= 46667).
    { destruct (Rtotal_order z 0) as [L|[->|L]]; [|rewrite Rabs_R0; lra|].
      - rewrite Rabs_left by trivial. apply cauchy_tail; [lra|]. rewrite cauchy_odd. lra.
      - rewrite Rabs_pos_eq by lra. apply cauchy_tail; lra. }
    split.
    + apply Rle_trans with (bpow radix2 16); [change (bpow radix2 16) with 65536; lra|apply bpow_le; lia].
    + change (bpow radix2 (-22)) with (/ 4194304). unfold cauchy_density. pose proof (Rabs_pos z) as Pz. assert (E : z * z = Rabs z * Rabs z) by (rewrite <- Rabs_mult, Rabs_pos_eq; nra). rewrite E.
      set (w := Rabs z) in *. apply Rle_trans with (/ (4 * (1 + w))).
      * apply Rle_trans with (/ (4 * 46668)); [lra|]. apply Rinv_le_contravar; lra.
      * assert (W : 0 <= w * w) by nra. apply Rmult_le_reg_r with (PI * (1 + w * w) * (4 * (1 + w))); [apply Rmult_lt_0_compat; [apply Rmult_lt_0_compat; lra|lra]|].
        replace (/ (4 * (1 + w)) * (PI * (1 + w * w) * (4 * (1 + w)))) with (PI * (1 + w * w)) by (field; lra).
        replace (/ (PI * (1 + w * w)) * (1 + w) * (PI * (1 + w * w) * (4 * (1 + w)))) with (4 * (1 + w) * (1 + w)) by (field; split; lra). nra.
Qed.

(** ** Library functions *)

(** [r] rounded down to a multiple of 2^-k *)
Definition cut (r : R) (k : Z) : f64 := dy (Zfloor (r * bpow radix2 k)) (- k).

Lemma cut_near r k : (0 <= k <= 60)%Z -> Rabs r * bpow radix2 k <= bpow radix2 52 -> is_finite (cut r k) = true /\ Rabs (B2R (cut r k) - r) <= bpow radix2 (- k).
Proof.
  intros Hk Hr. pose proof (bpow_gt_0 radix2 k) as Pk. pose proof (Zfloor_lb (r * bpow radix2 k)) as Lb. pose proof (Zfloor_ub (r * bpow radix2 k)) as Ub.
  set (f := Zfloor (r * bpow radix2 k)) in *. rewrite <- (Rabs_pos_eq (bpow radix2 k)), <- Rabs_mult in Hr by lra. apply Rabs_le_inv in Hr.
  change (bpow radix2 52) with (IZR 4503599627370496) in Hr.
  assert (A : (-4503599627370496 - 1 < f)%Z) by (apply lt_IZR; rewrite minus_IZR; change (IZR (-4503599627370496)) with (- IZR 4503599627370496); lra).
  assert (A' : (f <= 4503599627370496)%Z) by (apply le_IZR; lra).
  destruct (dy_exact (p := 53) (e := 1024) f (- k) ltac:(lia) ltac:(lia) ltac:(lia)) as (Ff & Ef). change (dy f (- k)) with (cut r k) in Ff, Ef.
  split; [exact Ff|]. rewrite Ef. rewrite bpow_opp. assert (I : 0 < / bpow radix2 k) by now apply Rinv_0_lt_compat.
  assert (E : bpow radix2 k * / bpow radix2 k = 1) by (apply Rinv_r; lra).
  replace (IZR f * / bpow radix2 k - r) with ((IZR f - r * bpow radix2 k) * / bpow radix2 k) by (rewrite Rmult_minus_distr_r, Rmult_assoc, E; lra).
  rewrite Rabs_mult, (Rabs_pos_eq (/ _)) by lra. rewrite <- (Rmult_1_l (/ bpow radix2 k)) at 2. apply Rmult_le_compat_r; [lra|]. apply Rabs_le. lra.
Qed.

Definition erf_of (Phi : R -> R) (x : f64) : f64 := cut (2 * Phi (sqrt 2 * B2R x) - 1) 52.

Lemma erf_of_accurate Phi : normal_cdf Phi -> erf_accurate Phi (erf_of Phi).
Proof.
  intros N x Fx Hx. unfold erf_of. pose proof (cdf_bounds Phi N (sqrt 2 * B2R x)) as B.
  destruct (cut_near (2 * Phi (sqrt 2 * B2R x) - 1) 52 ltac:(lia)) as (A & C).
  - rewrite <- (Rmult_1_l (bpow radix2 52)) at 2. apply Rmult_le_compat_r; [apply bpow_ge_0|]. apply Rabs_le. lra.
  - split; [exact A|]. apply Rle_trans with (1 := C). apply bpow_le. lia.
Qed.

Lemma inv_of_accurate T d quant : peaked_cdf T d -> (forall p, / 140000 <= p <= 1 - / 140000 -> T (quant p) = p /\ Rabs (quant p) <= 65536) ->
  quantile_accurate T (fun p => cut (quant (B2R p)) 35).
Proof.
  intros D H p z Fp Hp Ez. destruct (H (B2R p) Hp) as (Eq & Bq). assert (quant (B2R p) = z) by (apply (pk_inj T d D); congruence). subst z.
  destruct (cut_near (quant (B2R p)) 35 ltac:(lia)) as (A & C).
  - change (bpow radix2 35) with 34359738368. change (bpow radix2 52) with 4503599627370496. lra.
  - split; [exact A|]. apply Rle_trans with (1 := C). change (bpow radix2 (- (35))) with (/ 34359738368). change (bpow radix2 (-34)) with (/ 17179869184).
    pose proof (bpow_gt_0 radix2 (-30)). pose proof (Rabs_pos (quant (B2R p))). nra.
Qed.

Definition cauchy_quantile (p : R) : R := tan (PI * (p - / 2)).

Lemma cauchy_quantile_ok p : / 140000 <= p <= 1 - / 140000 -> cauchy (cauchy_quantile p) = p /\ Rabs (cauchy_quantile p) <= 65536.
Proof.
  intros H. pose proof PI_bounds as B. assert (E : cauchy (cauchy_quantile p) = p).
  { unfold cauchy, cauchy_quantile. rewrite atan_tan by (split; nra). field. lra. }
  split; [exact E|]. set (z := cauchy_quantile p) in *.
  destruct (Rtotal_order z 0) as [L|[->|L]]; [|rewrite Rabs_R0; lra|].
  - rewrite Rabs_left by trivial. assert (- z <= 46667) by (apply cauchy_tail; [lra|]; rewrite cauchy_odd; lra). lra.
  - rewrite Rabs_pos_eq by lra. assert (z <= 46667) by (apply cauchy_tail; lra). lra.
Qed.

(** the quantile of the normal distribution, by the intermediate value theorem *)
Section NormalQuantile.
Context (Phi : R -> R) (N : normal_cdf Phi).

Lemma cross p : / 140000 <= p <= 1 - / 140000 -> (Phi (-4.5) - p) * (Phi 4.5 - p) <= 0.
Proof.
  intros H. pose proof (cdf_tail Phi N) as T. pose proof (cdf_sym Phi N 4.5) as S. replace (- (4.5)) with (-4.5) in S by lra. nra.
Qed.

Lemma shifted_cont p : continuity (fun x => Phi x - p).
Proof. apply (continuity_minus Phi (fun _ => p)); [apply (cdf_cont Phi N)|]. apply continuity_const. now intros ? ?. Qed.

Definition normal_quantile (p : R) : R :=
  match Rle_dec ((Phi (-4.5) - p) * (Phi 4.5 - p)) 0 with
  | left H => proj1_sig (IVT_cor (fun x => Phi x - p) (-4.5) 4.5 (shifted_cont p) ltac:(lra) H)
  | right _ => 0
  end.

Lemma normal_quantile_ok p : / 140000 <= p <= 1 - / 140000 -> Phi (normal_quantile p) = p /\ Rabs (normal_quantile p) <= 65536.
Proof.
  intros H. pose proof (cross p H) as C. unfold normal_quantile. destruct (Rle_dec _ 0) as [L|L]; [|contradiction].
  destruct (IVT_cor _ _ _ _ _ _) as (z & Bz & Ez). cbn [proj1_sig]. split; [lra|apply Rabs_le; lra].
Qed.

(** the cumulative function of a library, off by less than 2^-52 *)
Definition cdf_of (x sigma : f64) : f64 := cut (Phi (B2R x)) 52.

Lemma cdf_of_near x sigma : is_finite (cdf_of x sigma) = true /\ Rabs (B2R (cdf_of x sigma) - Phi (B2R x)) <= bpow radix2 (-52).
Proof.
  pose proof (cdf_bounds Phi N (B2R x)) as B. apply (cut_near (Phi (B2R x)) 52 ltac:(lia)).
  rewrite <- (Rmult_1_l (bpow radix2 52)) at 2. apply Rmult_le_compat_r; [apply bpow_ge_0|]. apply Rabs_le. lra.
Qed.
End NormalQuantile.

Lemma inv_found Phi erf c : normal_cdf Phi -> erf_accurate Phi erf ->
  is_finite c = true -> / 135000 <= B2R c <= 1 - / 135000 -> (B2R c = / 2 \/ / 999999 <= Rabs (B2R c - / 2)) ->
  exists n x, (forall fuel, (n <= fuel)%nat -> invCumulative (cumulative erf) default_err fuel c = Some x) /\ is_finite x = true /\
    forall z, Phi z = B2R c -> Rabs (B2R x - z) <= bpow radix2 (-25) * Rabs z + bpow radix2 (-28).
Proof.
  intros N H Fc Hc Hs. apply (inv_accurate Phi N erf H c (B2R c)); trivial. split; [exact Fc|]. split; [|trivial]. rewrite Rminus_diag_eq, Rabs_R0 by trivial. pose proof small_u. lra.
Qed.

Lemma truncated_example : exists e,
  truncated_encoder (cdf_of Phi) (fun p _ => cut (normal_quantile Phi Phi_normal (B2R p)) 35) 1024 (dy 5 (-1)) (of64 1) (repeat nan32 1023) (repeat nan32 1024) = Ok e /\
  table_of (fun p z => Phi z = Phi (- B2R (dy 5 (-1) : f64)) + p * (1 - 2 * Phi (- B2R (dy 5 (-1) : f64)))) 1024 e.
Proof.
  destruct (dy_exact (p := 53) (e := 1024) 5 (-1) ltac:(lia) ltac:(lia) ltac:(lia)) as (Ft & Et).
  apply (truncated_table 1024 ltac:(lia) ltac:(lia) _ _ (repeat_length _ _) (repeat_length _ _) Phi Phi_normal).
  - rewrite Et. cbn. lra.
  - rewrite <- B2R_Bopp. apply cdf_of_near, Phi_normal.
  - exact (inv_of_accurate Phi density (normal_quantile Phi Phi_normal) (normal_peaked Phi Phi_normal) (normal_quantile_ok Phi Phi_normal)).
Qed.
