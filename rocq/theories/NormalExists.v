(** The cumulative distribution of the standard normal distribution exists.
    Proof file; it uses the Coquelicot library for integrals. *)
From Coq Require Import Reals Lra Psatz.
From Coquelicot Require Import Coquelicot.
From Verif Require Import NormalSpec NormalProofs.
Local Open Scope R_scope.

Definition bell (t : R) : R := exp (- (t * t) / 2).
Definition area (x : R) : R := RInt bell 0 x.

Lemma bell_cont t : continuous bell t.
Proof. apply (ex_derive_continuous (V := R_NormedModule)). unfold bell. auto_derive. trivial. Qed.
Lemma bell_int a b : ex_RInt bell a b.
Proof. apply (ex_RInt_continuous (V := R_CompleteNormedModule)). intros z _. apply bell_cont. Qed.
Lemma area_deriv x : is_derive area x (bell x).
Proof.
  apply (is_derive_RInt bell area 0 x); [|apply bell_cont]. apply filter_forall. intros b. apply (RInt_correct (V := R_CompleteNormedModule)), bell_int.
Qed.

(** the second function, whose sum with the square of the area is constant *)
Definition ker (x t : R) : R := exp (- (x * x) * (1 + t * t) / 2) * / (1 + t * t).
Definition dker (x t : R) : R := - x * exp (- (x * x) * (1 + t * t) / 2).
Definition rest (x : R) : R := RInt (ker x) 0 1.

Lemma one_plus t : 0 < 1 + t * t.
Proof. nra. Qed.

Lemma ker_deriv x t : is_derive (fun u => ker u t) x (dker x t).
Proof.
  unfold ker, dker. auto_derive; trivial. pose proof (one_plus t). unfold Rdiv. generalize (exp (- (x * x) * (1 + t * t) * / 2)). intros e.
  cbn in x. field. lra.
Qed.

Lemma ker_cont x t : continuous (ker x) t.
Proof.
  apply (ex_derive_continuous (V := R_NormedModule)). unfold ker. auto_derive. pose proof (one_plus t). lra.
Qed.

Lemma dker_2d x t : continuity_2d_pt dker x t.
Proof.
  unfold dker. apply continuity_2d_pt_mult.
  - apply continuity_2d_pt_opp, continuity_2d_pt_id1.
  - apply (continuity_1d_2d_pt_comp exp (fun x t => - (x * x) * (1 + t * t) / 2)).
    + apply derivable_continuous_pt, derivable_pt_exp.
    + unfold Rdiv. repeat first [apply continuity_2d_pt_mult|apply continuity_2d_pt_opp|apply continuity_2d_pt_plus|apply continuity_2d_pt_id1|apply continuity_2d_pt_id2|apply continuity_2d_pt_const].
Qed.

Lemma rest_deriv x : is_derive rest x (RInt (dker x) 0 1).
Proof.
  assert (E : forall u t, Derive (fun z => ker z t) u = dker u t) by (intros u t; apply is_derive_unique, ker_deriv).
  replace (RInt (dker x) 0 1) with (RInt (fun t => Derive (fun u => ker u t) x) 0 1) by (apply RInt_ext; intros t _; apply E).
  apply is_derive_RInt_param.
  - apply filter_forall. intros y t _. eexists. apply ker_deriv.
  - intros t _. apply (continuity_2d_pt_ext dker); [intros; symmetry; apply E|apply dker_2d].
  - apply filter_forall. intros y. apply (ex_RInt_continuous (V := R_CompleteNormedModule)). intros z _. apply ker_cont.
Qed.

Lemma dker_int x : RInt (dker x) 0 1 = - bell x * area x.
Proof.
  assert (L : RInt (fun t => scal x (bell (x * t + 0))) 0 1 = area x).
  { transitivity (RInt bell (x * 0 + 0) (x * 1 + 0)); [apply (RInt_comp_lin (V := R_CompleteNormedModule) bell x 0 0 1), bell_int|]. unfold area. f_equal; ring. }
  rewrite <- L. change (- bell x * ?e) with (scal (- bell x) e). rewrite <- RInt_scal.
  - apply RInt_ext. intros t _. unfold dker, bell, scal. cbn. unfold mult. cbn.
    replace (- (x * x) * (1 + t * t) / 2) with (- (x * x) / 2 + - ((x * t + 0) * (x * t + 0)) / 2) by field. rewrite exp_plus. ring.
  - apply (ex_RInt_comp_lin bell x 0 0 1), bell_int.
Qed.

Lemma sum_deriv x : is_derive (fun x => area x * area x + 2 * rest x) x 0.
Proof.
  pose proof (area_deriv x) as A. pose proof (rest_deriv x) as R. rewrite dker_int in R.
  apply is_derive_Reals. apply is_derive_Reals in A, R.
  replace 0 with ((bell x * area x + area x * bell x) + 2 * (- bell x * area x)) by ring.
  apply (derivable_pt_lim_plus (fun x => area x * area x) (mult_real_fct 2 rest)).
  - now apply (derivable_pt_lim_mult area area).
  - now apply derivable_pt_lim_scal.
Qed.

Lemma area_0 : area 0 = 0.
Proof. unfold area. now rewrite RInt_point. Qed.

Lemma rest_0 : rest 0 = PI / 4.
Proof.
  unfold rest. apply is_RInt_unique. rewrite <- atan_1. replace (atan 1) with (minus (atan 1) (atan 0)) by (rewrite atan_0; unfold minus, plus, opp; cbn; ring).
  apply (is_RInt_derive atan (ker 0)).
  - intros t _. replace (ker 0 t) with (/ (1 + t ^ 2)).
    + apply is_derive_Reals. apply derivable_pt_lim_atan.
    + unfold ker. replace (t ^ 2) with (t * t) by ring. replace (- (0 * 0) * (1 + t * t) / 2) with 0 by field. rewrite exp_0. ring.
  - intros t _. apply ker_cont.
Qed.

Lemma area_square x : area x * area x + 2 * rest x = PI / 2.
Proof.
  assert (C : forall a b, a < b -> area a * area a + 2 * rest a = area b * area b + 2 * rest b).
  { intros a b H. destruct (MVT_cor2 (fun x => area x * area x + 2 * rest x) (fun _ => 0) a b H) as (z & E & _); [|lra].
    intros y _. apply is_derive_Reals, sum_deriv. }
  assert (Z : area 0 * area 0 + 2 * rest 0 = PI / 2) by (rewrite area_0, rest_0; lra).
  rewrite <- Z. destruct (Rtotal_order x 0) as [H|[->|H]]; [now apply C|reflexivity|symmetry; now apply C].
Qed.

Lemma rest_bounds x : 0 <= rest x <= bell x.
Proof.
  assert (I : ex_RInt (ker x) 0 1) by (apply (ex_RInt_continuous (V := R_CompleteNormedModule)); intros z _; apply ker_cont).
  assert (P : forall t, 0 <= ker x t <= bell x).
  { intros t. pose proof (one_plus t) as O. assert (V : 0 < / (1 + t * t) <= 1) by (split; [now apply Rinv_0_lt_compat|rewrite <- Rinv_1; apply Rinv_le_contravar; nra]).
    unfold ker, bell. pose proof (exp_pos (- (x * x) * (1 + t * t) / 2)) as E. split; [apply Rmult_le_pos; lra|].
    assert (exp (- (x * x) * (1 + t * t) / 2) <= exp (- (x * x) / 2)) by (apply exp_le; assert (0 <= (x * x) * (t * t)) by (apply Rmult_le_pos; nra); lra). nra. }
  unfold rest. split.
  - apply RInt_ge_0; [lra|trivial|]. intros t _. apply P.
  - replace (bell x) with (RInt (fun _ => bell x) 0 1) by (rewrite RInt_const; unfold scal; cbn; unfold mult; cbn; ring).
    apply RInt_le; [lra|trivial|apply ex_RInt_const|]. intros t _. apply P.
Qed.

Definition Phi (x : R) : R := / 2 + area x / sqrt (2 * PI).

Lemma half_root : sqrt (2 * PI) / 2 * (sqrt (2 * PI) / 2) = PI / 2.
Proof.
  pose proof PI_RGT_0. replace (sqrt (2 * PI) / 2 * (sqrt (2 * PI) / 2)) with (sqrt (2 * PI) * sqrt (2 * PI) / 4) by field. rewrite sqrt_sqrt by lra. field.
Qed.

Lemma area_pos x : 0 <= x -> 0 <= area x.
Proof. intros H. apply RInt_ge_0; [trivial|apply bell_int|]. intros t _. apply Rlt_le, exp_pos. Qed.

Lemma Phi_normal : normal_cdf Phi.
Proof.
  pose proof root_bounds as R. split.
  - intros x. unfold Phi, density. fold (bell x).
    replace (bell x / sqrt (2 * PI)) with (0 + / sqrt (2 * PI) * bell x) by (unfold Rdiv; ring).
    apply (derivable_pt_lim_ext (fun y => / 2 + mult_real_fct (/ sqrt (2 * PI)) area y)); [intros y; unfold mult_real_fct, Rdiv; ring|].
    apply (derivable_pt_lim_plus (fun _ => / 2) (mult_real_fct (/ sqrt (2 * PI)) area)); [apply derivable_pt_lim_const|].
    apply derivable_pt_lim_scal, is_derive_Reals, area_deriv.
  - unfold Phi. rewrite area_0. lra.
  - intros x. unfold Phi. pose proof (area_square x) as S. pose proof (rest_bounds x) as B. pose proof half_root as H.
    assert (area x <= sqrt (2 * PI) / 2) by nra. apply Rmult_le_reg_r with (sqrt (2 * PI)); [lra|].
    replace ((/ 2 + area x / sqrt (2 * PI)) * sqrt (2 * PI)) with (sqrt (2 * PI) / 2 + area x) by (field; lra). lra.
  - intros eps He. pose proof half_root as H. set (h := sqrt (2 * PI)) in *.
    (* far enough out the rest is below eps *)
    set (x := 2 + / eps). assert (Hx : 0 <= x) by (unfold x; pose proof (Rinv_0_lt_compat eps He); lra).
    assert (Bx : bell x < eps).
    { unfold bell. replace (- (x * x) / 2) with (- (x * x / 2)) by lra. rewrite exp_Ropp. rewrite <- (Rinv_inv eps).
      pose proof (Rinv_0_lt_compat eps He) as Pe. apply Rinv_lt_contravar; [apply Rmult_lt_0_compat; [trivial|apply exp_pos]|].
      pose proof (exp_ineq1_le (x * x / 2)) as E. unfold x in *. nra. }
    exists x. pose proof (area_square x) as S. pose proof (rest_bounds x) as B. pose proof (area_pos x Hx) as A. unfold Phi. fold h.
    assert (h / 2 - eps * h < area x).
    { apply Rnot_le_lt. intros L. assert (area x * area x <= (h / 2) * area x) by (apply Rmult_le_compat_r; trivial; nra).
      assert (area x <= h / 2) by nra. assert ((h / 2 - area x) * (h / 2) <= 2 * eps) by nra. nra. }
    apply Rmult_lt_reg_r with h; [lra|]. replace ((/ 2 + area x / h) * h) with (h / 2 + area x) by (field; lra). lra.
Qed.
