(** Property theorems C60, C61: the quantization tables of the Gaussian, the
    uniform, the Student-T and the truncated Gaussian distribution.  Statements only. *)
From Coq Require Import Reals Lra Lia.
From Flocq Require Import Core.
From Verif Require Import Base Floats StochasticEncoder EncSpec EncoderTables NormalSpec NormalExists TableSpec GaussianTable StudentTable UniformTable TableMore.
Local Open Scope R_scope.

(** C60: the search for the inverse of a cumulative function ends, whatever the
    function and the tolerance are, if the function gets to every probability
    below 1 at some power of two *)
Theorem C60_search_ends : forall (cumul : f80 -> f80) (err c : f80),
  (forall p, Bltb p (of80 1) = true -> exists k, (0 <= k < 16000)%Z /\ Bltb (cumul (dy 1 k)) p = false) ->
  exists n x, forall fuel, (n <= fuel)%nat -> invCumulative cumul err fuel c = Some x.
Proof. exact inv_ends. Qed.
Print Assumptions C60_search_ends.

Theorem C60_search_ends_erf : forall (gsl_sf_erf : f64 -> f64) (err c : f80), gsl_sf_erf (to64 (div80 (of80 16) sqrt2l)) = of64 1 ->
  exists n x, forall fuel, (n <= fuel)%nat -> invCumulative (cumulative gsl_sf_erf) err fuel c = Some x.
Proof. exact erf_ends. Qed.
Print Assumptions C60_search_ends_erf.

(** and it finds the quantile of the normal distribution *)
Theorem C60_accurate : forall Phi gsl_sf_erf c, normal_cdf Phi -> erf_accurate Phi gsl_sf_erf ->
  is_finite c = true -> / 135000 <= B2R c <= 1 - / 135000 -> (B2R c = / 2 \/ / 999999 <= Rabs (B2R c - / 2)) ->
  exists n x, (forall fuel, (n <= fuel)%nat -> invCumulative (cumulative gsl_sf_erf) default_err fuel c = Some x) /\ is_finite x = true /\
    forall z, Phi z = B2R c -> Rabs (B2R x - z) <= bpow radix2 (-25) * Rabs z + bpow radix2 (-28).
Proof. exact inv_found. Qed.
Print Assumptions C60_accurate.

(** the normal distribution exists, and so do sufficiently accurate error functions *)
Example C60_example : normal_cdf Phi /\ erf_accurate Phi (erf_of Phi).
Proof. split; [exact Phi_normal|exact (erf_of_accurate Phi Phi_normal)]. Qed.

(** an error function that is 1 everywhere: the search goes to 0 *)
Example C60_example_run : option_map B2SF (invCumulative (cumulative (fun _ => of64 1)) default_err 200 (of80 0)) = Some (SpecFloat.S754_infinity true) /\
  option_map B2SF (invCumulative (cumulative (fun _ => of64 1)) default_err 200 (dy 3 (-2))) = Some (SpecFloat.S754_finite false 9223372036854775808 (-75)).
Proof. split; vm_compute; reflexivity. Qed.

(** C61: for the standard deviation 1 that the columns use and any number of
    bits up to 16 the constructors make a proper table of quantiles.
    Gaussian: of a normal distribution with standard deviation sqrt(3). *)
Theorem C61_gaussian : forall Phi gsl_sf_erf q ea da, normal_cdf Phi -> erf_accurate Phi gsl_sf_erf ->
  (3 <= q)%nat -> (Z.of_nat q <= 65536)%Z -> length ea = (q - 1)%nat -> length da = q ->
  exists n e, (forall fuel, (n <= fuel)%nat -> gaussian_encoder gsl_sf_erf fuel q (of32 1) ea da = Some (Ok e)) /\
    table_of (fun p x => exists z, Phi z = p /\ x = sqrt 3 * z) q e.
Proof. intros Phi erf q ea da N H Hq Hq2. exact (gaussian_table Phi N erf H q Hq Hq2 ea da). Qed.
Print Assumptions C61_gaussian.

Example C61_gaussian_example : exists n e, (forall fuel, (n <= fuel)%nat -> gaussian_encoder (erf_of Phi) fuel 256 (of32 1) (repeat nan32 255) (repeat nan32 256) = Some (Ok e)) /\
  table_of (fun p x => exists z, Phi z = p /\ x = sqrt 3 * z) 256 e.
Proof. apply C61_gaussian; [exact Phi_normal|exact (erf_of_accurate Phi Phi_normal)|lia|lia|now rewrite repeat_length|now rewrite repeat_length]. Qed.

(** Uniform: between -sqrt(3) and sqrt(3), which has standard deviation 1 *)
Theorem C61_uniform : forall q ea da, (3 <= q)%nat -> (Z.of_nat q <= 65536)%Z -> length ea = (q - 1)%nat -> length da = q ->
  exists e, uniform_encoder q (of32 1) ea da = Ok e /\ table_of (fun p z => z = sqrt 3 * (2 * p - 1)) q e.
Proof. intros q ea da Hq Hq2. exact (uniform_table q Hq Hq2 ea da). Qed.
Print Assumptions C61_uniform.

Example C61_uniform_example : exists e, uniform_encoder 16 (of32 1) (repeat nan32 15) (repeat nan32 16) = Ok e /\ table_of (fun p z => z = sqrt 3 * (2 * p - 1)) 16 e.
Proof. apply C61_uniform; [lia|lia|reflexivity|reflexivity]. Qed.

(** Student-T, with [T] its cumulative function for the [nu] that is used *)
Theorem C61_student : forall T d gsl_cdf_tdist_Pinv nu q ea da, peaked_cdf T d -> quantile_accurate T (fun p => gsl_cdf_tdist_Pinv p nu) ->
  (3 <= q)%nat -> (Z.of_nat q <= 65536)%Z -> length ea = (q - 1)%nat -> length da = q ->
  exists e, student_encoder gsl_cdf_tdist_Pinv q nu (of64 1) ea da = Ok e /\ table_of (fun p z => T z = p) q e.
Proof. intros T d inv nu q ea da D H Hq Hq2 Ha Hd. exact (student_table q Hq Hq2 ea da Ha Hd T d D inv nu H). Qed.
Print Assumptions C61_student.

(** one degree of freedom, as dscompress uses it *)
Example C61_student_example : exists e, student_encoder (fun p _ => cut (cauchy_quantile (B2R p)) 35) 16 (of64 1) (of64 1) (repeat nan32 15) (repeat nan32 16) = Ok e /\
  table_of (fun p z => cauchy z = p) 16 e.
Proof.
  apply C61_student with (d := cauchy_density); [exact cauchy_peaked| |lia|lia|reflexivity|reflexivity].
  exact (inv_of_accurate cauchy cauchy_density cauchy_quantile cauchy_peaked cauchy_quantile_ok).
Qed.

(** truncated Gaussian, truncated at [trunc] or more than a quarter of a standard
    deviation: the range of probabilities is from [m] to [1 - m] *)
Theorem C61_truncated : forall Phi gsl_cdf_gaussian_P gsl_cdf_gaussian_Pinv trunc q ea da, normal_cdf Phi ->
  is_finite trunc = true -> / 4 <= B2R trunc ->
  is_finite (gsl_cdf_gaussian_P (Bopp trunc) (of64 1)) = true ->
  Rabs (B2R (gsl_cdf_gaussian_P (Bopp trunc) (of64 1)) - Phi (- B2R trunc)) <= bpow radix2 (-52) ->
  quantile_accurate Phi (fun p => gsl_cdf_gaussian_Pinv p (of64 1)) ->
  (3 <= q)%nat -> (Z.of_nat q <= 65536)%Z -> length ea = (q - 1)%nat -> length da = q ->
  let m := Phi (- B2R trunc) in
  exists e, truncated_encoder gsl_cdf_gaussian_P gsl_cdf_gaussian_Pinv q trunc (of64 1) ea da = Ok e /\
    table_of (fun p z => Phi z = m + p * (1 - 2 * m)) q e.
Proof.
  intros Phi P inv t q ea da N Ft Ht FP EP Hi Hq Hq2 Ha Hd.
  exact (truncated_table q Hq Hq2 ea da Ha Hd Phi N P inv t Ht (conj FP EP) Hi).
Qed.
Print Assumptions C61_truncated.

(** the default truncation, 2.5 *)
Example C61_truncated_example : exists e,
  truncated_encoder (cdf_of Phi) (fun p _ => cut (normal_quantile Phi Phi_normal (B2R p)) 35) 1024 (dy 5 (-1)) (of64 1) (repeat nan32 1023) (repeat nan32 1024) = Ok e /\
  table_of (fun p z => Phi z = Phi (- B2R (dy 5 (-1) : f64)) + p * (1 - 2 * Phi (- B2R (dy 5 (-1) : f64)))) 1024 e.
Proof. exact truncated_example. Qed.

(** A truncation of 0 is accepted, but all levels of the table are then 0, so every
    finite value is read back as 0.  (dscompress passes [atof] of an argument,
    which is 0 for anything that is not a number.) *)
Theorem C61_truncation_zero_refuted : exists trunc : f64, is_finite trunc = true /\
  forall gsl_cdf_gaussian_P gsl_cdf_gaussian_Pinv q ea da,
  (3 <= q)%nat -> (Z.of_nat q <= 65536)%Z -> length ea = (q - 1)%nat -> length da = q ->
  gsl_cdf_gaussian_P (Bopp trunc) (of64 1) = dy 1 (-1) -> gsl_cdf_gaussian_Pinv (dy 1 (-1)) (of64 1) = of64 0 ->
  exists e, truncated_encoder gsl_cdf_gaussian_P gsl_cdf_gaussian_Pinv q trunc (of64 1) ea da = Ok e /\
    forall i, (i < q - 1)%nat -> Decode e i = Ok (of32 0).
Proof. exists (of64 0). split; [reflexivity|exact truncated_zero]. Qed.
Print Assumptions C61_truncation_zero_refuted.
