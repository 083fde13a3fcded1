(** The standard normal distribution, and what is assumed of the GSL functions. *)
From Coq Require Import Reals.
From Flocq Require Import Core.
From Verif Require Import Floats.
Local Open Scope R_scope.

Definition density (x : R) : R := exp (- (x * x) / 2) / sqrt (2 * PI).

(** [Phi] is the cumulative distribution: its derivative is the density, it is
    1/2 at 0 and its supremum is 1 *)
Record normal_cdf (Phi : R -> R) : Prop := NormalCdf {
  nc_deriv : forall x, derivable_pt_lim Phi x (density x);
  nc_half : Phi 0 = / 2;
  nc_le : forall x, Phi x <= 1;
  nc_one : forall eps, 0 < eps -> exists x, 1 - eps < Phi x
}.

(** The error function of a library, erf x = 2 Phi(sqrt 2 x) - 1: off by no more
    than 2^-50 for the arguments that the table construction uses.  (The
    documented error of [gsl_sf_erf] is 2 epsilon |erf x|, at most 2^-51.) *)
Definition erf_accurate (Phi : R -> R) (gsl_sf_erf : f64 -> f64) : Prop :=
  forall x, is_finite x = true -> 0 <= B2R x <= 6 ->
    is_finite (gsl_sf_erf x) = true /\ Rabs (B2R (gsl_sf_erf x) - (2 * Phi (sqrt 2 * B2R x) - 1)) <= bpow radix2 (-50).

(** A symmetric distribution with one peak: cumulative function [T], density [d].
    [sd_spread]: the probabilities used by tables of at most 65536 levels have
    quantiles in the range of float, and the density there is not extremely
    small.  Student-T with one degree of freedom and the normal distribution are
    examples (PropTables.v). *)
Record peaked_cdf (T d : R -> R) : Prop := PeakedCdf {
  sd_deriv : forall x, derivable_pt_lim T x (d x);
  sd_even : forall x, d (- x) = d x;
  sd_pos : forall x, 0 < d x;
  sd_decr : forall x y, 0 <= x <= y -> d y <= d x;
  sd_max : d 0 <= / 2;
  sd_half : T 0 = / 2;
  sd_le : forall x, T x <= 1;
  sd_one : forall eps, 0 < eps -> exists x, 1 - eps < T x;
  sd_spread : forall z, / 140000 <= T z <= 1 - / 140000 -> Rabs z <= bpow radix2 100 /\ bpow radix2 (-22) <= d z * (1 + Rabs z)
}.

(** [inv] computes the quantiles of [T] with a relative error of 2^-30 and an
    absolute error of 2^-34, for probabilities that are not extreme *)
Definition quantile_accurate (T : R -> R) (inv : f64 -> f64) : Prop :=
  forall p z, is_finite p = true -> / 140000 <= B2R p <= 1 - / 140000 -> T z = B2R p ->
    is_finite (inv p) = true /\ Rabs (B2R (inv p) - z) <= bpow radix2 (-30) * Rabs z + bpow radix2 (-34).
