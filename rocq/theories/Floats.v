(** IEEE-754 formats used by the C++ code: [float] (binary32), [double]
    (binary64) and [long double] (x87 extended, 64 bit significand).
    Flocq's [BinarySingleNaN]: exact IEEE semantics except that all NaNs are
    identified.  All operations round to nearest even. *)
From Coq Require Export Reals.
From Flocq Require Export Core BinarySingleNaN.
From Verif Require Export Base.

#[export] Instance p32 : Prec_gt_0 24 := eq_refl.
#[export] Instance e32 : Prec_lt_emax 24 128 := eq_refl.
#[export] Instance p64 : Prec_gt_0 53 := eq_refl.
#[export] Instance e64 : Prec_lt_emax 53 1024 := eq_refl.
#[export] Instance p80 : Prec_gt_0 64 := eq_refl.
#[export] Instance e80 : Prec_lt_emax 64 16384 := eq_refl.

Definition f32 := binary_float 24 128.
Definition f64 := binary_float 53 1024.
Definition f80 := binary_float 64 16384.

(** conversion between formats (round to nearest even) *)
Definition conv {p e p' e' : Z} {Hp : Prec_gt_0 p'} {He : Prec_lt_emax p' e'}
  (x : binary_float p e) : binary_float p' e' :=
  match x with
  | B754_zero s => B754_zero s
  | B754_infinity s => B754_infinity s
  | B754_nan => B754_nan
  | B754_finite s m ex _ =>
      binary_normalize p' e' Hp He mode_NE (cond_Zopp s (Zpos m)) ex s
  end.

Definition to32 {p e : Z} (x : binary_float p e) : f32 := conv x.
Definition to64 {p e : Z} (x : binary_float p e) : f64 := conv x.
Definition to80 {p e : Z} (x : binary_float p e) : f80 := conv x.

(** integer to floating point conversion *)
Definition ofZ {p e : Z} {Hp : Prec_gt_0 p} {He : Prec_lt_emax p e} (z : Z) : binary_float p e :=
  binary_normalize p e Hp He mode_NE z 0 false.

Definition of32 (z : Z) : f32 := ofZ z.
Definition of64 (z : Z) : f64 := ofZ z.
Definition of80 (z : Z) : f80 := ofZ z.

(** dyadic literal [m * 2^e] *)
Definition dy {p e : Z} {Hp : Prec_gt_0 p} {He : Prec_lt_emax p e} (m ex : Z) : binary_float p e :=
  binary_normalize p e Hp He mode_NE m ex false.

Definition add32 : f32 -> f32 -> f32 := Bplus mode_NE.
Definition sub32 : f32 -> f32 -> f32 := Bminus mode_NE.
Definition mul32 : f32 -> f32 -> f32 := Bmult mode_NE.
Definition div32 : f32 -> f32 -> f32 := Bdiv mode_NE.
Definition add64 : f64 -> f64 -> f64 := Bplus mode_NE.
Definition sub64 : f64 -> f64 -> f64 := Bminus mode_NE.
Definition mul64 : f64 -> f64 -> f64 := Bmult mode_NE.
Definition div64 : f64 -> f64 -> f64 := Bdiv mode_NE.
Definition sqrt64 : f64 -> f64 := Bsqrt mode_NE.
Definition add80 : f80 -> f80 -> f80 := Bplus mode_NE.
Definition sub80 : f80 -> f80 -> f80 := Bminus mode_NE.
Definition mul80 : f80 -> f80 -> f80 := Bmult mode_NE.
Definition div80 : f80 -> f80 -> f80 := Bdiv mode_NE.

(** [FLT_MAX], quiet NaN *)
Definition max32 : f32 := Bmax_float.
Definition nan32 : f32 := B754_nan.

(** bit patterns of binary32 are convenient in examples: [lit32 m e = m*2^e] *)
Definition lit32 (m e : Z) : f32 := dy m e.
Definition lit64 (m e : Z) : f64 := dy m e.
