(** Model of the quantization tables that are not uniform
    (/repo/stochasticencoder.cc): Gaussian, truncated Gaussian and Student-T.
    The functions of the GNU Scientific Library are parameters. *)
From Verif Require Import Base Floats StochasticEncoder.

Definition half80 : f80 := dy 1 (-1).
(** [M_SQRT2l], the long double nearest to the square root of 2 (stochasticencoder.cc:9-11) *)
Definition sqrt2l : f80 := Bsqrt mode_NE (of80 2).

(** stochasticencoder.cc:15-19; [gsl_sf_erf] takes and returns a double *)
Definition cumulative (gsl_sf_erf : f64 -> f64) (x : f80) : f80 :=
  add80 half80 (mul80 half80 (to80 (gsl_sf_erf (to64 (div80 x sqrt2l))))).

(** stochasticencoder.cc:38-41: the loop that doubles [x]; [None] when it has
    not ended after [fuel] rounds *)
Fixpoint double_up (cumul : f80 -> f80) (c : f80) (fuel : nat) (x : f80) : option f80 :=
  match fuel with
  | O => None
  | S fuel => let x := mul80 x (of80 2) in if Bltb (cumul x) c then double_up cumul c fuel x else Some x
  end.

(** stochasticencoder.cc:50-65: the bisection loop; [stuck] is [notConverging]
    (at most 11, so [int] does not overflow) *)
Fixpoint bisect (cumul : f80 -> f80) (c err : f80) (fuel : nat) (xLow xHi error : f80) (stuck : nat) : option f80 :=
  match fuel with
  | O => None
  | S fuel =>
      let x := mul80 (add80 xLow xHi) half80 in
      let fx := cumul x in
      let xLow := if Bltb c fx then xLow else x in
      let xHi := if Bltb c fx then x else xHi in
      let currErr := Babs (sub80 fx c) in
      let stuck := if Bleb error currErr then S stuck else O in
      if Nat.ltb 10 stuck then Some x
      else if Bltb err currErr then bisect cumul c err fuel xLow xHi currErr stuck
      else Some x
  end.

(** stochasticencoder.cc:34-66 *)
Definition search (cumul : f80 -> f80) (c err : f80) (fuel : nat) : option f80 :=
  if Bltb (cumul (of80 1)) c then
    match double_up cumul c fuel (of80 1) with
    | Some x => bisect cumul c err fuel (mul80 x half80) x x 0
    | None => None
    end
  else bisect cumul c err fuel (of80 0) (of80 1) (of80 1) 0.

(** stochasticencoder.cc:22-66; the fuel also counts the recursive calls *)
Fixpoint invCumulative (cumul : f80 -> f80) (err : f80) (fuel : nat) (c : f80) : option f80 :=
  match fuel with
  | O => None
  | S fuel =>
      if Bltb c half80 then option_map Bopp (invCumulative cumul err fuel (sub80 (of80 1) c))
      else if Beqb c half80 then Some (of80 0)
      else if Beqb c (of80 1) then Some (B754_infinity false)
      else if Bltb (of80 1) c then Some B754_nan
      else search cumul c err fuel
  end.

(** stochasticencoder.h:164: the default of [err], [1e-13] as a double *)
Definition default_err : f80 := dy 7922816251426434 (-96).

(** stochasticencoder.cc:87, 92: the probabilities [i / (quantCount - 1)] and
    [(i + 0.5) / (quantCount - 1)], long double (also 132, 137, 158, 164) *)
Definition bnd_prob (quantCount i : nat) : f80 := div80 (of80 (Z.of_nat i)) (of80 (Z.of_nat quantCount - 1)).
Definition val_prob (quantCount i : nat) : f80 := div80 (add80 (of80 (Z.of_nat i)) half80) (of80 (Z.of_nat quantCount - 1)).

(** stochasticencoder.cc:88, 93: [stddev * invCumulative(..)] is a long double
    product, stored as float *)
Definition gaussian_entry (cumul : f80 -> f80) (fuel : nat) (stddev : f32) (c : f80) : option f32 :=
  option_map (fun z => to32 (mul80 (to80 stddev) z)) (invCumulative cumul default_err fuel c).

(** the entries [from .. from+n-1], if all of them are computed within the fuel *)
Definition entries (f : nat -> option f32) (from n : nat) : option (nat -> f32) :=
  if forallb (fun i => match f i with Some _ => true | None => false end) (seq from n)
  then Some (fun i => match f i with Some x => x | None => nan32 end)
  else None.

(** stochasticencoder.cc:69-122 with [gaussianMapping = true] (dyscodatacolumn.cc:31-34);
    [None] when an inverse was not found within the fuel *)
Definition gaussian_encoder (gsl_sf_erf : f64 -> f64) (fuel quantCount : nat) (stddev : f32) (ea da : list f32) : option (res encoder) :=
  let s := scaled_stddev stddev in
  let entry := gaussian_entry (cumulative gsl_sf_erf) fuel s in
  match entries (fun i => entry (bnd_prob quantCount i)) 1 (quantCount - 2), entries (fun i => entry (val_prob quantCount i)) 0 (quantCount - 1) with
  | Some bnd, Some val => Some (construct quantCount bnd val ea da)
  | _, _ => None
  end.

(** stochasticencoder.cc:125-143; [gsl_cdf_tdist_Pinv(p, nu)] with the
    probability converted to double *)
Definition student_entry (gsl_cdf_tdist_Pinv : f64 -> f64 -> f64) (nu rms : f64) (c : f80) : f32 :=
  to32 (mul64 (gsl_cdf_tdist_Pinv (to64 c) nu) rms).
Definition student_encoder (gsl_cdf_tdist_Pinv : f64 -> f64 -> f64) (quantCount : nat) (nu rms : f64) (ea da : list f32) : res encoder :=
  construct quantCount (fun i => student_entry gsl_cdf_tdist_Pinv nu rms (bnd_prob quantCount i))
    (fun i => student_entry gsl_cdf_tdist_Pinv nu rms (val_prob quantCount i)) ea da.

(** stochasticencoder.cc:146-171; [gsl_cdf_gaussian_P(x, sigma)] and
    [gsl_cdf_gaussian_Pinv(p, sigma)].  [mass] is [cdfValueAtTrunc]. *)
Definition truncated_entry (gsl_cdf_gaussian_Pinv : f64 -> f64 -> f64) (mass rms : f64) (c : f80) : f32 :=
  let factor := sub64 (of64 1) (mul64 (of64 2) mass) in
  to32 (gsl_cdf_gaussian_Pinv (add64 (mul64 (to64 c) factor) mass) rms).
Definition truncated_encoder (gsl_cdf_gaussian_P gsl_cdf_gaussian_Pinv : f64 -> f64 -> f64) (quantCount : nat) (trunc rms : f64)
  (ea da : list f32) : res encoder :=
  let mass := gsl_cdf_gaussian_P (Bopp trunc) (of64 1) in
  construct quantCount (fun i => truncated_entry gsl_cdf_gaussian_Pinv mass rms (bnd_prob quantCount i))
    (fun i => truncated_entry gsl_cdf_gaussian_Pinv mass rms (val_prob quantCount i)) ea da.
