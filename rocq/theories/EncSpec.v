(** Specification vocabulary for encoders. *)
From Coq Require Import Reals.
From Verif Require Import Base Floats DictSpec StochasticEncoder.

(** What the constructors guarantee (see C46 for the proof that they do):
    equally long tables of at least two entries, boundaries in order and closed
    by the largest finite float, finite levels in order, and one reserved
    non-finite slot behind the levels. *)
Record well_formed (e : encoder) : Prop := WF {
  wf_len : length (enc e) = length (dec e);
  wf_two : (2 <= length (dec e))%nat;
  wf_enc_sorted : sorted (enc e);
  wf_enc_last : nth_error (enc e) (length (enc e) - 1) = Some max32;
  wf_dec_sorted : strictly_sorted (dec e);
  wf_dec_finite : all_finite (dec e);
  wf_slack : exists rest, slack e = nan32 :: rest
}.

(** arithmetic mean of [f 0 .. f (n-1)] *)
Fixpoint sum_upto (f : nat -> R) (n : nat) : R :=
  match n with O => 0%R | S n' => (sum_upto f n' + f n')%R end.
Definition mean (f : nat -> R) (n : nat) : R := (sum_upto f n / INR n)%R.

(** number of dither values produced by GetDitherDistribution
    (stochasticencoder.h:88-90) *)
Definition dithers : nat := Z.to_nat (2 ^ 31).

(** the value obtained by encoding with dithering and decoding again *)
Definition dithered (e : encoder) (v : f32) (d : nat) : R :=
  match (do s <- EncodeWithDithering e v (Z.of_nat d); Decode e s) with
  | Ok x => B2R x
  | _ => 0%R
  end.
