(** What a quantization table must be.  Specification. *)
From Coq Require Import Reals.
From Flocq Require Import Core.
From Verif Require Import Base Floats StochasticEncoder EncSpec TbeSpec.
Local Open Scope R_scope.

(** One of the [q] symbols is reserved for values that are not finite.  The range
    of probabilities is divided in [q-1] equal parts: boundaries are between them
    and each level is in the middle of one of them. *)
Definition bnd_p (q i : nat) : R := IZR (Z.of_nat i) / IZR (Z.of_nat q - 1).
Definition val_p (q i : nat) : R := (IZR (Z.of_nat i) + / 2) / IZR (Z.of_nat q - 1).

(** [x] is [z] up to the precision of float and a small absolute error *)
Definition close32 (x : f32) (z : R) : Prop := Rabs (B2R x - z) <= bpow radix2 (-22) * Rabs z + bpow radix2 (-26).

(** [quantile p z]: [z] is the quantile for probability [p] *)
Record table_of (quantile : R -> R -> Prop) (q : nat) (e : encoder) : Prop := TableOf {
  (** the table satisfies the hypotheses of the encoder properties ... *)
  to_wf : well_formed e;
  to_count : QuantizationCount e = q;
  (** ... and of the error bounds of the normalizations *)
  to_levels : exists L, levels e L;
  (** the levels and the boundaries are the quantiles *)
  to_value : forall i z, (i < q - 1)%nat -> quantile (val_p q i) z -> exists x, Decode e i = Ok x /\ is_finite x = true /\ close32 x z;
  to_boundary : forall i z, (i < q - 2)%nat -> quantile (bnd_p q (i + 1)) z -> exists x, RightBoundary e i = Ok x /\ is_finite x = true /\ close32 x z;
  (** a decoded value is encoded as the same symbol again *)
  to_stable : forall i x, (i < q - 1)%nat -> Decode e i = Ok x -> Encode e x = Ok i
}.
