(** Specification vocabulary for the antenna factor (AF) encoder. *)
From Coq Require Import Reals.
From Flocq Require Import Core.
From Verif Require Import Base Floats TimeBlockBuffer StochasticEncoder EncSpec TimeBlockEncoders TbeSpec.

(** all antenna indices are below the antenna count *)
Definition antennas_below {A} (nAnt : nat) (b : list (drow A)) : Prop := forall r, In r b -> antenna1 r < nAnt /\ antenna2 r < nAnt.

(** what reading row [r] gives after the block [b] was encoded; [None]: one of the
    loops of the encoder did more than [fuel] rounds *)
Definition af_roundtrip (fuel : nat) (e : encoder) (nPol nChan nAnt : nat) (d : option (nat -> Z)) (b : tbb cf) (meta : list f32) (sym : list nat) (r : nat)
  : option (res (list cf)) :=
  match af_encode fuel e nPol nChan nAnt d b meta sym with
  | Some x => Some (do (meta, sym) <- x;
                    do fs <- af_init nPol nChan meta nAnt;
                    do row <- rd b r;
                    af_decode e nPol nChan fs sym r (antenna1 row) (antenna2 row))
  | None => None
  end.

(** a stored factor that is a positive normal number *)
Definition usable (x : f32) : Prop := is_finite x = true /\ (bpow radix2 (-126) <= B2R x)%R.

(** sample [i] has, in some row, two finite components of which one is not tiny *)
Definition signal (i : nat) (b : tbb cf) : Prop :=
  exists row v im, In row b /\ nth_error (visibilities row) i = Some v /\ is_finite (fst v) = true /\ is_finite (snd v) = true /\
    (bpow radix2 (-90) <= Rabs (B2R (part im v)))%R.

(** every finite component of sample [i] is zero *)
Definition quiet (i : nat) (b : tbb cf) : Prop :=
  forall row v im, In row b -> nth_error (visibilities row) i = Some v -> is_finite (part im v) = true -> B2R (part im v) = 0%R.
(** in some row both components of sample [i] are finite *)
Definition seen (i : nat) (b : tbb cf) : Prop :=
  exists row v, In row b /\ nth_error (visibilities row) i = Some v /\ is_finite (fst v) = true /\ is_finite (snd v) = true.
