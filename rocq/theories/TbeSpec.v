(** Specification vocabulary for the time block encoders: levels, largest
    magnitudes, and what is read back after writing a block. *)
From Coq Require Import Reals.
From Flocq Require Import Core.
From Verif Require Import Base Floats TimeBlockBuffer StochasticEncoder EncSpec TimeBlockEncoders.
Local Open Scope R_scope.

(** a well formed encoder whose levels run from [-L] to [L]; the lowest level
    may be off by two units in the last place (the tables of the constructors are
    computed, StochasticEncoder.v) *)
Record levels (e : encoder) (L : f32) : Prop := Levels {
  lv_wf : well_formed e;
  lv_max : MaxQuantity e = Ok L;
  lv_pos : 0 < B2R L;
  lv_min : exists low, nth_error (dec e) 0 = Some low /\ Rabs (B2R low + B2R L) <= bpow radix2 (-22) * B2R L
}.

(** real ([false]) or imaginary ([true]) part *)
Definition part {A} (im : bool) (v : A * A) : A := if im then snd v else fst v.

(** the samples that determine the factors: real part finite, imaginary part
    finite or NaN *)
Definition counted (v : cf) : Prop := is_finite (fst v) = true /\ (is_finite (snd v) = true \/ is_nan (snd v) = true).

(** [m] is the largest of the non-negative numbers in [P], 0 if there are none *)
Definition largest (P : R -> Prop) (m : R) : Prop := 0 <= m /\ (forall x, P x -> x <= m) /\ (m = 0 \/ P m).

(** magnitudes in a row; those of one polarization *)
Definition row_mags (row : drow cf) (x : R) : Prop :=
  exists v im, In v (visibilities row) /\ counted v /\ x = Rabs (B2R (part im v)).
Definition pol_mags (nPol p : nat) (row : drow cf) (x : R) : Prop :=
  exists i v im, nth_error (visibilities row) i = Some v /\ (i mod nPol = p)%nat /\ counted v /\ x = Rabs (B2R (part im v)).
(** magnitudes at sample [i] of all rows, relative to the largest of the row and polarization *)
Definition ratios (nPol i : nat) (b : tbb cf) (x : R) : Prop :=
  exists row v im M, In row b /\ nth_error (visibilities row) i = Some v /\ counted v /\
    largest (pol_mags nPol (i mod nPol) row) M /\ x = Rabs (B2R (part im v)) / M.

(** a channel without signal gets scale 1 *)
Definition scale_of (rho kappa : R) : Prop := (rho <> 0 /\ kappa = rho) \/ (rho = 0 /\ kappa = 1).

(** all rows have [n] samples *)
Definition rows_of {A} (n : nat) (data : list (drow A)) : Prop := forall r, In r data -> length (visibilities r) = n.

(** what reading row [r] gives after the block [b] was encoded; [meta] and [sym]
    are the contents of the buffers before *)
Definition row_roundtrip (e : encoder) (nPol nChan : nat) (d : option (nat -> Z)) (b : tbb cf) (meta : list f32) (sym : list nat) (r : nat)
  : res (list cf) :=
  do (meta, sym) <- row_encode e nPol nChan d b meta sym;
  do fs <- row_init meta (length b);
  row_decode e nPol nChan fs sym r.
Definition rf_roundtrip (e : encoder) (nPol nChan : nat) (d : option (nat -> Z)) (b : tbb cf) (meta : list f32) (sym : list nat) (r : nat)
  : res (list cf) :=
  do (meta, sym) <- rf_encode e nPol nChan d b meta sym;
  do fs <- rf_init nPol nChan meta (length b);
  rf_decode e nPol nChan fs sym r.

(** two blocks of the same shape that differ only in samples that are not counted *)
Definition same_counted (b b' : tbb cf) : Prop :=
  Forall2 (fun r r' => antenna1 r = antenna1 r' /\ antenna2 r = antenna2 r' /\
    Forall2 (fun v v' => v = v' \/ (~ counted v /\ ~ counted v')) (visibilities r) (visibilities r')) b b'.

(** [run] succeeds, writes the first [nm] metadata floats and [ns] symbols and
    nothing else, the symbols are below the number of symbols, and what is written
    does not depend on what the buffers held before *)
Definition filled (e : encoder) (nm ns : nat) (meta : list f32) (sym : list nat) (run : list f32 -> list nat -> res (list f32 * list nat)) : Prop :=
  exists m s, run meta sym = Ok (m, s) /\ length m = length meta /\ length s = length sym /\
    (forall k, (nm <= k)%nat -> nth_error m k = nth_error meta k) /\ (forall k, (ns <= k)%nat -> nth_error s k = nth_error sym k) /\
    (forall k x, (k < ns)%nat -> nth_error s k = Some x -> (x < QuantizationCount e)%nat) /\
    forall meta' sym', (nm <= length meta')%nat -> (ns <= length sym')%nat ->
      exists m' s', run meta' sym' = Ok (m', s') /\ (forall k, (k < nm)%nat -> nth_error m' k = nth_error m k) /\ (forall k, (k < ns)%nat -> nth_error s' k = nth_error s k).

(** position in a pair, used for the place of a symbol: real part first *)
Definition b2n (im : bool) : nat := if im then 1%nat else 0%nat.
