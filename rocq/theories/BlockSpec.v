(** Specification vocabulary for packed blocks. *)
From Coq Require Import Reals.
From Flocq Require Import Core.
From Verif Require Import Base Floats TimeBlockBuffer BytePacker BitStream StochasticEncoder EncSpec TimeBlockEncoders TbeSpec AfSpec Weights WeightSpec Block.

(** The buffers of an encoding thread (threadeddyscocolumn.cc:307-308): as long as
    the block and its symbols, with any contents. *)
Definition thread_buffers (c : codec) (bits : N) (nRows nAnt : nat) (packed sym : list N) : Prop :=
  length packed = CalculateBlockSize c bits nRows nAnt /\ length sym = nSymbols c nRows /\ fits 8 packed /\ fits 32 sym.

(** An encoder with [2^bits] symbols. *)
Definition bit_encoder (e : encoder) (bits : N) : Prop := supported bits /\ N.of_nat (QuantizationCount e) = (2 ^ bits)%N.

(** Encoding [b] succeeds whatever the buffers hold.  It gives the number of bytes
    that CalculateBlockSize computes, starting with the meta data of the encoder, and
    leaves buffers for the next block.  Reading
    them back, whatever the buffer for the symbols holds, gives all rows of the
    block, and row [r] of [b] becomes [out] as the encoder itself would decode it. *)
Definition block_reads (c : codec) (bits : N) (nRows nAnt : nat) (ants : nat -> nat * nat) (g : rand c) (b : tbb (sample c)) (packed sym : list N)
    (roundtrip : list f32 -> list N -> nat -> res (list (sample c))) : Prop :=
  exists block packed' sym', encodeAndWrite c bits nRows nAnt g b packed sym = Ok (block, (packed', sym')) /\
    length block = CalculateBlockSize c bits nRows nAnt /\ fits 8 block /\ thread_buffers c bits nRows nAnt packed' sym' /\
    encode c g nAnt b (floats (nMetaFloats c nRows nAnt) packed) sym = Ok (floats (nMetaFloats c nRows nAnt) block, sym') /\
    forall sym0, length sym0 = nSymbols c nRows -> exists rows, loadBlock c bits nRows nAnt ants block sym0 = Ok rows /\ length rows = nRows /\
      forall r, r < length b -> exists out, nth_error rows r = Some out /\ roundtrip (floats (nMetaFloats c nRows nAnt) packed) sym r = Ok out.

(** the weights of row [r] as the weight encoder itself decodes them *)
Definition weights_readback (nPol nChan : nat) (bits : N) (b : tbb f32) (r : nat) : res (list f32) :=
  do (m, ss) <- EncodeWeights nPol nChan (2 ^ Z.of_N bits) (map (@visibilities f32) b);
  DecodeWeights nPol nChan (2 ^ Z.of_N bits) m ss r.

(** Encoding [b] succeeds whatever the buffers hold, the block has the size that
    CalculateBlockSize computes, and reading it back, whatever the buffer for the
    symbols holds, gives for each row of [b] a row that satisfies [good]; its first argument are the
    floats with which the block begins. *)
Definition block_keeps (c : codec) (bits : N) (nRows nAnt : nat) (ants : nat -> nat * nat) (g : rand c) (b : tbb (sample c)) (packed sym : list N)
    (good : list f32 -> drow (sample c) -> list (sample c) -> Prop) : Prop :=
  exists block bufs, encodeAndWrite c bits nRows nAnt g b packed sym = Ok (block, bufs) /\ length block = CalculateBlockSize c bits nRows nAnt /\
    forall sym0, length sym0 = nSymbols c nRows -> exists rows, loadBlock c bits nRows nAnt ants block sym0 = Ok rows /\
      forall r row, nth_error b r = Some row -> exists out, nth_error rows r = Some out /\ good (floats (nMetaFloats c nRows nAnt) block) row out.

(** [x] lies between two adjacent levels times [phi], up to [tol], and [y] is a
    number that differs from it by at most their distance *)
Definition near (e : encoder) (phi tol x : R) (y : f32) : Prop :=
  is_finite y = true /\ exists j lo hi, nth_error (dec e) j = Some lo /\ nth_error (dec e) (S j) = Some hi /\
    (B2R lo * phi - tol <= x <= B2R hi * phi + tol)%R /\ (Rabs (B2R y - x) <= (B2R hi - B2R lo) * phi + tol)%R.

(** components that are not finite come back as NaN *)
Definition nonfinite_kept (row : drow cf) (out : list cf) : Prop :=
  forall i v im, nth_error (visibilities row) i = Some v -> is_finite (part im v) = false ->
  exists w, nth_error out i = Some w /\ is_nan (part im w) = true.

(** what is read for a row: with Row normalization (C18), *)
Definition row_good (e : encoder) (L : f32) (n : nat) (row : drow cf) (out : list cf) : Prop :=
  length out = n /\ nonfinite_kept row out /\
  forall M, largest (row_mags row) M -> (M <= bpow radix2 125)%R -> (M <= bpow radix2 127 * B2R L)%R ->
  forall i v im, nth_error (visibilities row) i = Some v -> counted v -> is_finite (part im v) = true ->
  exists w, nth_error out i = Some w /\
    near e (M / B2R L) (bpow radix2 (-21) * M + bpow radix2 (-149) * (1 + B2R L + M / B2R L)) (B2R (part im v)) (part im w).

(** with RF normalization, [b] being the whole block (C19), *)
Definition rf_good (e : encoder) (L : f32) (nPol n : nat) (b : tbb cf) (row : drow cf) (out : list cf) : Prop :=
  length out = n /\ nonfinite_kept row out /\
  forall i v im M rho kappa, nth_error (visibilities row) i = Some v -> counted v -> is_finite (part im v) = true ->
  largest (pol_mags nPol (i mod nPol) row) M -> largest (ratios nPol i b) rho -> scale_of rho kappa ->
  (M <= bpow radix2 124)%R -> (M <= bpow radix2 127 * B2R L)%R ->
  exists w, nth_error out i = Some w /\
    near e (M / B2R L * kappa) (bpow radix2 (-20) * (M * kappa) + bpow radix2 (-147) * (1 + B2R L + M + M / B2R L * kappa)) (B2R (part im v)) (part im w).

(** with AF normalization and the stored factors [meta] (C20). *)
Definition af_good (e : encoder) (L : f32) (nPol n nAnt : nat) (b : tbb cf) (meta : list f32) (row : drow cf) (out : list cf) : Prop :=
  length out = n /\ nonfinite_kept row out /\
  forall i v im c a1 a2, nth_error (visibilities row) i = Some v -> counted v -> is_finite (part im v) = true -> signal i b ->
  nth_error meta i = Some c -> usable c ->
  nth_error meta (n + nAnt * (i mod nPol) + antenna1 row) = Some a1 -> usable a1 ->
  nth_error meta (n + nAnt * (i mod nPol) + antenna2 row) = Some a2 -> usable a2 ->
  let x := B2R (part im v) in let phi := (B2R c * B2R a1 * B2R a2)%R in let tol := (bpow radix2 (-17) * B2R L * phi + bpow radix2 (-149) * (1 + phi))%R in
  (B2R L * phi <= bpow radix2 125)%R -> (antenna1 row <> antenna2 row \/ Rabs x <= (1 - bpow radix2 (-17)) * B2R L * phi)%R ->
  exists w, nth_error out i = Some w /\ near e phi tol x (part im w).

(** The weights of a row, [m] being the largest of the block (C16). *)
Definition weights_good (nPol nChan : nat) (bits : N) (m : f32) (row : drow f32) (out : list f32) : Prop :=
  length out = nChan * nPol /\
  forall ch, ch < nChan -> exists w v, smallest w (pols nPol (visibilities row) ch) /\
    (forall p, p < nPol -> nth_error out (ch * nPol + p) = Some v) /\ nonneg v /\
    (Rabs (B2R v - B2R w) <= B2R m / (2 * IZR (2 ^ Z.of_N bits - 1)) + bpow radix2 (-21) * B2R m + bpow radix2 (-149))%R /\
    (B2R w <= B2R m)%R /\ (B2R w = 0%R -> B2R v = 0%R) /\ (B2R w = B2R m -> B2R v = B2R m).

(** [m] is the largest of the channel weights of a block, 1 if they are all zero *)
Definition largest_weight (nPol nChan : nat) (b : list row) (m : f32) : Prop :=
  is_finite m = true /\ (0 < B2R m)%R /\
  ((exists r rw ch, nth_error b r = Some rw /\ ch < nChan /\ smallest m (pols nPol rw ch)) \/
   (B2R m = 1%R /\ forall r rw ch w, nth_error b r = Some rw -> ch < nChan -> smallest w (pols nPol rw ch) -> B2R w = 0%R)).
