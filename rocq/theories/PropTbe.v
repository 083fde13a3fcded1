(** Property theorems C18, C19, C22-C24 for the Row and RF encoders.
    Statements only. *)
From Coq Require Import Reals Lra.
From Flocq Require Import Core.
From Verif Require Import Base Floats FloatLemmas TimeBlockBuffer StochasticEncoder EncSpec TimeBlockEncoders TbeSpec TbeReal TbeRowRfProofs TbeMore TbeExamples.
Local Open Scope R_scope.

(** ** C18.  [L] is the largest level, [M] the largest magnitude in the row.  The
    input lies between two adjacent levels times [M / L] and the decoded value is
    off by at most the gap, up to rounding.  [M] is limited so that the last
    multiplication does not overflow. *)
Theorem C18_row_error : forall e nPol nChan g b meta sym L r row M, levels e L -> rows_of (nPol * nChan) b ->
  (length b <= length meta)%nat -> (SymbolCount (length b) nPol nChan <= length sym)%nat -> nth_error b r = Some row ->
  largest (row_mags row) M -> M <= bpow radix2 125 -> M <= bpow radix2 127 * B2R L ->
  let phi := M / B2R L in let tol := bpow radix2 (-21) * M + bpow radix2 (-149) * (1 + B2R L + phi) in
  exists out, row_roundtrip e nPol nChan (Some g) b meta sym r = Ok out /\ length out = (nPol * nChan)%nat /\
    forall i v im, nth_error (visibilities row) i = Some v -> counted v -> is_finite (part im v) = true ->
    exists w j lo hi, nth_error out i = Some w /\ is_finite (part im w) = true /\
      nth_error (dec e) j = Some lo /\ nth_error (dec e) (S j) = Some hi /\
      B2R lo * phi - tol <= B2R (part im v) <= B2R hi * phi + tol /\
      Rabs (B2R (part im w) - B2R (part im v)) <= (B2R hi - B2R lo) * phi + tol.
Proof. exact row_bound. Qed.
Print Assumptions C18_row_error.

(** the metadata are the row factors *)
Theorem C18_row_metadata : forall e nPol nChan d b meta sym L, levels e L -> rows_of (nPol * nChan) b ->
  (length b <= length meta)%nat -> (SymbolCount (length b) nPol nChan <= length sym)%nat ->
  exists m s, row_encode e nPol nChan d b meta sym = Ok (m, s) /\
    forall r row M, nth_error b r = Some row -> largest (row_mags row) M -> M <= bpow radix2 127 * B2R L ->
    exists f, nth_error m r = Some f /\ is_finite f = true /\
      Rabs (B2R f - M / B2R L) <= (bpow radix2 (-24) + bpow radix2 (-47)) * (M / B2R L) + bpow radix2 (-150).
Proof. exact row_metadata. Qed.
Print Assumptions C18_row_metadata.

Example C18_example : levels ex3 two /\ rows_of (1 * 2) blk /\
  (forall row, nth_error blk 0 = Some row -> largest (row_mags row) 3) /\ 3 <= bpow radix2 125 /\ 3 <= bpow radix2 127 * B2R two /\
  shows show2 (row_roundtrip ex3 1 2 (dith (2 ^ 30)) blk (mbuf 4) (sbuf 16) 0) = Some [(Num 0, Num 0); (Num (-3072), Num 0)].
Proof.
  split; [exact ex3_levels|]. split; [exact blk_rows|]. split; [apply blk_max|].
  assert (H : 3 <= bpow radix2 125) by (apply Rle_trans with (bpow radix2 2); [cbn; lra|apply bpow_le; lia]).
  split; [exact H|]. split; [|now vm_compute]. unfold two. rewrite (proj2 (lit32_val 1 1 ltac:(lia) ltac:(lia))).
  assert (bpow radix2 125 <= bpow radix2 127) by (apply bpow_le; lia). cbn [bpow] in *. change (Z.pow_pos radix2 1) with 2%Z. lra.
Qed.

(** Full statement (false): every finite component.  One that shares its sample
    with a non-finite real part is not counted and may be clamped: 50 is read as 1. *)
Theorem C18_every_component_refuted : exists e L b row v, levels e L /\ rows_of 2 b /\ nth_error b 3 = Some row /\ nth_error (visibilities row) 0 = Some v /\
  is_finite (snd v) = true /\ show (snd v) = Num (50 * 1024) /\
  shows show2 (row_roundtrip e 1 2 (dith 0) b (mbuf 4) (sbuf 16) 3) = Some [(NaN, Num 1024); (Num 1024, Num 1024)].
Proof.
  exists ex3, two, blk. eexists. eexists. split; [exact ex3_levels|]. split; [exact blk_rows|]. split; [reflexivity|]. split; [reflexivity|].
  repeat split; now vm_compute.
Qed.
Print Assumptions C18_every_component_refuted.

(** Full statement (false): every finite row.  The largest float is read as infinity. *)
Theorem C18_overflow_refuted : exists e L (b : tbb cf), levels e L /\ (forall row v, In row b -> In v (visibilities row) -> is_finite (fst v) = true /\ is_finite (snd v) = true) /\
  shows show2 (row_roundtrip e 1 1 (dith 0) b (mbuf 1) (sbuf 2) 0) = Some [(Inf, Num 0)].
Proof.
  exists ex25, (lit32 25 0), [DRow 0 1 [(max32, hf 0)]]. split; [exact ex25_levels|]. split; [|now vm_compute].
  intros row v [<-|[]] [<-|[]]. split; reflexivity.
Qed.
Print Assumptions C18_overflow_refuted.

(** ** C19.  [M] is the largest magnitude of the row in this polarization, [rho] the
    largest magnitude in this channel relative to those of the rows. *)
Theorem C19_rf_error : forall e L nPol nChan g b meta sym r row, levels e L -> rows_of (nPol * nChan) b ->
  (rf_MetaDataCount (length b) nPol nChan 0 <= length meta)%nat -> (SymbolCount (length b) nPol nChan <= length sym)%nat -> nth_error b r = Some row ->
  exists out, rf_roundtrip e nPol nChan (Some g) b meta sym r = Ok out /\ length out = (nPol * nChan)%nat /\
    forall i v im M rho kappa, nth_error (visibilities row) i = Some v -> counted v -> is_finite (part im v) = true ->
    largest (pol_mags nPol (i mod nPol) row) M -> largest (ratios nPol i b) rho -> scale_of rho kappa ->
    M <= bpow radix2 124 -> M <= bpow radix2 127 * B2R L ->
    let phi := M / B2R L * kappa in let tol := bpow radix2 (-20) * (M * kappa) + bpow radix2 (-147) * (1 + B2R L + M + phi) in
    exists w j lo hi, nth_error out i = Some w /\ is_finite (part im w) = true /\
      nth_error (dec e) j = Some lo /\ nth_error (dec e) (S j) = Some hi /\
      B2R lo * phi - tol <= B2R (part im v) <= B2R hi * phi + tol /\
      Rabs (B2R (part im w) - B2R (part im v)) <= (B2R hi - B2R lo) * phi + tol.
Proof. intros e L nPol nChan g b meta sym r row V. exact (rf_bound e L V nPol nChan g b meta sym r row). Qed.
Print Assumptions C19_rf_error.

(** a largest ratio exists *)
Theorem C19_ratio_exists : forall nPol nChan i (b : tbb cf), rows_of (nPol * nChan) b -> (i < nPol * nChan)%nat ->
  exists rho kappa, largest (ratios nPol i b) rho /\ scale_of rho kappa.
Proof.
  intros nPol nChan i b R Hi. destruct (ratios_exist nPol nChan i b R Hi) as (rho & H). destruct (scale_exists rho) as (kappa & K). exact (ex_intro _ rho (ex_intro _ kappa (conj H K))).
Qed.
Print Assumptions C19_ratio_exists.

Example C19_example : levels ex3 two /\ rows_of (1 * 2) blk /\
  (forall row, nth_error blk 0 = Some row -> largest (pol_mags 1 0 row) 3) /\ (exists rho kappa, largest (ratios 1 1 blk) rho /\ scale_of rho kappa) /\
  shows show2 (rf_roundtrip ex3 1 2 (dith (2 ^ 30)) blk (mbuf 6) (sbuf 16) 0) = Some [(Num 0, Num 0); (Num (-3072), Num 0)] /\
  shows show2 (rf_roundtrip ex3 1 2 (dith 5) blk (mbuf 6) (sbuf 16) 0) = Some [(Num 3072, Num 3072); (Num (-3072), Num 3072)].
Proof.
  split; [exact ex3_levels|]. split; [exact blk_rows|]. split; [apply blk_max|]. split; [apply (C19_ratio_exists 1 2 1 blk blk_rows); apply le_n|]. split; now vm_compute.
Qed.

(** ** C22 *)
Theorem C22_row_nonfinite : forall e nPol nChan d b meta sym L r row, well_formed e -> MaxQuantity e = Ok L -> rows_of (nPol * nChan) b ->
  (length b <= length meta)%nat -> (SymbolCount (length b) nPol nChan <= length sym)%nat -> nth_error b r = Some row ->
  exists out, row_roundtrip e nPol nChan d b meta sym r = Ok out /\
    forall i v im, nth_error (visibilities row) i = Some v -> is_finite (part im v) = false ->
    exists w, nth_error out i = Some w /\ is_nan (part im w) = true.
Proof. exact row_nonfinite. Qed.
Print Assumptions C22_row_nonfinite.

Theorem C22_rf_nonfinite : forall e nPol nChan d b meta sym L r row, well_formed e -> MaxQuantity e = Ok L -> rows_of (nPol * nChan) b ->
  (rf_MetaDataCount (length b) nPol nChan 0 <= length meta)%nat -> (SymbolCount (length b) nPol nChan <= length sym)%nat -> nth_error b r = Some row ->
  exists out, rf_roundtrip e nPol nChan d b meta sym r = Ok out /\
    forall i v im, nth_error (visibilities row) i = Some v -> is_finite (part im v) = false ->
    exists w, nth_error out i = Some w /\ is_nan (part im w) = true.
Proof. exact rf_nonfinite. Qed.
Print Assumptions C22_rf_nonfinite.

(** samples that are not counted have no influence on the metadata nor on the
    symbols of other samples *)
Theorem C22_row_influence : forall e nPol nChan d b b' meta sym L, well_formed e -> MaxQuantity e = Ok L -> rows_of (nPol * nChan) b -> same_counted b b' ->
  (length b <= length meta)%nat -> (SymbolCount (length b) nPol nChan <= length sym)%nat ->
  exists m s s', row_encode e nPol nChan d b meta sym = Ok (m, s) /\ row_encode e nPol nChan d b' meta sym = Ok (m, s') /\
    forall r row row' i v im, nth_error b r = Some row -> nth_error b' r = Some row' -> nth_error (visibilities row) i = Some v -> nth_error (visibilities row') i = Some v ->
      nth_error s (r * (nPol * nChan * 2) + i * 2 + b2n im) = nth_error s' (r * (nPol * nChan * 2) + i * 2 + b2n im).
Proof. exact row_influence. Qed.
Print Assumptions C22_row_influence.

Theorem C22_rf_influence : forall e L nPol nChan d b b' meta sym, levels e L -> rows_of (nPol * nChan) b -> same_counted b b' ->
  (rf_MetaDataCount (length b) nPol nChan 0 <= length meta)%nat -> (SymbolCount (length b) nPol nChan <= length sym)%nat ->
  exists m s s', rf_encode e nPol nChan d b meta sym = Ok (m, s) /\ rf_encode e nPol nChan d b' meta sym = Ok (m, s') /\
    forall r row row' i v im, nth_error b r = Some row -> nth_error b' r = Some row' -> nth_error (visibilities row) i = Some v -> nth_error (visibilities row') i = Some v ->
      nth_error s (r * (nPol * nChan * 2) + i * 2 + b2n im) = nth_error s' (r * (nPol * nChan * 2) + i * 2 + b2n im).
Proof. intros e L nPol nChan d b b' meta sym V. exact (rf_influence e L V nPol nChan d b b' meta sym). Qed.
Print Assumptions C22_rf_influence.

Example C22_example : levels ex3 two /\ rows_of (1 * 2) blk /\ same_counted blk blk' /\
  shows show2 (row_roundtrip ex3 1 2 (dith 5) blk (mbuf 4) (sbuf 16) 1) = Some [(Num 4096, Num 4096); (Num 4096, NaN)] /\
  shows show2 (rf_roundtrip ex3 1 2 (dith 5) blk (mbuf 6) (sbuf 16) 3) = Some [(NaN, Num 1024); (Num 1024, Num 1024)] /\
  shows show2 (rf_roundtrip ex3 1 2 (dith 5) blk' (mbuf 6) (sbuf 16) 3) = Some [(NaN, NaN); (Num 1024, Num 1024)].
Proof. split; [exact ex3_levels|]. split; [exact blk_rows|]. split; [exact blk_same|]. repeat split; now vm_compute. Qed.

(** Full statement (false): two blocks whose finite components agree give the same
    decoded values for these.  An infinite imaginary part hides the real part, a NaN
    does not. *)
Theorem C22_component_influence_refuted : exists e L (x y : f32), levels e L /\ is_finite x = false /\ is_finite y = false /\
  shows show2 (row_roundtrip e 1 1 (dith 5) [DRow 0 1 [(hf 2, x)]] (mbuf 1) (sbuf 2) 0) = Some [(Num 1024, NaN)] /\
  shows show2 (row_roundtrip e 1 1 (dith 5) [DRow 0 1 [(hf 2, y)]] (mbuf 1) (sbuf 2) 0) = Some [(Num 0, NaN)].
Proof. exists ex3, two, nan32, inf32. split; [exact ex3_levels|]. repeat split; now vm_compute. Qed.
Print Assumptions C22_component_influence_refuted.

(** ** C23 *)
Theorem C23_row_zero : forall e nPol nChan d b meta sym L r row, levels e L -> rows_of (nPol * nChan) b ->
  (length b <= length meta)%nat -> (SymbolCount (length b) nPol nChan <= length sym)%nat -> nth_error b r = Some row -> largest (row_mags row) 0 ->
  exists m s out f, row_encode e nPol nChan d b meta sym = Ok (m, s) /\ row_roundtrip e nPol nChan d b meta sym r = Ok out /\
    nth_error m r = Some f /\ is_finite f = true /\ B2R f = 0 /\
    forall i v im, nth_error (visibilities row) i = Some v -> is_finite (part im v) = true ->
    exists w, nth_error out i = Some w /\ is_finite (part im w) = true /\ B2R (part im w) = 0.
Proof. exact row_zero. Qed.
Print Assumptions C23_row_zero.

Theorem C23_rf_zero_row : forall e L nPol nChan d b meta sym r row, levels e L -> rows_of (nPol * nChan) b ->
  (rf_MetaDataCount (length b) nPol nChan 0 <= length meta)%nat -> (SymbolCount (length b) nPol nChan <= length sym)%nat -> nth_error b r = Some row ->
  exists m s out, rf_encode e nPol nChan d b meta sym = Ok (m, s) /\ rf_roundtrip e nPol nChan d b meta sym r = Ok out /\
    forall p, (p < nPol)%nat -> largest (pol_mags nPol p row) 0 ->
    (exists f, nth_error m (nPol * nChan + r * nPol + p) = Some f /\ is_finite f = true /\ B2R f = 0) /\
    forall i v im, (i mod nPol = p)%nat -> nth_error (visibilities row) i = Some v -> counted v -> is_finite (part im v) = true ->
    exists w, nth_error out i = Some w /\ is_finite (part im w) = true /\ B2R (part im w) = 0.
Proof. intros e L nPol nChan d b meta sym r row V. exact (rf_zero_row e L V nPol nChan d b meta sym r row). Qed.
Print Assumptions C23_rf_zero_row.

(** a zero channel in rows with signal: factor 1; zero for all but the 64 largest
    of the 2^31 dither values, when 0 is a level *)
Theorem C23_rf_zero_channel : forall e L nPol nChan g b meta sym i k z, levels e L -> rows_of (nPol * nChan) b -> (i < nPol * nChan)%nat ->
  (rf_MetaDataCount (length b) nPol nChan 0 <= length meta)%nat -> (SymbolCount (length b) nPol nChan <= length sym)%nat ->
  largest (ratios nPol i b) 0 ->
  exists m s, rf_encode e nPol nChan (Some g) b meta sym = Ok (m, s) /\
    (exists f, nth_error m i = Some f /\ is_finite f = true /\ B2R f = 1) /\
    (nth_error (dec e) (S k) = Some z -> B2R z = 0 -> (forall y, nth_error (dec e) k = Some y -> B2R z - B2R y <= bpow radix2 96) ->
     (forall j, (0 <= g j < 2 ^ 31 - 64)%Z) ->
     forall r row v im M, nth_error b r = Some row -> nth_error (visibilities row) i = Some v -> counted v -> is_finite (part im v) = true ->
       largest (pol_mags nPol (i mod nPol) row) M -> M <= bpow radix2 127 * B2R L ->
       exists out w, rf_roundtrip e nPol nChan (Some g) b meta sym r = Ok out /\ nth_error out i = Some w /\ is_finite (part im w) = true /\ B2R (part im w) = 0).
Proof. intros e L nPol nChan g b meta sym i k z V. exact (rf_zero_channel e L V nPol nChan g b meta sym i k z). Qed.
Print Assumptions C23_rf_zero_channel.

Example C23_example :
  shows show2 (row_roundtrip ex3 1 2 (dith (2 ^ 31 - 1)) blk (mbuf 4) (sbuf 16) 2) = Some [(Num 0, Num 0); (Num 0, Num 0)] /\
  shows show2 (rf_roundtrip ex3 1 2 (dith (2 ^ 31 - 1)) blk (mbuf 6) (sbuf 16) 2) = Some [(Num 0, Num 0); (Num 0, Num 0)] /\
  shows show2 (rf_roundtrip ex3 1 2 (dith (2 ^ 31 - 65)) zero_chan (mbuf 3) (sbuf 4) 0) = Some [(Num 1024, Num 0); (Num 0, Num 0)].
Proof. repeat split; now vm_compute. Qed.

(** Full statement (false): zero for every dither value.  0 is read as -1. *)
Theorem C23_rf_zero_channel_refuted : exists e L (b : tbb cf) row v, levels e L /\ nth_error b 0 = Some row /\ nth_error (visibilities row) 1 = Some v /\ B2R (fst v) = 0 /\ B2R (snd v) = 0 /\
  shows show2 (rf_roundtrip e 1 2 (dith (2 ^ 31 - 1)) b (mbuf 3) (sbuf 4) 0) = Some [(Num 0, Num 0); (Num (-1024), Num (-1024))].
Proof.
  exists ex3, two, zero_chan. eexists. eexists. split; [exact ex3_levels|]. split; [reflexivity|]. split; [reflexivity|]. repeat split; now vm_compute.
Qed.
Print Assumptions C23_rf_zero_channel_refuted.

(** ** C24: buffers *)
Theorem C24_row_buffers : forall e nPol nChan d b meta sym L, well_formed e -> MaxQuantity e = Ok L -> rows_of (nPol * nChan) b ->
  (row_MetaDataCount (length b) nPol nChan 0 <= length meta)%nat -> (SymbolCount (length b) nPol nChan <= length sym)%nat ->
  filled e (row_MetaDataCount (length b) nPol nChan 0) (SymbolCount (length b) nPol nChan) meta sym (row_encode e nPol nChan d b).
Proof. exact row_filled. Qed.
Print Assumptions C24_row_buffers.

Theorem C24_rf_buffers : forall e nPol nChan d b meta sym L, well_formed e -> MaxQuantity e = Ok L -> rows_of (nPol * nChan) b ->
  (rf_MetaDataCount (length b) nPol nChan 0 <= length meta)%nat -> (SymbolCount (length b) nPol nChan <= length sym)%nat ->
  filled e (rf_MetaDataCount (length b) nPol nChan 0) (SymbolCount (length b) nPol nChan) meta sym (rf_encode e nPol nChan d b).
Proof. exact rf_filled. Qed.
Print Assumptions C24_rf_buffers.

Definition lens (r : res (list f32 * list nat)) : option (nat * list nat) := match r with Ok (m, s) => Some (length m, s) | _ => None end.
Example C24_example : rows_of (1 * 2) blk /\ row_MetaDataCount 4 1 2 0 = 4%nat /\ rf_MetaDataCount 4 1 2 0 = 6%nat /\ SymbolCount 4 1 2 = 16%nat /\
  lens (row_encode ex3 1 2 (dith 5) blk (mbuf 4) (sbuf 16)) = Some (4, [2; 2; 0; 2; 2; 2; 2; 3; 1; 1; 1; 1; 3; 2; 2; 2])%nat /\
  row_encode ex3 1 2 (dith 5) blk (mbuf 4) (sbuf 15) = UB /\ rf_encode ex3 1 2 (dith 5) blk (mbuf 5) (sbuf 16) = UB.
Proof. split; [exact blk_rows|]. repeat split; now vm_compute. Qed.
