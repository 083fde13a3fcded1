(** Property theorems C20-C24 for the AF encoder.  Statements only. *)
From Coq Require Import Reals Lra.
From Flocq Require Import Core.
From Verif Require Import Base Floats FloatLemmas TimeBlockBuffer StochasticEncoder EncSpec TimeBlockEncoders TbeSpec TbeReal TbeRowRfProofs TbeMore TbeExamples
  AfSpec AfBound AfMore AfInfl AfZero AfExamples.
Local Open Scope R_scope.

(** ** C20.  [phi] is the product of the stored factors of the channel and of the two
    antennas.  A cross-correlation is at most [L * phi], lies between two adjacent
    levels times [phi] and is off by at most the gap, up to rounding; so is an
    autocorrelation that is not larger.  The channel must have a sample that is not
    tiny and the stored factors must be positive normal numbers. *)
Theorem C20_af_error : forall fuel e nPol nChan nAnt g b meta sym L r row, levels e L -> rows_of (nPol * nChan) b -> antennas_below nAnt b -> (0 < nChan)%nat -> (nChan + nAnt < fuel)%nat ->
  (af_MetaDataCount (length b) nPol nChan nAnt <= length meta)%nat -> (SymbolCount (length b) nPol nChan <= length sym)%nat ->
  (Z.of_nat (length b) <= 2 ^ 50)%Z -> nth_error b r = Some row ->
  exists meta' sym' out, af_encode fuel e nPol nChan nAnt (Some g) b meta sym = Some (Ok (meta', sym')) /\
    af_roundtrip fuel e nPol nChan nAnt (Some g) b meta sym r = Some (Ok out) /\ length out = (nPol * nChan)%nat /\
    forall i v im c a1 a2, nth_error (visibilities row) i = Some v -> counted v -> is_finite (part im v) = true -> signal i b ->
    nth_error meta' i = Some c -> usable c ->
    nth_error meta' (nPol * nChan + nAnt * (i mod nPol) + antenna1 row) = Some a1 -> usable a1 ->
    nth_error meta' (nPol * nChan + nAnt * (i mod nPol) + antenna2 row) = Some a2 -> usable a2 ->
    let x := B2R (part im v) in let phi := B2R c * B2R a1 * B2R a2 in let tol := bpow radix2 (-17) * B2R L * phi + bpow radix2 (-149) * (1 + phi) in
    B2R L * phi <= bpow radix2 125 -> (antenna1 row <> antenna2 row \/ Rabs x <= (1 - bpow radix2 (-17)) * B2R L * phi) ->
    Rabs x <= (1 + bpow radix2 (-17)) * B2R L * phi /\
    exists w j lo hi, nth_error out i = Some w /\ is_finite (part im w) = true /\
      nth_error (dec e) j = Some lo /\ nth_error (dec e) (S j) = Some hi /\
      B2R lo * phi - tol <= x <= B2R hi * phi + tol /\
      Rabs (B2R (part im w) - x) <= (B2R hi - B2R lo) * phi + tol.
Proof. exact af_bound. Qed.
Print Assumptions C20_af_error.

Example C20_example : levels ex3 two /\ rows_of (1 * 2) ablk /\ antennas_below 3 ablk /\ (forall i, (i < 2)%nat -> signal i ablk) /\
  amap (forallb fine) (af_encode 6 ex3 1 2 3 (dith 5) ablk (mbuf 5) (sbuf 16)) = Some true /\
  (forall x, fine x = true -> usable x) /\ (forall x y z, fine x = true -> fine y = true -> fine z = true -> B2R two * (B2R x * B2R y * B2R z) <= bpow radix2 125) /\
  amap (map show) (af_encode 6 ex3 1 2 3 (dith 5) ablk (mbuf 5) (sbuf 16)) = Some [Num 22314; Num 6449; Num 221; Num 1147; Num 1088] /\
  oshows (af_roundtrip 6 ex3 1 2 3 (dith 5) ablk (mbuf 5) (sbuf 16) 1) = Some [(Num 10240, Num 0); (Num 2959, Num 2959)].
Proof.
  split; [exact ex3_levels|]. split; [apply ablk_rows|]. split; [apply ablk_rows|]. split; [exact ablk_signal|]. split; [now vm_compute|].
  split; [intros x H; now apply fine_ok|]. split; [exact fine_phi|]. split; now vm_compute.
Qed.

(** Full statement (false): every finite sample with usable factors.  An
    autocorrelation is ignored in the fit: 100 is read as 2.03. *)
Theorem C20_autocorrelation_refuted : exists e L (b : tbb cf) row v, levels e L /\ rows_of (1 * 2) b /\ antennas_below 3 b /\ nth_error b 3 = Some row /\
  nth_error (visibilities row) 0 = Some v /\ show2 v = (Num (100 * 1024), Num 0) /\
  amap (forallb fine) (af_encode 6 e 1 2 3 (dith 5) b (mbuf 5) (sbuf 16)) = Some true /\
  oshows (af_roundtrip 6 e 1 2 3 (dith 5) b (mbuf 5) (sbuf 16) 3) = Some [(Num 2080, Num 0); (Num 601, NaN)].
Proof.
  exists ex3, two, ablk. eexists. eexists. split; [exact ex3_levels|]. split; [apply ablk_rows|]. split; [apply ablk_rows|]. split; [reflexivity|]. split; [reflexivity|].
  split; [now vm_compute|]. split; now vm_compute.
Qed.
Print Assumptions C20_autocorrelation_refuted.

(** Full statement (false): every finite sample.  A block of autocorrelations only
    is read as NaN; an antenna that is in autocorrelations only gets factor zero and
    its 100 is read as 0. *)
Theorem C20_only_autocorrelations_refuted : exists e L (b : tbb cf), levels e L /\ rows_of (1 * 1) b /\ antennas_below 1 b /\
  (forall row v, In row b -> In v (visibilities row) -> show2 v = (Num (100 * 1024), Num (100 * 1024))) /\
  oshows (af_roundtrip 6 e 1 1 1 (dith 5) b (mbuf 2) (sbuf 2) 0) = Some [(NaN, NaN)].
Proof.
  exists ex3, two, [DRow 0 0 [(hf 200, hf 200)]]. split; [exact ex3_levels|]. split; [rows_tac|]. split; [rows_tac|]. split; [|now vm_compute].
  intros row v [<-|[]] [<-|[]]. now vm_compute.
Qed.
Print Assumptions C20_only_autocorrelations_refuted.

Theorem C20_dead_antenna_refuted : exists e L (b : tbb cf) row v, levels e L /\ rows_of (1 * 1) b /\ antennas_below 3 b /\ nth_error b 1 = Some row /\
  nth_error (visibilities row) 0 = Some v /\ show2 v = (Num (100 * 1024), Num (100 * 1024)) /\
  oshows (af_roundtrip 6 e 1 1 3 (dith 5) b (mbuf 4) (sbuf 4) 1) = Some [(Num 0, Num 0)].
Proof.
  exists ex3, two, [DRow 0 1 [(hf 2, hf 4)]; DRow 2 2 [(hf 200, hf 200)]]. eexists. eexists. split; [exact ex3_levels|]. split; [rows_tac|]. split; [rows_tac|].
  split; [reflexivity|]. split; [reflexivity|]. split; now vm_compute.
Qed.
Print Assumptions C20_dead_antenna_refuted.

(** ** C21.  [fuel] bounds the rounds of the do-while loop for each polarization; the
    result does not depend on it. *)
Theorem C21_af_terminates : forall e nPol nChan nAnt d b meta sym L, well_formed e -> MaxQuantity e = Ok L -> is_finite L = true -> 0 < B2R L ->
  rows_of (nPol * nChan) b -> antennas_below nAnt b -> (0 < nChan)%nat ->
  (af_MetaDataCount (length b) nPol nChan nAnt <= length meta)%nat -> (SymbolCount (length b) nPol nChan <= length sym)%nat ->
  exists x, forall fuel, (nChan + nAnt < fuel)%nat -> af_encode fuel e nPol nChan nAnt d b meta sym = Some (Ok x).
Proof. exact af_terminates. Qed.
Print Assumptions C21_af_terminates.

(** one round is not enough here *)
Example C21_example : well_formed ex3 /\ rows_of (1 * 2) tblk /\ antennas_below 3 tblk /\
  syms (af_encode 1 ex3 1 2 3 (dith 5) tblk (mbuf 5) (sbuf 16)) = None /\
  syms (af_encode 6 ex3 1 2 3 (dith 5) tblk (mbuf 5) (sbuf 16)) = Some [2; 2; 2; 2; 2; 2; 2; 2; 2; 0; 2; 2; 2; 0; 2; 2]%nat.
Proof. split; [exact (lv_wf _ _ ex3_levels)|]. split; [apply tblk_rows|]. split; [apply tblk_rows|]. split; now vm_compute. Qed.

(** ** C22 *)
Theorem C22_af_nonfinite : forall fuel e nPol nChan nAnt d b meta sym L r row, well_formed e -> MaxQuantity e = Ok L -> is_finite L = true -> 0 < B2R L ->
  rows_of (nPol * nChan) b -> antennas_below nAnt b -> (0 < nChan)%nat -> (nChan + nAnt < fuel)%nat ->
  (af_MetaDataCount (length b) nPol nChan nAnt <= length meta)%nat -> (SymbolCount (length b) nPol nChan <= length sym)%nat -> nth_error b r = Some row ->
  exists out, af_roundtrip fuel e nPol nChan nAnt d b meta sym r = Some (Ok out) /\
    forall i v im, nth_error (visibilities row) i = Some v -> is_finite (part im v) = false ->
    exists w, nth_error out i = Some w /\ is_nan (part im w) = true.
Proof. exact af_nonfinite. Qed.
Print Assumptions C22_af_nonfinite.

Theorem C22_af_influence : forall nPol nChan nAnt fuel e d b b' meta sym L, well_formed e -> MaxQuantity e = Ok L -> is_finite L = true -> 0 < B2R L ->
  rows_of (nPol * nChan) b -> antennas_below nAnt b -> same_counted b b' -> (0 < nChan)%nat -> (nChan + nAnt < fuel)%nat ->
  (af_MetaDataCount (length b) nPol nChan nAnt <= length meta)%nat -> (SymbolCount (length b) nPol nChan <= length sym)%nat ->
  exists m s s', af_encode fuel e nPol nChan nAnt d b meta sym = Some (Ok (m, s)) /\ af_encode fuel e nPol nChan nAnt d b' meta sym = Some (Ok (m, s')) /\
    forall r row row' i v im, nth_error b r = Some row -> nth_error b' r = Some row' -> nth_error (visibilities row) i = Some v -> nth_error (visibilities row') i = Some v ->
      nth_error s (r * (nPol * nChan * 2) + i * 2 + b2n im) = nth_error s' (r * (nPol * nChan * 2) + i * 2 + b2n im).
Proof. exact af_influence. Qed.
Print Assumptions C22_af_influence.

Example C22_af_example : rows_of (1 * 2) (ablk2 nan32 inf32) /\ antennas_below 3 (ablk2 nan32 inf32) /\ same_counted (ablk2 nan32 inf32) (ablk2 inf32 (hf 50)) /\
  oshows (af_roundtrip 6 ex3 1 2 3 (dith 5) (ablk2 nan32 inf32) (mbuf 5) (sbuf 8) 1) = Some [(NaN, NaN); (Num 1536, Num 1536)] /\
  oshows (af_roundtrip 6 ex3 1 2 3 (dith 5) (ablk2 inf32 (hf 50)) (mbuf 5) (sbuf 8) 1) = Some [(NaN, Num 1024); (Num 1536, Num 1536)].
Proof. split; [apply ablk2_rows|]. split; [apply ablk2_rows|]. split; [now apply same2|]. split; now vm_compute. Qed.

(** ** C23 *)
(** a channel of zeros: factor zero.  The stored factors of the two antennas must be
    finite, which is observable. *)
Theorem C23_af_zero_channel : forall fuel e nPol nChan nAnt d b meta sym L r row i, levels e L -> rows_of (nPol * nChan) b -> antennas_below nAnt b -> (0 < nChan)%nat -> (nChan + nAnt < fuel)%nat ->
  (af_MetaDataCount (length b) nPol nChan nAnt <= length meta)%nat -> (SymbolCount (length b) nPol nChan <= length sym)%nat ->
  (Z.of_nat (length b) <= 2 ^ 50)%Z -> (Z.of_nat nAnt <= 2 ^ 50)%Z -> nth_error b r = Some row -> (i < nPol * nChan)%nat -> quiet i b -> seen i b ->
  exists meta' sym' out, af_encode fuel e nPol nChan nAnt d b meta sym = Some (Ok (meta', sym')) /\ af_roundtrip fuel e nPol nChan nAnt d b meta sym r = Some (Ok out) /\
    (exists c, nth_error meta' i = Some c /\ is_finite c = true /\ B2R c = 0) /\
    forall v im a1 a2, nth_error (visibilities row) i = Some v -> is_finite (part im v) = true ->
      nth_error meta' (nPol * nChan + nAnt * (i mod nPol) + antenna1 row) = Some a1 -> is_finite a1 = true ->
      nth_error meta' (nPol * nChan + nAnt * (i mod nPol) + antenna2 row) = Some a2 -> is_finite a2 = true ->
      exists w, nth_error out i = Some w /\ is_finite (part im w) = true /\ B2R (part im w) = 0.
Proof. exact af_zero_channel. Qed.
Print Assumptions C23_af_zero_channel.

Theorem C23_af_zero_block : forall fuel e nPol nChan nAnt d b meta sym L r row, levels e L -> rows_of (nPol * nChan) b -> antennas_below nAnt b -> (0 < nChan)%nat -> (nChan + nAnt < fuel)%nat ->
  (af_MetaDataCount (length b) nPol nChan nAnt <= length meta)%nat -> (SymbolCount (length b) nPol nChan <= length sym)%nat ->
  (Z.of_nat (length b * nChan) <= 2 ^ 50)%Z -> (Z.of_nat nAnt <= 2 ^ 50)%Z -> nth_error b r = Some row -> (forall i, quiet i b) ->
  exists out, af_roundtrip fuel e nPol nChan nAnt d b meta sym r = Some (Ok out) /\
    forall i v im, nth_error (visibilities row) i = Some v -> is_finite (part im v) = true -> seen i b ->
      exists w, nth_error out i = Some w /\ is_finite (part im w) = true /\ B2R (part im w) = 0.
Proof. exact af_zero_block. Qed.
Print Assumptions C23_af_zero_block.

Example C23_af_example : rows_of (1 * 2) azero /\ antennas_below 3 azero /\ quiet 1 azero /\ seen 1 azero /\
  amap (forallb is_finite) (af_encode 6 ex3 1 2 3 (dith (2 ^ 31 - 1)) azero (mbuf 5) (sbuf 8)) = Some true /\
  oshows (af_roundtrip 6 ex3 1 2 3 (dith (2 ^ 31 - 1)) azero (mbuf 5) (sbuf 8) 1) = Some [(Num 0, Num (-3583)); (Num 0, NaN)] /\
  rows_of (1 * 2) zblk /\ antennas_below 3 zblk /\ (forall i, quiet i zblk) /\ seen 0 zblk /\ seen 1 zblk /\
  oshows (af_roundtrip 6 ex3 1 2 3 (dith (2 ^ 31 - 1)) zblk (mbuf 5) (sbuf 8) 1) = Some [(NaN, Num 0); (Num 0, NaN)].
Proof.
  split; [apply azero_rows|]. split; [apply azero_rows|]. split; [apply quiet1|]. split; [apply quiet1|]. split; [now vm_compute|]. split; [now vm_compute|].
  split; [apply zblk_rows|]. split; [apply zblk_rows|]. split; [apply quietz|]. split; [apply quietz|]. split; [apply quietz|]. now vm_compute.
Qed.

(** Full statement (false): every finite component that is zero.  Without a sample
    of which both components are finite, everything in the channel is read as NaN. *)
Theorem C23_af_unseen_refuted : exists e L (b : tbb cf) row v, levels e L /\ rows_of (1 * 1) b /\ antennas_below 2 b /\ nth_error b 0 = Some row /\ nth_error (visibilities row) 0 = Some v /\
  is_finite (fst v) = true /\ B2R (fst v) = 0 /\ oshows (af_roundtrip 6 e 1 1 2 (dith 5) b (mbuf 3) (sbuf 2) 0) = Some [(NaN, NaN)].
Proof.
  exists ex3, two, [DRow 0 1 [(hf 0, nan32)]]. eexists. eexists. split; [exact ex3_levels|]. split; [rows_tac|]. split; [rows_tac|]. split; [reflexivity|]. split; [reflexivity|].
  split; [now vm_compute|]. split; [reflexivity|]. now vm_compute.
Qed.
Print Assumptions C23_af_unseen_refuted.

(** ** C24: buffers *)
Theorem C24_af_buffers : forall fuel e nPol nChan nAnt d b meta sym L, well_formed e -> MaxQuantity e = Ok L -> is_finite L = true -> 0 < B2R L ->
  rows_of (nPol * nChan) b -> antennas_below nAnt b -> (0 < nChan)%nat -> b <> [] -> (nChan + nAnt < fuel)%nat ->
  (af_MetaDataCount (length b) nPol nChan nAnt <= length meta)%nat -> (SymbolCount (length b) nPol nChan <= length sym)%nat ->
  filled e (af_MetaDataCount (length b) nPol nChan nAnt) (SymbolCount (length b) nPol nChan) meta sym (af_run fuel e nPol nChan nAnt d b).
Proof. exact af_filled. Qed.
Print Assumptions C24_af_buffers.

Definition ends_ub {A} (r : res A) : bool := match r with UB => true | _ => false end.
Example C24_af_example : rows_of (1 * 2) ablk /\ antennas_below 3 ablk /\ af_MetaDataCount 4 1 2 3 = 5%nat /\ SymbolCount 4 1 2 = 16%nat /\
  ends_ub (af_run 6 ex3 1 2 3 (dith 5) ablk (mbuf 4) (sbuf 16)) = true /\ ends_ub (af_run 6 ex3 1 2 3 (dith 5) ablk (mbuf 5) (sbuf 15)) = true /\
  (* an antenna index that is too large *)
  ends_ub (af_run 6 ex3 1 2 2 (dith 5) ablk (mbuf 9) (sbuf 16)) = true.
Proof. split; [apply ablk_rows|]. split; [apply ablk_rows|]. split; [reflexivity|]. split; [reflexivity|]. split; [now vm_compute|]. split; now vm_compute. Qed.
