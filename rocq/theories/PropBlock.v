(** Property theorems C24 (layout of a block) and C57.  Statements only. *)
From Coq Require Import Reals.
From Flocq Require Import Core.
From Verif Require Import Base Floats TimeBlockBuffer BytePacker BitStream StochasticEncoder EncSpec TimeBlockEncoders TbeSpec TbeExamples AfSpec AfExamples
  Weights WeightSpec Block BlockSpec PackPrefix BlockProofs BlockEnc BlockGood BytePackerProofs.

(** ** C24.  The bytes written are as many as CalculateBlockSize computes: the
    meta data as floats, then the packed symbols.  All accesses are within the
    buffers, also for a block with fewer than [nRows] rows. *)
Theorem C24_block_size : forall c bits nRows nAnt,
  CalculateBlockSize c bits nRows nAnt = 4 * metaDataFloatCount c nRows nAnt + N.to_nat (bufferSize (N.of_nat (symbolCount c nRows)) bits).
Proof. reflexivity. Qed.
Print Assumptions C24_block_size.

Theorem C24_row_block : forall e bits nPol nChan nRows nAnt L, bit_encoder e bits -> well_formed e -> MaxQuantity e = Ok L ->
  forall ants g b packed sym, rows_of (nPol * nChan) b -> length b <= nRows -> thread_buffers (row_codec e nPol nChan) bits nRows nAnt packed sym ->
  block_reads (row_codec e nPol nChan) bits nRows nAnt ants g b packed sym (fun meta sym => row_roundtrip e nPol nChan (Some g) b meta (map N.to_nat sym)).
Proof. exact row_block. Qed.
Print Assumptions C24_row_block.

Theorem C24_rf_block : forall e bits nPol nChan nRows nAnt L, bit_encoder e bits -> well_formed e -> MaxQuantity e = Ok L ->
  forall ants g b packed sym, rows_of (nPol * nChan) b -> length b <= nRows -> thread_buffers (rf_codec e nPol nChan) bits nRows nAnt packed sym ->
  block_reads (rf_codec e nPol nChan) bits nRows nAnt ants g b packed sym (fun meta sym => rf_roundtrip e nPol nChan (Some g) b meta (map N.to_nat sym)).
Proof. exact rf_block. Qed.
Print Assumptions C24_rf_block.

(** the antennas found when reading are below the antenna count also for the rows
    after the last row of the block *)
Theorem C24_af_block : forall e bits nPol nChan nRows nAnt L, bit_encoder e bits -> well_formed e -> MaxQuantity e = Ok L ->
  forall ants g b packed sym, is_finite L = true -> (0 < B2R L)%R -> rows_of (nPol * nChan) b -> antennas_below nAnt b -> 0 < nChan -> b <> [] -> length b <= nRows ->
  (forall r, r < nRows -> fst (ants r) < nAnt /\ snd (ants r) < nAnt) -> (forall r row, nth_error b r = Some row -> ants r = (antenna1 row, antenna2 row)) ->
  thread_buffers (af_codec e nPol nChan) bits nRows nAnt packed sym ->
  block_reads (af_codec e nPol nChan) bits nRows nAnt ants g b packed sym
    (fun meta sym r => match af_roundtrip (S (nChan + nAnt)) e nPol nChan nAnt (Some g) b meta (map N.to_nat sym) r with Some x => x | None => UB end).
Proof. exact af_block. Qed.
Print Assumptions C24_af_block.

Theorem C24_weight_block : forall nPol nChan bits nRows nAnt ants b packed sym, supported bits ->
  regular nPol nChan (map (@visibilities f32) b) -> Forall (Forall nonneg) (map (@visibilities f32) b) -> length b <= nRows ->
  thread_buffers (weight_codec nPol nChan bits) bits nRows nAnt packed sym ->
  block_reads (weight_codec nPol nChan bits) bits nRows nAnt ants tt b packed sym (fun _ _ => weights_readback nPol nChan bits b).
Proof. exact weight_block. Qed.
Print Assumptions C24_weight_block.

(** packing symbols of which only the first [m] are valid keeps these *)
Theorem C24_valid_symbols_kept : forall b m n dest symbols out0, supported b -> m <= n -> n <= length symbols ->
  N.to_nat (bufferSize (N.of_nat n) b) <= length dest -> n <= length out0 -> fits b (firstn m symbols) -> fits 8 dest ->
  exists packed out, pack b dest symbols n = Ok packed /\ length packed = length dest /\
    (forall k, N.to_nat (bufferSize (N.of_nat n) b) <= k -> nth_error packed k = nth_error dest k) /\
    unpack b out0 packed n = Ok out /\ length out = length out0 /\ fits b (firstn n out) /\ firstn m out = firstn m symbols.
Proof.
  exact (fun b m n dest symbols out0 H1 H2 H3 H4 H5 H6 H7 => match pack_prefix b m n dest symbols out0 H1 H2 H3 H4 H5 H6 H7 with
    ex_intro _ p (ex_intro _ o (conj a (conj b (conj _ c)))) => ex_intro _ p (ex_intro _ o (conj a (conj b c))) end).
Qed.
Print Assumptions C24_valid_symbols_kept.

(** ** C57.  What is read from the bytes of a block, whatever the buffers held before. *)
Theorem C57_row_bytes : forall e bits nPol nChan nRows nAnt L, bit_encoder e bits -> levels e L ->
  forall ants g b packed sym, rows_of (nPol * nChan) b -> length b <= nRows -> thread_buffers (row_codec e nPol nChan) bits nRows nAnt packed sym ->
  block_keeps (row_codec e nPol nChan) bits nRows nAnt ants g b packed sym (fun _ => row_good e L (nPol * nChan)).
Proof. exact row_keeps. Qed.
Print Assumptions C57_row_bytes.

Theorem C57_rf_bytes : forall e bits nPol nChan nRows nAnt L, bit_encoder e bits -> levels e L ->
  forall ants g b packed sym, rows_of (nPol * nChan) b -> length b <= nRows -> thread_buffers (rf_codec e nPol nChan) bits nRows nAnt packed sym ->
  block_keeps (rf_codec e nPol nChan) bits nRows nAnt ants g b packed sym (fun _ => rf_good e L nPol (nPol * nChan) b).
Proof. exact rf_keeps. Qed.
Print Assumptions C57_rf_bytes.

Theorem C57_af_bytes : forall e bits nPol nChan nRows nAnt L, bit_encoder e bits -> levels e L ->
  forall ants g b packed sym, rows_of (nPol * nChan) b -> antennas_below nAnt b -> 0 < nChan -> b <> [] -> length b <= nRows -> (Z.of_nat (length b) <= 2 ^ 50)%Z ->
  (forall r, r < nRows -> fst (ants r) < nAnt /\ snd (ants r) < nAnt) -> (forall r row, nth_error b r = Some row -> ants r = (antenna1 row, antenna2 row)) ->
  thread_buffers (af_codec e nPol nChan) bits nRows nAnt packed sym ->
  block_keeps (af_codec e nPol nChan) bits nRows nAnt ants g b packed sym (fun meta => af_good e L nPol (nPol * nChan) nAnt b meta).
Proof. exact af_keeps. Qed.
Print Assumptions C57_af_bytes.

Theorem C57_weight_bytes : forall nPol nChan bits nRows nAnt ants b packed sym, supported bits ->
  regular nPol nChan (map (@visibilities f32) b) -> Forall (Forall nonneg) (map (@visibilities f32) b) -> length b <= nRows ->
  thread_buffers (weight_codec nPol nChan bits) bits nRows nAnt packed sym ->
  exists m, largest_weight nPol nChan (map (@visibilities f32) b) m /\
    block_keeps (weight_codec nPol nChan bits) bits nRows nAnt ants tt b packed sym (fun meta row out => meta = [m] /\ weights_good nPol nChan bits m row out).
Proof. exact weight_keeps. Qed.
Print Assumptions C57_weight_bytes.

(** Blocks with one row less than a full block, buffers filled with rubbish.  The
    last row that is read is rubbish. *)
Definition rubbish (n : nat) : list N := map (fun i => N.of_nat (i * 37 mod 256)) (seq 0 n).
Definition reread (c : codec) (bits : N) (nRows nAnt : nat) (ants : nat -> nat * nat) (g : rand c) (b : tbb (sample c)) : res (list (list (sample c))) :=
  do (block, _) <- encodeAndWrite c bits nRows nAnt g b (rubbish (CalculateBlockSize c bits nRows nAnt)) (rubbish (nSymbols c nRows));
  loadBlock c bits nRows nAnt ants block (rubbish (nSymbols c nRows)).
Definition all_shown (r : res (list (list cf))) : option (list (list (shown * shown))) := match r with Ok l => Some (map (map show2) l) | _ => None end.
Definition weights_shown (r : res (list (list f32))) : option (list (list shown)) := match r with Ok l => Some (map (map show) l) | _ => None end.
Definition ablk_ants (r : nat) : nat * nat := match nth_error ablk r with Some x => (antenna1 x, antenna2 x) | None => (0, 0) end.
Definition wblk : tbb f32 := [DRow 0 1 [hf 2; hf 3; hf 0; hf 9]; DRow 0 2 [hf 8; hf 8; hf 3; hf 2]].

Lemma rubbish_fits w n : (8 <= w)%N -> fits w (rubbish n).
Proof.
  intro H. apply Forall_forall. intros x I. apply in_map_iff in I. destruct I as (i & <- & _).
  apply N.lt_le_trans with (2 ^ 8)%N; [|now apply N.pow_le_mono_r]. change (2 ^ 8)%N with (N.of_nat 256). pose proof (Nat.mod_upper_bound (i * 37) 256 ltac:(discriminate)). lia.
Qed.
Lemma rubbish_buffers c bits nRows nAnt : thread_buffers c bits nRows nAnt (rubbish (CalculateBlockSize c bits nRows nAnt)) (rubbish (nSymbols c nRows)).
Proof. repeat split; try (unfold rubbish; now rewrite map_length, seq_length); now apply rubbish_fits. Qed.
Lemma ex3_bits : bit_encoder ex3 2.
Proof. split; [vm_compute; tauto|reflexivity]. Qed.

Example C57_row_example : bit_encoder ex3 2 /\ levels ex3 two /\ rows_of (1 * 2) blk /\ length blk = 4 /\ CalculateBlockSize (row_codec ex3 1 2) 2 5 3 = 25 /\
  thread_buffers (row_codec ex3 1 2) 2 5 3 (rubbish 25) (rubbish 20) /\
  all_shown (reread (row_codec ex3 1 2) 2 5 3 (fun _ => (0, 1)) (fun _ => 5%Z) blk) = Some
    [[(Num 3072, Num 3072); (Num (-3072), Num 3072)]; [(Num 4096, Num 4096); (Num 4096, NaN)]; [(Num 0, Num 0); (Num 0, Num 0)];
     [(NaN, Num 1024); (Num 1024, Num 1024)]; [(Num 2471, Num 0); (NaN, NaN)]].
Proof.
  split; [exact ex3_bits|]. split; [exact ex3_levels|]. split; [exact blk_rows|]. split; [reflexivity|]. split; [reflexivity|].
  split; [exact (rubbish_buffers (row_codec ex3 1 2) 2 5 3)|]. now vm_compute.
Qed.

Example C57_rf_example : thread_buffers (rf_codec ex3 1 2) 2 5 3 (rubbish 33) (rubbish 20) /\
  all_shown (reread (rf_codec ex3 1 2) 2 5 3 (fun _ => (0, 1)) (fun _ => 5%Z) blk) = Some
    [[(Num 3072, Num 3072); (Num (-3072), Num 3072)]; [(Num 4096, Num 4096); (Num 4096, NaN)]; [(Num 0, Num 0); (Num 0, Num 0)];
     [(NaN, Num 1024); (Num 1024, Num 1024)]; [(Num 3764403746437399029403877376, Num 0); (NaN, NaN)]].
Proof. split; [exact (rubbish_buffers (rf_codec ex3 1 2) 2 5 3)|]. now vm_compute. Qed.

Example C57_af_example : rows_of (1 * 2) ablk /\ antennas_below 3 ablk /\ thread_buffers (af_codec ex3 1 2) 2 5 3 (rubbish 25) (rubbish 20) /\
  (forall r, r < 5 -> fst (ablk_ants r) < 3 /\ snd (ablk_ants r) < 3) /\ (forall r row, nth_error ablk r = Some row -> ablk_ants r = (antenna1 row, antenna2 row)) /\
  all_shown (reread (af_codec ex3 1 2) 2 5 3 ablk_ants (fun _ => 5%Z) ablk) = Some
    [[(Num 10799, Num 10799); (Num 3121, Num 3121)]; [(Num 10240, Num 0); (Num 2959, Num 2959)]; [(Num 53145, Num 0); (Num 15360, Num 15360)];
     [(Num 2080, Num 0); (Num 601, NaN)]; [(Num (-2080), Num 0); (NaN, NaN)]].
Proof.
  split; [apply ablk_rows|]. split; [apply ablk_rows|]. split; [exact (rubbish_buffers (af_codec ex3 1 2) 2 5 3)|].
  split; [intros r _; do 5 (destruct r as [|r]; [vm_compute; lia|]); unfold ablk_ants; replace (nth_error ablk (S (S (S (S (S r)))))) with (@None (drow cf)) by (now destruct r); vm_compute; lia|].
  split; [intros r row H; unfold ablk_ants; now rewrite H|]. now vm_compute.
Qed.

Example C57_weight_example : regular 2 2 (map (@visibilities f32) wblk) /\ thread_buffers (weight_codec 2 2 12) 12 3 3 (rubbish 13) (rubbish 6) /\
  weights_shown (reread (weight_codec 2 2 12) 12 3 3 (fun _ => (0, 1)) tt wblk) = Some
    [[Num 1024; Num 1024; Num 0; Num 0]; [Num 4096; Num 4096; Num 1024; Num 1024]; [Num 148; Num 148; Num 185; Num 185]].
Proof.
  split; [repeat constructor|]. split; [exact (rubbish_buffers (weight_codec 2 2 12) 12 3 3)|]. now vm_compute.
Qed.

(** Full statement (false): reading a block of which not all rows were written is
    defined for every table.  The antennas of the rows after the last one of the
    table are looked up too; one that is not below the antenna count leads out of
    bounds. *)
Theorem C24_short_block_antennas_refuted : exists e L b block ants, bit_encoder e 2 /\ levels e L /\ rows_of (1 * 2) b /\ antennas_below 3 b /\
  (exists bufs, encodeAndWrite (af_codec e 1 2) 2 5 3 (fun _ => 5%Z) b (rubbish 25) (rubbish 20) = Ok (block, bufs)) /\
  (forall r row, nth_error b r = Some row -> ants r = (antenna1 row, antenna2 row)) /\
  loadBlock (af_codec e 1 2) 2 5 3 ants block (rubbish 20) = UB.
Proof.
  destruct (encodeAndWrite (af_codec ex3 1 2) 2 5 3 (fun _ => 5%Z) ablk (rubbish 25) (rubbish 20)) as [[block bufs]| |] eqn:E.
  2,3: exfalso; assert (H : match encodeAndWrite (af_codec ex3 1 2) 2 5 3 (fun _ => 5%Z) ablk (rubbish 25) (rubbish 20) with Ok _ => true | _ => false end = true) by (now vm_compute); rewrite E in H; discriminate H.
  exists ex3, two, ablk, block, (fun r => match nth_error ablk r with Some x => (antenna1 x, antenna2 x) | None => (3, 3) end).
  split; [exact ex3_bits|]. split; [exact ex3_levels|]. split; [apply ablk_rows|]. split; [apply ablk_rows|]. split; [eauto|].
  split; [exact (fun r row H => f_equal (fun o => match o with Some x => (antenna1 x, antenna2 x) | None => (3, 3) end) H)|].
  assert (H : match (do (block, _) <- encodeAndWrite (af_codec ex3 1 2) 2 5 3 (fun _ => 5%Z) ablk (rubbish 25) (rubbish 20);
     loadBlock (af_codec ex3 1 2) 2 5 3 (fun r => match nth_error ablk r with Some x => (antenna1 x, antenna2 x) | None => (3, 3) end) block (rubbish 20)) with UB => true | _ => false end = true) by (now vm_compute).
  rewrite E in H. cbn [bind] in H. destruct (loadBlock _ _ _ _ _ _ _); [discriminate H|discriminate H|reflexivity].
Qed.
Print Assumptions C24_short_block_antennas_refuted.
