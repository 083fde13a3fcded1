(** Property theorems C62 to C65: all the columns of a storage manager.  Statements only. *)
From Verif Require Import Base Floats TimeBlockBuffer BytePacker File StMan StManSpec.
From Verif Require Import BitStream StochasticEncoder TimeBlockEncoders TbeSpec TbeExamples Weights WeightSpec Block BlockSpec Column ColumnSpec StoredColumn StoredTraces System SystemSpec SystemGood SystemFinal SystemAll SystemTraces.
Local Open Scope N_scope.

(** ** C62 *)
(** Whatever the other columns and their threads do, a column goes through states that it
    can go through on its own. *)
Theorem C62_alone : forall cfg T nt, nt <> 0%nat -> ants32 T -> forall S0 S : sys cfg T nt, sstart cfg T nt S0 -> sreach cfg T nt S0 S ->
  running cfg T nt S -> fits32 (man cfg T nt S) ->
  forall i, (i < ncol cfg T nt S)%nat -> starts (cst cfg T nt S0 i) /\ reach (cst cfg T nt S0 i) (cst cfg T nt S i).
Proof. exact columns_alone. Qed.
Print Assumptions C62_alone.

(** The block that a column wrote last (or found when the file was opened) is what it reads
    from the file. *)
Theorem C62_kept : forall cfg T nt, nt <> 0%nat -> ants32 T -> forall S0 S : sys cfg T nt, sstart cfg T nt S0 -> sreach cfg T nt S0 S ->
  running cfg T nt S -> fits32 (man cfg T nt S) ->
  forall i col b y, nth_error (columns (man cfg T nt S)) i = Some col -> file (cst cfg T nt S i) b = Some y ->
  b < nBlocksInFile (man cfg T nt S) /\ len y = co_blockSize col /\ readCompressedData (man cfg T nt S) b col (co_blockSize col) = Ok (Some y).
Proof. exact columns_keep. Qed.
Print Assumptions C62_kept.

(** Reading a block that exists does not fail, in any column. *)
Theorem C62_readable : forall cfg T nt, nt <> 0%nat -> ants32 T -> forall S0 S : sys cfg T nt, sstart cfg T nt S0 -> sreach cfg T nt S0 S ->
  running cfg T nt S -> fits32 (man cfg T nt S) ->
  forall i col b, nth_error (columns (man cfg T nt S)) i = Some col -> b < nBlocksInFile (man cfg T nt S) ->
  exists r, readCompressedData (man cfg T nt S) b col (co_blockSize col) = Ok r.
Proof. exact blocks_readable. Qed.
Print Assumptions C62_readable.

(** The block size is determined once: "initializeRowsPerBlock() called with different
    values" is never thrown. *)
Theorem C62_one_size : forall cfg T nt, nt <> 0%nat -> ants32 T -> forall S0 S : sys cfg T nt, sstart cfg T nt S0 -> sreach cfg T nt S0 S ->
  running cfg T nt S -> fits32 (man cfg T nt S) ->
  forall i n m c, (i < ncol cfg T nt S)%nat -> i = active cfg T nt S -> code (cst cfg T nt S i) = ISetRpb n m :: c ->
  exists m', initializeRowsPerBlock (man cfg T nt S) n (N.of_nat m) true = Ok m'.
Proof. exact no_second_init. Qed.
Print Assumptions C62_one_size.

(** ** C63 *)
(** Rows 0, ..., K-1 are put in every column, the table is closed, opened again and read. *)
Theorem C63_written_read : forall cfg T nt, nt <> 0%nat -> ants32 T ->
  forall m0 (D : forall i, N -> list (data (colenv cfg T nt i))) K (L : nat -> f32),
  (forall i r, (nPol_of (cfg i) * nChan_of (cfg i) <= length (D i r))%nat) -> new_table cfg m0 ->
  (forall i, coldef_ok (cfg i) (L i)) -> (forall i, data_ok (cfg i) (D i)) ->
  forall ks S n na, sys_order cfg T nt m0 D K ks S -> running cfg T nt S -> fits32 (man cfg T nt S) -> all_closed S ->
  n < K -> first_block (colenv cfg T nt 0) n -> antenna_count (colenv cfg T nt 0) n na ->
  (forall i, (i < ncol cfg T nt S)%nat -> af_of (cfg i) = true -> forall r, fst (t_ants T r) < na /\ snd (t_ants T r) < na)%nat ->
  forall mo nr, reopens (man cfg T nt S) mo ->
  exists m2 m3, openMan nr mo = Ok m2 /\ prepareMan m2 = Ok m3 /\ columns m3 = columns (man cfg T nt S) /\ rowsPerBlock m3 = n /\ antennaCount m3 = N.of_nat na /\ same_options m0 m3 /\
    forall S', sys_reading (fun r => r < K) (sopen cfg T nt m3) S' -> running cfg T nt S' /\ man cfg T nt S' = m3 /\
    forall i r a, (i < ncol cfg T nt S)%nat -> In (r, a) (outs (cst cfg T nt S' i)) -> r < K /\ exists out x y, a = AVals out /\
      exact_block (colenv cfg T nt i) (D i) K n (r / n) x /\ file (cst cfg T nt S i) (r / n) = Some y /\
      kept (cfg i) (L i) na x (floats (nMetaFloats (codec_of (cfg i)) (N.to_nat n) na) y)
        (DRow (fst (t_ants T r)) (snd (t_ants T r)) (firstn (nPol_of (cfg i) * nChan_of (cfg i)) (D i r))) out.
Proof. intros cfg T nt NT HA m0 D K L HD New Co Da. exact (written_read_all cfg T nt allA NT (allA_below T HA) allA_32 m0 D K L HD New Co Da). Qed.
Print Assumptions C63_written_read.

(** Two columns, data and weights; the columns in turns, threads running in between; the
    first column that comes to row 4 finds the block size, while the other has three rows. *)
Example C63_example :
  (2 <> 0)%nat /\ ants32 exT /\ (forall i r, (nPol_of (ycfg i) * nChan_of (ycfg i) <= length (yD i r))%nat) /\ new_table ycfg yman /\
  (forall i, coldef_ok (ycfg i) (yL i)) /\ (forall i, data_ok (ycfg i) (yD i)) /\
  sys_order ycfg exT 2 yman yD 6 (fst ywrote) yend /\ running ycfg exT 2 yend /\ fits32 (man ycfg exT 2 yend) /\ all_closed yend /\
  first_block (colenv ycfg exT 2 0) 4 /\ antenna_count (colenv ycfg exT 2 0) 4 3 /\
  (forall i, (i < ncol ycfg exT 2 yend)%nat -> af_of (ycfg i) = true -> forall r, fst (t_ants exT r) < 3 /\ snd (t_ants exT r) < 3)%nat /\
  reopens (man ycfg exT 2 yend) yagain /\ ncol ycfg exT 2 yend = 2%nat /\
  sys_reading (fun r => r < 6) (sopen ycfg exT 2 yopened) yback /\
  ydata = [(1, Some [(Num 4096, Num 4096); (Num 4526, NaN)]); (5, Some [(Num 1082, Num 1082); (Num 1536, Num 1536)])] /\
  yweights = [(0, Some [Num 1024; Num 1024; Num 0; Num 0]); (5, Some [Num 1024; Num 1024; Num 512; Num 512]); (1, Some [Num 4096; Num 4096; Num 1024; Num 1024])].
Proof.
  split; [discriminate|]. split; [exact yants|]. split; [exact ylong|]. split; [exact yman_new|]. split; [exact ycoldef|]. split; [exact ydata_ok|].
  split; [apply ywritten_order|]. split; [apply (runningb_ok ycfg exT 2 yg yv yD 6); vm_compute; reflexivity|]. split; [exact yfits|]. split; [apply (closedb_ok ycfg exT 2 yg yv yD 6); vm_compute; reflexivity|].
  split; [exact (ex_first (codec_of (ycfg 0)) true 2 2)|]. split; [exact (ex_ants (codec_of (ycfg 0)) true 2 2)|]. split; [intros _ _ _; exact exT_below|].
  split; [exact yreopens|]. split; [vm_compute; reflexivity|]. split; [exact yback_reading|]. split; vm_compute; reflexivity.
Qed.

(** C62 on the same run. *)
Example C62_example : sstart ycfg exT 2 (snew ycfg exT 2 yman) /\ sreach ycfg exT 2 (snew ycfg exT 2 yman) yend /\ running ycfg exT 2 yend /\ fits32 (man ycfg exT 2 yend) /\
  nBlocksInFile (man ycfg exT 2 yend) = 2 /\ file (cst ycfg exT 2 yend 0) 1 <> None /\ file (cst ycfg exT 2 yend 1) 1 <> None.
Proof.
  split; [exact ystart|]. split; [apply (order_reach (K := 6) (D := yD) (ks := fst ywrote)); apply ywritten_order|]. split; [apply (runningb_ok ycfg exT 2 yg yv yD 6); vm_compute; reflexivity|]. split; [exact yfits|].
  split; [vm_compute; reflexivity|]. split; vm_compute; discriminate.
Qed.

(** ** C64 *)
(** While a table that can be written is written in row order, no call fails, in any column
    and whatever the threads do. *)
Theorem C64_never_fails : forall cfg T nt m0 D K L n na, writable cfg T nt m0 D K L n na ->
  forall ks S, sys_order cfg T nt m0 D K ks S -> running cfg T nt S /\ fits32 (man cfg T nt S).
Proof. exact never_fails. Qed.
Print Assumptions C64_never_fails.

(** So closed, opened again and read, it holds what was put. *)
Theorem C64_round_trip : forall cfg T nt m0 D K L n na, writable cfg T nt m0 D K L n na ->
  forall ks S, sys_order cfg T nt m0 D K ks S -> all_closed S -> forall mo nr, reopens (man cfg T nt S) mo ->
  exists m2 m3, openMan nr mo = Ok m2 /\ prepareMan m2 = Ok m3 /\ columns m3 = columns (man cfg T nt S) /\ rowsPerBlock m3 = n /\ antennaCount m3 = N.of_nat na /\ same_options m0 m3 /\
    forall S', sys_reading (fun r => r < K) (sopen cfg T nt m3) S' -> running cfg T nt S' /\ man cfg T nt S' = m3 /\
    forall i r a, (i < ncol cfg T nt S)%nat -> In (r, a) (outs (cst cfg T nt S' i)) -> r < K /\ exists out x y, a = AVals out /\
      exact_block (colenv cfg T nt i) (D i) K n (r / n) x /\ file (cst cfg T nt S i) (r / n) = Some y /\
      kept (cfg i) (L i) na x (floats (nMetaFloats (codec_of (cfg i)) (N.to_nat n) na) y)
        (DRow (fst (t_ants T r)) (snd (t_ants T r)) (firstn (nPol_of (cfg i) * nChan_of (cfg i)) (D i r))) out.
Proof. exact round_trip. Qed.
Print Assumptions C64_round_trip.

(** ** C65 *)
(** Every call made while writing comes to its end, however the threads of all the columns
    take turns. *)
Theorem C65_writing_finishes : forall cfg T nt m0 D K L n na, writable cfg T nt m0 D K L n na ->
  forall ks S, sys_order cfg T nt m0 D K ks S -> sfinishes S.
Proof. exact writing_finishes. Qed.
Print Assumptions C65_writing_finishes.

(** At any moment, what is left can be written and the table closed. *)
Theorem C65_can_be_closed : forall cfg T nt m0 D K L n na, writable cfg T nt m0 D K L n na -> K <= 2 ^ 32 ->
  forall ks S, sys_order cfg T nt m0 D K ks S -> exists ks' S', sreach cfg T nt S S' /\ sys_order cfg T nt m0 D K ks' S' /\ all_closed S'.
Proof. exact can_be_closed. Qed.
Print Assumptions C65_can_be_closed.

(** The same for calls made while reading; a call that came to its end has an answer. *)
Theorem C65_reading_finishes : forall cfg T nt m0 D K L n na, writable cfg T nt m0 D K L n na ->
  forall ks S, sys_order cfg T nt m0 D K ks S -> all_closed S -> forall mo nr, reopens (man cfg T nt S) mo ->
  exists m2 m3, openMan nr mo = Ok m2 /\ prepareMan m2 = Ok m3 /\
    forall S', sys_reading (fun r => r < K) (sopen cfg T nt m3) S' -> sfinishes S' /\
      forall i r S1 S2, scall cfg T nt S' S1 i (Get r) -> r < K -> srun S1 S2 -> idle S2 ->
      exists a, outs (cst cfg T nt S2 i) = (r, a) :: outs (cst cfg T nt S' i).
Proof. exact reads_finish. Qed.
Print Assumptions C65_reading_finishes.

(** The table of C63_example. *)
Example C64_example : writable ycfg exT 2 yman yD 6 yL 4 3 /\ sys_order ycfg exT 2 yman yD 6 (fst ywrote) yend /\ all_closed yend /\ reopens (man ycfg exT 2 yend) yagain.
Proof.
  split; [|split; [apply ywritten_order|split; [apply (closedb_ok ycfg exT 2 yg yv yD 6); vm_compute; reflexivity|exact yreopens]]].
  constructor; [discriminate|exact yants|exact ylong|exact yman_new|exact ycoldef|exact ydata_ok|reflexivity|exact (ex_first (codec_of (ycfg 0)) true 2 2)|
    exact (ex_ants (codec_of (ycfg 0)) true 2 2)|repeat constructor|intros _ _ _; exact exT_below|reflexivity].
Qed.

(** In the middle of putting the fifth row: the first block has to be stored. *)
Example C65_example : writable ycfg exT 2 yman yD 6 yL 4 3 /\ exists ks S, sys_order ycfg exT 2 yman yD 6 ks S /\ (2 <= length (code (cst ycfg exT 2 S 0)))%nat.
Proof.
  split; [apply C64_example|]. exists (fst ymid), (snd ymid). split; [apply ywritten_order|]. vm_compute. lia.
Qed.
