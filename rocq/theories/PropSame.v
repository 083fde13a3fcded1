(** Property theorems C71: a new table is read in the session in which it is written.
    Statements only. *)
From Coq Require Import Reals.
From Verif Require Import Base Floats TimeBlockBuffer BytePacker File StMan StManSpec.
From Verif Require Import BitStream StochasticEncoder TimeBlockEncoders TbeSpec TbeExamples Weights WeightSpec Block BlockSpec Column ColumnSpec ColumnTraces ColumnSession StoredColumn StoredTraces System SystemSpec SystemTraces UpdateSpec SessionSpec SystemSame UpdateTraces SameTraces PropColumn PropSystem PropUpdate.
Local Open Scope N_scope.

(** ** C71 *)
(** All rows of all columns were put, nothing is closed, and rows are read in any order.  No
    call fails, and every call comes to its end. *)
Theorem C71_never_fails : forall cfg T nt m0 D K L n na, writable cfg T nt m0 D K L n na ->
  forall ks S0 S, sys_order cfg T nt m0 D K ks S0 -> idle S0 -> (forall j, (j < ncol cfg T nt S0)%nat -> ks j = K /\ closed (cst cfg T nt S0 j) = false) ->
  sys_reading (fun r => r < K) S0 S -> running cfg T nt S /\ sfinishes S.
Proof. exact same_runs. Qed.
Print Assumptions C71_never_fails.

(** A row that is read is what was put, exactly, or what the file holds of it, with the error
    of C18, C20, C21 and C17; or it is zero.  It is zero only when its block was not in the
    file yet when it was read. *)
Theorem C71_reads : forall cfg T nt m0 D K L n na, writable cfg T nt m0 D K L n na ->
  forall ks S0, sys_order cfg T nt m0 D K ks S0 -> idle S0 -> (forall j, (j < ncol cfg T nt S0)%nat -> ks j = K /\ closed (cst cfg T nt S0 j) = false) ->
  forall S i r S1 S2, sys_reading (fun r => r < K) S0 S -> r < K -> scall cfg T nt S S1 i (Get r) -> srun S1 S2 -> idle S2 ->
  sys_reading (fun r => r < K) S0 S2 /\ exists a, outs (cst cfg T nt S2 i) = (r, a) :: outs (cst cfg T nt S i) /\
    ((a = AZero /\ nBlocksInFile (man cfg T nt S) <= r / n) \/
     exists v, a = AVals v /\
       (v = firstn (nPol_of (cfg i) * nChan_of (cfg i)) (D i r) \/
        exists x y, exact_block (colenv cfg T nt i) (D i) K n (r / n) x /\ enc (colenv cfg T nt i) n na x y /\
          kept (cfg i) (L i) na x (floats (nMetaFloats (codec_of (cfg i)) (N.to_nat n) na) y)
            (DRow (fst (t_ants T r)) (snd (t_ants T r)) (firstn (nPol_of (cfg i) * nChan_of (cfg i)) (D i r))) v)).
Proof. exact same_get. Qed.
Print Assumptions C71_reads.

(** Reading does no harm: closed after that and opened again, the table holds every row of
    every column as C64 says.  (Theorems C68, C69 and C70 are about such a table too.) *)
Theorem C71_stored : forall cfg T nt m0 D K L n na, writable cfg T nt m0 D K L n na ->
  forall ks S0, sys_order cfg T nt m0 D K ks S0 -> idle S0 -> (forall j, (j < ncol cfg T nt S0)%nat -> ks j = K /\ closed (cst cfg T nt S0 j) = false) ->
  forall S mo nr, sys_reading (fun r => r < K) S0 S -> all_closed S -> reopens (man cfg T nt S) mo ->
  exists m2 m3, openMan nr mo = Ok m2 /\ prepareMan m2 = Ok m3 /\
    columns m3 = columns (man cfg T nt S) /\ rowsPerBlock m3 = n /\ antennaCount m3 = N.of_nat na /\ same_options m0 m3 /\
    forall i r, (i < length (columns m3))%nat -> r < K -> exists out x y, held_row cfg T nt m3 i r = Some out /\ held_block cfg T nt m3 i (r / n) = Some y /\
      exact_block (colenv cfg T nt i) (D i) K n (r / n) x /\ enc (colenv cfg T nt i) n na x y /\
      kept (cfg i) (L i) na x (floats (nMetaFloats (codec_of (cfg i)) (N.to_nat n) na) y)
        (DRow (fst (t_ants T r)) (snd (t_ants T r)) (firstn (nPol_of (cfg i) * nChan_of (cfg i)) (D i r))) out.
Proof. exact same_reopened. Qed.
Print Assumptions C71_stored.

(** The table of C63_example with all rows put.  Row 5 of the data is read as zero (its block
    is in the buffer, and not in the file); then row 1; then row 5 again, which is now in the
    file; then weights.  After that the table is closed. *)
Example C71_example :
  writable ycfg exT 2 yman yD 6 yL 4 3 /\ sys_order ycfg exT 2 yman yD 6 (fst swrote) sput /\ idle sput /\
  (forall j, (j < ncol ycfg exT 2 sput)%nat -> fst swrote j = 6 /\ closed (cst ycfg exT 2 sput j) = false) /\
  sys_reading (fun r => r < 6) sput smid /\ idle smid /\ sys_reading (fun r => r < 6) sput sdone /\ all_closed sdone /\
  reopens (man ycfg exT 2 sdone) (again (fil (man ycfg exT 2 sdone))) /\ stored_table ycfg exT 2 yman yD 6 (man ycfg exT 2 sdone) /\
  nBlocksInFile (man ycfg exT 2 sput) = 1 /\
  souts = ([(5, Some [(Num 1082, Num 1082); (Num 1536, Num 1536)]); (1, Some [(Num 4096, Num 4096); (Num 4526, NaN)]); (5, None)],
           [(4, Some [Num 2048; Num 2048; Num 3072; Num 3072]); (2, Some [Num 2048; Num 2048; Num 3071; Num 3071])]) /\
  shown_rows (man ycfg exT 2 sdone) = shown_rows yopened.
Proof.
  refine (conj (proj1 C64_example) (conj sput_order (conj sput_idle (conj sput_open (conj smid_reading (conj smid_idle (conj sdone_reading (conj sdone_closed (conj sdone_reopens (conj sdone_stored _)))))))))).
  split; [vm_compute; reflexivity|]. split; vm_compute; reflexivity.
Qed.

(** Full statement (false): a row that is read in this session has what was put.  Here all
    rows of both columns are read in order, as a copy of the table does, before an encoding
    thread has written a block: every answer is zero. *)
Theorem C71_zeros_refuted : exists D L ks S0 S,
  writable ycfg exT 2 yman D 6 L 4 3 /\ sys_order ycfg exT 2 yman D 6 ks S0 /\ idle S0 /\
  (forall j, (j < ncol ycfg exT 2 S0)%nat -> ks j = 6 /\ closed (cst ycfg exT 2 S0 j) = false) /\
  sys_reading (fun r => r < 6) S0 S /\ idle S /\ map show (D 1%nat 0) = [Num 1024; Num 1536; Num 0; Num 4608] /\
  forall i, (i < ncol ycfg exT 2 S)%nat -> outs (cst ycfg exT 2 S i) = [(5, AZero); (4, AZero); (3, AZero); (2, AZero); (1, AZero); (0, AZero)].
Proof.
  exact (ex_intro _ yD (ex_intro _ yL (ex_intro _ (fst twrote) (ex_intro _ tput (ex_intro _ tmid
    (conj (proj1 C64_example) (conj tput_order (conj tput_idle (conj tput_open (conj tmid_reading (conj tmid_idle (conj tweights tmid_outs)))))))))))).
Qed.
Print Assumptions C71_zeros_refuted.

(** The rows of the last block are always read as zero, whatever the threads do, until a row
    of another block is read or the table is closed. *)
Theorem C71_last_block_refuted : forall cfg T nt m0 D K L n na, writable cfg T nt m0 D K L n na ->
  forall ks S0 S, sys_order cfg T nt m0 D K ks S0 -> idle S0 -> (forall j, (j < ncol cfg T nt S0)%nat -> ks j = K /\ closed (cst cfg T nt S0 j) = false) ->
  sys_reading (fun r => r < K /\ r / n = (K - 1) / n) S0 S -> (forall j, (j < ncol cfg T nt S)%nat -> closed (cst cfg T nt S j) = false) ->
  forall j, (j < ncol cfg T nt S)%nat -> exists l, outs (cst cfg T nt S j) = l ++ outs (cst cfg T nt S0 j) /\ Forall (fun a => snd a = AZero) l.
Proof. exact last_block_answers. Qed.
Print Assumptions C71_last_block_refuted.
Example C71_last_block_example : sys_reading (fun r => r < 6 /\ r / 4 = (6 - 1) / 4) sput slast /\ slast_open = true /\
  outs (cst ycfg exT 2 slast 0) = [(4, AZero); (5, AZero)] /\ outs (cst ycfg exT 2 slast 1) = [(4, AZero)].
Proof. split; [exact slast_reading|]. split; [vm_compute; reflexivity|]. split; vm_compute; reflexivity. Qed.

(** With one time block, which fails only when it is closed (C39), every row that is read
    before is zero, whatever the threads do. *)
Theorem C71_single_block_refuted : forall e (D : N -> list (data e)), (nthreads e <> 0)%nat -> (forall r, (nSamp e <= length (D r))%nat) -> forall k, k < 2 ^ 32 ->
  (forall r, r < k -> same_keys e r 0) ->
  (exists s0, in_order False D k s0 /\ status s0 = Running /\ code s0 = [] /\ closed s0 = false) /\
  forall s0 ok s, in_order False D k s0 -> status s0 = Running -> code s0 = [] -> closed s0 = false -> reading ok s0 s -> closed s = false ->
    status s = Running /\ exists l, outs s = l ++ outs s0 /\ Forall (fun a => snd a = AZero) l.
Proof. exact @single_block_reads. Qed.
Print Assumptions C71_single_block_refuted.
Example C71_single_block_example : nthreads (toy 2 1) = 1%nat /\ (forall r, (nSamp (toy 2 1) <= length (toyD r))%nat) /\ forall r, r < 2 -> same_keys (toy 2 1) r 0.
Proof. split; [reflexivity|]. split; [intros r; cbn; lia|exact C39_example]. Qed.
