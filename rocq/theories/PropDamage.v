(** Property theorems C69: a table of which the file was damaged is read.  Statements only. *)
From Verif Require Import Base Floats TimeBlockBuffer BytePacker File StMan StManSpec.
From Verif Require Import BitStream StochasticEncoder TimeBlockEncoders TbeSpec TbeExamples Weights WeightSpec Block BlockSpec Column ColumnSpec StoredColumn StoredTraces System SystemSpec SystemTraces UpdateSpec SessionSpec DamageSpec SystemSessions SystemDamage UpdateTraces DamageTraces PropSystem.
Local Open Scope N_scope.

(** ** C69 *)
(** Whatever happened to the bytes behind the header, and wherever the file ends behind it:
    the table opens, with the columns, the rows per block, the antennas and the options it
    had.  Its blocks are those that are entirely in the file. *)
Theorem C69_opens : forall cfg T nt m0 D K L n na, writable cfg T nt m0 D K L n na ->
  forall m mo nr, stored_table cfg T nt m0 D K m -> damaged m mo -> exists m2 m3, openMan nr mo = Ok m2 /\ prepareMan m2 = Ok m3 /\
    columns m3 = columns m /\ rowsPerBlock m3 = n /\ antennaCount m3 = N.of_nat na /\ same_options m0 m3 /\ fil m3 = fil mo /\ forall b, b < nBlocksInFile m3 <-> whole_block m mo b.
Proof. exact damage_opens. Qed.
Print Assumptions C69_opens.

(** No call that reads fails, for any row whatsoever; every call comes to its end; and reading
    changes nothing. *)
Theorem C69_never_fails : forall cfg T nt m0 D K L n na, writable cfg T nt m0 D K L n na ->
  forall m mo nr m2 m3, stored_table cfg T nt m0 D K m -> damaged m mo -> openMan nr mo = Ok m2 -> prepareMan m2 = Ok m3 ->
  forall S, sys_reading (fun _ => True) (sopen cfg T nt m3) S -> running cfg T nt S /\ man cfg T nt S = m3 /\ sfinishes S.
Proof. exact damage_runs. Qed.
Print Assumptions C69_never_fails.

(** A row is answered with what its block in the file decodes to; with zeros when the block is
    not entirely in the file. *)
Theorem C69_reads : forall cfg T nt m0 D K L n na, writable cfg T nt m0 D K L n na ->
  forall m mo nr m2 m3, stored_table cfg T nt m0 D K m -> damaged m mo -> openMan nr mo = Ok m2 -> prepareMan m2 = Ok m3 ->
  forall S i r S1 S2, sys_reading (fun _ => True) (sopen cfg T nt m3) S -> scall cfg T nt S S1 i (Get r) -> srun S1 S2 -> idle S2 ->
  exists a, outs (cst cfg T nt S2 i) = (r, a) :: outs (cst cfg T nt S i) /\ match held_row cfg T nt m3 i r with Some v => a = AVals v | None => a = AZero end.
Proof. exact damage_get. Qed.
Print Assumptions C69_reads.

(** There are as many values as the column has in a row. *)
Theorem C69_rows : forall cfg T nt m0 D K L n na, writable cfg T nt m0 D K L n na ->
  forall m mo nr m2 m3, stored_table cfg T nt m0 D K m -> damaged m mo -> openMan nr mo = Ok m2 -> prepareMan m2 = Ok m3 ->
  forall i r, (i < length (columns m))%nat -> (whole_block m mo (r / n) <-> held_row cfg T nt m3 i r <> None) /\
    forall v, held_row cfg T nt m3 i r = Some v -> length v = (nPol_of (cfg i) * nChan_of (cfg i))%nat.
Proof. exact damage_row. Qed.
Print Assumptions C69_rows.

(** Damage does not spread: the rows of a block of which the bytes of this column were not
    changed are read as if nothing had happened. *)
Theorem C69_intact : forall cfg T nt m0 D K L n na, writable cfg T nt m0 D K L n na ->
  forall m mo nr m2 m3, stored_table cfg T nt m0 D K m -> damaged m mo -> openMan nr mo = Ok m2 -> prepareMan m2 = Ok m3 ->
  forall i r, (i < length (columns m))%nat -> r < K -> whole_block m mo (r / n) -> intact m mo i (r / n) -> held_row cfg T nt m3 i r = held_row cfg T nt m i r.
Proof. exact damage_intact. Qed.
Print Assumptions C69_intact.

(** The table of C63_example.  Four bytes of the data in the first block were overwritten, and
    the last byte of the file was lost.  Rows read of the data and of the weights, last
    first: a value of row 1 has become NaN, the weights of rows 0 and 1 are as they were, the
    rows of the second block and a row that never existed are zero ([None]). *)
Example C69_example :
  writable ycfg exT 2 yman yD 6 yL 4 3 /\ stored_table ycfg exT 2 yman yD 6 yman3 /\ damaged yman3 dagain /\
  (openMan 6 dagain = Ok (opened_twice 6 dagain) /\ prepareMan (opened_twice 6 dagain) = Ok dopened) /\
  intact yman3 dagain 1 0 /\ whole_block yman3 dagain 0 /\ ~ whole_block yman3 dagain 1 /\
  sys_reading (fun _ => True) (sopen ycfg exT 2 dopened) dback /\ all_closed dback /\
  douts = ([(1000, None); (5, None); (1, Some [(Num 4096, Num 4096); (NaN, NaN)])],
           [(0, Some [Num 1024; Num 1024; Num 0; Num 0]); (5, None); (1, Some [Num 4096; Num 4096; Num 1024; Num 1024])]).
Proof.
  pose proof (proj1 C64_example) as W.
  refine (conj W (conj ystored (conj (ddamaged yL W) (conj dopens (conj (proj1 (dintact yL W)) (conj (proj2 (dintact yL W)) (conj (dlost yL W) (conj dback_reading (conj dback_closed _))))))))).
  vm_compute. reflexivity.
Qed.

(** That rows were lost is not reported: a row of the table, read from a file that lacks its
    last byte, is answered with zeros. *)
Theorem C69_lost_rows_reported_refuted : exists D L m mo m2 m3 S r v,
  writable ycfg exT 2 yman D 6 L 4 3 /\ stored_table ycfg exT 2 yman D 6 m /\ damaged m mo /\ openMan 6 mo = Ok m2 /\ prepareMan m2 = Ok m3 /\ sys_reading (fun _ => True) (sopen ycfg exT 2 m3) S /\
  r < 6 /\ held_row ycfg exT 2 m 1 r = Some v /\ map show v = [Num 1024; Num 1024; Num 512; Num 512] /\ In (r, AZero) (outs (cst ycfg exT 2 S 1)).
Proof. exact (dlost_rows_of (proj1 C64_example)). Qed.
Print Assumptions C69_lost_rows_reported_refuted.
