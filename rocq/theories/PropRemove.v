(** Property theorems C56, continued: what decompress finds in the weights after it has
    moved the data.  Statements only. *)
From Verif Require Import Base Floats TimeBlockBuffer BytePacker File StMan StManSpec.
From Verif Require Import BitStream StochasticEncoder TimeBlockEncoders TbeSpec TbeExamples Weights WeightSpec Block BlockSpec Column ColumnSpec StoredColumn StoredTraces System SystemSpec SystemTraces UpdateSpec SessionSpec SystemSessions UpdateTraces DamageTraces Removal SystemRemove RemovalTraces PropSystem.
Local Open Scope N_scope.

(** ** C56 *)
(** Column [i] of a table that was stored is removed.  Then a row of another column is what
    the bytes decode to that are 24 positions before those of its block, in all blocks; it
    has as many values as it should have. *)
Theorem C56_weights_shifted : forall cfg T nt m0 D K L n na, writable cfg T nt m0 D K L n na ->
  forall m m3 i m4, stored_table cfg T nt m0 D K m -> opened_from m m3 -> removeColumn m3 i = Ok m4 ->
  nBlocksInFile m4 = nBlocksInFile m3 /\ (forall b, b < nBlocksInFile m3 <-> b * n < K) /\
  forall j, (j < length (columns m4))%nat -> exists col, nth_error (columns m4) j = Some col /\ nth_error (columns m3) (skip i j) = Some col /\
    forall b, b < nBlocksInFile m3 -> exists y rows, y = File.bytes (fil m3) (fst (region m3 b col) - 24) (N.to_nat (snd (region m3 b col))) /\
      rows = dec (colenv cfg T nt (skip i j)) n na b y /\ length rows = N.to_nat n /\ Forall (fun v => length v = (nPol_of (cfg (skip i j)) * nChan_of (cfg (skip i j)))%nat) rows /\
      forall r, r / n = b -> held_row (without i cfg) T nt m4 j r = nth_error rows (N.to_nat (r mod n)).
Proof. exact removal_shifted. Qed.
Print Assumptions C56_weights_shifted.

(** Full statement (false): decompress keeps data and weights.  The table of C63_example, in
    which the weights of rows 0 to 5 are those listed first: rows 0 to 5 of the data are
    read, the data are removed, rows 0 to 5 of the weights are read.  The data are right, none
    of the weights is. *)
Theorem C56_weights_refuted : exists m m3 m4 S S',
  writable ycfg exT 2 yman yD 6 yL 4 3 /\ stored_table ycfg exT 2 yman yD 6 m /\ opened_from m m3 /\
  sys_reading (fun _ => True) (sopen ycfg exT 2 m3) S /\ removeColumn m3 0 = Ok m4 /\
  sys_reading (fun _ => True) (sremove ycfg exT 2 0 S m4) S' /\
  map (fun r => option_map (map show2) (held_row ycfg exT 2 m 0 r)) [0; 1; 2; 3; 4; 5] = map snd (map (show1 show2) (rev (outs (cst ycfg exT 2 S 0)))) /\
  map (fun r => option_map (map show) (held_row ycfg exT 2 m 1 r)) [0; 1; 2; 3; 4; 5] =
    [Some [Num 1024; Num 1024; Num 0; Num 0]; Some [Num 4096; Num 4096; Num 1024; Num 1024]; Some [Num 2048; Num 2048; Num 3071; Num 3071];
     Some [Num 2048; Num 2048; Num 3071; Num 3071]; Some [Num 2048; Num 2048; Num 3072; Num 3072]; Some [Num 1024; Num 1024; Num 512; Num 512]] /\
  map (show1 show) (rev (outs (cst (without 0 ycfg) exT 2 S' 0))) =
    [(0, Some [Num 964; Num 964; Num 783; Num 783]); (1, Some [Num 395; Num 395; Num 512; Num 512]); (2, Some [Num 1194; Num 1194; Num 142; Num 142]);
     (3, Some [Num 980; Num 980; Num 297; Num 297]); (4, Some [Num 632; Num 632; Num 669; Num 669]); (5, Some [Num 936; Num 936; Num 420; Num 420])].
Proof.
  exists yman3, yopened, rman, rdata, rweights.
  refine (conj (proj1 C64_example) (conj ystored (conj ropened (conj rdata_reading (conj rremoved (conj rweights_reading (conj _ (conj _ _)))))))); vm_compute; reflexivity.
Qed.
Print Assumptions C56_weights_refuted.
