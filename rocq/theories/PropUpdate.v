(** Property theorems C68: rows of a table that was written before are overwritten.
    Statements only. *)
From Coq Require Import Reals.
From Verif Require Import Base Floats TimeBlockBuffer BytePacker File StMan StManSpec.
From Verif Require Import BitStream StochasticEncoder TimeBlockEncoders TbeSpec TbeExamples Weights WeightSpec Block BlockSpec Column ColumnSpec StoredColumn StoredTraces System SystemSpec SystemTraces UpdateSpec SessionSpec SystemSessions UpdateTraces PropSystem.
Local Open Scope N_scope.

(** ** C68 *)
(** A table that was written and closed, and after that opened, read or changed, and closed
    any number of times, opens; it has the same columns and options, and holds a value for
    every row. *)
Theorem C68_opens : forall cfg T nt m0 D K L n na, writable cfg T nt m0 D K L n na ->
  forall m mo nr, stored_table cfg T nt m0 D K m -> reopens m mo -> exists m2 m3, openMan nr mo = Ok m2 /\ prepareMan m2 = Ok m3 /\
    columns m3 = columns m /\ rowsPerBlock m3 = n /\ antennaCount m3 = N.of_nat na /\ same_options m0 m3 /\
    (forall i b, held_block cfg T nt m3 i b = held_block cfg T nt m i b) /\ (forall i r, held_row cfg T nt m3 i r = held_row cfg T nt m i r) /\
    forall i r, (i < length (columns m3))%nat -> r < K -> exists v, held_row cfg T nt m3 i r = Some v.
Proof. exact stored_opens. Qed.
Print Assumptions C68_opens.

(** No call that reads or puts a row fails, and every call comes to its end, as long as the
    calls of a column do not go back to an earlier block (see C36 for why). *)
Theorem C68_never_fails : forall cfg T nt m0 D K L n na, writable cfg T nt m0 D K L n na ->
  forall m m3 l bs S, stored_table cfg T nt m0 D K m -> opened_from m m3 -> sys_updating cfg T nt (fun r => r < K) m3 l bs S ->
  running cfg T nt S /\ sfinishes S.
Proof. exact stored_session. Qed.
Print Assumptions C68_never_fails.

(** A row that is read is what was put last in it, exactly; or, when nothing was put, what
    the file held. *)
Theorem C68_reads : forall cfg T nt m0 D K L n na, writable cfg T nt m0 D K L n na ->
  forall m m3 l bs S i r S1 S2, stored_table cfg T nt m0 D K m -> opened_from m m3 -> sys_updating cfg T nt (fun r => r < K) m3 l bs S ->
  r < K -> bs i <= r / n -> scall cfg T nt S S1 i (Get r) -> srun S1 S2 -> idle S2 ->
  exists v, outs (cst cfg T nt S2 i) = (r, AVals v) :: outs (cst cfg T nt S i) /\ row_now cfg T nt m l i r = Some v.
Proof. exact stored_get. Qed.
Print Assumptions C68_reads.

(** When the table is closed: the blocks in which no row was put have not changed by a byte.
    The other blocks are the encodings of their rows as they were read at the end, and decode
    to values as close to those as C18, C20, C21 and C17 say ([kept]). *)
Theorem C68_stored : forall cfg T nt m0 D K L n na, writable cfg T nt m0 D K L n na ->
  forall m m3 l bs S, stored_table cfg T nt m0 D K m -> opened_from m m3 -> sys_updating cfg T nt (fun r => r < K) m3 l bs S -> all_closed S ->
  stored_table cfg T nt m0 D K (man cfg T nt S) /\ columns (man cfg T nt S) = columns m /\ forall i, (i < length (columns m))%nat ->
    (forall b, (forall r, r / n = b -> last_put cfg T nt l i r = None) -> held_block cfg T nt (man cfg T nt S) i b = held_block cfg T nt m i b) /\
    (forall r, (forall r', r' / n = r / n -> last_put cfg T nt l i r' = None) -> held_row cfg T nt (man cfg T nt S) i r = held_row cfg T nt m i r) /\
    (forall b r0, r0 / n = b -> last_put cfg T nt l i r0 <> None -> exists x y, held_block cfg T nt (man cfg T nt S) i b = Some y /\ enc (colenv cfg T nt i) n na x y /\ length x = N.to_nat n /\
      forall k row, nth_error x k = Some row -> (antenna1 row, antenna2 row) = t_ants T (b * n + N.of_nat k) /\ row_now cfg T nt m l i (b * n + N.of_nat k) = Some (visibilities row) /\
        exists out, held_row cfg T nt (man cfg T nt S) i (b * n + N.of_nat k) = Some out /\
          kept (cfg i) (L i) na x (floats (nMetaFloats (codec_of (cfg i)) (N.to_nat n) na) y) row out).
Proof. exact stored_closed. Qed.
Print Assumptions C68_stored.

(** The table of C63_example opened again: weights of rows 3 and 0 and data of row 4 put,
    rows read in between, closed.  Data and weights of the table before and after. *)
Definition shown_rows (m : stman) : list (option (list (shown * shown))) * list (option (list shown)) :=
  (map (fun r => option_map (map show2) (held_row ycfg exT 2 m 0 r)) [0; 1; 2; 3; 4; 5], map (fun r => option_map (map show) (held_row ycfg exT 2 m 1 r)) [0; 1; 2; 3; 4; 5]).
Example C68_example :
  writable ycfg exT 2 yman yD 6 yL 4 3 /\ stored_table ycfg exT 2 yman yD 6 (man ycfg exT 2 yend) /\ reopens (man ycfg exT 2 yend) yagain /\ opened_from (man ycfg exT 2 yend) yopened /\
  sys_updating ycfg exT 2 (fun r => r < 6) yopened (u_puts zrun) (u_at zrun) zend /\ all_closed zend /\ length (u_puts zrun) = 3%nat /\
  zouts = ([(4, Some [(Num 512, Num 1024); (Num 1536, Num 2048)]); (1, Some [(Num 4096, Num 4096); (Num 4526, NaN)])],
           [(5, Some [Num 1024; Num 1024; Num 512; Num 512]); (3, Some [Num 1024; Num 1024; Num 512; Num 512])]) /\
  shown_rows yopened =
    ([Some [(Num 2779, Num 2779); (Num (-3071), Num 3071)]; Some [(Num 4096, Num 4096); (Num 4526, NaN)]; Some [(Num 0, Num 0); (Num 0, Num 0)];
      Some [(NaN, Num 1622); (Num 1792, Num 1792)]; Some [(Num 2560, Num (-2560)); (Num 3633, Num 3633)]; Some [(Num 1082, Num 1082); (Num 1536, Num 1536)]],
     [Some [Num 1024; Num 1024; Num 0; Num 0]; Some [Num 4096; Num 4096; Num 1024; Num 1024]; Some [Num 2048; Num 2048; Num 3071; Num 3071];
      Some [Num 2048; Num 2048; Num 3071; Num 3071]; Some [Num 2048; Num 2048; Num 3072; Num 3072]; Some [Num 1024; Num 1024; Num 512; Num 512]]) /\
  shown_rows (man ycfg exT 2 zend) =
    ([Some [(Num 2779, Num 2779); (Num (-3071), Num 3071)]; Some [(Num 4096, Num 4096); (Num 4526, NaN)]; Some [(Num 0, Num 0); (Num 0, Num 0)];
      Some [(NaN, Num 1622); (Num 1792, Num 1792)]; Some [(Num 1061, Num 1061); (Num 2047, Num 2047)]; Some [(Num 1082, Num 1082); (Num 2087, Num 2087)]],
     [Some [Num 8192; Num 8192; Num 2048; Num 2048]; Some [Num 4097; Num 4097; Num 1024; Num 1024]; Some [Num 2048; Num 2048; Num 3072; Num 3072];
      Some [Num 1024; Num 1024; Num 512; Num 512]; Some [Num 2048; Num 2048; Num 3072; Num 3072]; Some [Num 1024; Num 1024; Num 512; Num 512]]).
Proof.
  refine (conj (proj1 C64_example) (conj ystored (conj yreopens (conj yopened_from (conj zrun_updating (conj zend_closed _)))))). split; [vm_compute; reflexivity|]. split; [vm_compute; reflexivity|].
  split; vm_compute; reflexivity.
Qed.

(** The error is not bounded by the values of the rows of the table.  The last block of a
    table may have less rows than the others.  The rows that are missing then hold the
    symbols which the thread had left over, and are re-encoded with the others.  Here all
    rows of the last block get the same small weight, and are read back as zero, although
    these are the largest weights in the block. *)
Theorem C68_short_block_refuted : exists D L m m3 l bs S (w : f32),
  writable ycfg exT 2 yman D 6 L 4 3 /\ stored_table ycfg exT 2 yman D 6 m /\ opened_from m m3 /\ sys_updating ycfg exT 2 (fun r => r < 6) m3 l bs S /\ all_closed S /\
  nonneg w /\ Flocq.IEEE754.BinarySingleNaN.B2R w <> 0%R /\
  forall r, r < 6 -> r / 4 = 1 -> last_put ycfg exT 2 l 1 r = Some [w; w; w; w] /\ option_map (map show) (held_row ycfg exT 2 (man ycfg exT 2 S) 1 r) = Some [Num 0; Num 0; Num 0; Num 0].
Proof.
  exact (ex_intro _ yD (ex_intro _ yL (ex_intro _ _ (ex_intro _ jopened (ex_intro _ (u_puts jrun) (ex_intro _ (u_at jrun) (ex_intro _ jdone (ex_intro _ jsmall
    (conj (proj1 C64_example) (conj jstored (conj jopened_from (conj jrun_updating (conj jdone_closed (conj jsmall_nonneg (conj jsmall_nonzero jdone_rows))))))))))))))).
Qed.
Print Assumptions C68_short_block_refuted.
