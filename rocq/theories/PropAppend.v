(** Property theorems C74: rows are put at the end of a stored table.  Statements only. *)
From Verif Require Import Base Floats TimeBlockBuffer BytePacker File StMan StManSpec.
From Verif Require Import BitStream StochasticEncoder TimeBlockEncoders TbeSpec TbeExamples Weights WeightSpec Block BlockSpec Column ColumnSpec StoredColumn StoredTraces System SystemSpec SystemTraces UpdateSpec AppendSpec SessionSpec SystemSessions UpdateTraces AppendTraces PropSystem.
Local Open Scope N_scope.

(** ** C74 *)
(** A table of [K] rows is opened and rows [K] to [K2 - 1] are put in all columns, in order in
    each column, the columns in turns.  No call fails, and every call comes to its end. *)
Theorem C74_never_fails : forall cfg T nt m0 D K L n na, writable cfg T nt m0 D K L n na ->
  forall m m3 K2 D2 ks S, stored_table cfg T nt m0 D K m -> opened_from m m3 -> K < K2 -> (forall i r, K <= r < K2 -> put_ok cfg T nt i (D2 i r)) ->
  sys_appending cfg T nt K K2 m3 D2 ks S -> running cfg T nt S /\ sfinishes S.
Proof. exact extended_session. Qed.
Print Assumptions C74_never_fails.

(** When the table is closed it is a stored table of [K2] rows, so that it can be opened, read
    (C68_opens), changed and extended again.  A block that had all its rows has not changed by
    a byte.  Every other block is an encoding of: the rows below [K] as they were read from
    the table; rows [K] to [K2 - 1] with what was put; and, after those, in the block that was
    the last, what the table held there.  A block beyond that has what was put and nothing
    else.  The rows decode to values as close to these as C18, C20, C21 and C17 say. *)
Theorem C74_stored : forall cfg T nt m0 D K L n na, writable cfg T nt m0 D K L n na ->
  forall m m3 K2 D2 ks S, stored_table cfg T nt m0 D K m -> opened_from m m3 -> K < K2 -> (forall i r, K <= r < K2 -> put_ok cfg T nt i (D2 i r)) ->
  sys_appending cfg T nt K K2 m3 D2 ks S -> all_closed S ->
  stored_table cfg T nt m0 D K2 (man cfg T nt S) /\ writable cfg T nt m0 D K2 L n na /\ columns (man cfg T nt S) = columns m /\ forall i, (i < length (columns m))%nat ->
    (forall b, (b + 1) * n <= K -> held_block cfg T nt (man cfg T nt S) i b = held_block cfg T nt m i b) /\
    (forall r, (r / n + 1) * n <= K -> held_row cfg T nt (man cfg T nt S) i r = held_row cfg T nt m i r) /\
    (forall b, K < (b + 1) * n -> b * n < K2 -> exists x y, held_block cfg T nt (man cfg T nt S) i b = Some y /\ enc (colenv cfg T nt i) n na x y /\ (length x <= N.to_nat n)%nat /\
      (forall r, r < K2 -> r / n = b -> nth_error x (N.to_nat (r mod n)) <> None) /\
      (K <= b * n -> exact_block (colenv cfg T nt i) (D2 i) K2 n b x) /\
      forall k row, nth_error x k = Some row -> (antenna1 row, antenna2 row) = t_ants T (b * n + N.of_nat k) /\
        (if K <=? b * n + N.of_nat k then if b * n + N.of_nat k <? K2 then visibilities row = firstn (nPol_of (cfg i) * nChan_of (cfg i)) (D2 i (b * n + N.of_nat k))
           else b * n < K /\ held_row cfg T nt m i (b * n + N.of_nat k) = Some (visibilities row)
         else held_row cfg T nt m i (b * n + N.of_nat k) = Some (visibilities row)) /\
        exists out, held_row cfg T nt (man cfg T nt S) i (b * n + N.of_nat k) = Some out /\
          kept (cfg i) (L i) na x (floats (nMetaFloats (codec_of (cfg i)) (N.to_nat n) na) y) row out).
Proof. exact extended_closed. Qed.
Print Assumptions C74_stored.

(** The table of C63_example, 6 rows in blocks of 4, opened again, and rows 6 to 10 put with the
    values that rows 0 to 4 had.  Row 4 was (2560, -2560) ... and is not the same: it was
    encoded again with rows 6 and 7. *)
Example C74_example :
  writable ycfg exT 2 yman yD 6 yL 4 3 /\ stored_table ycfg exT 2 yman yD 6 (man ycfg exT 2 yend) /\ opened_from (man ycfg exT 2 yend) yopened /\
  (forall i r, 6 <= r < 11 -> put_ok ycfg exT 2 i (aD i r)) /\ sys_appending ycfg exT 2 6 11 yopened aD (fst awrote) aend /\ all_closed aend /\
  option_map (map show2) (held_row ycfg exT 2 yopened 0 4) = Some [(Num 2560, Num (-2560)); (Num 3633, Num 3633)] /\
  map (fun r => option_map (map show2) (held_row ycfg exT 2 (man ycfg exT 2 aend) 0 r)) [0; 1; 2; 3; 4; 5; 6; 7; 8; 9; 10] =
    [Some [(Num 2779, Num 2779); (Num (-3071), Num 3071)]; Some [(Num 4096, Num 4096); (Num 4526, NaN)]; Some [(Num 0, Num 0); (Num 0, Num 0)];
     Some [(NaN, Num 1622); (Num 1792, Num 1792)]; Some [(Num 3013, Num 0); (Num 3633, Num 3633)]; Some [(Num 1273, Num 1273); (Num 1536, Num 1536)];
     Some [(Num 9690, Num 9690); (Num 0, Num 11685)]; Some [(Num 4096, Num 4096); (Num 4939, NaN)]; Some [(Num 0, Num 0); (Num 0, Num 0)];
     Some [(NaN, Num 2328); (Num 1024, Num 1024)]; Some [(Num 0, Num 0); (Num 0, Num 0)]] /\
  map (fun r => option_map (map show) (held_row ycfg exT 2 (man ycfg exT 2 aend) 1 r)) [0; 1; 4; 5; 6; 7; 8; 9; 10] =
    [Some [Num 1024; Num 1024; Num 0; Num 0]; Some [Num 4096; Num 4096; Num 1024; Num 1024]; Some [Num 2048; Num 2048; Num 3071; Num 3071];
     Some [Num 1024; Num 1024; Num 512; Num 512]; Some [Num 1024; Num 1024; Num 0; Num 0]; Some [Num 4096; Num 4096; Num 1024; Num 1024];
     Some [Num 2048; Num 2048; Num 3072; Num 3072]; Some [Num 2048; Num 2048; Num 3072; Num 3072]; Some [Num 2048; Num 2048; Num 3072; Num 3072]].
Proof.
  refine (conj (proj1 C64_example) (conj ystored (conj yopened_from (conj (fun i r _ => aput_ok i r) (conj aend_appending (conj aend_closed (conj _ (conj _ _)))))))); vm_compute; reflexivity.
Qed.
