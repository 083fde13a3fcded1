(** Property theorems C73: rows of a stored table are read and overwritten in any order, going
    back to blocks that were changed before.  Statements only. *)
From Verif Require Import Base Floats TimeBlockBuffer BytePacker File StMan StManSpec.
From Verif Require Import BitStream StochasticEncoder TimeBlockEncoders TbeSpec TbeExamples Weights WeightSpec Block BlockSpec Column ColumnSpec StoredColumn StoredTraces System SystemSpec SystemTraces UpdateSpec RewriteSpec SessionSpec SystemSessions UpdateTraces RewriteTraces PropSystem PropUpdate.
Local Open Scope N_scope.

(** ** C73 *)
(** Rows are read in any order.  A row may be put when its block is that of the last call, or
    when no row of the block was put since the block was last opened by a read ([may_put];
    C36 is what happens otherwise).  No call fails, and every call comes to its end. *)
Theorem C73_never_fails : forall cfg T nt m0 D K L n na, writable cfg T nt m0 D K L n na ->
  forall m m3 l S, stored_table cfg T nt m0 D K m -> opened_from m m3 -> sys_rewriting cfg T nt (fun r => r < K) m3 l S ->
  running cfg T nt S /\ sfinishes S.
Proof. exact rewritten_session. Qed.
Print Assumptions C73_never_fails.

(** The answers are those of a column without threads, which encodes a block when it is left
    and decodes it when it is opened. *)
Theorem C73_answers : forall cfg T nt m0 D K L n na, writable cfg T nt m0 D K L n na ->
  forall m m3 l S i, stored_table cfg T nt m0 D K m -> opened_from m m3 -> sys_rewriting cfg T nt (fun r => r < K) m3 l S -> idle S -> (i < length (columns m))%nat ->
  exists c, runs (e := colenv cfg T nt i) n na (held_block cfg T nt m3 i) (calls_of cfg T nt l i) c /\ given c = outs (cst cfg T nt S i).
Proof. exact rewritten_answers. Qed.
Print Assumptions C73_answers.

(** A row that was put, and is read when nothing was put in its block since, is what was put:
    exactly, or, when another block was opened in between, as close to it as one encoding
    makes it. *)
Theorem C73_put_read : forall cfg T nt m0 D K L n na, writable cfg T nt m0 D K L n na ->
  forall m m3 l S i r d l0 mid, stored_table cfg T nt m0 D K m -> opened_from m m3 -> sys_rewriting cfg T nt (fun r => r < K) m3 l S -> idle S -> (i < length (columns m))%nat ->
  calls_of cfg T nt l i = CGet r :: mid ++ CPut r d :: l0 -> never_put n mid (r / n) ->
  exists out rest, outs (cst cfg T nt S i) = (r, AVals out) :: rest /\ (out = firstn (nPol_of (cfg i) * nChan_of (cfg i)) d \/
    exists v x y row, length v = N.to_nat n /\ table_rows (e := colenv cfg T nt i) n (r / n) x v /\ enc (colenv cfg T nt i) n na x y /\
      nth_error x (N.to_nat (r mod n)) = Some row /\ visibilities row = firstn (nPol_of (cfg i) * nChan_of (cfg i)) d /\
      kept (cfg i) (L i) na x (floats (nMetaFloats (codec_of (cfg i)) (N.to_nat n) na) y) row out).
Proof. exact rewritten_put_read. Qed.
Print Assumptions C73_put_read.

(** A row of a block in which nothing was put is what the table held when it was opened. *)
Theorem C73_unchanged : forall cfg T nt m0 D K L n na, writable cfg T nt m0 D K L n na ->
  forall m m3 l S i r l0, stored_table cfg T nt m0 D K m -> opened_from m m3 -> sys_rewriting cfg T nt (fun r => r < K) m3 l S -> idle S -> (i < length (columns m))%nat ->
  calls_of cfg T nt l i = CGet r :: l0 -> never_put n l0 (r / n) ->
  exists out rest, outs (cst cfg T nt S i) = (r, AVals out) :: rest /\ held_row cfg T nt m i r = Some out.
Proof. exact rewritten_unchanged. Qed.
Print Assumptions C73_unchanged.

(** When the table is closed: a block in which nothing was put has not changed by a byte; all
    blocks are what the column without threads left; and the rows of a changed block decode to
    values as close to the last ones as C18, C20, C21 and C17 say. *)
Theorem C73_stored : forall cfg T nt m0 D K L n na, writable cfg T nt m0 D K L n na ->
  forall m m3 l S, stored_table cfg T nt m0 D K m -> opened_from m m3 -> sys_rewriting cfg T nt (fun r => r < K) m3 l S -> all_closed S ->
  stored_table cfg T nt m0 D K (man cfg T nt S) /\ columns (man cfg T nt S) = columns m /\ forall i, (i < length (columns m))%nat ->
    (forall b, never_put n (calls_of cfg T nt l i) b -> held_block cfg T nt (man cfg T nt S) i b = held_block cfg T nt m i b) /\
    exists c, runs (e := colenv cfg T nt i) n na (held_block cfg T nt m3 i) (calls_of cfg T nt l i) c /\ given c = outs (cst cfg T nt S i) /\
      forall b, agrees n na b (put_away c b) (held_block cfg T nt (man cfg T nt S) i b) /\
        forall v, put_away c b = Some (Coded v) -> length v = N.to_nat n /\
          exists x y, held_block cfg T nt (man cfg T nt S) i b = Some y /\ table_rows (e := colenv cfg T nt i) n b x v /\ enc (colenv cfg T nt i) n na x y /\
          forall k row, nth_error x k = Some row -> exists out, held_row cfg T nt (man cfg T nt S) i (b * n + N.of_nat k) = Some out /\
            kept (cfg i) (L i) na x (floats (nMetaFloats (codec_of (cfg i)) (N.to_nat n) na) y) row out.
Proof. exact rewritten_closed. Qed.
Print Assumptions C73_stored.

(** The table of C63_example opened again.  The weights of row 0 (block 0) and of row 4
    (block 1) are put, row 0 is read, then row 1 (block 0) is put, read, row 4 is read, and
    row 1 is read again.  The data of row 4 is put, row 0 is read, row 4 is read. *)
Example C73_example :
  writable ycfg exT 2 yman yD 6 yL 4 3 /\ stored_table ycfg exT 2 yman yD 6 (man ycfg exT 2 yend) /\ opened_from (man ycfg exT 2 yend) yopened /\
  (sys_rewriting ycfg exT 2 (fun r => r < 6) yopened (w_calls qmid) (w_sys qmid) /\ idle (w_sys qmid)) /\
  (sys_rewriting ycfg exT 2 (fun r => r < 6) yopened (w_calls qrun) qend /\ all_closed qend) /\
  map row_of (calls_of ycfg exT 2 (w_calls qmid) 1) = [1; 4; 1; 1; 0; 4; 0] /\
  (exists d l0, calls_of ycfg exT 2 (w_calls qmid) 1 = CGet 1 :: [CGet 4; CGet 1] ++ CPut 1 d :: l0) /\
  (exists d l0, calls_of ycfg exT 2 (w_calls qmid) 0 = CGet 4 :: [CGet 0] ++ CPut 4 d :: l0) /\
  qouts = ([(4, Some [(Num 1061, Num 1061); (Num 2047, Num 2047)]); (0, Some [(Num 2779, Num 2779); (Num (-3071), Num 3071)])],
           [(1, Some [Num 1536; Num 1536; Num 2560; Num 2560]); (4, Some [Num 3072; Num 3072; Num 1024; Num 1024]);
            (1, Some [Num 1536; Num 1536; Num 2560; Num 2560]); (0, Some [Num 8192; Num 8192; Num 2048; Num 2048])]) /\
  shown_rows (man ycfg exT 2 qend) =
    ([Some [(Num 2779, Num 2779); (Num (-3071), Num 3071)]; Some [(Num 4096, Num 4096); (Num 4526, NaN)]; Some [(Num 0, Num 0); (Num 0, Num 0)];
      Some [(NaN, Num 1622); (Num 1792, Num 1792)]; Some [(Num 1061, Num 1061); (Num 2047, Num 2047)]; Some [(Num 1082, Num 1082); (Num 2087, Num 2087)]],
     [Some [Num 8192; Num 8192; Num 2048; Num 2048]; Some [Num 1536; Num 1536; Num 2560; Num 2560]; Some [Num 2048; Num 2048; Num 3072; Num 3072];
      Some [Num 2048; Num 2048; Num 3072; Num 3072]; Some [Num 3072; Num 3072; Num 1024; Num 1024]; Some [Num 1024; Num 1024; Num 512; Num 512]]).
Proof.
  refine (conj (proj1 C64_example) (conj ystored (conj yopened_from (conj (conj qmid_rewriting qmid_idle) (conj (conj qrun_rewriting qend_closed) (conj _ (conj qmid_weights (conj qmid_data (conj _ _))))))))); vm_compute; reflexivity.
Qed.
