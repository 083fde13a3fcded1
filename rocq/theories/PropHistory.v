(** Property theorems C76: a row in which nothing is put, over many sessions.  Statements only. *)
From Verif Require Import Base Floats TimeBlockBuffer BytePacker File StMan StManSpec.
From Verif Require Import BitStream StochasticEncoder TimeBlockEncoders TbeSpec TbeExamples Weights WeightSpec Block BlockSpec Column ColumnSpec StoredColumn StoredTraces System SystemSpec SystemTraces UpdateSpec RewriteSpec AppendSpec SessionSpec UpdateTraces HistorySpec SystemHistory HistoryTraces PropSystem.
Local Open Scope N_scope.

(** ** C76 *)
(** A stored table is opened, read, changed or extended, and closed, any number of times.
    As long as nothing is put in the block of row [r], the block does not change by a byte
    and the row keeps its value. *)
Theorem C76_untouched : forall cfg T nt m0 D K L n na, writable cfg T nt m0 D K L n na ->
  forall m i r K' m', stored_table cfg T nt m0 D K m -> (i < length (columns m))%nat -> r < K -> aged cfg T nt n i r K m 0 K' m' ->
  held_block cfg T nt m' i (r / n) = held_block cfg T nt m i (r / n) /\ exists v, held_row cfg T nt m i r = Some v /\ held_row cfg T nt m' i r = Some v.
Proof. exact history_untouched. Qed.
Print Assumptions C76_untouched.

(** When other rows of its block are put in [k] sessions, the value of the row was encoded and
    decoded again at most [k] times: errors are not added by reading, nor by putting rows of
    other blocks, nor by putting many rows of the block in one session (where the session goes
    back to earlier blocks, every row put in the block counts for [k], see [aged]).  The table
    remains a stored table (of [K'] rows), that can be opened, read, changed and extended. *)
Theorem C76_encodings : forall cfg T nt m0 D K L n na, writable cfg T nt m0 D K L n na ->
  forall m i r k K' m', stored_table cfg T nt m0 D K m -> (i < length (columns m))%nat -> r < K -> aged cfg T nt n i r K m k K' m' ->
  writable cfg T nt m0 D K' L n na /\ stored_table cfg T nt m0 D K' m' /\ K <= K' /\ columns m' = columns m /\
  exists v v' j, held_row cfg T nt m i r = Some v /\ held_row cfg T nt m' i r = Some v' /\ (j <= k)%nat /\ encoded cfg T nt L n na i r j v v'.
Proof. exact history_encodings. Qed.
Print Assumptions C76_encodings.

(** A row that was put (last with [d]) in one session, and after that not: what was put, encoded
    once for that session and at most [k] times for the later ones. *)
Theorem C76_put : forall cfg T nt m0 D L n na K m m3 l bs S i r d k K' m', writable cfg T nt m0 D K L n na -> stored_table cfg T nt m0 D K m -> opened_from m m3 ->
  sys_updating cfg T nt (fun r => r < K) m3 l bs S -> all_closed S -> (i < length (columns m))%nat -> r < K -> last_put cfg T nt l i r = Some d ->
  aged cfg T nt n i r K (man cfg T nt S) k K' m' ->
  exists v' j, held_row cfg T nt m' i r = Some v' /\ (1 <= j <= Datatypes.S k)%nat /\ encoded cfg T nt L n na i r j (firstn (nPol_of (cfg i) * nChan_of (cfg i)) d) v'.
Proof. exact put_aged. Qed.
Print Assumptions C76_put.

(** The table of C63_example, and two more sessions: the weights of row 0 are put and become
    large; then they are put and become what they were.  Nothing happens to the data, nor to
    the weights of rows 4 and 5 in the other block. *)
Example C76_example :
  writable ycfg exT 2 yman yD 6 yL 4 3 /\ stored_table ycfg exT 2 yman yD 6 (man ycfg exT 2 yend) /\
  (forall r, aged ycfg exT 2 4 0 r 6 (man ycfg exT 2 yend) 0 6 (man ycfg exT 2 hend2)) /\
  aged ycfg exT 2 4 1 1 6 (man ycfg exT 2 yend) 2 6 (man ycfg exT 2 hend2) /\
  map (fun r => option_map (map show2) (held_row ycfg exT 2 (man ycfg exT 2 hend2) 0 r)) [0; 4] = [Some [(Num 2779, Num 2779); (Num (-3071), Num 3071)]; Some [(Num 2560, Num (-2560)); (Num 3633, Num 3633)]] /\
  map (fun r => option_map (map show) (held_row ycfg exT 2 (man ycfg exT 2 hend1) 1 r)) [0; 1; 4] = [Some [Num 67108864; Num 67108864; Num 67108864; Num 67108864]; Some [Num 0; Num 0; Num 0; Num 0]; Some [Num 2048; Num 2048; Num 3072; Num 3072]] /\
  map (fun r => option_map (map show) (held_row ycfg exT 2 (man ycfg exT 2 hend2) 1 r)) [0; 1; 4] = [Some [Num 1024; Num 1024; Num 0; Num 0]; Some [Num 0; Num 0; Num 0; Num 0]; Some [Num 2048; Num 2048; Num 3072; Num 3072]].
Proof.
  refine (conj (proj1 C64_example) (conj ystored (conj hkept (conj (haged 1 ltac:(discriminate) eq_refl) _)))). split; [vm_compute; reflexivity|]. split; vm_compute; reflexivity.
Qed.

(** Putting a row back does not undo a change: the other rows of the block do not get back
    what they had.  In the example row 0 has in the end exactly the weights that it had in the
    beginning; the weights of rows 1, 2 and 3 were not put, were not zero, and are zero. *)
Theorem C76_undo_refuted : exists D L m m', writable ycfg exT 2 yman D 6 L 4 3 /\ stored_table ycfg exT 2 yman D 6 m /\
  (forall r, r <> 0 -> r / 4 = 0 -> aged ycfg exT 2 4 1 r 6 m 2 6 m') /\
  (let shown_row m r := option_map (map show) (held_row ycfg exT 2 m 1 r) in
   shown_row m' 0 = shown_row m 0 /\
   map (shown_row m) [1; 2; 3] = [Some [Num 4096; Num 4096; Num 1024; Num 1024]; Some [Num 2048; Num 2048; Num 3071; Num 3071]; Some [Num 2048; Num 2048; Num 3071; Num 3071]] /\
   map (shown_row m') [1; 2; 3] = repeat (Some [Num 0; Num 0; Num 0; Num 0]) 3).
Proof.
  refine (ex_intro _ yD (ex_intro _ yL (ex_intro _ (man ycfg exT 2 yend) (ex_intro _ (man ycfg exT 2 hend2) (conj (proj1 C64_example) (conj ystored (conj haged _))))))).
  cbv zeta. split; [vm_compute; reflexivity|]. split; vm_compute; reflexivity.
Qed.
Print Assumptions C76_undo_refuted.
