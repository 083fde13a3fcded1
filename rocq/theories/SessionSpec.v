(** Specification vocabulary: a table that was written is opened again, rows of its
    columns are read and overwritten, and it is closed; any number of times. *)
From Verif Require Import Base Floats TimeBlockBuffer BytePacker File StMan StManSpec.
From Verif Require Import StochasticEncoder TimeBlockEncoders Weights WeightSpec Block Column ColumnSpec StoredColumn System SystemSpec UpdateSpec RewriteSpec AppendSpec.
Local Open Scope N_scope.

(** weights are not negative *)
Definition row_ok (c : coldef) : list (sample (codec_of c)) -> Prop :=
  match c with CWeight _ _ _ => Forall nonneg | _ => fun _ => True end.

Section sessions.
Variables (cfg : nat -> coldef) (T : table) (nt : nat).
Notation colenv := (colenv cfg T nt).

(** a row that is put: column, row, values *)
Definition put_call : Type := { i : nat & (N * list (data (colenv i)))%type }.

(** what was put last in row [r] of column [i]; the latest call comes first in [l] *)
Fixpoint last_put (l : list put_call) (i : nat) (r : N) : option (list (data (colenv i))) :=
  match l with
  | [] => None
  | existT _ j (r', d) :: l =>
    match Nat.eq_dec j i with
    | left E => if r' =? r then Some (eq_rect j (fun k => list (data (colenv k))) d i E) else last_put l i r
    | right _ => last_put l i r
    end
  end.

(** enough values, and weights are not negative *)
Definition put_ok (i : nat) (d : list (data (colenv i))) : Prop := (nPol_of (cfg i) * nChan_of (cfg i) <= length d)%nat /\ row_ok (cfg i) d.

(** the bytes of block [b] of column [i], and the values of row [r], in the file of [m] *)
Definition held_block (m : stman) (i : nat) : N -> option (Column.bytes (colenv i)) :=
  match nth_error (columns m) i with Some col => disk m col | None => fun _ => None end.
Definition held_row (m : stman) (i : nat) (r : N) : option (list (data (colenv i))) :=
  stored_row (e := colenv i) (held_block m i) (rowsPerBlock m) (N.to_nat (antennaCount m)) r.

(** row [r] of column [i] after the rows [l] were put *)
Definition row_now (m : stman) (l : list put_call) (i : nat) (r : N) : option (list (data (colenv i))) :=
  match last_put l i r with Some d => Some (firstn (nPol_of (cfg i) * nChan_of (cfg i)) d) | None => held_row m i r end.

(** The manager [m] has opened a table.  Rows of any column, all satisfying [ok], are read
    and put, in turns; in each column the calls do not go back to an earlier block.  Then
    the table may be closed.  [l]: the rows put.  [bs i]: block of the last call in column [i]. *)
Inductive sys_updating (ok : N -> Prop) (m : stman) : list put_call -> (nat -> N) -> sys cfg T nt -> Prop :=
| su_open : sys_updating ok m [] (fun _ => 0) (sopen cfg T nt m)
| su_put l bs S S' i row d : sys_updating ok m l bs S -> ok row -> bs i <= row / rowsPerBlock m -> put_ok i d -> scall cfg T nt S S' i (Put row d) ->
    sys_updating ok m (existT _ i (row, d) :: l) (fun j => if (j =? i)%nat then row / rowsPerBlock m else bs j) S'
| su_get l bs S S' i row : sys_updating ok m l bs S -> ok row -> bs i <= row / rowsPerBlock m -> scall cfg T nt S S' i (Get row) ->
    sys_updating ok m l (fun j => if (j =? i)%nat then row / rowsPerBlock m else bs j) S'
| su_close l bs S S' i : sys_updating ok m l bs S -> scall cfg T nt S S' i Shutdown -> sys_updating ok m l bs S'
| su_move l bs S S' : sys_updating ok m l bs S -> smove cfg T nt S S' -> sys_updating ok m l bs S'
| su_wake l bs S S' : sys_updating ok m l bs S -> swake cfg T nt S S' -> sys_updating ok m l bs S'.

(** a call on a column of the table, and the calls on column [i]; the latest comes first *)
Definition table_call : Type := { i : nat & rowcall (data (colenv i)) }.
Fixpoint calls_of (l : list table_call) (i : nat) : list (rowcall (data (colenv i))) :=
  match l with
  | [] => []
  | existT _ j a :: l =>
    match Nat.eq_dec j i with
    | left E => eq_rect j (fun k => rowcall (data (colenv k))) a i E :: calls_of l i
    | right _ => calls_of l i
    end
  end.

(** The manager [m] has opened a table.  Rows of any column, all satisfying [ok], are read
    in any order, and put when [may_put] allows.  Then the table may be closed. *)
Inductive sys_rewriting (ok : N -> Prop) (m : stman) : list table_call -> sys cfg T nt -> Prop :=
| sw_open : sys_rewriting ok m [] (sopen cfg T nt m)
| sw_put l S S' i row d : sys_rewriting ok m l S -> ok row -> may_put (rowsPerBlock m) (calls_of l i) row -> put_ok i d -> scall cfg T nt S S' i (Put row d) ->
    sys_rewriting ok m (existT _ i (CPut row d) :: l) S'
| sw_get l S S' i row : sys_rewriting ok m l S -> ok row -> scall cfg T nt S S' i (Get row) -> sys_rewriting ok m (existT _ i (CGet row) :: l) S'
| sw_close l S S' i : sys_rewriting ok m l S -> scall cfg T nt S S' i Shutdown -> sys_rewriting ok m l S'
| sw_move l S S' : sys_rewriting ok m l S -> smove cfg T nt S S' -> sys_rewriting ok m l S'
| sw_wake l S S' : sys_rewriting ok m l S -> swake cfg T nt S S' -> sys_rewriting ok m l S'.

(** [m3] is the manager after it opened the file of [m] *)
Definition opened_from (m m3 : stman) : Prop := exists mo nr m2, reopens m mo /\ openMan nr mo = Ok m2 /\ prepareMan m2 = Ok m3.

(** A table of [K] rows that was written, possibly read in the same session, and closed; and
    possibly opened, read, changed or extended, and closed again; any number of times.  A
    table is extended after it had rows of more than one time block. *)
Section stored.
Variables (m0 : stman) (D : forall i, N -> list (data (colenv i))).
Inductive stored_table : N -> stman -> Prop :=
| sd_written K ks S : sys_order cfg T nt m0 D K ks S -> all_closed S -> stored_table K (man cfg T nt S)
| sd_same K ks S0 S : sys_order cfg T nt m0 D K ks S0 -> idle S0 -> (forall j, (j < ncol cfg T nt S0)%nat -> ks j = K /\ closed (cst cfg T nt S0 j) = false) ->
    sys_reading (fun r => r < K) S0 S -> all_closed S -> stored_table K (man cfg T nt S)
| sd_read K m m3 S : stored_table K m -> opened_from m m3 -> sys_reading (fun r => r < K) (sopen cfg T nt m3) S -> all_closed S -> stored_table K (man cfg T nt S)
| sd_updated K m m3 l bs S : stored_table K m -> opened_from m m3 -> sys_updating (fun r => r < K) m3 l bs S -> all_closed S -> stored_table K (man cfg T nt S)
| sd_rewritten K m m3 l S : stored_table K m -> opened_from m m3 -> sys_rewriting (fun r => r < K) m3 l S -> all_closed S -> stored_table K (man cfg T nt S)
| sd_extended K K2 m m3 D2 ks S : stored_table K m -> opened_from m m3 -> (exists r, r < K /\ ~ same_keys (colenv 0) r 0) -> K < K2 ->
    (forall i r, K <= r < K2 -> put_ok i (D2 i r)) -> sys_appending cfg T nt K K2 m3 D2 ks S -> all_closed S -> stored_table K2 (man cfg T nt S).
End stored.
End sessions.
