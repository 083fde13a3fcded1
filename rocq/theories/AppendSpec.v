(** Specification vocabulary: rows are put at the end of a stored table. *)
From Verif Require Import Base Floats TimeBlockBuffer BytePacker File StMan StManSpec.
From Verif Require Import StochasticEncoder TimeBlockEncoders Weights WeightSpec Block Column ColumnSpec StoredColumn System SystemSpec.
Local Open Scope N_scope.

(** The manager [m] has opened a table with [K] rows.  Rows [K], [K+1], ... [K2-1] of every
    column are put, in order for each column; row [r] of column [i] with [D2 i r].  The
    columns may take turns in any way.  Then the table is closed.  [ks i]: the next row of
    column [i]. *)
Section append.
Variables (cfg : nat -> coldef) (T : table) (nt : nat) (K K2 : N) (m : stman) (D2 : forall i, N -> list (data (colenv cfg T nt i))).
Inductive sys_appending : (nat -> N) -> sys cfg T nt -> Prop :=
| sa_open : sys_appending (fun _ => K) (sopen cfg T nt m)
| sa_put ks S S' i : sys_appending ks S -> ks i < K2 -> scall cfg T nt S S' i (Put (ks i) (D2 i (ks i))) ->
    sys_appending (fun j => if (j =? i)%nat then ks i + 1 else ks j) S'
| sa_close ks S S' i : sys_appending ks S -> (forall j, (j < ncol cfg T nt S)%nat -> ks j = K2) -> scall cfg T nt S S' i Shutdown -> sys_appending ks S'
| sa_move ks S S' : sys_appending ks S -> smove cfg T nt S S' -> sys_appending ks S'
| sa_wake ks S S' : sys_appending ks S -> swake cfg T nt S S' -> sys_appending ks S'.
End append.
