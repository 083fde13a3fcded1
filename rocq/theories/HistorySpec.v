(** Specification vocabulary: how often a row of a stored table was encoded again. *)
From Verif Require Import Base Floats TimeBlockBuffer BytePacker File StMan StManSpec.
From Verif Require Import BitStream StochasticEncoder TimeBlockEncoders Weights WeightSpec Block BlockSpec Column ColumnSpec StoredColumn System SystemSpec UpdateSpec RewriteSpec AppendSpec SessionSpec.
Local Open Scope N_scope.

(** how many rows were put in block [b] *)
Fixpoint puts_in {A} (rp : N) (l : list (rowcall A)) (b : N) : nat :=
  match l with
  | [] => 0%nat
  | CPut r _ :: l => if r / rp =? b then S (puts_in rp l b) else puts_in rp l b
  | CGet _ :: l => puts_in rp l b
  end.

Section history.
Variables (cfg : nat -> coldef) (T : table) (nt : nat) (L : nat -> f32) (n : N) (na : nat) (i : nat) (r : N).
Notation colenv := (colenv cfg T nt).

(** [v'] is what one encoding of a block with [v] in row [r] makes of [v] *)
Definition recoded (v v' : list (data (colenv i))) : Prop := exists x y row,
  (length x <= N.to_nat n)%nat /\ enc (colenv i) n na x y /\ nth_error x (N.to_nat (r mod n)) = Some row /\
  (antenna1 row, antenna2 row) = t_ants T r /\ visibilities row = v /\
  kept (cfg i) (L i) na x (floats (nMetaFloats (codec_of (cfg i)) (N.to_nat n) na) y) row v'.

(** [k] encodings, one after the other *)
Inductive encoded : nat -> list (data (colenv i)) -> list (data (colenv i)) -> Prop :=
| ec_none v : encoded 0 v v
| ec_more k v v1 v2 : encoded k v v1 -> recoded v1 v2 -> encoded (S k) v v2.

(** The table [m] of [K] rows is opened and closed any number of times and is then [m'] of
    [K'] rows; nothing was put in row [r] of column [i]; and other rows of its block were put
    in [k] sessions in which the calls of a column do not go back to an earlier block, or
    which extend the table.  When the calls do go back, every row put in the block counts. *)
Inductive aged (K : N) (m : stman) : nat -> N -> stman -> Prop :=
| ag_none : aged K m 0 K m
| ag_rewritten k K1 m1 m3 l S : aged K m k K1 m1 -> opened_from m1 m3 -> sys_rewriting cfg T nt (fun r => r < K1) m3 l S -> all_closed S ->
    (forall d, ~ In (CPut r d) (calls_of cfg T nt l i)) -> aged K m (k + puts_in n (calls_of cfg T nt l i) (r / n)) K1 (man cfg T nt S)
| ag_updated k K1 m1 m3 l bs S : aged K m k K1 m1 -> opened_from m1 m3 -> sys_updating cfg T nt (fun r => r < K1) m3 l bs S -> all_closed S ->
    (forall r', r' / n = r / n -> last_put cfg T nt l i r' = None) -> aged K m k K1 (man cfg T nt S)
| ag_extended k K1 K2 m1 m3 D2 ks S : aged K m k K1 m1 -> opened_from m1 m3 -> K1 < K2 -> (forall i r, K1 <= r < K2 -> put_ok cfg T nt i (D2 i r)) ->
    sys_appending cfg T nt K1 K2 m3 D2 ks S -> all_closed S -> (r / n + 1) * n <= K1 -> aged K m k K2 (man cfg T nt S)
| ag_changed k K1 m1 m3 l bs S r' : aged K m k K1 m1 -> opened_from m1 m3 -> sys_updating cfg T nt (fun r => r < K1) m3 l bs S -> all_closed S ->
    r' / n = r / n -> last_put cfg T nt l i r' <> None -> last_put cfg T nt l i r = None -> aged K m (Datatypes.S k) K1 (man cfg T nt S)
| ag_last k K1 K2 m1 m3 D2 ks S : aged K m k K1 m1 -> opened_from m1 m3 -> K1 < K2 -> (forall i r, K1 <= r < K2 -> put_ok cfg T nt i (D2 i r)) ->
    sys_appending cfg T nt K1 K2 m3 D2 ks S -> all_closed S -> K1 < (r / n + 1) * n -> aged K m (Datatypes.S k) K2 (man cfg T nt S).
End history.
