(** Specification vocabulary for the storage manager file. *)
From Verif Require Import Base BytePacker File StMan.
Local Open Scope N_scope.

(** the settings fit the fields of the header *)
Record storable (m : stman) : Prop := {
  st_header : 52 + len (name m) + 24 * N.of_nat (length (columns m)) < 2 ^ 32;
  st_rows : rowsPerBlock m < 2 ^ 32;
  st_ants : antennaCount m < 2 ^ 32;
  st_block : blockSize m < 2 ^ 32;
  st_dbits : dataBitCount m < 256;
  st_wbits : weightBitCount m < 256;
  st_dist : distribution m < 256;
  st_norm : normalization m < 256;
  st_nu : studentTNu m < 2 ^ 64;
  st_trunc : truncation m < 2 ^ 64;
  st_cols : Forall (fun c => co_blockSize c < 2 ^ 32 /\ co_antennas c < 2 ^ 32) (columns m) }.

(** two managers have the same settings *)
Definition same_settings (m m' : stman) : Prop :=
  rowsPerBlock m' = rowsPerBlock m /\ antennaCount m' = antennaCount m /\ blockSize m' = blockSize m /\
  hdrSize m' = hdrSize m /\ name m' = name m /\ dataBitCount m' = dataBitCount m /\ weightBitCount m' = weightBitCount m /\
  distribution m' = distribution m /\ normalization m' = normalization m /\ studentTNu m' = studentTNu m /\
  truncation m' = truncation m /\
  Forall2 (fun c c' => co_blockSize c' = co_blockSize c /\ co_antennas c' = co_antennas c) (columns m) (columns m').

(** the file region of a column in a block: start and size *)
Definition region (m : stman) (block : N) (c : column) : N * N :=
  (blockSize m * block + hdrSize m + co_offset c, co_blockSize c).

Definition disjoint (r r' : N * N) : Prop := fst r + snd r <= fst r' \/ fst r' + snd r' <= fst r.

(** a sequence of block writes: block, column, bytes *)
Definition write1 (m : stman) (w : N * column * list N) : stman := let '(b, c, d) := w in writeCompressedData m b c d.
Definition writes (m : stman) (ws : list (N * column * list N)) : stman := fold_left write1 ws m.

(** the number of bytes of a block with all columns *)
Definition total (nrow nant : N) (cs : list column) : N := fold_right (fun c t => CalculateBlockSize c nrow nant + t) 0 cs.

(** the row counter of a table under additions and removals of rows; a removal
    is possible for the last row only *)
Inductive row_op := AddRows (n : N) | RemoveRow (row : N).
Definition table_rows (n : N) (o : row_op) : option N :=
  match o with
  | AddRows k => Some (n + k)
  | RemoveRow r => if (0 <? n) && (r =? n - 1) then Some (n - 1) else None
  end.
Definition do_row_op (m : stman) (o : row_op) : res stman :=
  match o with AddRows k => Ok (addRow m k) | RemoveRow r => removeRow m r end.

(** run until the first refused operation: row count and whether all were done *)
Fixpoint run_table (n : N) (os : list row_op) : N * bool :=
  match os with
  | [] => (n, true)
  | o :: t => match table_rows n o with Some n' => run_table n' t | None => (n, false) end
  end.
Fixpoint run_man (m : stman) (os : list row_op) : N * bool :=
  match os with
  | [] => (nRow m, true)
  | o :: t => match do_row_op m o with Ok m' => run_man m' t | _ => (nRow m, false) end
  end.
