(** Specification vocabulary for a whole storage manager. *)
From Verif Require Import Base Floats TimeBlockBuffer BytePacker File StMan StManSpec.
From Verif Require Import BitStream StochasticEncoder TimeBlockEncoders TbeSpec Weights WeightSpec Block BlockSpec Column ColumnSpec StoredColumn System.
Local Open Scope N_scope.

(** the columns follow one another in a block *)
Definition placed (m : stman) : Prop := rowsPerBlock m <> 0 ->
  rowsPerBlock m < 2 ^ 32 /\ antennaCount m < 2 ^ 32 /\ place (rowsPerBlock m) (antennaCount m) 0 (columns m) = (columns m, blockSize m).

(** a block has less than 4 GiB (C28) *)
Definition fits32 (m : stman) : Prop := rowsPerBlock m <> 0 -> total (rowsPerBlock m) (antennaCount m) (columns m) < 2 ^ 32.

(** every block of the file begins in it *)
Definition begun (m : stman) : Prop := forall b, b < nBlocksInFile m -> hdrSize m + blockSize m * b < fsize (fil m).

(** the columns of the manager are those of the table, with one sample per row at least *)
Definition described (cfg : nat -> coldef) (m : stman) : Prop := forall i col, nth_error (columns m) i = Some col ->
  describes (cfg i) col /\ (0 < nPol_of (cfg i))%nat /\ (0 < nChan_of (cfg i))%nat.

(** a new table, or one that was opened *)
Inductive sstart (cfg : nat -> coldef) (T : table) (nt : nat) : sys cfg T nt -> Prop :=
| st_new m : nBlocksInFile m = 0 -> rowsPerBlock m = 0 -> antennaCount m < 2 ^ 32 -> described cfg m -> sstart cfg T nt (snew cfg T nt m)
| st_open m : rowsPerBlock m <> 0 -> placed m -> nBlocksInFile m < 2 ^ 64 -> begun m -> described cfg m -> sstart cfg T nt (sopen cfg T nt m).

(** A new table of which rows 0, 1, ... K-1 of every column are put, in order for each
    column; row [r] of column [i] with [D i r].  The columns may take turns in any way.
    Then the table is closed.  [ks i]: number of rows put in column [i]. *)
Section order.
Variables (cfg : nat -> coldef) (T : table) (nt : nat) (m : stman) (D : forall i, N -> list (data (colenv cfg T nt i))) (K : N).
Inductive sys_order : (nat -> N) -> sys cfg T nt -> Prop :=
| so_new : sys_order (fun _ => 0) (snew cfg T nt m)
| so_put ks S S' i : sys_order ks S -> ks i < K -> scall cfg T nt S S' i (Put (ks i) (D i (ks i))) ->
    sys_order (fun j => if (j =? i)%nat then ks i + 1 else ks j) S'
| so_close ks S S' i : sys_order ks S -> (forall j, (j < ncol cfg T nt S)%nat -> ks j = K) -> scall cfg T nt S S' i Shutdown -> sys_order ks S'
| so_move ks S S' : sys_order ks S -> smove cfg T nt S S' -> sys_order ks S'
| so_wake ks S S' : sys_order ks S -> swake cfg T nt S S' -> sys_order ks S'.
End order.

(** every column is closed and its destructor is done *)
Definition all_closed {cfg T nt} (S : sys cfg T nt) : Prop :=
  forall i, (i < ncol cfg T nt S)%nat -> closed (cst cfg T nt S i) = true /\ code (cst cfg T nt S i) = [].

(** An opened table of which rows, all satisfying [ok], are only read, from any column
    and in any order. *)
Inductive sys_reading {cfg T nt} (ok : N -> Prop) (S0 : sys cfg T nt) : sys cfg T nt -> Prop :=
| sr_open : sys_reading ok S0 S0
| sr_get S S' i row : sys_reading ok S0 S -> ok row -> scall cfg T nt S S' i (Get row) -> sys_reading ok S0 S'
| sr_close S S' i : sys_reading ok S0 S -> scall cfg T nt S S' i Shutdown -> sys_reading ok S0 S'
| sr_move S S' : sys_reading ok S0 S -> smove cfg T nt S S' -> sys_reading ok S0 S'
| sr_wake S S' : sys_reading ok S0 S -> swake cfg T nt S S' -> sys_reading ok S0 S'.

(** the manager of a new table: its settings fit the header, its columns are prepared
    and its file is empty or holds no more than a header (addColumn writes one) *)
Record new_table (cfg : nat -> coldef) (m : stman) : Prop := {
  nw_blocks : nBlocksInFile m = 0;
  nw_rows : rowsPerBlock m = 0;
  nw_file : fsize (fil m) <= 52 + len (name m) + 24 * N.of_nat (length (columns m));
  nw_bytes : forall o, fbyte (fil m) o < 2 ^ 8;
  nw_storable : storable m;
  nw_dbits : dataBitCount m <> 0;
  nw_wbits : weightBitCount m <> 0;
  nw_columns : columns m <> [];
  nw_set : columns m = map (set_bits m) (columns m);
  nw_described : described cfg m }.

(** the settings that the encoders are made from *)
Definition same_options (m m' : stman) : Prop :=
  name m' = name m /\ dataBitCount m' = dataBitCount m /\ weightBitCount m' = weightBitCount m /\ distribution m' = distribution m /\
  normalization m' = normalization m /\ studentTNu m' = studentTNu m /\ truncation m' = truncation m.

(** [m'] is going to open the file of [m]; the columns are the same (those are in the
    table description, which the table system keeps) *)
Definition reopens (m m' : stman) : Prop :=
  fil m' = fil m /\
  Forall2 (fun c c' => co_kind c' = co_kind c /\ co_nPol c' = co_nPol c /\ co_nChan c' = co_nChan c) (columns m) (columns m').

(** What is kept of a row ([row]: as put) by a column whose levels go up to [L]; [x]: the
    rows of the block, [meta]: the scale factors stored with it. *)
Definition kept (c : coldef) (L : f32) (na : nat) : tbb (sample (codec_of c)) -> list f32 -> drow (sample (codec_of c)) -> list (sample (codec_of c)) -> Prop :=
  match c with
  | CRow e p n _ => fun _ _ => row_good e L (p * n)
  | CRF e p n _ => fun x _ => rf_good e L p (p * n) x
  | CAF e p n _ => fun x meta => af_good e L p (p * n) na x meta
  | CWeight p n b => fun x _ row out => exists m, largest_weight p n (map (@visibilities f32) x) m /\ weights_good p n b m row out
  end.

(** the levels of the encoder, and the bits of a symbol *)
Definition coldef_ok (c : coldef) (L : f32) : Prop :=
  match c with
  | CRow e _ _ b | CRF e _ _ b | CAF e _ _ b => bit_encoder e b /\ levels e L
  | CWeight _ _ b => supported b
  end.

(** weights are not negative *)
Definition data_ok (c : coldef) : (N -> list (sample (codec_of c))) -> Prop :=
  match c with
  | CWeight _ _ _ => fun D => forall r, Forall nonneg (D r)
  | _ => fun _ => True
  end.

(** antenna numbers are 32-bit integers (casacore's Int) *)
Definition ants32 (T : table) : Prop := forall r, N.of_nat (fst (t_ants T r)) < 2 ^ 31 /\ N.of_nat (snd (t_ants T r)) < 2 ^ 31.

(** nothing is left to do for the calling thread *)
Definition idle {cfg T nt} (S : sys cfg T nt) : Prop := forall j, (j < ncol cfg T nt S)%nat -> code (cst cfg T nt S j) = [].

(** However the threads take turns, the call comes to its end: there is always a next step
    until it does, and there are no endless runs.  (Spurious wake-ups not counted.) *)
Inductive sfinishes {cfg T nt} (S : sys cfg T nt) : Prop :=
| sf_now : idle S -> sfinishes S
| sf_step : (exists S', smove cfg T nt S S') -> (forall S', smove cfg T nt S S' -> sfinishes S') -> sfinishes S.

(** the threads go on, no member function is called *)
Inductive srun {cfg T nt} (S : sys cfg T nt) : sys cfg T nt -> Prop :=
| sn_refl : srun S S
| sn_move S1 S2 : srun S S1 -> smove cfg T nt S1 S2 -> srun S S2
| sn_wake S1 S2 : srun S S1 -> swake cfg T nt S1 S2 -> srun S S2.

(** A table that can be written: a new one with columns of its description, with [K] rows of
    enough values, of which the first [n] have the same time, field and spectral window, and
    not all; [na]: antennas in those.  A block with all columns has less than 4 GiB. *)
Record writable (cfg : nat -> coldef) (T : table) (nt : nat) (m0 : stman) (D : forall i, N -> list (data (colenv cfg T nt i)))
  (K : N) (L : nat -> f32) (n : N) (na : nat) : Prop := {
  wr_threads : nt <> 0%nat;
  wr_ants : ants32 T;
  wr_rows : forall i r, (nPol_of (cfg i) * nChan_of (cfg i) <= length (D i r))%nat;
  wr_new : new_table cfg m0;
  wr_columns : forall i, coldef_ok (cfg i) (L i);
  wr_data : forall i, data_ok (cfg i) (D i);
  wr_more : n < K;
  wr_first : first_block (colenv cfg T nt 0) n;
  wr_count : antenna_count (colenv cfg T nt 0) n na;
  wr_name : Forall (fun v => v < 2 ^ 8) (name m0);
  wr_af : forall i, (i < length (columns m0))%nat -> af_of (cfg i) = true -> forall r, (fst (t_ants T r) < na)%nat /\ (snd (t_ants T r) < na)%nat;
  wr_size : total n (N.of_nat na) (columns m0) < 2 ^ 32 }.
