(** Property theorems C25-C32, C45: the file of the storage manager.  Statements only. *)
From Coq Require Import String.
From Verif Require Import Base BytePacker File FileProofs StMan StManSpec HeaderProofs StManProofs SpecRecord SpecProofs.
Local Open Scope N_scope.

(** a manager named "MS" with a data and a weight column for 3 rows and 2 antennas *)
Definition ex_man : stman :=
  StMan 0 0 0 0 0 0 empty_file [77; 83] 4 12 3 0 0 (2 ^ 62 + 3)
    [Column KAF 4 2 4 0 0 0; Column KWeight 4 2 12 0 0 0].
Definition ex_init : stman :=
  match initializeRowsPerBlock ex_man 3 2 true with Ok m => m | _ => ex_man end.

Example ex_init_ok : initializeRowsPerBlock ex_man 3 2 true = Ok ex_init /\ storable ex_init /\
  blockSize ex_init = 101 /\ map co_offset (columns ex_init) = [0; 88] /\ map co_blockSize (columns ex_init) = [88; 13].
Proof.
  split; [reflexivity|]. split; [|repeat split].
  constructor; try reflexivity. repeat (apply Forall_cons; [split; vm_compute; reflexivity|]). constructor.
Qed.

(** ** C25 *)
Theorem C25_header_roundtrip : forall m m0, storable m -> length (columns m0) = length (columns m) ->
  fil m0 = fil (writeHeader m) ->
  exists m' s, readHeader m0 = Ok (m', s) /\ ifail s = false /\ same_settings (writeHeader m) m' /\
    fil m' = fil m0 /\ nRow m' = nRow m0 /\ nBlocksInFile m' = nBlocksInFile m0 /\
    Forall2 (fun c c' => co_kind c' = co_kind c /\ co_nPol c' = co_nPol c /\ co_nChan c' = co_nChan c /\ co_bits c' = co_bits c /\ co_offset c' = co_offset c)
      (columns m0) (columns m').
Proof. exact header_roundtrip. Qed.
Print Assumptions C25_header_roundtrip.

(** also after any sequence of block writes *)
Theorem C25_header_roundtrip_after_writes : forall m m0 ws, storable m -> length (columns m0) = length (columns m) ->
  fil m0 = fil (writes (writeHeader m) ws) ->
  exists m' s, readHeader m0 = Ok (m', s) /\ ifail s = false /\ same_settings (writeHeader m) m' /\
    fil m' = fil m0 /\ nRow m' = nRow m0 /\ nBlocksInFile m' = nBlocksInFile m0 /\
    Forall2 (fun c c' => co_kind c' = co_kind c /\ co_nPol c' = co_nPol c /\ co_nChan c' = co_nChan c /\ co_bits c' = co_bits c /\ co_offset c' = co_offset c)
      (columns m0) (columns m').
Proof. exact header_roundtrip_writes. Qed.
Print Assumptions C25_header_roundtrip_after_writes.

Theorem C25_column_header_layout : forall m i c, nth_error (columns m) i = Some c ->
  bytes (fil (writeHeader m)) 4 4 = le 4 (52 + len (name m)) /\
  bytes (fil (writeHeader m)) (52 + len (name m) + 12 * N.of_nat i) 12 = le 4 12 ++ le 4 (co_blockSize c) ++ le 4 (co_antennas c).
Proof. exact layout. Qed.
Print Assumptions C25_column_header_layout.

Example C25_example : exists m' s,
  readHeader (set_columns (set_file ex_man (fil ex_init)) [Column KAF 4 2 0 0 0 0; Column KWeight 4 2 0 0 0 0]) = Ok (m', s) /\
  rowsPerBlock m' = 3 /\ antennaCount m' = 2 /\ blockSize m' = 101 /\ hdrSize m' = 102 /\ name m' = [77; 83] /\ truncation m' = 2 ^ 62 + 3 /\
  map co_blockSize (columns m') = [88; 13] /\ map co_antennas (columns m') = [2; 2].
Proof. eexists _, _. split; [reflexivity|]. repeat split. Qed.

(** ** C26 *)
Theorem C26_truncated_rejected : forall m m0 n nrow, storable m -> length (columns m0) = length (columns m) ->
  fil m0 = ftruncate (fil (writeHeader m)) n -> 16 <= n < 52 + len (name m) + 12 * N.of_nat (length (columns m)) ->
  openMan nrow m0 = Throw.
Proof. intros m m0 n nrow. rewrite <- header_bytes_len. exact (truncated_header m m0 n nrow). Qed.
Print Assumptions C26_truncated_rejected.

(** the rest of the property fails: a file cut within its first 16 bytes makes
    the length of a string, and so an allocation, depend on uninitialised data *)
Theorem C26_first_bytes_refuted : forall m0 n nrow f, fil m0 = ftruncate f n -> n < 16 -> openMan nrow m0 = UB.
Proof. exact truncated_short. Qed.
Print Assumptions C26_first_bytes_refuted.

Theorem C26_wrong_version_rejected : forall f h m0, fits h -> fil m0 = f -> at_ f 0 (SerializeHeader h) ->
  (versionMajor h <> 1 \/ versionMinor h <> 0) -> readHeader m0 = Throw.
Proof. exact wrong_version. Qed.
Print Assumptions C26_wrong_version_rejected.

Theorem C26_wrong_column_count_rejected : forall f h m0, fits h -> fil m0 = f -> at_ f 0 (SerializeHeader h) ->
  columnCount h <> N.of_nat (length (columns m0)) -> readHeader m0 = Throw.
Proof. exact wrong_columns. Qed.
Print Assumptions C26_wrong_column_count_rejected.

Example C26_example :
  openMan 7 (set_file ex_init (ftruncate (fil ex_init) 77)) = Throw /\
  openMan 7 (set_file ex_init (ftruncate (fil ex_init) 52)) = Throw /\
  openMan 7 (set_file ex_init (ftruncate (fil ex_init) 16)) = Throw /\
  openMan 7 (set_file ex_init (ftruncate (fil ex_init) 15)) = UB /\
  openMan 7 (set_columns ex_init [narrow_column]) = Throw /\
  (exists m, openMan 7 ex_init = Ok m) /\
  52 + len (name ex_init) + 12 * N.of_nat (length (columns ex_init)) = 78.
Proof. repeat split; try reflexivity. eexists. reflexivity. Qed.

(** ** C27 *)
Theorem C27_header_fits : forall m, storable m ->
  (exists bs, fil (writeHeader m) = fwrite (fil m) 0 bs /\ len bs <= hdrSize (writeHeader m)) /\
  (forall i, hdrSize (writeHeader m) <= i < fsize (fil m) -> fbyte (fil (writeHeader m)) i = fbyte (fil m) i) /\
  (hdrSize (writeHeader m) <= fsize (fil m) -> fsize (fil (writeHeader m)) = fsize (fil m)).
Proof.
  intros m H. split; [exists (header_bytes m); split; [reflexivity|now apply header_fits]|].
  split; [intros i Hi; now apply writeHeader_keeps|].
  intros L. rewrite fsize_writeHeader. apply N.max_l. pose proof (header_fits m H). lia.
Qed.
Print Assumptions C27_header_fits.

Theorem C27_blocks_keep_header : forall m b c d i, i < hdrSize m -> i < fsize (fil m) ->
  fbyte (fil (writeCompressedData m b c d)) i = fbyte (fil m) i.
Proof. exact writeCompressed_keeps_header. Qed.
Print Assumptions C27_blocks_keep_header.

Example C27_example : hdrSize ex_init = 102 /\ fsize (fil ex_init) = 78 /\
  fsize (fil (writeCompressedData ex_init 0 (Column KAF 4 2 4 0 88 2) (repeat 9 88))) = 190.
Proof. now vm_compute. Qed.

(** ** C28 *)
Theorem C28_regions_disjoint : forall m nrow nant w m', initializeRowsPerBlock m nrow nant w = Ok m' ->
  nrow < 2 ^ 32 -> nant < 2 ^ 32 -> total nrow nant (columns m) < 2 ^ 32 ->
  forall b b' i j c c', nth_error (columns m') i = Some c -> nth_error (columns m') j = Some c' -> (b, i) <> (b', j) ->
  disjoint (region m' b c) (region m' b' c').
Proof. exact regions_disjoint. Qed.
Print Assumptions C28_regions_disjoint.

(** so a block that is written is read back, and writing it does not change another *)
Theorem C28_write_read : forall m b c d, len d = co_blockSize c -> d <> [] ->
  readCompressedData (writeCompressedData m b c d) b c (co_blockSize c) = Ok (Some d).
Proof. exact read_write_same. Qed.
Print Assumptions C28_write_read.

Theorem C28_write_other : forall m b c d b' c' d', disjoint (region m b c) (region m b' c') -> len d <= co_blockSize c ->
  readCompressedData m b' c' (co_blockSize c') = Ok (Some d') ->
  readCompressedData (writeCompressedData m b c d) b' c' (co_blockSize c') = Ok (Some d').
Proof. exact read_write_other. Qed.
Print Assumptions C28_write_other.

(** for larger blocks (here 2^20 rows, 2^12 channels, 8 bit weights) the 32-bit
    size wraps and regions overlap: within a block, and of successive blocks *)
Theorem C28_large_blocks_refuted : exists m nrow nant m' c c', initializeRowsPerBlock m nrow nant false = Ok m' /\
  nrow < 2 ^ 32 /\ nant < 2 ^ 32 /\
  nth_error (columns m') 0 = Some c /\ nth_error (columns m') 1 = Some c' /\
  ~ disjoint (region m' 0 c) (region m' 0 c') /\ ~ disjoint (region m' 0 c) (region m' 1 c).
Proof.
  exists wide_man, (2 ^ 20), 2. eexists _, _, _. split; [reflexivity|]. split; [reflexivity|]. split; [reflexivity|].
  split; [reflexivity|]. split; [reflexivity|]. split.
  - intros [H|H]; vm_compute in H; now apply H.
  - intros [H|H]; vm_compute in H; now apply H.
Qed.
Print Assumptions C28_large_blocks_refuted.

Example C28_example : total 3 2 (columns ex_man) = 101 /\
  region ex_init 0 (nth 0 (columns ex_init) narrow_column) = (102, 88) /\
  region ex_init 0 (nth 1 (columns ex_init) narrow_column) = (190, 13) /\
  region ex_init 1 (nth 0 (columns ex_init) narrow_column) = (203, 88).
Proof. now vm_compute. Qed.

(** ** C29 *)
Theorem C29_row_block_bijection : forall m row, rowsPerBlock m <> 0 -> forall b r,
  getBlockIndex m row = Ok b /\ getRowWithinBlock m row = Ok r <-> r < rowsPerBlock m /\ row = getRowIndex m b + r.
Proof. exact row_block_bijection. Qed.
Print Assumptions C29_row_block_bijection.

Theorem C29_consecutive : forall m row, rowsPerBlock m <> 0 -> exists b r b' r',
  getBlockIndex m row = Ok b /\ getRowWithinBlock m row = Ok r /\
  getBlockIndex m (row + 1) = Ok b' /\ getRowWithinBlock m (row + 1) = Ok r' /\
  ((b' = b /\ r' = r + 1) \/ (b' = b + 1 /\ r' = 0 /\ r + 1 = rowsPerBlock m)).
Proof. exact rows_consecutive. Qed.
Print Assumptions C29_consecutive.

Example C29_example : getBlockIndex ex_init 11 = Ok 3 /\ getRowWithinBlock ex_init 11 = Ok 2 /\ getRowIndex ex_init 3 = 9 /\
  getBlockIndex ex_man 11 = UB.
Proof. now vm_compute. Qed.

(** ** C30 *)
Theorem C30_spec_roundtrip : forall s0 s, 0 < s_dataBits s < 2 ^ 32 -> 0 < s_weightBits s < 2 ^ 32 -> s_dist s <> StudentsT ->
  setFromSpec s0 (dataManagerSpec s) = Ok s.
Proof. exact spec_roundtrip. Qed.
Print Assumptions C30_spec_roundtrip.

Theorem C30_studentst_refuted : forall s0 s, s_dist s = StudentsT -> setFromSpec s0 (dataManagerSpec s) = Throw.
Proof. exact spec_studentst. Qed.
Print Assumptions C30_studentst_refuted.

Theorem C30_accepted_usable : forall s0 r s, setFromSpec s0 r = Ok s -> field r "dataBitCount" <> None ->
  s_dataBits s <> 0 /\ s_weightBits s <> 0.
Proof. exact spec_bits. Qed.
Print Assumptions C30_accepted_usable.

Example C30_example :
  let s := Settings 8 12 TruncatedGaussian kRF 0 7 in
  setFromSpec (Settings 0 0 Gaussian kAF 0 0) (dataManagerSpec s) = Ok s /\
  setFromSpec (Settings 0 0 Gaussian kAF 0 0) (dataManagerSpec (Settings 0 12 Uniform kRow 0 0)) = Throw.
Proof. now vm_compute. Qed.

(** ** C31 *)
Theorem C31_reopen : forall m nrow nant w k m1 ws m0 nr,
  initializeRowsPerBlock m nrow nant true = Ok m1 -> storable m1 ->
  nrow < 2 ^ 32 -> nant < 2 ^ 32 -> total nrow nant (columns m) < 2 ^ 32 ->
  nBlocksInFile m = 0 -> fsize (fil m) <= hdrSize m1 ->
  S k = length (columns m1) -> nth_error (columns m1) k = Some w -> 0 < co_blockSize w ->
  Forall (fun x => In (snd (fst x)) (columns m1) /\ len (snd x) = co_blockSize (snd (fst x)) /\ snd x <> []) ws ->
  ws <> [] ->
  length (columns m0) = length (columns m1) -> fil m0 = fil (writes m1 ws) ->
  exists m2, openMan nr m0 = Ok m2 /\ same_settings m1 m2 /\ nRow m2 = nr /\
    ((exists d, In (nBlocksInFile (writes m1 ws) - 1, w, d) ws) -> nBlocksInFile m2 = nBlocksInFile (writes m1 ws)) /\
    (~ (exists d, In (nBlocksInFile (writes m1 ws) - 1, w, d) ws) -> nBlocksInFile m2 = nBlocksInFile (writes m1 ws) - 1).
Proof. exact reopen_blocks. Qed.
Print Assumptions C31_reopen.

(** what [nBlocksInFile] is after the writes *)
Theorem C31_blocks_written : forall ws m, nBlocksInFile m = 0 ->
  (forall b c d, In (b, c, d) ws -> b < nBlocksInFile (writes m ws)) /\
  (ws <> [] -> exists b c d, In (b, c, d) ws /\ nBlocksInFile (writes m ws) = b + 1).
Proof. exact blocks_written. Qed.
Print Assumptions C31_blocks_written.

(** the last block is lost when its last column has not been written: reading
    then takes the block for absent *)
Theorem C31_reopen_refuted : exists m1 c d m2, storable m1 /\ In c (columns m1) /\ len d = co_blockSize c /\
  nBlocksInFile (writeCompressedData m1 0 c d) = 1 /\
  openMan 3 (writeCompressedData m1 0 c d) = Ok m2 /\ nBlocksInFile m2 = 0.
Proof.
  exists ex_init, (nth 0 (columns ex_init) narrow_column), (repeat 1 88). eexists.
  split; [apply ex_init_ok|]. split; [now left|]. split; [reflexivity|]. split; [reflexivity|]. split; [reflexivity|]. reflexivity.
Qed.
Print Assumptions C31_reopen_refuted.

Example C31_example : let c0 := nth 0 (columns ex_init) narrow_column in let c1 := nth 1 (columns ex_init) narrow_column in
  let m := writes ex_init [(0, c0, repeat 1 88); (1, c1, repeat 2 13); (1, c0, repeat 3 88)] in
  nBlocksInFile m = 2 /\ match openMan 6 m with Ok m2 => nBlocksInFile m2 | _ => 99 end = 2.
Proof. now vm_compute. Qed.

(** ** C32 *)
(** after removing a column all other columns are read 24 bytes too early *)
Theorem C32_remaining_columns_shifted : forall m i m' b c d',
  storable m -> hdrSize m = hdrSize (writeHeader m) -> removeColumn m i = Ok m' ->
  readCompressedData m' b c (co_blockSize c) = Ok (Some d') -> fsize (fil m) >= hdrSize m ->
  d' = bytes (fil m) (fst (region m b c) - 24) (N.to_nat (co_blockSize c)).
Proof. exact removeColumn_bytes. Qed.
Print Assumptions C32_remaining_columns_shifted.

Theorem C32_remove_column_refuted : exists m i m' b c d d', storable m /\ hdrSize m = hdrSize (writeHeader m) /\
  removeColumn m i = Ok m' /\ In c (columns m') /\
  readCompressedData m b c (co_blockSize c) = Ok (Some d) /\
  readCompressedData m' b c (co_blockSize c) = Ok (Some d') /\ d <> d'.
Proof.
  exists (writeCompressedData (writeCompressedData ex_init 0 (nth 0 (columns ex_init) narrow_column) (repeat 7 88)) 0
            (nth 1 (columns ex_init) narrow_column) [1; 2; 3; 4; 5; 6; 7; 8; 9; 10; 11; 12; 13]), 0%nat.
  eexists _, 0, (nth 1 (columns ex_init) narrow_column), [1; 2; 3; 4; 5; 6; 7; 8; 9; 10; 11; 12; 13], (repeat 7 13).
  split. { destruct ex_init_ok as (_ & H & _). destruct H. constructor; trivial. }
  split; [vm_compute; reflexivity|]. split; [reflexivity|]. split; [left; vm_compute; reflexivity|].
  split; [vm_compute; reflexivity|]. split; [vm_compute; reflexivity|discriminate].
Qed.
Print Assumptions C32_remove_column_refuted.

(** the weights of the only block are read from the data column in front of them *)
Example C32_example : let c0 := nth 0 (columns ex_init) narrow_column in let c1 := nth 1 (columns ex_init) narrow_column in
  let m := writes ex_init [(0, c0, repeat 7 88); (0, c1, [1; 2; 3; 4; 5; 6; 7; 8; 9; 10; 11; 12; 13])] in
  hdrSize m = hdrSize (writeHeader m) /\ (hdrSize m <=? fsize (fil m)) = true /\ fst (region m 0 c1) - 24 = fst (region m 0 c0) + 64 /\
  match removeColumn m 0 with Ok m' => readCompressedData m' 0 c1 13 | _ => UB end = Ok (Some (repeat 7 13)).
Proof. now vm_compute. Qed.

(** ** C49 *)
Theorem C49_new_table_refuted : forall nr nr' m m0, fil m0 = fil (createMan nr' m) -> openMan nr m0 = UB.
Proof. exact new_file_ub. Qed.
Print Assumptions C49_new_table_refuted.

Example C49_example : openMan 0 (createMan 0 ex_man) = UB /\ match openMan 0 (writeHeader (createMan 0 ex_man)) with Ok m => nBlocksInFile m | _ => 99 end = 0.
Proof. now vm_compute. Qed.

(** ** C50 *)
Theorem C50_reopen_same_data : forall m nrow nant w k m1 ws m0 nr,
  initializeRowsPerBlock m nrow nant true = Ok m1 -> storable m1 ->
  0 < nrow < 2 ^ 32 -> nant < 2 ^ 32 -> total nrow nant (columns m) < 2 ^ 32 ->
  nBlocksInFile m = 0 -> fsize (fil m) <= hdrSize m1 ->
  S k = length (columns m1) -> nth_error (columns m1) k = Some w -> 0 < co_blockSize w ->
  Forall (fun x => In (snd (fst x)) (columns m1) /\ len (snd x) = co_blockSize (snd (fst x)) /\ snd x <> []) ws ->
  ws <> [] ->
  dataBitCount m <> 0 -> weightBitCount m <> 0 -> columns m = map (set_bits m) (columns m) ->
  Forall2 (fun c c0 => co_kind c0 = co_kind c /\ co_nPol c0 = co_nPol c /\ co_nChan c0 = co_nChan c) (columns m) (columns m0) ->
  fil m0 = fil (writes m1 ws) ->
  exists m2 m3, openMan nr m0 = Ok m2 /\ prepareMan m2 = Ok m3 /\ same_settings m1 m3 /\ columns m3 = columns m1 /\
    fil m3 = fil m0 /\ nBlocksInFile m3 = nBlocksInFile m2 /\
    forall b c size d, readCompressedData (writes m1 ws) b c size = Ok (Some d) -> readCompressedData m3 b c size = Ok (Some d).
Proof. exact reopen_geometry. Qed.
Print Assumptions C50_reopen_same_data.

Example C50_example : let c0 := nth 0 (columns ex_init) narrow_column in let c1 := nth 1 (columns ex_init) narrow_column in
  let m := writes ex_init [(0, c0, repeat 1 88); (0, c1, repeat 2 13)] in
  columns ex_man = map (set_bits ex_man) (columns ex_man) /\
  match (do m2 <- openMan 6 (set_columns (set_file ex_man (fil m)) [Column KAF 4 2 0 0 0 0; Column KWeight 4 2 0 0 0 0]); prepareMan m2) with
  | Ok m3 => match readCompressedData m3 0 c1 13 with Ok (Some d) => d | _ => [] end
  | _ => [] end = repeat 2 13.
Proof. split; [reflexivity|]. now vm_compute. Qed.

(** ** C45 *)
Theorem C45_row_count : forall os m, nRow m < 2 ^ 63 ->
  Forall (fun o => match o with AddRows k => k < 2 ^ 32 | RemoveRow r => r < 2 ^ 32 end) os ->
  nRow m + 2 ^ 32 * N.of_nat (length os) < 2 ^ 63 ->
  run_man m os = run_table (nRow m) os.
Proof. exact row_ops. Qed.
Print Assumptions C45_row_count.

Example C45_example : run_man ex_man [AddRows 3; RemoveRow 2; AddRows 1; RemoveRow 2; RemoveRow 1; RemoveRow 0; RemoveRow 0] = (0, false) /\
  run_man ex_man [AddRows 3; RemoveRow 1] = (3, false).
Proof. now vm_compute. Qed.
