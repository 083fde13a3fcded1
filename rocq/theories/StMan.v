(** Model of the file side of [DyscoStMan] (/repo/dyscostman.cc, dyscostman.h),
    its header (/repo/header.h) and the block geometry of the columns
    (/repo/threadeddyscocolumn.cc:348-375). *)
From Verif Require Import Base BytePacker File.
Local Open Scope N_scope.

(** ** Header (header.h:10-85)

    The doubles are kept as their 64-bit patterns; the name as its bytes. *)
Record header := Header {
  headerSize : N; columnHeaderOffset : N; columnCount : N;
  smName : list N;
  h_rowsPerBlock : N; h_antennaCount : N; h_blockSize : N;
  versionMajor : N; versionMinor : N;
  h_dataBitCount : N; h_weightBitCount : N; h_distribution : N; h_normalization : N;
  h_studentTNu : N; h_truncation : N }.

(** header.h:34-39 *)
Definition calculateColumnHeaderOffset (name : list N) : N := 7 * 4 + len name + 2 * 2 + 4 * 1 + 2 * 8.

(** header.h:41-58, serializable.h:68-72 *)
Definition SerializeHeader (h : header) : list N :=
  le 4 (headerSize h) ++ le 4 (columnHeaderOffset h) ++ le 4 (columnCount h) ++
  le 4 (len (smName h)) ++ smName h ++
  le 4 (h_rowsPerBlock h) ++ le 4 (h_antennaCount h) ++ le 4 (h_blockSize h) ++
  le 2 (versionMajor h) ++ le 2 (versionMinor h) ++
  le 1 (h_dataBitCount h) ++ le 1 (h_weightBitCount h) ++ le 1 (h_distribution h) ++ le 1 (h_normalization h) ++
  le 8 (h_studentTNu h) ++ le 8 (h_truncation h).

(** a header as read: fields after a failed read are indeterminate *)
Record raw_header := Raw {
  r_headerSize : option N; r_columnHeaderOffset : option N; r_columnCount : option N;
  r_name : option (list N);
  r_rowsPerBlock : option N; r_antennaCount : option N; r_blockSize : option N;
  r_versionMajor : option N; r_versionMinor : option N;
  r_dataBitCount : option N; r_weightBitCount : option N; r_distribution : option N; r_normalization : option N;
  r_studentTNu : option N; r_truncation : option N }.

(** serializable.h:114-120: [new char[size]] with an indeterminate size is
    undefined behaviour.  (Simplification: the allocation itself succeeds.) *)
Definition iread_string (f : file) (s : istream) : res (option (list N) * istream) :=
  let '(n, s1) := iread_int f 4 s in
  match n with
  | None => UB
  | Some n => Ok (iread f (N.to_nat n) s1)
  end.

(** header.h:60-81.  Simplification: copying an indeterminate integer into a
    member of the header is not counted as undefined, using it is. *)
Definition UnserializeHeader (f : file) (s : istream) : res (raw_header * istream) :=
  let '(hs, s) := iread_int f 4 s in
  let '(co, s) := iread_int f 4 s in
  let '(cc, s) := iread_int f 4 s in
  do x <- iread_string f s;
  let '(nm, s) := x in
  let '(rb, s) := iread_int f 4 s in
  let '(ac, s) := iread_int f 4 s in
  let '(bs, s) := iread_int f 4 s in
  let '(vM, s) := iread_int f 2 s in
  let '(vm, s) := iread_int f 2 s in
  let '(db, s) := iread_int f 1 s in
  let '(wb, s) := iread_int f 1 s in
  let '(di, s) := iread_int f 1 s in
  let '(no, s) := iread_int f 1 s in
  let '(nu, s) := iread_int f 8 s in
  let '(tr, s) := iread_int f 8 s in
  Ok (Raw hs co cc nm rb ac bs vM vm db wb di no nu tr, s).

(** ** Columns *)

(** the kind of a column: data with one of the three normalizations
    (dysconormalization.h), or weights *)
Inductive kind := KAF | KRF | KRow | KWeight.

Record column := Column {
  co_kind : kind; co_nPol : N; co_nChan : N; co_bits : N;
  co_offset : N;          (* DyscoStManColumn::_offsetInBlock *)
  co_blockSize : N;       (* ThreadedDyscoColumn::_blockSize *)
  co_antennas : N }.      (* ThreadedDyscoColumn::_antennaCount *)

(** aftimeblockencoder.h:57-60, rftimeblockencoder.h:57-60,
    rowtimeblockencoder.h:56-61, weightblockencoder.h:16 *)
Definition metaDataFloatCount (k : kind) (nRow nPol nChan nAnt : N) : N :=
  match k with
  | KAF => nPol * (nChan + nAnt)
  | KRF => nPol * (nChan + nRow)
  | KRow => nRow
  | KWeight => 1
  end.

(** aftimeblockencoder.h:44-47 and alike; weightblockencoder.h:18-20 *)
Definition symbolCount (k : kind) (nRow nPol nChan : N) : N :=
  match k with
  | KWeight => nRow * nChan
  | _ => nRow * nChan * nPol * 2
  end.

(** threadeddyscocolumn.cc:347-357.  Simplification: size_t (64 bits) does not
    wrap. *)
Definition CalculateBlockSize (c : column) (nRow nAnt : N) : N :=
  4 * metaDataFloatCount (co_kind c) nRow (co_nPol c) (co_nChan c) nAnt +
  bufferSize (symbolCount (co_kind c) nRow (co_nPol c) (co_nChan c)) (co_bits c).

(** threadeddyscocolumn.h:178; [sizeof(GenericColumnHeader)] is 16 on LP64
    (virtual table pointer, 4-byte member, padding); header.h:97 *)
Definition ExtraHeaderSize : N := 8.
Definition sizeof_GenericColumnHeader : N := 16.
Definition GenericColumnHeader_calculateSize : N := 4.

(** threadeddyscocolumn.h:180-183, threadeddyscocolumn.cc:360-366 *)
Definition SerializeExtraHeader (c : column) : list N := le 4 (co_blockSize c) ++ le 4 (co_antennas c).
(** dyscostman.cc:203-208 *)
Definition SerializeColumn (c : column) : list N :=
  le 4 (GenericColumnHeader_calculateSize + ExtraHeaderSize) ++ SerializeExtraHeader c.

(** ** The manager (dyscostman.h:386-404) *)
Record stman := StMan {
  nRow : N; nBlocksInFile : N; rowsPerBlock : N; antennaCount : N; blockSize : N;
  hdrSize : N; fil : file;
  name : list N; dataBitCount : N; weightBitCount : N; distribution : N; normalization : N;
  studentTNu : N; truncation : N;
  columns : list column }.

Definition set_file (m : stman) (f : file) : stman :=
  StMan (nRow m) (nBlocksInFile m) (rowsPerBlock m) (antennaCount m) (blockSize m) (hdrSize m) f
    (name m) (dataBitCount m) (weightBitCount m) (distribution m) (normalization m) (studentTNu m) (truncation m) (columns m).
Definition set_nBlocks (m : stman) (n : N) : stman :=
  StMan (nRow m) n (rowsPerBlock m) (antennaCount m) (blockSize m) (hdrSize m) (fil m)
    (name m) (dataBitCount m) (weightBitCount m) (distribution m) (normalization m) (studentTNu m) (truncation m) (columns m).
Definition set_hdrSize (m : stman) (n : N) : stman :=
  StMan (nRow m) (nBlocksInFile m) (rowsPerBlock m) (antennaCount m) (blockSize m) n (fil m)
    (name m) (dataBitCount m) (weightBitCount m) (distribution m) (normalization m) (studentTNu m) (truncation m) (columns m).
Definition set_columns (m : stman) (cs : list column) : stman :=
  StMan (nRow m) (nBlocksInFile m) (rowsPerBlock m) (antennaCount m) (blockSize m) (hdrSize m) (fil m)
    (name m) (dataBitCount m) (weightBitCount m) (distribution m) (normalization m) (studentTNu m) (truncation m) cs.
Definition set_geometry (m : stman) (rb ac bs : N) (cs : list column) : stman :=
  StMan (nRow m) (nBlocksInFile m) rb ac bs (hdrSize m) (fil m)
    (name m) (dataBitCount m) (weightBitCount m) (distribution m) (normalization m) (studentTNu m) (truncation m) cs.
Definition set_nRow (m : stman) (n : N) : stman :=
  StMan n (nBlocksInFile m) (rowsPerBlock m) (antennaCount m) (blockSize m) (hdrSize m) (fil m)
    (name m) (dataBitCount m) (weightBitCount m) (distribution m) (normalization m) (studentTNu m) (truncation m) (columns m).

Definition u32 (n : N) : N := n mod 2 ^ 32.

(** dyscostman.cc:195-199; [_headerSize] is an [unsigned] *)
Definition headerSize_of (nm : list N) (nCols : nat) : N :=
  u32 (calculateColumnHeaderOffset nm + N.of_nat nCols * (sizeof_GenericColumnHeader + ExtraHeaderSize)).

(** dyscostman.cc:180-199; VERSION 1.0 (dyscostman.cc:13-14) *)
Definition header_of (m : stman) : header :=
  Header (headerSize_of (name m) (length (columns m))) (calculateColumnHeaderOffset (name m))
    (N.of_nat (length (columns m))) (name m) (rowsPerBlock m) (antennaCount m) (blockSize m)
    1 0 (dataBitCount m) (weightBitCount m) (distribution m) (normalization m) (studentTNu m) (truncation m).

(** all bytes written by writeHeader, dyscostman.cc:201-208 *)
Definition header_bytes (m : stman) : list N :=
  SerializeHeader (header_of m) ++ concat (map SerializeColumn (columns m)).

(** dyscostman.cc:178-211 (without I/O errors) *)
Definition writeHeader (m : stman) : stman :=
  set_file (set_hdrSize m (headerSize_of (name m) (length (columns m)))) (fwrite (fil m) 0 (header_bytes m)).

(** dyscostman.cc:251-258.  After a failed read the values are indeterminate;
    open() then throws, so they are left unchanged here. *)
Fixpoint readColumns (f : file) (off : N) (cs : list column) (s : istream) : list column * istream :=
  match cs with
  | [] => ([], s)
  | c :: t =>
    let s := iseek off s in
    let '(hs, s) := iread_int f 4 s in
    let '(bs, s) := iread_int f 4 s in
    let '(ac, s) := iread_int f 4 s in
    let c' := match bs, ac with
              | Some b, Some a => Column (co_kind c) (co_nPol c) (co_nChan c) (co_bits c) (co_offset c) b a
              | _, _ => c
              end in
    let '(t', s) := readColumns f (off + match hs with Some h => h | None => 0 end) t s in
    (c' :: t', s)
  end.

(** a field that was read is used *)
Definition use {A} (x : option A) : res A := match x with Some a => Ok a | None => UB end.

(** dyscostman.cc:213-259 *)
Definition readHeader (m : stman) : res (stman * istream) :=
  do x <- UnserializeHeader (fil m) (IStream 0 false);
  let '(h, s) := x in
  if ifail s then Throw else
  do hs <- use (r_headerSize h); do co <- use (r_columnHeaderOffset h); do cc <- use (r_columnCount h);
  do nm <- use (r_name h); do rb <- use (r_rowsPerBlock h); do ac <- use (r_antennaCount h); do bs <- use (r_blockSize h);
  do vM <- use (r_versionMajor h); do vm <- use (r_versionMinor h);
  do db <- use (r_dataBitCount h); do wb <- use (r_weightBitCount h); do di <- use (r_distribution h); do no <- use (r_normalization h);
  do nu <- use (r_studentTNu h); do tr <- use (r_truncation h);
  if negb ((vM =? 1) && (vm =? 0)) then Throw else
  if negb (cc =? N.of_nat (length (columns m))) then Throw else
  let '(cs, s) := readColumns (fil m) co (columns m) s in
  Ok (StMan (nRow m) (nBlocksInFile m) rb ac bs hs (fil m) nm db wb di no nu tr cs, s).

(** dyscostman.cc:284-305, on a file that can be opened *)
Definition openMan (nrow : N) (m : stman) : res stman :=
  do x <- readHeader (set_nRow m nrow);
  let '(m1, s) := x in
  if ifail s then Throw else
  let size := fsize (fil m1) in
  if hdrSize m1 <? size then
    if blockSize m1 =? 0 then UB
    else Ok (set_nBlocks m1 ((size - hdrSize m1) / blockSize m1))
  else Ok (set_nBlocks m1 0).

(** dyscostman.cc:163-176: a new, empty file; the header is not written *)
Definition createMan (nrow : N) (m : stman) : stman := set_nBlocks (set_file (set_nRow m nrow) empty_file) 0.

(** ** Geometry *)

(** dyscostman.h:296 *)
Definition areOffsetsInitialized (m : stman) : bool := negb (rowsPerBlock m =? 0).
(** dyscostman.h:269, 279, 286; division by zero if not initialized *)
Definition getBlockIndex (m : stman) (row : N) : res N :=
  if rowsPerBlock m =? 0 then UB else Ok (row / rowsPerBlock m).
Definition getRowWithinBlock (m : stman) (row : N) : res N :=
  if rowsPerBlock m =? 0 then UB else Ok (row mod rowsPerBlock m).
Definition getRowIndex (m : stman) (block : N) : N := block * rowsPerBlock m.
(** dyscostman.h:326-328 *)
Definition getFileOffset (m : stman) (block : N) : N := blockSize m * block + hdrSize m.

(** dyscostman.cc:272-280 with threadeddyscocolumn.cc:249-261; the block size
    member is 32 bits wide *)
Fixpoint place (nrow nant : N) (off : N) (cs : list column) : list column * N :=
  match cs with
  | [] => ([], off)
  | c :: t =>
    let size := CalculateBlockSize c nrow nant in
    let c' := Column (co_kind c) (co_nPol c) (co_nChan c) (co_bits c) off size nant in
    let '(t', total) := place nrow nant (u32 (off + size)) t in
    (c' :: t', total)
  end.

(** dyscostman.cc:261-282; [nrow] and [nant] are stored in 32 bits.
    Simplification: the code computes the sizes (line 275) from the values before
    they are reduced to 32 bits, which are the same below 2^32. *)
Definition initializeRowsPerBlock (m : stman) (nrow nant : N) (writeToHeader : bool) : res stman :=
  if areOffsetsInitialized m && negb ((nrow =? rowsPerBlock m) && (nant =? antennaCount m)) then Throw else
  let '(cs, total) := place (u32 nrow) (u32 nant) 0 (columns m) in
  let m' := set_geometry m (u32 nrow) (u32 nant) total cs in
  Ok (if writeToHeader then writeHeader m' else m').

(** dyscostman.cc:351-376; the columns' own Prepare is in the thread model.
    SetBitsPerSymbol: dyscostman.cc:360-366. *)
Definition set_bits (m : stman) (c : column) : column :=
  Column (co_kind c) (co_nPol c) (co_nChan c)
    (match co_kind c with KWeight => weightBitCount m | _ => dataBitCount m end) (co_offset c) (co_blockSize c) (co_antennas c).
Definition prepareMan (m : stman) : res stman :=
  if (dataBitCount m =? 0) || (weightBitCount m =? 0) then Throw else
  let m1 := set_columns m (map (set_bits m) (columns m)) in
  if areOffsetsInitialized m1 then initializeRowsPerBlock m1 (rowsPerBlock m1) (antennaCount m1) false else Ok m1.

(** dyscostman.cc:413-430: [Some] bytes, or [None] when the read failed on the
    last block (the destination then keeps (part of) its old contents) *)
Definition readCompressedData (m : stman) (block : N) (c : column) (size : N) : res (option (list N)) :=
  let off := getFileOffset m block + co_offset c in
  if off + size <=? fsize (fil m) then Ok (Some (bytes (fil m) off (N.to_nat size)))
  else if block + 1 =? nBlocksInFile m then Ok None else Throw.

(** dyscostman.cc:432-445 *)
Definition writeCompressedData (m : stman) (block : N) (c : column) (data : list N) : stman :=
  let m1 := if nBlocksInFile m <=? block then set_nBlocks m (block + 1) else m in
  set_file m1 (fwrite (fil m1) (getFileOffset m1 block + co_offset c) data).

(** ** Rows and columns *)

(** dyscostman.cc:380-388; [_nRow] is 64 bits, [rowNr] 32 bits *)
Definition addRow (m : stman) (n : N) : stman := set_nRow m ((nRow m + n) mod 2 ^ 64).
Definition removeRow (m : stman) (rowNr : N) : res stman :=
  if negb (rowNr =? (nRow m + (2 ^ 64 - 1)) mod 2 ^ 64) then Throw
  else Ok (set_nRow m ((nRow m + (2 ^ 64 - 1)) mod 2 ^ 64)).

(** dyscostman.cc:399-411; the column is identified by its index *)
Definition removeColumn (m : stman) (i : nat) : res stman :=
  if (i <? length (columns m))%nat
  then Ok (writeHeader (set_columns m (firstn i (columns m) ++ skipn (S i) (columns m))))
  else Throw.
