(** Model of how a block is laid out in bytes: [encodeAndWrite], [loadBlock] and
    [CalculateBlockSize] (/repo/threadeddyscocolumn.cc:78-104, 271-295, 348-357),
    with the virtual functions of [DyscoDataColumn] (/repo/dyscodatacolumn.cc)
    and [DyscoWeightColumn] (/repo/dyscoweightcolumn.cc, .h).

    Memory is little endian and a float is its IEEE binary32 bits.
    Simplification: all NaNs are one (the payload of a NaN in the meta data is
    not kept).  Alignment of the float pointers is not modelled.  Values left in
    the buffers by an earlier block, or uninitialised, are arbitrary. *)
From Flocq Require Import IEEE754.Bits.
From Flocq Require Binary.
From Verif Require Import Base Floats TimeBlockBuffer BytePacker BitStream StochasticEncoder TimeBlockEncoders Weights.

(** bits of the NaN written for a NaN: the quiet one *)
Definition nan_bits : {x : binary32 | Binary.is_nan 24 128 x = true} :=
  exist _ (Binary.B754_nan 24 128 false (2 ^ 22) eq_refl) eq_refl.

(** reinterpret_cast of a float to bytes and back (threadeddyscocolumn.cc:94, 281) *)
Definition float_bytes (x : f32) : list N := digits 8 4 (Z.to_N (bits_of_b32 (Binary.BSN2B 24 128 nan_bits x))).
Definition float_of (l : list N) : f32 := Binary.B2BSN 24 128 (b32_of_bits (Z.of_N (BitStream.value 8 l))).

(** the first [n] floats of a buffer *)
Fixpoint floats (n : nat) (l : list N) : list f32 :=
  match n with O => [] | S n => float_of (firstn 4 l) :: floats n (skipn 4 l) end.

(** The functions a column class provides.  [rand]: the random numbers drawn while
    encoding one block. *)
Record codec := Codec {
  sample : Type; rand : Type; factors : Type;
  metaDataFloatCount : nat -> nat -> nat;                   (** rows, antennas *)
  symbolCount : nat -> nat;                                 (** rows *)
  encode : rand -> nat -> tbb sample -> list f32 -> list N -> res (list f32 * list N);
                                                            (** random numbers, antennas, block, meta data, symbols *)
  initializeDecode : list f32 -> nat -> nat -> res factors; (** meta data, rows, antennas *)
  decode : factors -> list N -> nat -> nat -> nat -> res (list sample) }.
                                                            (** symbols, row, antennas of the row *)

(** the encoders of visibilities are modelled with symbols in [nat] *)
Definition with_nat (r : res (list f32 * list nat)) : res (list f32 * list N) :=
  do (m, s) <- r; Ok (m, map N.of_nat s).

(** dyscodatacolumn.cc with Normalization::kRow *)
Definition row_codec (e : encoder) (nPol nChan : nat) : codec := {|
  sample := cf; rand := nat -> Z; factors := list f64;
  metaDataFloatCount := fun rows ants => row_MetaDataCount rows nPol nChan ants;
  symbolCount := fun rows => SymbolCount rows nPol nChan;
  encode := fun g ants b meta sym => with_nat (row_encode e nPol nChan (Some g) b meta (map N.to_nat sym));
  initializeDecode := fun meta rows ants => row_init meta rows;
  decode := fun f sym row a1 a2 => row_decode e nPol nChan f (map N.to_nat sym) row |}.

(** Normalization::kRF *)
Definition rf_codec (e : encoder) (nPol nChan : nat) : codec := {|
  sample := cf; rand := nat -> Z; factors := list f64 * list f64;
  metaDataFloatCount := fun rows ants => rf_MetaDataCount rows nPol nChan ants;
  symbolCount := fun rows => SymbolCount rows nPol nChan;
  encode := fun g ants b meta sym => with_nat (rf_encode e nPol nChan (Some g) b meta (map N.to_nat sym));
  initializeDecode := fun meta rows ants => rf_init nPol nChan meta rows;
  decode := fun f sym row a1 a2 => rf_decode e nPol nChan f (map N.to_nat sym) row |}.

(** Normalization::kAF.  The rounds of its loops are limited to one more than
    channels and antennas together; C21 proves that they need no more. *)
Definition af_codec (e : encoder) (nPol nChan : nat) : codec := {|
  sample := cf; rand := nat -> Z; factors := list f64 * list f64;
  metaDataFloatCount := fun rows ants => af_MetaDataCount rows nPol nChan ants;
  symbolCount := fun rows => SymbolCount rows nPol nChan;
  encode := fun g ants b meta sym =>
    with_nat (match af_encode (S (nChan + ants)) e nPol nChan ants (Some g) b meta (map N.to_nat sym) with Some x => x | None => UB end);
  initializeDecode := fun meta rows ants => af_init nPol nChan meta ants;
  decode := fun f sym row a1 a2 => af_decode e nPol nChan f (map N.to_nat sym) row a1 a2 |}.

(** dyscoweightcolumn.cc:9-37, dyscoweightcolumn.h:53-61, weightblockencoder.h:17-24 *)
Definition weight_codec (nPol nChan : nat) (bits : N) : codec := {|
  sample := f32; rand := unit; factors := f32;
  metaDataFloatCount := fun _ _ => 1;
  symbolCount := fun rows => rows * nChan;
  encode := fun _ _ b meta sym =>
    do (m, ss) <- EncodeWeights nPol nChan (2 ^ Z.of_N bits) (map (@visibilities f32) b);
    do meta <- wr meta 0 m;
    do sym <- wrs sym 0 ss;
    Ok (meta, sym);
  initializeDecode := fun meta _ _ => rd meta 0;
  decode := fun m sym row _ _ => DecodeWeights nPol nChan (2 ^ Z.of_N bits) m sym row |}.

Section Column.
Variables (c : codec) (bits : N) (nRows nAnt : nat).  (** nRows: nRowsInBlock() *)

Definition nMetaFloats : nat := metaDataFloatCount c nRows nAnt.
Definition nSymbols : nat := symbolCount c nRows.
Definition binarySize : nat := N.to_nat (bufferSize (N.of_nat nSymbols) bits).

(** threadeddyscocolumn.cc:348-357 *)
Definition CalculateBlockSize : nat := 4 * nMetaFloats + binarySize.

(** threadeddyscocolumn.cc:271-295.  [packed] and [sym] are packedSymbolBuffer and
    unpackedSymbolBuffer.  Returns the bytes given to writeCompressedData, and the
    buffers. *)
Definition encodeAndWrite (g : rand c) (b : tbb (sample c)) (packed sym : list N) : res (list N * (list N * list N)) :=
  if length packed <? 4 * nMetaFloats then UB else
  do (meta, sym) <- encode c g nAnt b (floats nMetaFloats packed) sym;
  do binary <- pack bits (skipn (4 * nMetaFloats) packed) sym nSymbols;
  let packed := concat (map float_bytes meta) ++ binary in
  do block <- rds packed 0 (4 * nMetaFloats + binarySize);
  Ok (block, (packed, sym)).

(** threadeddyscocolumn.cc:80-100: the rows decoded from the block [packed], as read
    by readCompressedData.  [sym] is _unpackedSymbolReadBuffer; [ants] gives the antennas
    of a row of the block (ANTENNA1, ANTENNA2). *)
Definition loadBlock (ants : nat -> nat * nat) (packed sym : list N) : res (list (list (sample c))) :=
  if length packed <? 4 * nMetaFloats then UB else
  do sym <- unpack bits sym (skipn (4 * nMetaFloats) packed) nSymbols;
  do f <- initializeDecode c (floats nMetaFloats packed) nRows nAnt;
  mapM (fun row => decode c f sym row (fst (ants row)) (snd (ants row))) (seq 0 nRows).
End Column.
