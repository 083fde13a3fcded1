# Formal model of dysco: design

Source modelled: the C++ sources in `/repo` (header-only codecs, the
`DyscoStMan` storage manager, the threaded column, the `dscompress`
validation).  Everything is Rocq/Coq 8.16.1; theories live in
`rocq/theories` with logical name `Verif`.

## Conventions

* **Undefined behaviour is an outcome.**  `Base.v` defines
  `res A := Ok a | Throw | UB`.  Out-of-bounds accesses, uninitialised reads,
  out-of-range float-to-unsigned conversions and division by zero evaluate to
  `UB`; C++ exceptions evaluate to `Throw`.  A theorem that concludes
  `f x = Ok y` therefore proves absence of UB and of exceptions.
* **Memory** is a list of cells; a pointer is an index.  A write outside the
  list is `UB`.
* **Integers** are `N`/`Z`; wrap-around (`unsigned char`, `uint32_t`,
  `size_t`) is written into the model where a property depends on it.
* **Floating point** is Flocq's IEEE-754 (`BinarySingleNaN`, binary32,
  binary64 and x87 extended), round to nearest even, i.e. bit exact apart
  from NaN payloads/signs.  Where a normalization algorithm is modelled over
  exact arithmetic instead this is said at the definition and in the
  MANIFEST note of the claim.
* **Threads** are a small-step transition system whose steps are the critical
  sections of the code (between taking and releasing a mutex, or between two
  waits on the condition variable); a schedule is an arbitrary list of thread
  choices.
* Files: `X.v` = model of X (definitions only, each citing file and lines),
  `XProofs.v` = lemmas, `PropXX.v` = only theorem statements closed by `exact`
  followed by `Print Assumptions`, plus non-vacuity `Example`s.

## Trusted base

* The Coq 8.16.1 kernel (and `vm_compute`, its bytecode machine).
* Assumptions printed for each theorem by `Print Assumptions` in the `Prop*.v`
  files.  Integer/byte level theorems are closed under the global context.
  Theorems which mention real numbers (Flocq) use the axioms of the standard
  library reals: `ClassicalDedekindReals.sig_forall_dec`,
  `ClassicalDedekindReals.sig_not_dec`,
  `FunctionalExtensionality.functional_extensionality_dep`, and, through
  Flocq's use of classical logic, `Classical_Prop.classic`.
  No axiom is declared in this development.
* My reading of the C++ sources: nothing is extracted from or run against
  the real code.
* Compiler/platform assumptions: LP64 little-endian, IEEE floats with
  `FLT_EVAL_METHOD = 0`, x87 80-bit `long double`, default rounding mode, no
  contraction of multiplications and additions (GCC may contract with the
  default `-march=native` of the build on a CPU with FMA instructions, which
  would concern the cumulative probabilities of the truncated Gaussian,
  `stochasticencoder.cc:154-165`, and the antenna factors of the AF fit,
  `aftimeblockencoder.cc:388` and `RMSMeasurement`);
  `NDEBUG` is defined by the build so `assert` is not evaluated (asserts which
  would fail are reported where they occur).
* Not modelled: casacore itself (tables, arrays, records are lists / finite
  maps), GSL special functions (parameters; C61 assumes of `gsl_sf_erf` an error
  of at most 2^-50, of `gsl_cdf_gaussian_P` 2^-52, of the two `Pinv` functions
  2^-30 relative plus 2^-34; that GSL keeps these is not proved), the random number generator (an arbitrary dither value per draw),
  the operating system's file API beyond "a file is a byte string with
  holes reading as zero", I/O errors other than reading past the end,
  memory exhaustion, performance.  `loadBlock` of a short last block asks casacore for the
  antennas of rows behind the end of the table; the model gives some value (`t_ants` is
  total; C68 and C64 with AF normalization require it to be below the antenna count).  C67 assumes the order of casacore's calls: with
  the first column of a manager `makeDirArrColumn`, `setShapeColumn`, `create`,
  `prepare`, with later ones `makeDirArrColumn`, `setShapeColumn`, `addColumn`.
  C75 uses the usual argument that a program of which no interleaving reaches two
  adjacent conflicting accesses has no data race, so that the interleaving semantics of
  `Column.v` and `System.v` (critical sections are single steps) is adequate.
  C70 assumes of `deepCopy` that it makes a manager with `makeObject` from the name and
  `dataManagerSpec` of the old one, with the same columns, and then puts every row read.

## What is modelled, per source file

| file in `/repo` | model | simplifications |
|---|---|---|
| `bytepacker.h` | `BytePacker.v`: every `packN`/`unpackN`, dispatch, `bufferSize` | pointer alignment and aliasing of the 16-bit `reinterpret_cast` |
| `dictionary.h` | `Dictionary.v`: the five `lower_bound` loops | none |
| `stochasticencoder.h` | `StochasticEncoder.v`: constructors, `Encode`, `EncodeWithDithering`, `Decode`, `RightBoundary`, copy and move; `EncoderTables.v`: `cumulative`, `invCumulative` and the Gaussian, Student-T and truncated Gaussian tables | the GSL functions are parameters; loops have fuel, C60 proves that they end |
| `uvector.h` | `UVector.v`: all operations except allocator propagation | allocation failure |
| `weightblockencoder.h`, `weightencoder.h` | `Weights.v` | the two passes over the weights read them once |
| `timeblockencoder.h`, `rowtimeblockencoder.*`, `rftimeblockencoder.*`, `aftimeblockencoder.*` | `TimeBlockEncoders.v` (binary32 and binary64, all loops; `EncodeWithDithering` and `EncodeWithoutDithering`); `AfNormalize.v`: the unused `AFTimeBlockEncoder::Normalize` | double to float overflow gives infinity (IEEE); the loops of AF have fuel, C21 proves how much suffices |
| `timeblockbuffer.h` | `TimeBlockBuffer.v` | none |
| `bytepacker.h`, `threadeddyscocolumn.cc` (`encodeAndWrite`, `loadBlock`, `CalculateBlockSize`), `dyscodatacolumn.*`, `dyscoweightcolumn.*` | `Block.v` | NaN payloads in the meta data; alignment of the float pointer; little endian |
| `serializable.h`, `header.h`, `dyscostman.cc`, `dyscostman.h` | `File.v`, `StMan.v`, `SpecRecord.v`: header bytes, layout, open, create, read and write of blocks, add/remove column, spec records | I/O errors other than reading past the end; one process |
| `stmanmodifier.h` (`Reorder`), the managers that casacore's `deepCopy` makes | `Copy.v` | the table is closed and opened before it is copied (dscompress copies it in the same session: see C71); `_staticSeed` is not kept by the code nor modelled |
| `dyscodatacolumn.cc` (`Prepare`), `dyscoweightcolumn.cc`, `dyscostman.cc` (`makeDirArrColumn`, `addColumn`), `dscompress.cc` (`createDyscoStManColumn`) | `Production.v` | a manager without columns of other data types; `1 << bits` only for bit counts below 31 |
| `threadeddyscocolumn.cc`, `.h` | `Column.v`: the column of one manager as a transition system (calling thread, encoding threads, condition variable, other columns of the same manager) | the codec is a relation; critical sections are atomic; TIME values are integers (no NaN); GetIndirectArray of casacore |
| the same with its codec | `StoredColumn.v`: `enc` and `dec` are `encodeAndWrite` and `loadBlock` of `Block.v`, with any dithers and any buffer contents | a block that cannot be decoded has no rows, so reading one of them is undefined (C59 shows this is not reached) |
| `dyscostman.cc` with all its columns | `System.v`: the manager of `StMan.v` with its one file, the columns of `Column.v` with the codecs of `Block.v` and all their threads, as one transition system | no column is added after the first row (C51); one calling thread; the columns that follow the one that finds the block size are initialized after the header was written, in any order |
| accesses to members in `threadeddyscocolumn.cc`, `dyscostman.cc` | `Accesses.v`: for each step of a thread the members that it reads and writes and the mutexes held then | members that are always used together are one location; what only one thread can reach is left out |
| `dscompress.cc`, `decompress.cc`, `stmanmodifier.h` | `Dscompress.v`: validation, flagging, options, replacing of columns | casacore tables are lists of columns, of which those in a DyscoStMan are in one; console output |
| `stopwatch.h`, `stopwatch.cc` | `Stopwatch.v` | times are integers; the numbers of the texts are exact where the code computes in 80-bit floats; boost's `to_simple_string` |

Not modelled: `aftimeblockencoder`'s console output, the
`tests/` and `dyscostman` Python/CMake files, casacore's own table system.

## Per property

| id | theorems are about | how proved |
|----|----------|------------|
| C01–C04 | every `packN`/`unpackN` statement by statement over byte memory | separate bit-stream specification (`BitStream.v`); generic lemma for one group; tails by case analysis |
| C05–C07 | the five `lower_bound` loops over float arrays, with read and pointer tracking | loop invariants on the monotone predicate "element < value" |
| C08–C14 | the encoder over binary32, tables with a reserved slot past their size, copy/move of the tables | order lemmas on `Bcompare`; Flocq rounding lemmas for the dither mark; counting argument for the mean; witnesses by `vm_compute` for the refuted parts |
| C15 | `UVector` as (allocation, size) with the code's capacity rules | refinement to `list` for every program; the capacity after every operation, and that appending reallocates logarithmically often; refutation of copy assignment |
| C16–C17, C48 | weights with binary32/binary64 arithmetic and undefined conversions | Flocq error lemmas |
| C18, C19 | Row and RF encoders | binary32/binary64 roundings of all steps; the factors characterised with `largest` in `TbeSpec.v` |
| C20, C21 | AF encoder | symbolic form of the code (`AfForm.v`), invariant of the fit (`AfFit.v`): the largest scaled cross-correlation never exceeds the largest level; each round fixes one channel or antenna |
| C22, C23 | the same | the symbol of a sample depends on its value and the factors only; zero factors |
| C24, C57 | `Block.v` | packing only the first symbols of a buffer suffices (`PackPrefix.v`), floats through their IEEE bits; then C18–C20 and C16 |
| C25–C27 | byte-exact serialization | list induction |
| C28–C29 | layout arithmetic with the 32-bit wrap | `nia`/`lia` |
| C30 | `dataManagerSpec`/`setFromSpec` | case analysis; refutation for StudentsT; exact characterisation of the accepted records |
| C31–C32, C49, C50 | manager state + file bytes | invariants; refutations by computation |
| C33–C38, C51 | threaded column and manager mutex as transition system | inductive invariants over all schedules (`ColumnInv.v`, `ColumnData.v`), a decreasing measure for termination; refutations by explicit schedules |
| C39–C42, C52 | `putValues` first-block logic, `TimeBlockBuffer`; another column of the manager may find the block size first (`in_order` with `o := True`) | induction over the calls |
| C58, C59 | `StoredColumn.v`: the transition system with the codecs of `Block.v` in place of the abstract one | what the blocks of the file hold once the column is closed (`ColumnWhole.v`, induction over in-order runs); invariant of runs that only read (`ColumnRead.v`); then C57. Termination: C37 with the invariant "no block that waits is empty or holds other samples" |
| C62, C63 | `System.v` | invariant of all steps of all threads (`SystemInv.v`): every column goes through steps of `Column.v` (what others do is one of its "another column" steps), the layout keeps the regions of the columns apart (C28, C31); in-order runs (`SystemOrder.v`), what the file holds at the end and after opening (`SystemEnd.v`), reading (`SystemRead.v`), then C57 (`SystemGood.v`) |
| C64, C65 | `System.v` | C64: induction over in-order runs: the file holds bytes (`SystemTotal.v`: any bytes of the right length decode), so loading a block that another column already extended the file for succeeds (`SystemWrite.v`). C65: blocks handed to the threads hold rows that were put (`SystemPuts.v`), hence can be encoded; lexicographic measure (block size unknown, sum of the work of all columns, threads to go to sleep) decreases in every step, and there is always a step (`SystemTerm.v`, `SystemAll.v`) |
| C66, C67 | `Production.v`: the encoders that Prepare makes of the settings, `addColumn`, the manager that dscompress makes (its options: `Dscompress.v`) | C66: C61 for all distributions, the tables do not depend on the memory they are filled in; the header restores the settings (`SystemEnd.v`) (`ProductionProofs.v`, `ProductionTool.v`). C67: the manager of the tool is that of a new table (induction over the columns), an accepted table has a first block (C53) and flags are applied as in C44; then C64, C65 |
| C68 | `System.v`; histories of a file: `SessionSpec.v` | per column: invariant over all sequences of reads and puts that do not go back (`ColumnUpdate.v`), with the file of the manager in the place of the column's own (`SystemUpdate.v`); a block that decodes to finite or NaN values of the right shape can be encoded again (`UpdateBlock.v`); `held` is kept by every session (`SystemHeld.v`, `SystemSessions.v`) |
| C69 | `System.v`; a damaged file: `DamageSpec.v` | the header is read the same from both files, so the manager is that of C68 with another file and another number of blocks (`SystemDamage.v`); any bytes of the right length decode (`UpdateBlock.v`), so reading needs nothing of the file but its header |
| C70 | `Copy.v` on top of `System.v` | what is read from a table satisfies the conditions of `writable` (finite or NaN samples, weights not negative), so C64/C65 apply to the copy (`SystemCopy.v`); decoded weights are fixed points of encoding and decoding (`CopyWeights.v`) |
| C71 | `System.v` | per column: invariant over all sequences of reads that follow the puts, in which the block in the buffer is stored at the first read of another block (`ColumnSession.v`); with all columns: `SystemSame.v`. `stored_table` of `SessionSpec.v` includes such sessions, so C68, C69, C70 and C56 hold for their files |
| C43–C44, C53–C56 | `dscompress`, `decompress`; for the weights in C56 also a column removed from a stored table (`Removal.v`) | induction over rows and columns; `C56_weights_shifted`: C32 with the file of a stored table (`SystemRemove.v`) |
| C72 | stop watch | induction over the presses; integer arithmetic for the texts |
| C73 | `System.v`; spec: a column without threads, `RewriteSpec.v` | per column: a simulation of the column without threads, in which a block is bytes of the file or rows still to be encoded (`ColumnRewrite.v`); `getValues` waits for the encoding of a block that is in the cache, `putValues` does not, hence `may_put`; with all columns and the manager's file: `SystemRewrite.v`. `stored_table` of `SessionSpec.v` includes these sessions, so C68, C69, C70 and C56 hold for their files |
| C74 | `System.v`; spec: `AppendSpec.v` (the calls), `SessionSpec.v` | per column: the block that was the last is loaded and completed, later blocks are as in a new table (`ColumnAppend.v`); all columns and the file: `SystemAppend.v`. `stored_table` of `SessionSpec.v` includes extended tables, so C68, C69, C70, C73 and C56 hold for them, and C74 again |
| C75 | `Accesses.v` on top of `System.v`; spec: `RaceSpec.v` | a state has a race when the next steps of two threads have conflicting accesses. From the invariants of C33 and C62: the threads of a column are started when it has none; two threads never have the same item; from one new invariant: while any column has to start threads, no column has anything in its cache, so no thread is at a write (`Races.v`). Witnesses for the refuted parts: `RaceTraces.v` |
| C76 | `System.v`; spec: `HistorySpec.v` (the sessions; a chain of encodings) | induction on the sessions with C68, C73 and C74; for sessions that go back, by induction on the calls of the column without threads of `RewriteSpec.v`: a block is encoded only when it is left after a put (`SystemHistory.v`) |
| C77 | `MinQuantity`, `MaxQuantity`, `symbol_assert` on any well-formed encoder | from the correctness of the search (C05) and the order of the levels; refutation of the assertion |
| C78 | `AfNormalize.v`: `AFTimeBlockEncoder::Normalize` with its local copy as a result of its own (`normalized`) | the shape of the rows is kept by every loop, so no index is outside; refutations by computing two blocks |
| C45 | row counter | arithmetic with 64-bit wrap |
| C46, C47 | encoder constructors | Flocq; for any ordered quantiles, and the uniform table (quantiles: C61) |
| C60, C61 | `EncoderTables.v`: the bisection in 80-bit arithmetic and the tables | bisection: the interval shrinks to neighbouring floats, then the counter ends it (`InvCumulativeProofs.v`); its accuracy from the slope of the normal distribution (`InvAccuracy.v`, `NormalProofs.v`); tables from a bound on the distance of neighbouring quantiles (`TableProofs.v`). The normal distribution is specified by its density (`NormalSpec.v`); `NormalExists.v` constructs it (Gaussian integral, with Coquelicot), only to show that the hypotheses can be met |

Every property is expressible; those the code violates have a `_refuted`
theorem plus the strongest positive theorem found.

## Findings

Behaviour of the code that differs from what a user would expect.  Where a
theorem shows it, it is named.

### Codec
* A copied encoder reads out of bounds for the reserved symbol (`C13_copy_refuted`); production code only moves.
* A value that equals a level drops one level for the 64 largest dither values (`C12_all_dithers_refuted`).
* The documentation of `RightBoundary` is wrong at the boundary (`C14_documentation_refuted`).
* `lower_bound` forms an invalid pointer for sizes other than 2^k-1 (`C07_other_sizes_refuted`); older variants differ with duplicates (`C06_duplicates_refuted`).
* `Dictionary::symbol` asserts that the iterator is behind `begin()`, which fails for every value that gets the first symbol (`C77_assert_refuted`, `C77_assert_dithered_refuted`); a build without `NDEBUG` stops there.
* `AFTimeBlockEncoder::Normalize` (without callers) does not change its buffer (`C78_unchanged`), and the factor with which it fits its local copy to the range of the encoder is inverted (`C78_fit_refuted`); a channel without signal becomes NaN there (`C78_silent_refuted`).
* `UVector`: copy assignment keeps the old size when the capacity suffices (`C15_copy_assign_refuted`); `push_back` of an own element (`C15_push_back_own_refuted`).
* Weights: NaN, infinite, negative weights and rows not filled are undefined (`C17_*`).
* Row/RF/AF: a sample with a non-finite real part or an infinite imaginary part is not counted; its finite component may be clamped, 50 read as 1 (`C18_every_component_refuted`). (finite, NaN) is counted, (finite, Inf) is not (`C22_component_influence_refuted`).
* Row: FLT_MAX with 25 as the largest level is read as infinity (`C18_overflow_refuted`). Rows with M/L below 2^-126 lose precision (the absolute term in the bounds).
* RF: a channel of zeros in rows with signal decodes to non-zero values for the 64 largest dithers (`C23_rf_zero_channel_refuted`).
* AF: autocorrelations are ignored in the fit and clamped, 100 read as 2.03 (`C20_autocorrelation_refuted`); a block of autocorrelations only is read as NaN (`C20_only_autocorrelations_refuted`); an antenna without finite cross-correlations gets factor 0, 100 read as 0 (`C20_dead_antenna_refuted`); a channel without a fully finite sample becomes NaN (`C23_af_unseen_refuted`). An empty block leaves old meta data; zero channels index out of range.
* A truncated Gaussian with truncation 0 is accepted and makes a table of zeros: every finite value is read back as 0 (`C61_truncation_zero_refuted`). `dscompress -truncgaus` passes `atof` of its argument, 0 for anything that is not a number.
* `RFTimeBlockEncoder::Normalize` is declared and not defined.

### Blocks and columns
* The last block of a table is packed with symbols that were never written, or belong to another block. Harmless for the rows that exist (`C24_valid_symbols_kept`, `C57_*`); reading such a block asks for the antennas of rows after the table, undefined with AF normalization when one is not below the antenna count (`C24_short_block_antennas_refuted`).
* These left-over rows count when a row of a short last block is overwritten in a later session: they are decoded and encoded again with the others, so their values, which nobody put, determine the scale. All rows of the last block of a weight column can be overwritten with the same positive weight and be read back as zero (`C68_short_block_refuted`). For the rows of other blocks the error is that of their own rows (`C68_stored`).
* Extending a table of which the last block was not complete decodes the stored rows of that block and encodes them again together with the new ones: in `C74_example` row 4 changes from (2560, -2560) to (3013, 0). The loss is made again each time the table is extended within the same block. Complete blocks are not touched (`C74_stored`). When the added rows do not complete the block, the left-over rows behind them count for the scale as described above.
* Putting a row is not undone by putting its old value: the other rows of its block were decoded and encoded with the scale of that moment. In `C76_undo_refuted` a weight becomes large in one session and gets its old value in the next; the other weights of the block are zero after that.
* The antenna count comes from the first block; larger antenna indices later are out of bounds with AF normalization (premise of `C52_no_ub`).
* `prepare()` drops rows not yet stored, and leaves a flag with which the next put stores an empty buffer as block 2^64-1 (`C51_add_column_refuted`); with a block in the cache it never returns (`C38_add_column_refuted`).
* A table with one time block cannot be closed: the destructor throws (`C39_single_block_refuted`).
* `putValues` reloads a block from the file without waiting for the cached version: an update is lost (`C36_lost_update_refuted`). Reading a row of the block before putting one avoids it (C73).
* `getValues` returns zeros for a block in the buffer or the cache that is not in the file (`C35_reads_back_refuted`).
* A row skipped within a block is undefined behaviour in the encoder (`C41_skipped_row_refuted`).
* A bit count that is not supported throws inside an encoding thread, so the program terminates; rows of the first block out of order may exceed the rows per block; a failed read leaves a stale buffer.
* `initializeRowsPerBlock` for row 0 leaves a block size of 0; the encoding threads are started nevertheless, and the next call changes the block size while they start (`C75_row0_refuted`).

### Storage manager
* 32-bit block size wraps (`C28_large_blocks_refuted`); blocks then overlap.
* Removing a column shifts the data of the others by 24 bytes (`C32_remove_column_refuted`).
* Opening a table of which the last column of the last block was not written loses that block (`C31_reopen_refuted`). In general a file that was cut off is opened and read without any error: the rows of the blocks that are not entirely in it are zeros (`C69_lost_rows_reported_refuted`); the number of rows of the table is not compared with the size of the file.
* A new table without data cannot be reopened (`C49_new_table_refuted`); a file of less than 16 bytes reads an uninitialised size (`C26_first_bytes_refuted`).
* The Students-T distribution cannot be specified: `dataManagerSpec` writes another name than `setFromSpec` accepts (`C30_studentst_refuted`).
* The header's normalization and distribution are not validated; `addColumn`/`removeColumn` write the header without the mutex. While an encoding thread of another column still has a block to write, removing a column is a data race on the file stream: header and block can end up in each other's place (`C75_remove_column_refuted`); `addColumn` reads the number of blocks without the mutex (`C75_add_column_refuted`).

### Tools
* dscompress: a block longer than the first reads out of bounds (`C43_longer_block_refuted`), as does NaN as the first TIME (`C43_nan_refuted`); FLAG smaller than DATA reads out of bounds (premise of `C44_defined`); options without a value or no path dereference a null pointer (`C54_incomplete_refuted`); a mixture of compressed and other columns fails after renaming (`C55_mixed_refuted`), and so do all columns in a second run (`C55_second_run_refuted`) and a column named twice; the shape of the last column is used for all; tables of a single time block are accepted and hit C39.
* decompress destroys the weights when DATA and WEIGHT_SPECTRUM are both compressed, the result of a plain dscompress: it removes DATA from the storage manager first, which moves all other columns 24 bytes (C32), and then reads the weights, without any error (`C56_weights_shifted`, `C56_weights_refuted`); other columns of the manager are lost too. Without WEIGHT_SPECTRUM it fails after DATA was renamed and replaced by an empty column (`C56_no_weights_refuted`).
* Copying a table (`-reorder`, decompress, casacore's deepCopy) always fails when it uses Student's distribution: the specification calls it "StudentsT", `setFromSpec` only knows "StudentT" (`C70_students_refuted`, C30). The original table stays. With the other distributions the error of the data is made a second time (in `C70_example` -2560 becomes 0), while weights stay equal. `Reorder` loses a table that happens to have the path followed by "temp" as its name (`C70_other_table_refuted`), and reads the last character of an empty string when the path is empty or consists of slashes (`C70_slashes_refuted`). The fixed seed of a manager (`_staticSeed`) is not passed on to its copy.
* `-reorder` copies the table in the session in which it was written. `getValues` answers with zeros for a block that is not in the file yet, which is always so for the last block until another block is read (`C71_last_block_refuted`), and depends on the encoding threads for the others; the copy then holds zeros and the original is deleted (`C71_zeros_refuted`: a schedule in which every row of every column is read as zero). With one time block all rows are read as zero (`C71_single_block_refuted`). Closing and opening the table before it is copied would avoid this (C70).
* `Stopwatch::ToHoursString` and `ToDaysString` show all minutes (hours) next to the whole hours (days): 61 minutes is "1h61m", 25 hours "1d25h" (`C72_hours_refuted`; `ToMinutesString` takes the remainder). One millisecond is shown as "1000us" and anything shorter as "0ns" (`C72_below_millisecond`), so microseconds and nanoseconds are never shown. The watch reads local time (`C72_local_time_refuted`). dscompress prints `ToString` only.

## Testing the theorems

`seeded/LOG.jsonl` records edits of the model, made in a scratch copy, that
imitate realistic bugs, with the theorems that then fail.  Edits that no
theorem rejected led to stronger theorems; these are named in the log under
`theorems_tightened`.
