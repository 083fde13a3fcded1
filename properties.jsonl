{"id": "C01", "title": "Byte packing round trip", "statement": "For each supported bit count b (2,3,4,6,8,10,12,16), packing n symbols that are each smaller than 2^b and unpacking n symbols from the result gives back exactly the same n symbols.", "quantifier": "every supported b, every n including 0 and every n not divisible by the group size, every symbol vector with values < 2^b, every prior content of both buffers", "why_tests_cant": "The tail code of every packer is a separate hand-written case per remainder; tests sample a few lengths and values, not every combination of symbol values and remainders.", "anchors": ["bytepacker.h: BytePacker::pack", "bytepacker.h: BytePacker::unpack"]}
{"id": "C02", "title": "Packed layout is the little-endian bit stream", "statement": "The packed bytes are exactly the LSB-first bit stream of the symbols: bit j of symbol i is bit (i*b+j) mod 8 of byte (i*b+j) div 8, padding bits of the last byte are zero; equivalently the bytes read as a little-endian integer equal the sum of s_i * 2^(b*i). Unpacking any byte string reads exactly those bits.", "quantifier": "every supported b, every n, every symbol vector < 2^b (pack), every byte string (unpack)", "why_tests_cant": "This is the on-disk format contract across versions and implementations; a round-trip test passes for any self-consistent permutation of bits.", "anchors": ["bytepacker.h: BytePacker::pack2..pack16", "bytepacker.h: BytePacker::unpack2..unpack16"]}
{"id": "C03", "title": "Packing touches exactly the advertised bytes", "statement": "pack writes every one of the bufferSize(n,b) destination bytes and no other byte, reads only the n source symbols; unpack reads only the first bufferSize(n,b) source bytes and writes exactly the n destination symbols; bufferSize(n,b) is the least byte count that can hold n*b bits. So with buffers of exactly the documented size no access is out of bounds.", "quantifier": "every supported b, every n, all buffer contents", "why_tests_cant": "Overruns by a few bytes in tail cases do not change test results and are only visible with exact-size allocations for each remainder and bit count.", "anchors": ["bytepacker.h: BytePacker::bufferSize", "bytepacker.h: BytePacker::pack", "bytepacker.h: BytePacker::unpack"]}
{"id": "C04", "title": "Unsupported bit counts are rejected without touching memory", "statement": "pack and unpack with a bit count outside {2,3,4,6,8,10,12,16} throw and leave both buffers unchanged; with a supported bit count they never throw.", "quantifier": "every bit count, every n, every buffer content", "why_tests_cant": "The set of all other bit counts is infinite; the storage manager itself accepts any nonzero bit count.", "anchors": ["bytepacker.h: BytePacker::pack", "bytepacker.h: BytePacker::unpack"]}
{"id": "C05", "title": "Dictionary lower_bound is correct and in bounds", "statement": "On every dictionary of at least two values sorted in non-decreasing order (duplicates allowed) lower_bound(v) returns the first position whose value is not less than v (the size if there is none), and never reads outside the dictionary.", "quantifier": "every size >= 2 (not only 2^k-1), every sorted content of non-NaN floats, every float v", "why_tests_cant": "Branchless search has size-dependent step patterns; tests use a few sizes. Reads past the end are silent.", "anchors": ["dictionary.h: Dictionary::lower_bound", "dictionary.h: Dictionary::lower_bound_branchless_two_minimum", "dictionary.h: Dictionary::lower_bound_branchless"]}
{"id": "C06", "title": "All lower_bound variants agree", "statement": "The five lower_bound implementations return the same position. Claimed by their shared documentation for sorted dictionaries; holds on strictly increasing dictionaries, fails on dictionaries with duplicate values for the three older variants.", "quantifier": "every strictly increasing dictionary of the documented minimum size, every float v", "why_tests_cant": "Agreement is a statement over all dictionaries and all probe values; the disagreement only shows on repeated values.", "anchors": ["dictionary.h: Dictionary::lower_bound_two_minimum", "dictionary.h: Dictionary::lower_bound_one_minimum", "dictionary.h: Dictionary::lower_bound_slow"]}
{"id": "C07", "title": "lower_bound forms only valid pointers", "statement": "While searching, lower_bound never forms a pointer beyond one past the end of the dictionary (which would be undefined behaviour even if it is not read). Holds for the sizes the encoders use (2^k-1); fails for other sizes.", "quantifier": "every k >= 1 / every size", "why_tests_cant": "Forming an out-of-range pointer has no observable effect in a test run.", "anchors": ["dictionary.h: Dictionary::lower_bound_branchless_two_minimum"]}
{"id": "C08", "title": "Encode is total, in range and monotone", "statement": "For an encoder whose boundary dictionary is sorted and ends in the largest finite value, Encode of every finite value gives a symbol smaller than QuantizationCount()-1, this symbol is the unique interval (previous boundary, boundary] containing the value, and Encode is monotone.", "quantifier": "every quantization count >= 3, every sorted boundary dictionary, every finite float including the largest finite value and subnormals", "why_tests_cant": "There are 2^32 floats times all dictionaries; the code comment even claims that the largest float is encoded as an infinity.", "anchors": ["stochasticencoder.h: StochasticEncoder::Encode", "stochasticencoder.cc: StochasticEncoder::StochasticEncoder"]}
{"id": "C09", "title": "Non-finite values survive, finite values never turn non-finite", "statement": "Encode and EncodeWithDithering map a value to the reserved symbol QuantizationCount()-1 exactly when the value is NaN or infinite, and decoding the reserved symbol gives NaN while every other symbol decodes to a finite value.", "quantifier": "every float, every dither value, every encoder built by one of the constructors from finite tables", "why_tests_cant": "Flag information is carried by NaNs; one finite value mapped to NaN (or back) among 2^32 inputs and 2^31 dithers is a silent data loss.", "anchors": ["stochasticencoder.h: StochasticEncoder::Encode", "stochasticencoder.h: StochasticEncoder::EncodeWithDithering", "stochasticencoder.h: StochasticEncoder::Decode"]}
{"id": "C10", "title": "Dithering selects one of the two bracketing levels", "statement": "EncodeWithDithering of a finite value returns a symbol whose decoded value is one of the two dictionary values adjacent to the value (the nearest end value if outside the dictionary range), for every dither value; larger dither values never give larger symbols and larger input values never give smaller symbols at the same dither value.", "quantifier": "every strictly increasing finite dictionary, every finite float (with binary32 rounding of each operation), every 32-bit dither value", "why_tests_cant": "The claim is about every rounding case of three float operations and 2^31 dithers.", "anchors": ["stochasticencoder.h: StochasticEncoder::EncodeWithDithering"]}
{"id": "C11", "title": "Dithering is unbiased", "statement": "Averaged over the 2^31 equally likely dither values the decoded value equals the input up to a stated rounding bound (a small multiple of the quantization gap), for inputs inside the dictionary range.", "quantifier": "every strictly increasing finite dictionary without overflow/underflow of the gap, every finite float in range", "why_tests_cant": "A bias of one part in 10^6 cannot be seen in samples but matters when averaging billions of visibilities.", "anchors": ["stochasticencoder.h: StochasticEncoder::EncodeWithDithering", "stochasticencoder.h: StochasticEncoder::GetDitherDistribution"]}
{"id": "C12", "title": "Representable values are preserved by dithered encoding", "statement": "A value that is exactly a quantization level is encoded to that level for every dither value. (Decode after encode is idempotent.)", "quantifier": "every dictionary level, every dither value from the dither distribution", "why_tests_cant": "Fails only for the 64 largest of the 2^31 dither values, i.e. with probability 2^-25 per sample.", "anchors": ["stochasticencoder.h: StochasticEncoder::EncodeWithDithering", "stochasticencoder.h: StochasticEncoder::GetDitherDistribution"]}
{"id": "C13", "title": "Encoders can be copied and moved", "statement": "A copy (or move) of an encoder decodes every symbol, including the reserved non-finite symbol, to the same value as the original without accessing memory outside its tables.", "quantifier": "every encoder, every symbol < QuantizationCount()", "why_tests_cant": "Reading one element past a heap allocation usually goes unnoticed.", "anchors": ["stochasticencoder.h: StochasticEncoder", "uvector.h: UVector(const UVector&)", "stochasticencoder.cc: reserved NaN slot"]}
{"id": "C14", "title": "RightBoundary is a tight boundary", "statement": "RightBoundary(s) separates the symbols: every finite value above it gets a larger symbol and every value at or below it a symbol <= s. The documentation (it is the smallest value NOT quantized to s) is also checked.", "quantifier": "every sorted boundary dictionary, every symbol, every finite float", "why_tests_cant": "Distinguishing < from <= at the boundary requires the exact boundary float of each symbol.", "anchors": ["stochasticencoder.h: StochasticEncoder::RightBoundary"]}
{"id": "C15", "title": "Assigning a UVector makes it equal to its source", "statement": "After a = b (copy assignment) a has the size and elements of b; the other UVector operations (construct, push_back, resize, reserve, insert, erase, assign, copy, move, swap) behave like the corresponding list operations and never access memory outside the allocation; the capacity changes only when the elements do not fit, and appending one by one reallocates a logarithmic number of times.", "quantifier": "every pair of vectors and capacities", "why_tests_cant": "Copy assignment is wrong only when the destination capacity is large enough; callers in the code base rarely use it.", "anchors": ["uvector.h: UVector::operator=", "uvector.h: UVector::assign_copy_from", "uvector.h: UVector::resize", "uvector.h: UVector::push_back"]}
{"id": "C16", "title": "Weights: bounded error, exact zero and exact maximum", "statement": "Encoding and decoding a block of finite non-negative weights returns, for each row and channel, the same value for all polarizations; it differs from the smallest of the polarization weights by at most max/(2*(Q-1)) plus a stated rounding term, weight zero comes back as exactly zero, the largest weight of the block comes back exactly, order is preserved, and every symbol is < Q.", "quantifier": "every number of rows, channels, polarizations >= 1, every finite non-negative weight (binary32/binary64 rounding), every Q = 2^b with b a supported bit count", "why_tests_cant": "Error, exactness and range claims are over all float inputs and all block shapes.", "anchors": ["weightblockencoder.h: WeightBlockEncoder::Encode", "weightblockencoder.h: WeightBlockEncoder::Decode"]}
{"id": "C17", "title": "Weights: well-defined for every input", "statement": "Encoding a block of weights never performs an undefined operation. (Code: a negative, NaN or infinite weight is converted to an unsigned integer out of range.)", "quantifier": "every float weight", "why_tests_cant": "Float to unsigned conversion of an out-of-range value gives some number on every platform, so tests do not notice.", "anchors": ["weightblockencoder.h: WeightBlockEncoder::Encode", "weightencoder.h: WeightEncoder::Encode"]}
{"id": "C18", "title": "Row normalization: bounded error per row", "statement": "With Row normalization each decoded visibility component differs from the input by at most the local quantization gap times (row maximum / largest level); no component is clamped; metadata are the nRow row factors.", "quantifier": "every block shape, every finite visibility, every dither sequence, every strictly increasing symmetric level table", "why_tests_cant": "Depends on all values in a row through the scale factor; the bound must hold for each of them simultaneously.", "anchors": ["rowtimeblockencoder.cc: RowTimeBlockEncoder::encode", "rowtimeblockencoder.cc: RowTimeBlockEncoder::Decode"]}
{"id": "C19", "title": "RF normalization: bounded error and lossless scaling", "statement": "With RF normalization the product of the stored row and channel factors and the normalized value reproduces the input, no normalized component exceeds the largest level, and each decoded component differs from the input by at most the local quantization gap times its row factor times its channel factor.", "quantifier": "every block shape, every finite visibility, every dither sequence, every level table", "why_tests_cant": "Two-pass normalization couples every sample in the block.", "anchors": ["rftimeblockencoder.cc: RFTimeBlockEncoder::encode", "rftimeblockencoder.cc: RFTimeBlockEncoder::maximizeChannels", "rftimeblockencoder.cc: RFTimeBlockEncoder::Decode"]}
{"id": "C20", "title": "AF normalization: lossless scaling and no clamping of cross-correlations", "statement": "With AF normalization the product of the stored channel factor, the two antenna factors and the normalized value reproduces the input for every sample whose factors are nonzero; normalized cross-correlation components never exceed the largest level; decoded values differ from the input by at most the quantization gap times the stored factors.", "quantifier": "every block shape, antenna assignment with indices below the antenna count, every finite visibility, every dither sequence", "why_tests_cant": "Iterative fit over antennas and channels; correctness for all iteration histories is an invariant, not a sample.", "anchors": ["aftimeblockencoder.cc: AFTimeBlockEncoder::encode", "aftimeblockencoder.cc: AFTimeBlockEncoder::fitToMaximum", "aftimeblockencoder.cc: AFTimeBlockEncoder::changeAntennaFactor", "aftimeblockencoder.cc: AFTimeBlockEncoder::changeChannelFactor", "aftimeblockencoder.cc: AFTimeBlockEncoder::Decode"]}
{"id": "C21", "title": "AF fitting terminates", "statement": "The do-while loop that fits antenna and channel factors to the maximum level terminates for every block, with a bound on the number of iterations.", "quantifier": "every block of visibilities, every antenna assignment, every maximum level > 0", "why_tests_cant": "Non-termination can not be observed by a finite test, and the loop has no iteration cap.", "anchors": ["aftimeblockencoder.cc: AFTimeBlockEncoder::fitToMaximum"]}
{"id": "C22", "title": "Non-finite visibilities decode to non-finite in every normalization", "statement": "In Row, RF and AF normalization a non-finite component of a visibility decodes to a non-finite component, and it does not influence the factors used for other samples.", "quantifier": "every block, every position of non-finite components", "why_tests_cant": "Flag propagation must hold for every mixture of finite and non-finite samples, including rows, channels or antennas that are completely non-finite.", "anchors": ["rowtimeblockencoder.cc", "rftimeblockencoder.cc", "aftimeblockencoder.cc", "timeblockencoder.h: RMSMeasurement"]}
{"id": "C23", "title": "All-zero rows, channels and blocks decode to zero", "statement": "If all (finite) visibilities of a normalization unit are zero the factor stored is zero or one as appropriate, no division by zero reaches the data and all its samples decode to exactly zero.", "quantifier": "every block shape with all-zero rows/channels/antennas", "why_tests_cant": "The zero guards are separate code in each encoder; a missing guard produces NaN only for particular patterns.", "anchors": ["rowtimeblockencoder.cc: RowTimeBlockEncoder::encode", "rftimeblockencoder.cc: RFTimeBlockEncoder::encode", "aftimeblockencoder.cc: AFTimeBlockEncoder::encode"]}
{"id": "C24", "title": "Symbol, metadata and block sizes are consistent", "statement": "For every encoder the symbols produced and consumed per block are exactly SymbolCount, the metadata exactly MetaDataCount, and CalculateBlockSize equals 4*MetaDataCount + bufferSize(SymbolCount, bits): encode/pack/write and read/unpack/decode use identical offsets and stay within the allocated buffers.", "quantifier": "every shape (rows, antennas, channels, polarizations), every supported bit count, every full block", "why_tests_cant": "An off-by-one in one size formula corrupts the neighbouring column's data only for particular shapes.", "anchors": ["threadeddyscocolumn.cc: ThreadedDyscoColumn::CalculateBlockSize", "threadeddyscocolumn.cc: ThreadedDyscoColumn::encodeAndWrite", "threadeddyscocolumn.cc: ThreadedDyscoColumn::loadBlock", "dyscodatacolumn.h", "dyscoweightcolumn.h"]}
{"id": "C25", "title": "Header round trip", "statement": "Reading back a header that was written gives the same configuration: name, rows per block, antenna count, block size, bit counts, distribution, normalization, StudentT nu and truncation, column count and per-column headers; the column headers start at the recorded column header offset.", "quantifier": "every name shorter than 2^32, every 32-bit field value, every bit count < 256, every double bit pattern, every column list", "why_tests_cant": "Covers all field values and name lengths; tests use one configuration.", "anchors": ["header.h: Header::Serialize", "header.h: Header::Unserialize", "header.h: Header::calculateColumnHeaderOffset", "serializable.h: Serializable", "dyscostman.cc: DyscoStMan::writeHeader", "dyscostman.cc: DyscoStMan::readHeader"]}
{"id": "C26", "title": "Corrupt or truncated headers are rejected cleanly", "statement": "Opening a file whose header is truncated at any byte, has a different major version or a different column count is rejected with an exception before any column data is used, and without evaluating uninitialised data.", "quantifier": "every truncation point of every header, every version number", "why_tests_cant": "Uninitialised reads give arbitrary values; an exhaustive list of truncation points for all headers is infinite.", "anchors": ["dyscostman.cc: DyscoStMan::readHeader", "header.h: Header::Unserialize", "serializable.h: Serializable::UnserializeUInt32"]}
{"id": "C27", "title": "Header and data regions do not overlap", "statement": "The header written to the file always fits in the header size recorded in it, so that writing the header never touches block 0 and writing blocks never touches the header.", "quantifier": "every name, every number of columns", "why_tests_cant": "Overlap corrupts only the first bytes of the first block or the last column header.", "anchors": ["dyscostman.cc: DyscoStMan::writeHeader", "dyscostman.h: DyscoStMan::getFileOffset"]}
{"id": "C28", "title": "Distinct (block, column) pairs occupy disjoint file regions", "statement": "After the number of rows per block is known, the file regions of distinct (block, column) pairs are disjoint, as long as the total block size is below 2^32; beyond that the 32-bit block size wraps and regions overlap.", "quantifier": "every list of columns with arbitrary sizes, all block indices", "why_tests_cant": "Large blocks (>4 GiB) are out of reach of tests; disjointness is for all pairs.", "anchors": ["dyscostman.cc: DyscoStMan::initializeRowsPerBlock", "dyscostman.h: DyscoStMan::getFileOffset", "dyscostman.cc: DyscoStMan::writeCompressedData"]}
{"id": "C29", "title": "Row numbers map one-to-one to (block, row in block)", "statement": "For rowsPerBlock >= 1 the maps row -> (getBlockIndex, getRowWithinBlock) and (block, row in block) -> getRowIndex are inverse bijections, and consecutive rows stay consecutive.", "quantifier": "every row number, every rowsPerBlock >= 1", "why_tests_cant": "Unbounded domain.", "anchors": ["dyscostman.h: DyscoStMan::getBlockIndex", "dyscostman.h: DyscoStMan::getRowWithinBlock", "dyscostman.h: DyscoStMan::getRowIndex"]}
{"id": "C30", "title": "Specification record round trip", "statement": "A storage manager created from the record returned by dataManagerSpec has the same settings as the original. (Holds for Uniform, Gaussian and truncated Gaussian; fails for Students-T because the emitted name is not accepted.) A record is accepted exactly when it has all fields with values of the right kind, known names and bit counts other than zero, where studentTNu may be missing and is then zero; the settings are then those it says. Without dataBitCount nothing is changed; all other records give an exception.", "quantifier": "every distribution, every normalization, every bit count and parameter", "why_tests_cant": "The record strings are matched by hand in two places; a test per distribution is missing.", "anchors": ["dyscostman.cc: DyscoStMan::dataManagerSpec", "dyscostman.cc: DyscoStMan::setFromSpec"]}
{"id": "C31", "title": "Reopening a file finds all blocks that were written", "statement": "After closing and reopening, the number of blocks found equals the number of blocks written, so every stored row is readable.", "quantifier": "every number of columns, every set of written (block, column) pairs", "why_tests_cant": "Depends on which columns have been written in the last block; tests always write all columns.", "anchors": ["dyscostman.cc: DyscoStMan::open", "dyscostman.cc: DyscoStMan::readCompressedData", "dyscostman.cc: DyscoStMan::writeCompressedData"]}
{"id": "C32", "title": "Removing a column leaves the other columns readable", "statement": "After removeColumn on a manager with several columns, the rows of the remaining columns read the same as before.", "quantifier": "every column set, every stored data", "why_tests_cant": "The repository has no test that removes one of several Dysco columns and reads another.", "anchors": ["dyscostman.cc: DyscoStMan::removeColumn", "dyscostman.cc: DyscoStMan::writeHeader", "decompress.cc"]}
{"id": "C33", "title": "Write-behind cache safety for every schedule", "statement": "For every interleaving of the writing thread and any number of encoding threads: a block is never encoded by two threads at once, a block is at most once in the cache, the cache never exceeds its maximum, and no stored block is dropped.", "quantifier": "every number of threads, every schedule, every sequence of stores", "why_tests_cant": "Schedules are unbounded; races occur with tiny probability.", "anchors": ["threadeddyscocolumn.cc: ThreadedDyscoColumn::storeBlock", "threadeddyscocolumn.cc: ThreadedDyscoColumn::EncodingThreadFunctor::operator()", "threadeddyscocolumn.cc: ThreadedDyscoColumn::isWriteItemAvailable"]}
{"id": "C34", "title": "Everything stored is on disk after shutdown, last write wins", "statement": "When stopThreads returns, the cache is empty and for every block stored, the file holds the encoding of the most recently stored contents of that block, for every schedule; all other blocks are unchanged.", "quantifier": "every schedule, every sequence of stores (including repeated stores of the same block), every number of threads >= 1", "why_tests_cant": "Ordering bugs between two stores of the same block only show under particular schedules.", "anchors": ["threadeddyscocolumn.cc: ThreadedDyscoColumn::stopThreads", "threadeddyscocolumn.cc: ThreadedDyscoColumn::shutdown", "threadeddyscocolumn.cc: ThreadedDyscoColumn::encodeAndWrite"]}
{"id": "C35", "title": "Reads return the last written data", "statement": "getValues after putValues of the same row returns the data written (through the codec), independent of the schedule. (Holds for blocks the file already contains; fails for blocks not yet in the file: zeros are returned, depending on the schedule.)", "quantifier": "every history of puts and gets, every schedule", "why_tests_cant": "Result depends on timing of the encoding threads and on which rows were flushed.", "anchors": ["threadeddyscocolumn.cc: ThreadedDyscoColumn::getValues", "threadeddyscocolumn.cc: ThreadedDyscoColumn::putValues", "threadeddyscocolumn.cc: ThreadedDyscoColumn::loadBlock"]}
{"id": "C36", "title": "Overwriting part of a block keeps the rest", "statement": "Writing one row of an existing block keeps the (decoded) values of the other rows of the block, also if an earlier version of the block is still waiting in the write cache.", "quantifier": "every history, every schedule", "why_tests_cant": "The lost-update window exists only while the block is in the cache.", "anchors": ["threadeddyscocolumn.cc: ThreadedDyscoColumn::putValues", "threadeddyscocolumn.cc: ThreadedDyscoColumn::loadBlock"]}
{"id": "C37", "title": "The column protocol does not deadlock", "statement": "In every reachable state with at least one encoding thread, storeBlock, getValues and stopThreads eventually complete: whenever the writing thread waits, some encoding thread can make progress, and no wake-up is lost.", "quantifier": "every reachable state, every schedule, every number of threads >= 1", "why_tests_cant": "Deadlock freedom is a statement about all interleavings.", "anchors": ["threadeddyscocolumn.cc", "threadgroup.h: threadgroup::join_all"]}
{"id": "C38", "title": "Adding a column does not block forever", "statement": "prepare() (called when a column is added or the table opened) always returns. (Code: it holds the manager mutex while waiting for encoding threads that need that mutex.)", "quantifier": "every reachable state, every schedule", "why_tests_cant": "Requires a block in the cache at the moment of the call.", "anchors": ["dyscostman.cc: DyscoStMan::prepare", "threadeddyscocolumn.cc: ThreadedDyscoColumn::Prepare", "dyscostman.cc: DyscoStMan::writeCompressedData"]}
{"id": "C39", "title": "A column with a single time block can be closed", "statement": "If only rows of one time block have been written, closing the column stores them. (Code: an exception is thrown, from a destructor.)", "quantifier": "every number of rows in that block", "why_tests_cant": "All tests write at least two time blocks.", "anchors": ["threadeddyscocolumn.cc: ThreadedDyscoColumn::shutdown", "threadeddyscocolumn.cc: ThreadedDyscoColumn::stopThreads", "dyscostman.cc: DyscoStMan::~DyscoStMan"]}
{"id": "C40", "title": "The block size is learnt from the first time block", "statement": "Writing rows 0,1,2,... in order, the number of rows per block becomes the number of leading rows with the same time, field and data description id, and the antenna count becomes one more than the largest antenna index in these rows; afterwards it never changes.", "quantifier": "every sequence of times, fields, data description ids and antennas", "why_tests_cant": "All lengths of the first block and all combinations of what changes.", "anchors": ["threadeddyscocolumn.cc: ThreadedDyscoColumn::putValues", "dyscostman.cc: DyscoStMan::initializeRowsPerBlock", "timeblockbuffer.h: TimeBlockBuffer::MaxAntennaIndex"]}
{"id": "C41", "title": "Blocks may be written in any row order", "statement": "Rows of a block may be written in any order and partially; reading gives the written values and storing is well defined. (Code: skipped rows have no data and encoding reads outside them.)", "quantifier": "every subset and order of rows of a block", "why_tests_cant": "Tests always write rows consecutively; the out-of-bounds read is silent.", "anchors": ["timeblockbuffer.h: TimeBlockBuffer::SetData", "rowtimeblockencoder.cc: RowTimeBlockEncoder::encode", "threadeddyscocolumn.cc: ThreadedDyscoColumn::putValues"]}
{"id": "C42", "title": "TimeBlockBuffer behaves as a map from rows to data", "statement": "GetData after SetData returns the last data set for that row, other rows are unchanged, the buffer size is one more than the largest row ever set, MaxAntennaIndex is the maximum antenna over stored rows, and the copy that ConvertVector makes for the encoders has the same antennas and the converted samples in every row.", "quantifier": "every sequence of SetData calls, every row index", "why_tests_cant": "All orders and gaps.", "anchors": ["timeblockbuffer.h: TimeBlockBuffer::SetData", "timeblockbuffer.h: TimeBlockBuffer::GetData", "timeblockbuffer.h: TimeBlockBuffer::MaxAntennaIndex"]}
{"id": "C43", "title": "dscompress accepts only regular measurement sets", "statement": "The validation in dscompress accepts a table exactly when it consists of blocks with constant time, field and data description id that all have the same number of rows and list the same baselines in the same order; for every other table it reports an error, without undefined behaviour. (Code: a later block longer than the first reads outside a vector.)", "quantifier": "every sequence of rows", "why_tests_cant": "All possible irregularities and positions.", "anchors": ["dscompress.cc: main (validation loop)"]}
{"id": "C44", "title": "Flagged samples become NaN, others are unchanged", "statement": "The flag application of dscompress replaces exactly the flagged samples by NaN and leaves all others bit-identical.", "quantifier": "every array and flag pattern", "why_tests_cant": "Exhaustive over flag patterns.", "anchors": ["dscompress.cc: weight/flag loop"]}
{"id": "C45", "title": "Row count bookkeeping", "statement": "addRow and removeRow keep the manager's row count equal to the table's; removing is only possible for the last row.", "quantifier": "every sequence of operations", "why_tests_cant": "Includes removing from an empty table, where the counter would underflow.", "anchors": ["dyscostman.cc: DyscoStMan::addRow", "dyscostman.cc: DyscoStMan::removeRow"]}
{"id": "C46", "title": "Encoder constructors build well-formed tables", "statement": "The constructors write only inside their two allocations and, when the quantiles they store are in order, give an encoder with sorted boundaries closed by the largest finite float, strictly increasing finite levels, the reserved NaN slot, and QuantizationCount() equal to the requested count. For the Uniform distribution with the production stddev of 1 the quantiles are in order, with all binary64/long double/binary32 roundings.", "quantifier": "every quantization count >= 3 (Uniform: every count from 3 to 65536, i.e. every bit count up to 16), every prior content of the allocations", "why_tests_cant": "Tables have up to 65535 entries per bit count; an ordering defect at one rounded entry breaks the binary search only for values near it.", "anchors": ["stochasticencoder.cc: StochasticEncoder::StochasticEncoder", "stochasticencoder.cc: StochasticEncoder::initializeStudentT", "stochasticencoder.cc: StochasticEncoder::initializeTruncatedGaussian"]}
{"id": "C47", "title": "Uniform encoder: levels are fixed points, zero is exact, error is at most half a step", "statement": "For the Uniform encoder, re-encoding (without dither) a decoded symbol gives the same symbol; with an even quantization count zero is encoded to a level that decodes to exactly zero; and for every value in [-1.732, 1.732] decode(encode(v)) differs from v by at most half a quantization step plus 2^-21.", "quantifier": "every quantization count from 3 to 65536, every symbol, every finite float in range, every rounding case", "why_tests_cant": "Needs all counts and all floats; rounding of the tables makes the exact-zero level and the idempotence of all levels non-obvious.", "anchors": ["stochasticencoder.cc: StochasticEncoder::StochasticEncoder", "stochasticencoder.h: StochasticEncoder::Encode", "stochasticencoder.h: StochasticEncoder::Decode"]}
{"id": "C48", "title": "Weights: re-compressing decoded weights changes nothing", "statement": "Encoding the decoded weights of a block again gives exactly the same symbols and the same scale value, so repeated compression causes no drift, provided the largest weight is a normal float. (With a subnormal largest weight symbols can change.)", "quantifier": "every number of rows, channels, polarizations >= 1, every finite non-negative weight, every Q from 2 to 65536", "why_tests_cant": "A drift of one symbol at one float for one Q is invisible in spot checks.", "anchors": ["weightblockencoder.h: WeightBlockEncoder::Encode", "weightblockencoder.h: WeightBlockEncoder::Decode"]}
{"id": "C49", "title": "A table without data can be reopened", "statement": "Creating a table with compressed columns, closing it before a full time block has been written, and opening it again succeeds. (Code: the header is only written with the first block, so an empty file is opened, and the length of the stored name is taken from uninitialised memory.)", "quantifier": "every set of columns, every row count", "why_tests_cant": "Reading uninitialised memory often happens to work in a test; that it is reached for every such table needs an argument about all states in which the header has not been written.", "anchors": ["dyscostman.cc: DyscoStMan::create", "dyscostman.cc: DyscoStMan::open", "serializable.h: Serializable::Unserialize32bString"]}
{"id": "C50", "title": "Reopening restores the geometry, so every stored block is read back byte for byte", "statement": "After any sequence of block writes, a new manager with columns of the same shapes that opens the file and is prepared has the same offsets, block sizes and bit counts, and every block region that could be read before closing reads the same bytes.", "quantifier": "every set of columns with a total block size below 2^32, every sequence of block writes, all stored bytes", "why_tests_cant": "Any dependence of the layout on settings that are not in the header would only show for particular combinations of columns, bit counts and shapes.", "anchors": ["dyscostman.cc: DyscoStMan::open", "dyscostman.cc: DyscoStMan::prepare", "dyscostman.cc: DyscoStMan::initializeRowsPerBlock", "dyscostman.cc: DyscoStMan::readCompressedData"]}
{"id": "C51", "title": "Adding a column keeps the rows already written", "statement": "After rows have been written, adding another column to the table loses none of them, and writing can go on. (Code: Prepare clears the buffered time block without storing it; the next row then stores the empty buffer under block number 2^64-1, whose encoding is undefined.)", "quantifier": "every reachable state, every number of buffered rows", "why_tests_cant": "Columns are added before rows in every test.", "anchors": ["threadeddyscocolumn.cc: ThreadedDyscoColumn::Prepare", "dyscostman.cc: DyscoStMan::prepare", "threadeddyscocolumn.cc: ThreadedDyscoColumn::putValues"]}
{"id": "C52", "title": "Writing a table in row order stores every row", "statement": "When rows 0..k-1 are written in order to a new table, more rows than the first time block has, and the column is closed, then the file holds for each row the block it belongs to, encoded from a buffer containing exactly that row's data at its position; on the way no undefined behaviour occurs (antennas within the first block's range) and an exception only comes from reading a block that the file cannot deliver.", "quantifier": "every k, every data, every metadata, every number of threads >= 1, every schedule", "why_tests_cant": "Needs all schedules and all sizes together; this is the end-to-end guarantee of the writer.", "anchors": ["threadeddyscocolumn.cc: ThreadedDyscoColumn::putValues", "threadeddyscocolumn.cc: ThreadedDyscoColumn::storeBlock", "threadeddyscocolumn.cc: ThreadedDyscoColumn::encodeAndWrite", "threadeddyscocolumn.cc: ThreadedDyscoColumn::shutdown"]}
{"id": "C53", "title": "A table accepted by dscompress is stored completely", "statement": "If the validation of dscompress accepts a table that has at least two time blocks, then writing its rows in order to the new column involves no undefined behaviour, and once the column is closed without an exception every row is in the file, at the position its block has there. (A table with a single time block is accepted too; see the property on closing such a table.)", "quantifier": "every table, every data, every number of threads >= 1, every schedule of the threads", "why_tests_cant": "Connects the checks of one program with the assumptions of another component; no test covers all tables that pass the validation.", "anchors": ["dscompress.cc: main (validation loop)", "threadeddyscocolumn.cc: ThreadedDyscoColumn::putValues", "threadeddyscocolumn.cc: ThreadedDyscoColumn::initializeRowsPerBlock"]}
{"id": "C54", "title": "dscompress options", "statement": "Every option on the command line of dscompress sets exactly its own setting, later ones overriding earlier ones, -column accumulates names in order, and the first argument without a leading dash is taken as table name; without arguments a usage text is printed; an unknown option is rejected, an option without its value or a missing table name is reported. (Code: the latter two use a null pointer.)", "quantifier": "every list of arguments", "why_tests_cant": "The space of command lines is unbounded; the null pointer uses are undefined behaviour that need not show.", "anchors": ["dscompress.cc: main (argument parsing)"]}
{"id": "C55", "title": "Replacing columns keeps their data", "statement": "dscompress replaces the named columns by compressed ones with the same name that hold the stored form of every row of the original, removes the temporary columns and touches no other column; a column already compressed is left as it is, and further columns can be compressed later. (Code: if some of the named columns are already compressed and some are not, or if the table has compressed columns from an earlier run, the tool fails after renaming columns.)", "quantifier": "every table, every non-empty list of distinct columns of the same shape, every number of rows", "why_tests_cant": "Needs all tables and lists of columns; a failure half way is destructive.", "anchors": ["stmanmodifier.h: StManModifier::PrepareReplacingColumn", "stmanmodifier.h: StManModifier::MoveColumnData", "dscompress.cc: createDyscoStManColumn"]}
{"id": "C56", "title": "decompress restores ordinary columns", "statement": "decompress turns DATA and WEIGHT_SPECTRUM into columns of the default storage manager with the same rows and shapes, removes the temporary columns and touches no other column of other storage managers. (Code: true when one of the two is compressed. When both are, the weights are lost: DATA is removed from the storage manager before the weights are read, which are then taken from the file 24 bytes too early. Without a WEIGHT_SPECTRUM column the tool fails after DATA has been replaced by an empty column.)", "quantifier": "every table with both columns, every number of rows", "why_tests_cant": "Needs all tables; the failure is only seen with an unusual set of columns.", "anchors": ["decompress.cc: main", "stmanmodifier.h: StManModifier::InitColumnWithDefaultStMan", "stmanmodifier.h: StManModifier::MoveColumnData"]}
{"id": "C57", "title": "A compressed block decodes within the error bound from its bytes, whatever the buffers held", "statement": "For each normalization and for weights: encoding a time block into bytes succeeds whatever the thread's buffers hold (uninitialised, or left by an earlier block), gives exactly the computed number of bytes, and decoding these bytes, whatever the read buffer holds, returns each row of the block with non-finite components as NaN and every counted finite component within one quantization step times the scale of that component (weights: half a step of the largest weight); rows missing at the end of a short block do not matter.", "quantifier": "every shape, every supported bit count, every level table with that many symbols, every dither sequence, every content of the buffers, full and short blocks", "why_tests_cant": "Uninitialised memory and short last blocks only show for particular shapes and histories; the bound ranges over all floats.", "anchors": ["threadeddyscocolumn.cc: ThreadedDyscoColumn::encodeAndWrite", "threadeddyscocolumn.cc: ThreadedDyscoColumn::loadBlock", "dyscodatacolumn.cc", "dyscoweightcolumn.cc", "bytepacker.h"]}
{"id": "C58", "title": "Reading a closed column", "statement": "After opening a stored column, reads in any order leave the file as it was and put nothing in the write queue; a read of a row in a block of the file returns the decoded row of that block, a read past the end of the file returns zeros; a read fails only if its block is missing from the file or decodes to too few rows; every read and the closing end.", "quantifier": "every codec, every file contents, every sequence of reads, every number of threads, every schedule, other columns extending the file meanwhile", "why_tests_cant": "Needs all sequences of reads and all schedules of the idle threads.", "anchors": ["threadeddyscocolumn.cc: ThreadedDyscoColumn::getValues", "threadeddyscocolumn.cc: ThreadedDyscoColumn::loadBlock", "threadeddyscocolumn.cc: ThreadedDyscoColumn::shutdown"]}
{"id": "C59", "title": "What is written is read back within the error bound", "statement": "A new table of at least two time blocks written in row order, closed, opened again and read in any order: writing, closing and reading end, reading never fails, and each row read is the row put up to the error of its normalization: non-finite components become NaN, counted finite components are within one quantization step times the scale of that component, weights within half a step of the largest weight of the block.", "quantifier": "every table, every shape, every data, every supported bit count and level table, every dither sequence, every number of threads >= 1, every schedule, every sequence of reads", "why_tests_cant": "Combines float arithmetic, byte layout, threads and file positions; no test ranges over all of them.", "anchors": ["threadeddyscocolumn.cc: ThreadedDyscoColumn", "dyscodatacolumn.cc", "dyscoweightcolumn.cc"]}
{"id": "C60", "title": "The inverse of the cumulative function is found", "statement": "invCumulative ends for every probability (also those outside 0..1 and NaN) and every tolerance, for every cumulative function that reaches each probability below 1, in particular for an error function that is 1 at 16/sqrt(2); with an error function accurate to 2^-50 its result is the quantile of the normal distribution within 2^-25 relative plus 2^-28.", "quantifier": "every cumulative function, tolerance and 80-bit probability for the end; every error function of that accuracy and every probability that a table with up to 65536 levels uses for the accuracy", "why_tests_cant": "A loop that ends by a counter of failures to converge may not end for one of the probabilities of one table size; the numbers of float probabilities are beyond enumeration.", "anchors": ["stochasticencoder.cc: StochasticEncoder::invCumulative", "stochasticencoder.cc: StochasticEncoder::cumulative"]}
{"id": "C61", "title": "The tables of the distributions are tables of their quantiles", "statement": "For standard deviation 1 and up to 65536 symbols the Gaussian, uniform, Student-T and truncated Gaussian encoders are well formed: levels strictly increase, boundaries are between them, level i is the quantile of (i+1/2)/(q-1) and boundary i that of i/(q-1) up to float precision, the table is symmetric up to rounding (so the error bounds C18-C20, C57, C59 hold for it), and encoding a decoded level gives the same symbol. (Code: a truncation of 0 is accepted and makes all levels 0.)", "quantifier": "every number of symbols from 3 to 65536, every Student-T-like distribution, every truncation of at least 1/4, every library functions within stated errors", "why_tests_cant": "Order and symmetry must hold for all pairs of neighbouring levels of all table sizes and all parameters.", "anchors": ["stochasticencoder.cc: StochasticEncoder::StochasticEncoder", "stochasticencoder.cc: StochasticEncoder::initializeStudentT", "stochasticencoder.cc: StochasticEncoder::initializeTruncatedGaussian", "dyscodatacolumn.cc: DyscoDataColumn::Prepare"]}
{"id": "C62", "title": "Columns of one storage manager do not disturb each other", "statement": "While several columns of a table are written and read through one storage manager, with all their encoding threads, each column behaves as it would alone: the block a column wrote last is what it reads from the file at any later moment, reading an existing block never fails, and the block size is set exactly once, by the column that first completes a time block. Provided a block of all columns is smaller than 4 GiB.", "quantifier": "every set of columns, every program of puts, reads and closes of the columns, every number of threads, every schedule, new and opened tables", "why_tests_cant": "Interference between columns needs particular schedules of several threads writing to one file, and particular sizes.", "anchors": ["dyscostman.cc: DyscoStMan::writeCompressedData", "dyscostman.cc: DyscoStMan::readCompressedData", "dyscostman.cc: DyscoStMan::initializeRowsPerBlock", "threadeddyscocolumn.cc: ThreadedDyscoColumn::InitializeAfterNRowsPerBlockIsKnown"]}
{"id": "C63", "title": "A whole table is read back within the error bound", "statement": "A new table with any columns (data with any normalization, weights), of which the same rows are put in every column, in order per column but with the columns taking turns in any way: once closed without failure, the file can be opened again, the block size, antenna count and layout are restored from it, reading any rows of any columns in any order never fails, and each row read is the row put up to the error of its normalization, computed from exactly the rows of its block.", "quantifier": "every set of columns, shapes, bit counts, level tables, every data, every number of rows larger than a time block, every interleaving of the columns, every number of threads, every schedule when writing and when reading", "why_tests_cant": "The end-to-end guarantee of the storage manager; combines concurrency, file layout, header, bit packing and float rounding.", "anchors": ["dyscostman.cc: DyscoStMan", "threadeddyscocolumn.cc: ThreadedDyscoColumn", "dyscodatacolumn.cc: DyscoDataColumn", "dyscoweightcolumn.cc: DyscoWeightColumn"]}
{"id": "C64", "title": "Writing a table never fails", "statement": "While the rows of a new table with any columns are put in order in every column, the columns taking turns in any way, and the table is closed, no call throws and nothing is undefined, in any column or encoding thread; so the guarantee on reading a whole table back holds for every such table without further conditions. Conditions on the table: weights are not negative, a time block with all columns is below 4 GiB, and with AF normalization all antennas of the table occur in the first block (index below its count).", "quantifier": "every set of columns, shapes, bit counts, level tables, every data, every number of rows larger than a time block, every interleaving of the columns, every number of threads, every schedule", "why_tests_cant": "A failure in an encoding thread needs a particular schedule and particular data; absence of failures for all tables is out of reach of tests.", "anchors": ["threadeddyscocolumn.cc: ThreadedDyscoColumn::putValues", "threadeddyscocolumn.cc: ThreadedDyscoColumn::loadBlock", "threadeddyscocolumn.cc: ThreadedDyscoColumn::encodeAndWrite", "dyscostman.cc: DyscoStMan::initializeRowsPerBlock"]}
{"id": "C65", "title": "Writing and reading a table come to an end", "statement": "With all columns of a storage manager and all their encoding threads, every put, every read and the closing of every column come to their end however the threads take turns: there is no deadlock between columns and no endless run. A read that ended has delivered exactly one answer, and at any moment the rest of the table can be written and the table closed.", "quantifier": "every set of columns, every table that can be written, every number of threads >= 1, every schedule (spurious wake-ups not counted)", "why_tests_cant": "Deadlocks between several columns, the manager's mutex and the encoding threads depend on schedules that tests do not control.", "anchors": ["threadeddyscocolumn.cc: ThreadedDyscoColumn::storeBlock", "threadeddyscocolumn.cc: ThreadedDyscoColumn::stopThreads", "threadeddyscocolumn.cc: ThreadedDyscoColumn::encodeAndWrite", "dyscostman.cc: DyscoStMan::initializeRowsPerBlock", "dyscostman.cc: DyscoStMan::writeCompressedData"]}
{"id": "C66", "title": "Settings determine the columns", "statement": "For every supported combination of bit counts, distribution and normalization, preparing a column of the storage manager makes an encoder whose levels are the quantiles of that distribution (so that the guarantees on reading tables back apply), whatever was in the memory of its tables; and when the table is closed and opened again by a program that knows nothing but the file and the table description, every column is prepared with exactly the same encoder, normalization and shape.", "quantifier": "every supported bit count, all four distributions with their parameters (truncation at least 1/4), all three normalizations, every set of columns, every written table, every library within stated errors", "why_tests_cant": "A setting that is stored wrongly or read wrongly only shows for particular combinations, as values that are slightly off.", "anchors": ["dyscodatacolumn.cc: DyscoDataColumn::Prepare", "dyscoweightcolumn.cc: DyscoWeightColumn::Prepare", "dyscostman.cc: DyscoStMan::prepare", "dyscostman.cc: DyscoStMan::readHeader", "header.h: Header"]}
{"id": "C67", "title": "dscompress keeps the data", "statement": "A measurement set accepted by dscompress, with more than one time block, is compressed without failure, with the normalization, bit counts and quantization levels that the options ask for, and reading the new columns later gives for every row of every column NaN for the flagged samples and for the others the value of the original column up to the error of the normalization (weights: of the largest weight of the block). Conditions: arrays of one shape, weights not negative, a time block with all columns is below 4 GiB.", "quantifier": "every measurement set of that kind, every list of distinct columns, all distributions, normalizations and supported bit counts, every number of threads and schedule, every sequence of reads", "why_tests_cant": "End-to-end behaviour of the tool over all measurement sets and options; flags, settings, file layout, threads and rounding together.", "anchors": ["dscompress.cc: main", "dscompress.cc: createDyscoStManColumn", "dyscostman.cc: DyscoStMan::addColumn", "dyscostman.cc: DyscoStMan::makeDirArrColumn", "stmanmodifier.h: StManModifier::MoveColumnData"]}
{"id": "C68", "title": "Rows of a stored table can be overwritten", "statement": "A table that was written and closed, and since then opened, read or changed, and closed any number of times, can be opened again. Reading and putting rows of any of its columns, in turns but not going back to an earlier block of a column, never fails and every call ends; a row that is read is exactly what was put last in it, or what the file held. After closing, the blocks in which no row was put are the same to the byte, and the others decode to their rows up to the error of the normalization in that block. (Code: rows that miss at the end of a short last block hold left-over symbols that are re-encoded and count for the error: weights that are the largest of the block can become zero.)", "quantifier": "every set of columns and every table that can be written, every number of sessions, every sequence of reads and puts as described, every values (weights not negative), every number of threads and schedule", "why_tests_cant": "Needs all histories of a file and all schedules; the left-over symbols depend on the history of a thread's buffers.", "anchors": ["threadeddyscocolumn.cc: ThreadedDyscoColumn::putValues", "threadeddyscocolumn.cc: ThreadedDyscoColumn::getValues", "threadeddyscocolumn.cc: ThreadedDyscoColumn::loadBlock", "threadeddyscocolumn.cc: ThreadedDyscoColumn::storeBlock", "threadeddyscocolumn.cc: ThreadedDyscoColumn::encodeAndWrite", "dyscostman.cc: DyscoStMan::open"]}
{"id": "C69", "title": "A damaged file can be read, and damage does not spread", "statement": "When the file of a stored table is overwritten, cut off or extended anywhere behind the header, it still opens with its columns and options; reading any row of any column, in any order, also rows that do not exist, never throws, never leaves a buffer, always ends, and leaves the manager and the file as they are. Each row is answered with the right number of values, decoded from its block in the file, or with zeros when the block is not entirely in the file; rows of a block of which the bytes of that column were not changed are read as before the damage. (Code: that rows are missing is not reported: a file that lacks its last byte reads as zeros from its last block on.)", "quantifier": "every table that can be written and every history of it as in C68, every change of the bytes and size of the file behind the header, every sequence of reads, every number of threads and schedule", "why_tests_cant": "There are more damaged files than can be tried, and undefined behaviour in a decoder need not show in a test.", "anchors": ["dyscostman.cc: DyscoStMan::open", "dyscostman.cc: DyscoStMan::readCompressedData", "threadeddyscocolumn.cc: ThreadedDyscoColumn::getValues", "threadeddyscocolumn.cc: ThreadedDyscoColumn::loadBlock", "aftimeblockencoder.cc: AFTimeBlockEncoder::InitializeDecode", "bytepacker.h: BytePacker::unpack"]}
{"id": "C70", "title": "A stored table can be copied", "statement": "Copying a stored table (as -reorder of dscompress and decompress do) makes a table with the same settings and columns; reading and putting its rows never fails and every call ends; every row of the copy is the row of the original up to the error of its normalization, and weights that were put as zero or normal numbers are equal in both. The copy replaces the original only when it is complete, no other table is changed, and slashes at the end of the path do not matter. (Code: with Student's distribution the copy always fails; a table with the temporary name is lost; a path of slashes only is undefined behaviour.)", "quantifier": "every table that can be written and every history of it as in C68, every number of threads and schedule; for the path every string", "why_tests_cant": "Needs all tables and settings; that an error is made a second time only shows for particular values.", "anchors": ["stmanmodifier.h: StManModifier::Reorder", "dyscostman.cc: DyscoStMan::dataManagerSpec", "dyscostman.cc: DyscoStMan::setFromSpec", "dyscostman.cc: DyscoStMan::makeObject"]}
{"id": "C71", "title": "A new table can be read while it is still open for writing", "statement": "After all rows of all columns of a new table were put, rows can be read in any order in the same session, before anything is closed: no call fails and every call ends; an answer that is not zero is exactly what was put, or what the file holds of it within the error of the normalization; and reading does no harm: once closed, the table holds every row as if it had not been read. (Code: a row of a block that no encoding thread has written yet is answered with zeros, so a program that copies the table in the same session, as dscompress -reorder does, may copy zeros; with a single time block every row is read as zero.)", "quantifier": "every set of columns and every table that can be written, every sequence of reads, every number of threads and schedule", "why_tests_cant": "Which rows are read as zero depends on the schedule of the encoding threads.", "anchors": ["threadeddyscocolumn.cc: ThreadedDyscoColumn::getValues", "threadeddyscocolumn.cc: ThreadedDyscoColumn::storeBlock", "dyscostman.cc: DyscoStMan::nBlocksInFile", "stmanmodifier.h: StManModifier::Reorder"]}
{"id": "C72", "title": "The stop watch of dscompress reports the time it ran", "statement": "For every sequence of starting, pausing and resetting, the watch reports the microseconds in which it ran since the last reset, as hours, minutes, seconds and microseconds that add up to it; the short text shows it up to half of its last unit. (Code: between 1 and 10 hours, and between 1 and 10 days, the short text shows the whole hours or days twice (1h61m); a time below a millisecond is shown as 0ns; the watch reads local time, so it is off by an hour when the clocks change.)", "quantifier": "every sequence of presses in order of time, every time", "why_tests_cant": "Sequences of presses and times are unbounded; that a unit is shown twice only shows in runs of more than an hour.", "anchors": ["stopwatch.cc: Stopwatch::Start", "stopwatch.cc: Stopwatch::Pause", "stopwatch.cc: Stopwatch::Reset", "stopwatch.cc: Stopwatch::ToString", "stopwatch.cc: Stopwatch::ToShortString"]}
{"id": "C73", "title": "Rows of a stored table can be read and overwritten in any order", "statement": "Reading rows of a stored table in any order, and putting rows also in blocks that were changed before, never fails and every call ends, provided a row is only put when its block is that of the last call or nothing was put in the block since it was last opened by a read. The answers and the final file are those of a column without threads that encodes a block when it is left and decodes it when it is opened again. So a row that was put is read as it was put, exactly while its block stays open and up to one encoding of its block later; a row of a block in which nothing was put is what the file held; and after closing such blocks are the same to the byte. (Code: without the condition on puts an update can be lost, see C36.)", "quantifier": "every set of columns and every table that can be written, every history of it (C68), every sequence of reads and of puts as described, every values (weights not negative), every number of threads and schedule", "why_tests_cant": "Needs all sequences of calls and all schedules: whether a block that is opened again has been written by the encoding threads depends on their timing.", "anchors": ["threadeddyscocolumn.cc: ThreadedDyscoColumn::putValues", "threadeddyscocolumn.cc: ThreadedDyscoColumn::getValues", "threadeddyscocolumn.cc: ThreadedDyscoColumn::loadBlock", "threadeddyscocolumn.cc: ThreadedDyscoColumn::storeBlock", "threadeddyscocolumn.cc: ThreadedDyscoColumn::encodeAndWrite"]}
{"id": "C74", "title": "A stored table can be extended", "statement": "A table that was written, closed and perhaps changed since can be opened and rows added behind its last row, in order in every column, the columns taking turns in any way: no call fails and every call ends. After closing it is a stored table with the larger number of rows, which can be read, changed and extended again. A block that had all its rows is the same to the byte; the new rows, and the old rows of the block that was incomplete, decode to what was put or was read before, up to the error of the normalization in their block. (Code: the old rows of the incomplete block are decoded and encoded again, so they lose precision each time the table is extended, and a larger new row coarsens them; the rows missing at its end count with what their left-over symbols decode to.)", "quantifier": "every set of columns and every table that can be written and has more than one time block, every history of it (C68, C73 and extending it before), every number of added rows, every values (weights not negative), every number of threads and schedule", "why_tests_cant": "Needs all numbers of rows, all histories of a file and all schedules.", "anchors": ["threadeddyscocolumn.cc: ThreadedDyscoColumn::putValues", "threadeddyscocolumn.cc: ThreadedDyscoColumn::loadBlock", "threadeddyscocolumn.cc: ThreadedDyscoColumn::storeBlock", "threadeddyscocolumn.cc: ThreadedDyscoColumn::encodeAndWrite", "dyscostman.cc: DyscoStMan::open", "dyscostman.cc: DyscoStMan::writeCompressedData"]}
{"id": "C75", "title": "The threads do not race", "statement": "At no moment are two threads about to access the same data without a common mutex, one of them writing: neither the calling thread and an encoding thread, nor two encoding threads of the same or of different columns. The header that is written while the first encoding threads already run does not meet any of their accesses, and no encoding thread outlives its column. (Code: three exceptions, outside of writing in order and of opened tables: removing a column writes the header to the file without the mutex while the encoding threads of other columns may write blocks; adding a column reads the number of blocks without it; putting a row of a later time and then row 0 twice changes the block size while threads are starting.)", "quantifier": "every set of columns, every program of puts, reads and closes in which no first time block is ended by row 0, every number of threads >= 1, every schedule, new and opened tables", "why_tests_cant": "A race shows only in rare schedules, and not as a wrong result on every machine; a race detector sees only the schedules that were run.", "anchors": ["threadeddyscocolumn.cc: ThreadedDyscoColumn::EncodingThreadFunctor::operator()", "threadeddyscocolumn.cc: ThreadedDyscoColumn::InitializeAfterNRowsPerBlockIsKnown", "threadeddyscocolumn.cc: ThreadedDyscoColumn::stopThreads", "dyscostman.cc: DyscoStMan::initializeRowsPerBlock", "dyscostman.cc: DyscoStMan::removeColumn", "dyscostman.cc: DyscoStMan::addColumn"]}
{"id": "C76", "title": "Rows that are not put keep their value, over any number of sessions", "statement": "A stored table is opened, read, changed or extended, and closed, any number of times. A row of a block in which nothing is put keeps its value exactly and its block does not change by a byte. When other rows of its block are put, the row is decoded and encoded again at most once for each session that puts such rows without going back, or extends the table (at most once for each put, in sessions that do go back); so it is at most that many encoding errors, each of the size that the normalization has for the block of that moment, away from what it was or from what was last put. The table stays a stored table all the time. (Code: putting a row back to its old value does not undo the effect on its block: a single large weight, put in one session and put back in the next, turns all other weights of the block into zeros for good.)", "quantifier": "every set of columns and every table that can be written, every history of sessions of any length and kind, every schedule of threads, every row and every number of sessions that change its block", "why_tests_cant": "Errors that build up only show after many sessions, in rows that the sessions did not touch; a test would have to compare every row after every combination of sessions.", "anchors": ["threadeddyscocolumn.cc:79-104", "threadeddyscocolumn.cc:146-167", "threadeddyscocolumn.cc:169-217", "threadeddyscocolumn.cc:106-144"]}
{"id": "C77", "title": "The range of an encoder, and values outside it", "statement": "MinQuantity and MaxQuantity are the decoded values of the first and the last finite symbol, and every finite decoded value lies between them. A finite value at or below MinQuantity is stored as MinQuantity and one above MaxQuantity as MaxQuantity, whatever dither value is drawn. Encoding never violates the assertions of the dictionary.", "quantifier": "every well-formed encoder, every finite float, every dither value", "why_tests_cant": "Values outside the range are rare after normalization, and the assertion is compiled out of every build that is tested.", "anchors": ["stochasticencoder.h: StochasticEncoder::MinQuantity", "stochasticencoder.h: StochasticEncoder::MaxQuantity", "stochasticencoder.h: StochasticEncoder::EncodeWithDithering", "dictionary.h: Dictionary::symbol"]}
{"id": "C78", "title": "Normalizing a buffer brings it into the range of the encoder", "statement": "AFTimeBlockEncoder::Normalize ends without error for every buffer and leaves in it the visibilities divided by the RMS of their channel and antennas, with no part of a cross-correlation beyond the range of the encoder when fitting is on. (Code: the function, which is not used by the storage manager, computes in a local copy and leaves the buffer exactly as it was; in the copy the factor that fits the values to the range is inverted, so that values above the range move further away, and a channel without signal becomes NaN.)", "quantifier": "every buffer with rows of nPol * nChannels values and antennas below the count, every non-empty level table, with and without fitting; the failure is shown by buffers", "why_tests_cant": "The function has no caller and no test; that it has no effect holds for all buffers.", "anchors": ["aftimeblockencoder.cc: AFTimeBlockEncoder::Normalize", "aftimeblockencoder.cc: AFTimeBlockEncoder::calculateAntennaeRMS"]}
