# Formal model of google/brunsli in Rocq (Coq 8.16.1)

The code in /repo (c/common, c/dec, c/enc, c/include, c/experimental, c/tools) is modelled function by function as Gallina
definitions in `rocq/theories/`.  Each definition carries a comment with the file and lines it
models and says where it simplifies.  Files come in three kinds:

* `*Model.v`, `Decoder.v`, `Encoder.v`, `Prob.v`, `Tables.v`, `CtxTables.v`: the code;
* `*Spec.v`, and definitions at the head of `Props*.v`: specifications that do not use the code's helpers;
* `*Proofs*.v`: lemmas; `Props*.v`: the property theorems `Cnn_...`, each followed by
  `Print Assumptions` and by an `Example Cnn_case` that meets the hypotheses with concrete data.

Names: `_partial` marks a theorem that proves part of a property, `_refuted` a proof that the code
as it is violates the property (a finding).  `MANIFEST.json` lists the theorems of every property.

## Modelling conventions

* Machine integers are `Z`.  Wrap-around is written explicitly (`mod 2^k`) where the C++ code can
  wrap; otherwise a lemma shows the value stays in range or the comment says so.
* Bytes are `Z` in 0..255, byte buffers are `list Z`; bit strings are `list bool`.
* The decoder's bit-level readers are programs of a small deep-embedded monad (`Read n k`,
  `Need n k`): one program is run both by the concrete bit reader machine (register, debt bytes,
  suspend/resume) and by an abstract bit list, and one theorem relates the two for every program.
* Word-level readers (DC and AC sections) are programs over the three item kinds (ANS symbol,
  arithmetic bit, raw bits) with explicit CanRead checks; the encoder produces the list of items.
* A resumable decoder is a function of the bytes seen so far plus a position and a state; "the same in
  any pieces" is proved as a simulation with the one-call run.
* Loops are structural recursion, folds, or recursion on an explicit fuel which a lemma shows to be
  sufficient (running out of fuel is a failure value, never a success).
* Out-of-bounds accesses and other undefined behaviour are distinct outcomes (`None`, `JUB`,
  `WUB`), wherever a property speaks about them.
* External code (the Brotli library, the floating-point cost functions that steer encoder
  heuristics, the floating-point rounding in NormalizeCounts, the caller's sink) is a parameter; theorems quantify over
  it, with the contract needed as an explicit hypothesis.

## Plan and outcome per property

| id | modelled | how it is proved | outcome |
|----|----------|------------------|---------|
| C01 | ReadJpeg, BrunsliEncodeJpeg with all seven sections, BrunsliDecodeJpeg (one call and in pieces), WriteJpeg | composition of C04–C43 and C46; `jpeg_ok` (JpegSpec.v) is shown of everything the reader returns | proved: container and file level, one call and streaming |
| C02, C03 | BrunsliEncodeJpegBypass on a byte array with explicit bounds; decoder | computation + induction | C02 proved with the exception of the empty file (refuted); C03 refuted for buffers of 6..33 bytes, proved otherwise |
| C04 | EncodeBase128, EncodeBase128Fix, DecodeBase128, Base128Size | induction on groups | proved |
| C05, C06 | Storage/WriteBits, BrunsliBitReader (register, debt, suspend/resume) | simulation between machine and bit list for every program | proved |
| C07 | EncodeVarint, EncodeLimitedVarint, VarLenUint8 and the resumable VarintState machine | induction | proved |
| C08, C09, C41 | lehmer_code.{h,cc}, PermutationCoder, EncodeCoeffOrder/DecodeCoeffOrder | induction on the remaining list | proved |
| C10 | Prob | invariant; table facts computed for all entries | proved |
| C11–C13 | DataStream, BinaryArithmeticDecoder, ANSDecoder, BitSource, WordSource | interval invariant; backward induction for ANS; slot/word-order simulation | proved |
| C14–C16 | ReadHistogram, ANSDecodingData::Init, EncodeCounts, NormalizeCounts (float decisions as parameters) | induction | proved (C16 under the stated rounding contract) |
| C17–C19 | huffman_table.cc, huffman_decode.cc, huffman_tree.cc, huffman_encode.cc | canonical code theory (key sequence, Kraft sums) | proved |
| C20, C21 | context_map_encode.cc, context_map_decode.cc, histogram section | inverse move-to-front, run-length inverse | proved |
| C22 | EncodeQuantTables / DecodeQuantDataSection / FillQuantMatrix | induction over 64 entries | proved |
| C23 | EncodeAuxData / DecodeJPEGInternalsSection, inter-marker data | printer/parser composition | proved |
| C24, C25 | TransformAppMarker, EncodeMetaData, ProcessMetaData; Brotli as parameter | state machine = fold over bytes | proved |
| C26, C27, C49 | EncodeHeader/DecodeHeader, UpdateSubsamplingDerivatives | computation, arithmetic | C26, C49 proved (reserved version bits ≥ 32: refuted); C27 refuted (finding) |
| C28 | ReadTag, ParseSection, ProcessSection as a state machine over sections | invariant; instance for the real section bodies in PropsDecoder.v | proved |
| C29, C30 | ProcessJpeg buffering over a resumable parser | simulation with the unread suffix of the stream | C30 proved; C29 proved for the final status (also which of the two failures) and the result; refuted for a caller that stops at the first success although input is left |
| C31, C32, C44, C45 | PushOutput, SerializeJpeg output queue, WriteJpeg, JPEGOutput, EncodeBrunsli with an arbitrary sink | induction | C44 proved; C31, C32, C45 partly refuted |
| C33, C34 | BitWriter of the JPEG writer, BitReaderState of the JPEG reader | simulation with bit lists | proved |
| C35 | BuildHuffmanCodeTable, BuildJpegHuffmanTable, ReadSymbol | canonical codes | proved |
| C36, C37 | DecodeDCTBlock, RefineDCTBlock; EncodeDCTBlock{Sequential,Progressive}, EncodeRefinementBits, EOB runs, restart markers | the writer emits the bits the reader consumed | proved |
| C38–C40, C42 | predict.cc, context.h, EncodeDC/DecodeDC, EncodeAC/DecodeAC | lockstep simulation over item programs | proved |
| C43 | cluster.h with arbitrary cost comparisons | invariant | proved |
| C46, C47, C50 | ReadJpeg (all modes), WriteJpeg, all marker segments | induction over the file | proved |
| C48 | IsBrunsli, VerifySignature, EncodeSignature | computation | proved |
| C51 | BrunsliDecodeJpeg, streaming decoder | weakest-precondition reasoning over every section program | proved |
| C52 | WriteJpeg on what the decoder hands out | invariant of the scan state | partial: DC within ±2^14; refuted without the bound |
| C53 | GetMaximumBrunsliEncodedSize, EstimateAuxDataSize | counting: decoder inverts encoder, more images than byte strings; up to 1600 blocks from the totality of the encoder (C54) | refuted in general, proved for small images |
| C54 | ReadJpeg then BrunsliEncodeJpeg, every failure exit of the encoder | the reader's output makes each stage succeed; each limit is checked; a sufficient buffer size from the number of coded items per block and the bits the histogram reader can ask for | proved, for a compressor that always answers and roundings to nearest |
| C55 | BrunsliDecoder::Decode as a whole: the parser with explicit states between calls (what has been met, planes so far, next MCU row), the look-ahead buffer, SerializeJpeg on a parser still at work: scans in portions, marker writers, output queue | simulation of the parser of C28–C30; invariant: what the serializer sees agrees with the final image where it looks (the DC values of an announced AC section are final, blocks above the next MCU row are final); splitting: writing up to row y and then the rest is writing all; with C01: file to stream to file by pieces; stored files likewise (with C02) | proved; false of streams with metadata behind the DC section (refuted), undefined behaviour on a malformed stream (refuted) |
| C56, C57 | the thread pool as a transition system: caller and workers, mutex, condition variables with spurious wake-ups, atomic counters | invariant over all interleavings (tasks taken, running, ended); a measure that every step decreases | C56 proved; C57 refuted: the destructor never returns |
| C58 | EncodeGroups, DecodeGroups: windows, tasks in an arbitrary order, common part, part buffers, section skipping | the windows partition each component; a task reads and writes its own blocks only, so the state after a set of tasks is the same for every order; then as C01 for the common part and per group | proved |
| C59 | the variables `failed` and `status` shared by the decoding tasks, every access one step | induction over interleavings | partial: sequential executors; refuted for interleaved tasks |
| C60 | the fixed sizes of the part buffers | counting, as C53, with the round trip of C58 | refuted |
| C61 | DecodeGroups on arbitrary bytes (GroupModel) | any two group tasks commute in every state that the sections before the groups can leave (the windows partition each component), so every permutation gives the same result; invariants over the tasks for the image; C42 per group for the tables | partial: the tables are left if the leading sections bring no histograms or quantisation tables (refuted, finding 26); order and image proved |
| C62 | BrunsliEstimateDecoderPeakMemoryUsage (EstimateModel) | induction over the sections: the shallow parse sees the header and histogram section that the decoder sees; on a proper prefix it never reaches the AC section with nothing left; bounds of the header for overflow | partial: bound, truncation and overflow proved; "what cannot be decoded gives 0" refuted (finding 27) |
| C63 | ReadJpeg (JFileModel, JSegModel, JScanModel) | invariant over the segments: the lowest bit of each progression mask bounds the bits of the scans that touched it; tables are only added | proved |
| C64 | cbrunsli and dbrunsli (ToolModel): file system as a map from names to bytes, every library call may fail or be short, interruption at any point | loop invariants of fread and fwrite; C01 for the contents; a proper prefix of an accepted stream is not accepted (EstimateProofs) | partial: proved below 2 GB, refuted for 4 GB and more |
| C65 | the same model | reader never undefined (C47, C48), decoder total, writer safe for bounded DC values (C52), case analysis of the tools | partial: dbrunsli refuted for large DC values |
| C66 | EstimateBrunsliEncodePeakMemoryUsage and the vectors sized at the start of EncodeDC and EncodeAC (EstimateEncModel) | bounds of the block grid of accepted files; monotone tables; a concrete file | partial: refuted for small files of several components |
| C67 | wasm/codec.cc and codec_jni.cc: whole-file functions, the streaming instance with its 64 KiB buffers, how its memory is allocated and released (WrapperModel) | C01 for any buffer size; the invariants of C55 over a session that forgets unread input; allocation kinds | partial: refuted for the destruction of an instance |

No property was found that the model cannot express.  Properties about running time and memory
consumption (beyond C49's bound on coefficient storage) are not claimed.

## Trusted base

* Coq's kernel (8.16.1), including its `vm_compute` conversion, which evaluates examples and finite table facts.
* `Print Assumptions` prints "Closed under the global context" for every property theorem: no axioms at all are used.
* `coqchk` lists, for the library files loaded (not used by any theorem), the axioms of
  `Coq.ssr.ssrunder`: `Under_rel.Under_rel`, `Under_rel_from_rel`, `Under_relE`, `under_rel_done`, `Over_rel`, `over_rel`,
  `over_rel_done`.
* The faithfulness of the transcription from C++ to Gallina, checked by reading, by the concrete examples, and by the
  seeded-bug experiments in `seeded/LOG.jsonl`.
* The contracts of external code where a theorem lists them as hypotheses:
  `brotli_inverse B compress` (what the compressor wrote is decompressed to the same bytes, in any pieces, with no progress lost) and
  the range of the rounding function (`0 <= ch_rnd .. <= 1024`).

## What is modelled

| C++ | model |
|-----|-------|
| c/common/distributions.h, ans_params.h, lehmer_code.{h,cc}, predict.{h,cc}, context.{h,cc}, quant_matrix.cc, constants.{h,cc} (tables) | Prob, EntropyModel, LehmerModel, CoefModel, CtxTables, QuantModel, Tables |
| c/include/brunsli/jpeg_data.h | JpegModel |
| c/dec/bit_reader.{h,cc}, arith_decode.h, ans_decode.{h,cc}, histogram_decode.{h,cc}, huffman_decode.{h,cc}, huffman_table.{h,cc}, context_map_decode.{h,cc} | BitModel, EntropyModel, HistModel, HuffModel, CMapModel |
| c/dec/brunsli_decode.cc: every section decoder, ReadTag/ParseSection/ProcessSection, ProcessJpeg buffering, BrunsliDecodeJpeg, IsBrunsli, BrunsliDecoder::Decode | HeaderModel, MetaModel, InternalsModel, QuantModel, HSecModel, WordModel, ContainerModel, DriverModel, Decoder, OutputModel |
| c/dec/brunsli_decode.cc: BrunsliEstimateDecoderPeakMemoryUsage | EstimateModel |
| c/enc/brunsli_encode.cc: EstimateBrunsliEncodePeakMemoryUsage | EstimateEncModel |
| c/dec/jpeg_data_writer.cc: BitWriter, code tables, block coders, scans, all segments, WriteJpeg, output chunks | JBitModel, JHuffModel, JScanModel, JSegModel, JFileModel, OutputModel |
| c/dec/decode.cc (DecodeBrunsli), c/enc/encode.cc (EncodeBrunsli) | OutputModel, BypassModel |
| c/enc/write_bits.{h,cc}, ans_encode.{h,cc}, histogram_encode.{h,cc}, huffman_encode.{h,cc}, huffman_tree.{h,cc}, context_map_encode.{h,cc}, cluster.h | BitModel, EntropyModel, HistModel, HStoreModel, HTreeModel, CMapModel, ClusterModel |
| c/enc/brunsli_encode.cc: all section writers, SampleNumNonZeros, SelectContextBits, ComputeCoeffOrder, CalculateMeta, BrunsliSerialize, bypass, size estimates | Encoder and the models above, BypassModel, SizeModel |
| c/experimental/groups.{h,cc} | PoolModel (ParallelExecutor), GroupModel (EncodeGroups, DecodeGroups), StatusModel (shared variables) |
| c/enc/jpeg_data_reader.cc, jpeg_huffman_decode.{h,cc} | JBitModel, JHuffModel, JScanModel, JSegModel, JFileModel |
| c/tools/cbrunsli.cc, dbrunsli.cc (without BRUNSLI_EXPERIMENTAL_GROUPS) | ToolModel |
| wasm/codec.cc (not the accessors of strings), java/dev/brunsli/wrapper/codec_jni.cc | WrapperModel |

## What is not modelled

* The tests and the fuzzing wrappers; the Java class and the web server modules.  In the WASM wrapper size_t has 32 bits: there the size of the output
  buffer is arbitrary, other size sums are taken to fit.  Of the command-line tools: messages, the build with groups (its functions are in
  GroupModel), memory that runs out, and other programs that change the files meanwhile.
* `skip_tags` other than 0 and what the memory estimate uses (headerless decoding) and, in BrunsliSerialize, `skip_sections` other than 0 and what groups.cc uses.
* In GroupModel a task is one step; that the steps of different tasks commute rests on the tasks having no common memory but `failed` and `status`
  (each reads and writes the blocks of its own window, C58_each_block_in_one_group; what else they read is written before they start).
* In C55, sections other than metadata and coefficients that are only partly read are not shown to the serializer: it does not look before the tags 7 or 8 have been met.
* Floating-point arithmetic: the entropy estimates (cluster.h, fast_log.h) are arbitrary comparison results, the
  rounding in NormalizeCounts is an arbitrary function within its contract.
* The Brotli library; memory allocation (assumed to succeed); logging; platform macros.
* size_t overflow in size sums of in-memory data (assumed below 2^63 where a hypothesis says so).

## Findings

What the faithful model violates, or what the proofs needed as a hypothesis:

1. **GetMaximumBrunsliEncodedSize is not a maximum** (C53).  It budgets 84 bytes per block, but AC values up to ±2047
   (which ReadJpeg accepts) need 63·log2(4095) > 755 bits per block.  For a 2560×2560 grey image there are more such images than
   byte strings of that size, and as the decoder inverts the encoder, some image cannot be encoded within the buffer.  The DC and AC words are
   stored without a bound check (brunsli_encode.cc:680-719), so the encoder writes behind the heap buffer.
   C54 proves a size that does suffice: 654 bytes per block, 128 KiB, the JPEG internals and the compressed metadata.
2. **EstimateAuxDataSize is not an upper bound** (C53).  A DHT table with 256 values in an unusual order takes more than the
   272 bytes estimated; a readable file with 57 such tables makes EncodeSection fail for every buffer size.
   With at most 168 values in every table the estimate is enough (C54_aux_estimate_is_enough).
3. **Writer shift by 32** (C52).  A stream whose DC values differ by −32768 between consecutive blocks makes the
   JPEG writer evaluate `1u << 32` and WriteBits(32, …) (jpeg_data_writer.cc:512-525, 566-581).
4. **DecodeHeader accepts a wrong wire type** (C27): brunsli_decode.cc:1148-1150 call `Fail` without returning.
   The version check masks with a 32-bit constant, so version bits ≥ 32 pass (C26).
5. **Empty file** (C02): the bypass of a zero-length input is encoded but not decoded.
6. **Bypass encoder with 6 ≤ *len < 34** (C03) can write out of bounds: `len - *pos` underflows.
7. **Trailing garbage** (C29) is not detected in one call if the stream ends exactly where a 600-byte look-ahead step ends.
8. **NEEDS_MORE_OUTPUT** (C31) can be returned with no bytes pending (an empty tail_data chunk stays queued), and with free space for stored files.
9. **After a serializer error** later calls still consume input (C32).
10. **EncodeBrunsli** (C45) treats only a return value 0 of the sink as an error; a short write is reported as success.
11. Accepted but unusual: overlong Base128 numbers; header items and inter-marker lengths may overrun their section (noticed at the end of the section).
12. EncodeMetaData writes a Base128 number without checking `*len`; the encoder checks neither AC magnitudes nor the
    block-count limit (a JPEGData built by a program can be encoded but is rejected by the decoder); CalculateMeta does not check the size of
    `coeffs`; EncodeDC uses `meta[0]` before the number of components is checked.
13. A buffer capacity ≥ 2^63 would give a 10-digit length field which the decoder rejects.
14. cluster.h: the queue compaction relies on `pairs.front()` being maximal (NaN costs would break it).
15. The JPEG writer's symbol index `(r << 4) + nbits` could be 256 for |coefficient| = 32768 (excluded by what the decoder accepts);
    EncodeDHT computes `--total_count` below zero if all counts are zero; `scan_info[scan_index]` is not checked (a separate outcome in the model, excluded in C52).
16. CreateHuffmanTree sums counts in 32 bits (hypothesis of C18).
17. The decoder checks neither scan component indices against the number of components nor the number of APP
    markers against the metadata; the JPEG writer reports these as errors.
18. BrunsliBitReader::CanRead answers false while bytes are owed (debt) in a denormal state; this only delays.
19. The padding bits are dropped by the container when `has_zero_padding_bit` is false (`normal` in JpegSpec.v); WriteJpeg does not use them then.
20. **Streaming decoder reads coefficients that are not there** (C55_announced_ac_without_coefficients_refuted,
    and with a stream of 50 bytes C55_ac_tag_behind_internals_refuted).  ReadTag notes
    a tag as met before its section is read, and the order of the sections is checked only when a section is processed.  If the
    input of a Decode call ends after the tag byte of an AC section that follows the JPEG internals directly, SerializeJpeg
    starts, takes the DC coefficients for complete and a DC-only scan reads `c.coeffs[0]` of an empty vector
    (jpeg_data_writer.cc:767-790, 1008-1009).
21. **Metadata after the DC section** (C55_metadata_behind_dc_refuted) is accepted by the one-shot decoder, but if the input is split after the DC tag, the
    serializer starts without it and fails at the first APP marker: the result depends on the split.
22. **The destructor of ParallelExecutor never returns** (C57_destructor_returns_refuted, C57_tools_hang_refuted).  It stores 1 to
    `next_task` and to `num_tasks` (groups.cc:89-90), but the workers wait for `next_task < num_tasks`: none of them wakes up, and
    `busy_count` never reaches the number of threads.  cbrunsli and dbrunsli hang after the work in groups mode.
23. **DecodeGroups can return true although a group failed** (C59_failure_is_reported_refuted, C59_data_race_refuted).  The tasks assign
    `status`, a local variable of DecodeGroups captured by reference, and then test it (groups.cc:486-487, 529-530): a data race, and
    a task may test the status of another one.
24. **The part buffers of EncodeGroups are too small** (C60_part_buffers_refuted): 64512 bytes per component for 1024 blocks of 63 AC values of
    up to 12 bits.  The words are stored without a bound check, as in finding 1.  The common part gets 20480 bytes for histograms whatever their number
    (groups.cc:302, 313).
25. A group size of 0 passes the tests for powers of two in EncodeGroups and DecodeGroups and is then divided by (groups.cc:125, 136-140, 391, 419-423).
26. DecodeGroups does not check which tags the six leading sections have: without quantisation tables WarmupMeta reads elements of an empty vector,
    without histograms the tasks use entropy codes that are not there (`GUnchecked` in GroupModel.v; C61_tasks_stay_in_their_arrays_refuted).
27. BrunsliEstimateDecoderPeakMemoryUsage returns a size, but for a null pointer the status code BRUNSLI_INVALID_PARAM, that is 3 bytes
    (brunsli_decode.cc:2472; C62_failure_means_zero_refuted).
28. **cbrunsli and dbrunsli cut off files of 4 GB and more** (C64_large_files_refuted): `int input_size = ftell(file)` (cbrunsli.cc:34,
    dbrunsli.cc:41).  A file of n + 2^32 bytes is taken for its first n bytes and the exit code is success; between 2 and 4 GB the size is negative and
    resize throws.  The same happens when ftell fails, -1 is not looked for.
29. Both tools empty the output file before they write it: with the same name for input and output a failed write loses the original
    (cbrunsli.cc:87; C64_outcome says what holds with two names).
30. **EstimateBrunsliEncodePeakMemoryUsage can be too low by half** (C66_estimate_covers_refuted).  It guesses the nonzero coefficients from the
    size of the file, but SampleNumNonZeros counts 64 for every block of a component with less than 1024 blocks (brunsli_encode.cc:1002), and
    EncodeAC allocates for that.  It also leaves out tail_data.  For a JPEGData without components it divides by zero (1516).
31. **BrunsliDecoderCleanup releases malloc'ed buffers with delete[]** (C67_cleanup_refuted, wasm/codec.cc:57-58, 104-107): undefined behaviour for every
    instance.  Also, nativeDecode and nativeEncode convert a size_t to jsize: an output of 2^32 + n bytes comes out as its first n bytes
    (codec_jni.cc:20; a stream cut like this is not accepted, C67_java_round_trip).

## Seeded bugs

`seeded/LOG.jsonl` has one line per experiment: a realistic bug put into the model in a scratch copy, and the theorems
that then no longer prove.  Lines with an empty list of failed theorems carry a note: either the edit is harmless for every claim, or the
theorem was tightened and the experiment repeated.
