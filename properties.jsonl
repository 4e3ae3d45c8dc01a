{"id": "C01", "title": "Lossless brunsli container round trip", "statement": "Whenever BrunsliEncodeJpeg accepts a parsed JPEG (JPEGData), running BrunsliDecodeJpeg on exactly the bytes it produced returns BRUNSLI_OK and a JPEGData that describes the same image: same dimensions, sampling, coefficients, tables, scan script, markers, metadata and padding information.", "quantifier": "every JPEGData the encoder accepts (any size up to the block limit, any tables, coefficients, scans, metadata)", "why_tests_cant": "The space of JPEGData values is unbounded and every coded section depends on adaptive state; sampled files exercise a negligible part of the contexts and code lengths.", "anchors": ["c/enc/brunsli_encode.cc:BrunsliEncodeJpeg,BrunsliSerialize", "c/dec/brunsli_decode.cc:BrunsliDecodeJpeg"]}
{"id": "C02", "title": "Bypass (fallback) mode is lossless for arbitrary bytes", "statement": "For every non-empty byte string and an output buffer of at least GetBrunsliBypassSize(len) bytes, BrunsliEncodeJpegBypass succeeds, uses no more than GetBrunsliBypassSize(len) bytes, and decoding its output yields exactly the original bytes, whether or not the bytes parse as a JPEG.", "quantifier": "every non-empty byte string, every header that ReadJpeg might or might not extract from it", "why_tests_cant": "Arbitrary input bytes, including non-JPEG data; header field lengths vary with the parsed dimensions.", "anchors": ["c/enc/brunsli_encode.cc:BrunsliEncodeJpegBypass,GetBrunsliBypassSize,EncodeOriginalJpg", "c/dec/brunsli_decode.cc:DecodeOriginalJpg,DecodeHeader"]}
{"id": "C03", "title": "Bypass encoder never writes past the buffer it was given", "statement": "BrunsliEncodeJpegBypass called with *len = n writes only to data[0..n), returning false when the buffer is too small.", "quantifier": "every input and every declared buffer size n", "why_tests_cant": "Requires reasoning over all relations between buffer size and cursor, including unsigned wrap-around.", "anchors": ["c/enc/brunsli_encode.cc:BrunsliEncodeJpegBypass,EncodeSection,EncodeHeader,EncodeOriginalJpg"]}
{"id": "C04", "title": "Section length coding round trip", "statement": "A value written with the base-128 writers (minimal or fixed-width) is read back exactly, consuming exactly the bytes written, whatever follows; the reader never reads more than 9 bytes and rejects input whose ninth byte still has the continuation bit.", "quantifier": "every value below 2^63 (or fitting the fixed width), every suffix of the stream", "why_tests_cant": "Unbounded value range and arbitrary trailing bytes.", "anchors": ["c/enc/brunsli_encode.cc:EncodeBase128,EncodeBase128Fix,Base128Size", "c/dec/brunsli_decode.cc:DecodeBase128"]}
{"id": "C05", "title": "Bit writer / bit reader inverse", "statement": "Any sequence of bit fields (up to 24 bits each) written by the encoder's bit writer is read back unchanged by the decoder's bit reader asked for the same widths, and the reader is healthy, finds only zero padding and consumes exactly the bytes the writer reports as used.", "quantifier": "every sequence of (width, value) writes", "why_tests_cant": "Sequences of widths and alignments are unbounded.", "anchors": ["c/enc/write_bits.h:WriteBits,Storage", "c/dec/bit_reader.h:BrunsliBitReaderRead", "c/dec/bit_reader.cc:BrunsliBitReaderFinish"]}
{"id": "C06", "title": "Bit-section decoding does not depend on input chunking", "statement": "Reading bit fields from a stream that is delivered in arbitrary pieces, suspending and resuming between the pieces, yields the same values, the same number of consumed bytes and the same health verdict as reading the whole stream at once.", "quantifier": "every byte stream, every split into chunks, every sequence of reads", "why_tests_cant": "Exponentially many splits; interplay of bit buffer, debt bytes and suspend.", "anchors": ["c/dec/bit_reader.cc:BrunsliBitReaderResume,BrunsliBitReaderSuspend,BrunsliBitReaderUnload,BrunsliBitReaderCanRead"]}
{"id": "C07", "title": "Variable-length integer codes of the internals sections round trip", "statement": "Every value written with the bit-level varint, limited varint and 8-bit variable-length codes is decoded to the same value, leaving the following bits untouched, also when decoding is suspended and resumed at any read.", "quantifier": "every value within the documented width, every parameter (max bits, group width, symbol limit), every suffix", "why_tests_cant": "Parameterised codes over unbounded parameter and suffix ranges.", "anchors": ["c/enc/brunsli_encode.cc:EncodeVarint,EncodeLimitedVarint", "c/enc/context_map_encode.cc:StoreVarLenUint8", "c/dec/brunsli_decode.cc:DecodeVarint,DecodeLimitedVarint,DecodeVarLenUint8"]}
{"id": "C08", "title": "Lehmer code is a bijection on permutations", "statement": "Decoding the Lehmer code computed from a permutation returns that permutation; every accepted Lehmer code decodes to a permutation of 0..n-1 whose Lehmer code is the one given; codes out of range are rejected.", "quantifier": "every length n and every permutation / code sequence of that length", "why_tests_cant": "n! permutations.", "anchors": ["c/common/lehmer_code.cc:ComputeLehmerCode,DecodeLehmerCode"]}
{"id": "C09", "title": "Huffman symbol list coding by remaining-value index round trips", "statement": "The list of symbol values of a JPEG Huffman table coded as indices into the shrinking default list is decoded to the same list; values not in the list or repeated are rejected by the encoder, out of range indices by the decoder.", "quantifier": "every list of byte values", "why_tests_cant": "Combinatorially many orderings.", "anchors": ["c/common/lehmer_code.h:PermutationCoder", "c/enc/brunsli_encode.cc:EncodeHuffmanCode", "c/dec/brunsli_decode.cc:DecodeHuffmanCode"]}
{"id": "C10", "title": "Adaptive bit probabilities stay valid", "statement": "After any sequence of coded bits the adaptive probability used for the next bit stays within its 8-bit range, its internal counters never overflow their 8- and 16-bit storage, the division table lookup is in range and the result equals the documented fixed-point quotient.", "quantifier": "every initial probability and every (unbounded) bit history", "why_tests_cant": "Histories are unbounded; overflow shows up only after particular long sequences.", "anchors": ["c/common/distributions.h:Prob,FastDivide"]}
{"id": "C11", "title": "Binary arithmetic coder round trip", "statement": "Any sequence of bits coded with any sequence of 8-bit probabilities is decoded to the same bits by the decoder given the same probabilities; encoder and decoder request/emit 16-bit words in lockstep and the coding interval never becomes empty.", "quantifier": "every sequence of (probability, bit) pairs of any length, probabilities in 0..255", "why_tests_cant": "Unbounded sequences; carries/straddling intervals are rare in samples.", "anchors": ["c/enc/brunsli_encode.cc:DataStream::AddBit,FlushArithmeticCoder", "c/dec/arith_decode.h:BinaryArithmeticDecoder"]}
{"id": "C12", "title": "ANS coder round trip and end-of-stream check", "statement": "Any sequence of symbols coded with tables in which they have non-zero frequency is decoded to the same sequence, with every emitted word consumed in order, the 32-bit state never overflowing, and the final state check succeeding.", "quantifier": "every sequence of (table, symbol) pairs, every frequency table summing to 1024", "why_tests_cant": "Unbounded sequences and tables; state-dependent renormalisation.", "anchors": ["c/enc/ans_encode.h:ANSCoder::PutSymbol", "c/dec/ans_decode.h:ANSDecoder::ReadSymbol,CheckCRC", "c/dec/ans_decode.cc:ANSDecodingData::Init"]}
{"id": "C13", "title": "Interleaved entropy stream round trip", "statement": "A data section that interleaves ANS symbols, arithmetic-coded bits and raw bits is decoded to the same sequence of values whatever the interleaving, when the decoder asks for the items in the order they were coded, even though the contexts of later items depend on earlier ones; all words are consumed, and both end-of-section checks succeed.", "quantifier": "every finite interleaving of the three kinds of items and every adaptive decoder that asks for them in order", "why_tests_cant": "Word slots are reserved in one order and filled in another; interleavings are unbounded.", "anchors": ["c/enc/brunsli_encode.cc:DataStream::AddCode,AddBits,AddBit,EncodeCodeWords", "c/dec/brunsli_input.h:WordSource,BitSource"]}
{"id": "C14", "title": "ANS decoding tables are complete or rejected", "statement": "Building a decoding table from a histogram never writes past the 1024-entry table for any histogram the histogram reader accepts, and succeeds exactly when the counts sum to 1024; each symbol then owns exactly its count of slots with offsets 0..count-1.", "quantifier": "every bit string presented as a histogram", "why_tests_cant": "Attacker-controlled counts; needs a proof for all bit strings.", "anchors": ["c/dec/histogram_decode.cc:ReadHistogram", "c/dec/ans_decode.cc:ANSDecodingData::Init"]}
{"id": "C15", "title": "Histogram coding round trip", "statement": "Every normalised histogram produced by the encoder (up to 18 symbols) is decoded to the same counts.", "quantifier": "every histogram of counts the encoder can produce from any statistics", "why_tests_cant": "Counts range over a huge space; the omitted-symbol convention depends on ordering of log counts.", "anchors": ["c/enc/histogram_encode.cc:NormalizeCounts,EncodeCounts", "c/dec/histogram_decode.cc:ReadHistogram"]}
{"id": "C16", "title": "Histogram normalisation keeps every used symbol codable", "statement": "After normalisation the counts sum to 1024 and every symbol that occurred keeps a positive count, and the values are representable in the stored precision.", "quantifier": "every histogram with at least one occurrence", "why_tests_cant": "Depends on rounding decisions for all count vectors.", "anchors": ["c/enc/histogram_encode.cc:NormalizeCounts,RebalanceHistogram"]}
{"id": "C17", "title": "Prefix-code lookup tables decode the canonical code", "statement": "For every complete set of code lengths accepted by the decoder, the two-level lookup table decodes any bit string to exactly the symbol whose canonical code is its prefix and consumes exactly that code's length; the table fits the allocated space.", "quantifier": "every code length assignment accepted by the reader and every bit string", "why_tests_cant": "All code length vectors over alphabets up to 272 symbols.", "anchors": ["c/dec/huffman_table.cc:BuildHuffmanTable", "c/dec/huffman_decode.cc:HuffmanDecodingData::ReadSymbol"]}
{"id": "C18", "title": "Encoder prefix codes are length limited and prefix free", "statement": "The code lengths chosen for any histogram respect the depth limit, form a complete prefix code over the symbols that occur, and the assigned bit patterns are the canonical ones.", "quantifier": "every histogram with at least two used symbols", "why_tests_cant": "All histograms; the depth limiting retry loop triggers only for skewed ones.", "anchors": ["c/enc/huffman_tree.cc:CreateHuffmanTree,ConvertBitDepthsToSymbols"]}
{"id": "C19", "title": "Prefix-code description round trip", "statement": "The serialised description of a prefix code is decoded to a table that decodes every symbol coded with the encoder's code.", "quantifier": "every histogram over the alphabet", "why_tests_cant": "Run-length and simple-code variants for all length vectors.", "anchors": ["c/enc/huffman_encode.cc:BuildAndStoreHuffmanTree", "c/dec/huffman_decode.cc:ReadFromBitStream,ReadHuffmanCodeLengths,ReadSimpleCode"]}
{"id": "C20", "title": "Context map round trip", "statement": "Every context map written by the encoder is decoded to the same map.", "quantifier": "every context map over every number of clusters 1..256", "why_tests_cant": "Unbounded lengths; move-to-front and run-length transforms are history dependent.", "anchors": ["c/enc/context_map_encode.cc:EncodeContextMap", "c/dec/context_map_decode.cc:DecodeContextMap"]}
{"id": "C21", "title": "Decoded context maps only name existing histograms", "statement": "For any (possibly malicious) bit string, every entry of an accepted context map is smaller than the number of histograms, so later table lookups are in range.", "quantifier": "every bit string", "why_tests_cant": "Memory-safety over all malicious inputs.", "anchors": ["c/dec/context_map_decode.cc:DecodeContextMap,InverseMoveToFrontTransform", "c/dec/brunsli_decode.cc:DecodeHistogramDataSection"]}
{"id": "C22", "title": "Quantisation tables round trip", "statement": "Quantisation tables accepted by the encoder are decoded to the same values and component assignment; whatever the input, decoded table values are within 1..65535 (1..255 for 8-bit tables).", "quantifier": "every set of 1..4 tables with positive 16-bit entries; for the range part every bit string", "why_tests_cant": "65535^64 tables.", "anchors": ["c/enc/brunsli_encode.cc:EncodeQuantTables", "c/dec/brunsli_decode.cc:DecodeQuantDataSection", "c/common/quant_matrix.cc:FillQuantMatrix,FindBestMatrix"]}
{"id": "C23", "title": "JPEG internals (markers, Huffman tables, scans, padding) round trip", "statement": "The JPEG internals section written for a JPEGData is decoded to the same marker order, restart interval, Huffman tables, scan descriptions with reset points and extra zero runs, quantisation table indices, component ids, padding bits and inter-marker data.", "quantifier": "every JPEGData accepted by the section writer that satisfies what the JPEG reader guarantees", "why_tests_cant": "Unbounded lists of every kind.", "anchors": ["c/enc/brunsli_encode.cc:EncodeAuxData,EncodeHuffmanCode,EncodeScanInfo", "c/dec/brunsli_decode.cc:DecodeJPEGInternalsSection,DecodeHuffmanCode,DecodeScanInfo"]}
{"id": "C24", "title": "Metadata round trip", "statement": "APP and COM segments and trailing data are restored byte for byte, in order, including the segments that were replaced by short codes.", "quantifier": "every list of well-formed APP/COM segments within the limits and every tail", "why_tests_cant": "Arbitrary byte strings and near-misses of the template segments.", "anchors": ["c/enc/brunsli_encode.cc:EncodeMetaData,TransformAppMarker", "c/dec/brunsli_decode.cc:ProcessMetaData,DecodeMetaDataSection"]}
{"id": "C25", "title": "Metadata parsing is independent of how decompressed data is delivered, and bounded", "statement": "Feeding the decompressed metadata to the parser in any pieces gives the same result as feeding it at once, and the total size of the expanded segments is bounded by the documented limits on short and multi-byte segments (no decompression bomb).", "quantifier": "every metadata byte string and every split of it", "why_tests_cant": "Exponentially many splits; adversarial content.", "anchors": ["c/dec/brunsli_decode.cc:ProcessMetaData"]}
{"id": "C26", "title": "Header round trip and validation", "statement": "Width, height, version, component count and sampling factors written in the header are decoded to the same values; any accepted header has consistent values within limits (non-zero bounded dimensions, 1..4 components, sampling factors 1..15).", "quantifier": "every header value combination; for validation every byte string", "why_tests_cant": "All byte strings.", "anchors": ["c/enc/brunsli_encode.cc:EncodeHeader", "c/dec/brunsli_decode.cc:DecodeHeader"]}
{"id": "C27", "title": "Header fields of the wrong wire type are rejected", "statement": "A header section in which a required field arrives as a length-delimited item instead of a varint is rejected as invalid.", "quantifier": "every header byte string", "why_tests_cant": "Malformed headers are unbounded.", "anchors": ["c/dec/brunsli_decode.cc:DecodeHeader"]}
{"id": "C28", "title": "Section grammar is enforced", "statement": "A stream is accepted only if its sections appear at most once each, internals precede quantisation and histogram data, those precede DC data, DC precedes AC data, every mandatory section is present and nothing follows the end; unknown section tags are handled as documented.", "quantifier": "every sequence of sections", "why_tests_cant": "All orders and repetitions of sections of arbitrary content.", "anchors": ["c/dec/brunsli_decode.cc:ReadTag,ParseSection,ProcessSection"]}
{"id": "C29", "title": "Streaming decode equals one-shot decode", "statement": "Feeding the same byte stream to the streaming decoder in any chunk sizes gives the same final status and the same decoded image as giving it at once.", "quantifier": "every byte stream and every split into chunks", "why_tests_cant": "Exponentially many splits at every internal buffer position.", "anchors": ["c/dec/brunsli_decode.cc:ProcessJpeg,ChargeBuffer,LoadInput,UnloadInput,UnchargeBuffer,BrunsliDecoder::Decode"]}
{"id": "C30", "title": "Streaming input buffer never overflows or loses bytes", "statement": "For every sequence of calls, the internal look-ahead buffer stays within its allocation, no input byte is skipped or processed twice, and available_in/next_in account for exactly the bytes taken.", "quantifier": "every sequence of Decode calls with arbitrary chunk sizes", "why_tests_cant": "Unbounded call histories.", "anchors": ["c/dec/brunsli_decode.cc:ChargeBuffer,LoadInput,UnloadInput,UnchargeBuffer"]}
{"id": "C31", "title": "Output delivery is independent of output buffer sizes", "statement": "Draining the decoder with any sequence of output buffer sizes yields the same byte sequence; NEEDS_MORE_OUTPUT is reported only while bytes remain, and no byte is lost or duplicated.", "quantifier": "every queue of pending chunks and every sequence of available_out values", "why_tests_cant": "Unbounded call histories.", "anchors": ["c/dec/jpeg_data_writer.cc:PushOutput,SerializeJpeg"]}
{"id": "C32", "title": "Decoder errors are sticky and completion is stable", "statement": "Once the decoder reported an error every later call reports the same error without consuming more; after success, further calls without new data succeed again and new data is rejected.", "quantifier": "every call history", "why_tests_cant": "Unbounded histories.", "anchors": ["c/dec/brunsli_decode.cc:ProcessJpeg,DoProcessJpeg,Fail"]}
{"id": "C33", "title": "Scan data never emulates a marker", "statement": "In the entropy-coded bytes the JPEG writer emits for any bit string, every 0xFF byte is followed by a 0x00 byte, and removing these zero bytes gives back exactly the bit string written followed by its padding.", "quantifier": "every sequence of bit writes", "why_tests_cant": "Alignment of 0xFF with 64-bit flush groups varies over unbounded sequences.", "anchors": ["c/dec/jpeg_data_writer.cc:EmitByte,DischargeBitBuffer,WriteBits,JumpToByteBoundary,HasZeroByte"]}
{"id": "C34", "title": "JPEG entropy-coded bytes: reader undoes stuffing", "statement": "The JPEG reader's bit source returns exactly the bits of the unstuffed scan data up to the next marker, and gives back unused bytes so that parsing continues exactly at the first byte after the padded bit stream.", "quantifier": "every byte string and every read sequence", "why_tests_cant": "64-bit refill and byte give-back with escapes at every alignment.", "anchors": ["c/enc/jpeg_data_reader.cc:BitReaderState"]}
{"id": "C35", "title": "JPEG Huffman tables: writer codes are decoded by the reader tables", "statement": "For every valid DHT table the code assigned by the writer to a symbol is decoded by the reader's lookup table to that symbol using exactly its length; the lookup table never exceeds its 1024 entries.", "quantifier": "every (possibly incomplete) JPEG Huffman code", "why_tests_cant": "All count/value vectors.", "anchors": ["c/dec/jpeg_data_writer.cc:BuildHuffmanCodeTable", "c/enc/jpeg_huffman_decode.cc:BuildJpegHuffmanTable", "c/enc/jpeg_data_reader.cc:ReadSymbol,ProcessDHT"]}
{"id": "C36", "title": "Sequential block coding: writer reproduces what the reader read", "statement": "Whenever the reader decodes an 8x8 block of a sequential scan from some bits, the writer, given the decoded coefficients and the recorded number of extra zero runs, emits exactly those bits.", "quantifier": "every bit string, Huffman tables and previous DC value", "why_tests_cant": "All blocks and all non-canonical codings.", "anchors": ["c/enc/jpeg_data_reader.cc:DecodeDCTBlock", "c/dec/jpeg_data_writer.cc:EncodeDCTBlockSequential"]}
{"id": "C37", "title": "Progressive scan coding: writer reproduces what the reader read", "statement": "Whenever the reader decodes the blocks of a progressive scan (first pass or refinement pass) from some bits, the writer, given the final coefficients and the recorded reset points and extra zero runs, emits exactly those bits.", "quantifier": "every bit string, scan script accepted by the reader, and any number of blocks", "why_tests_cant": "End-of-band runs couple arbitrarily many blocks.", "anchors": ["c/enc/jpeg_data_reader.cc:DecodeDCTBlock,RefineDCTBlock,ProcessScan", "c/dec/jpeg_data_writer.cc:EncodeDCTBlockProgressive,EncodeRefinementBits,BufferEndOfBand,Flush,DoEncodeScan"]}
{"id": "C38", "title": "DC prediction is reversible", "statement": "Reconstructing DC coefficients from the prediction errors gives the original coefficients for every component, and the decoder's prediction uses only already decoded neighbours.", "quantifier": "every coefficient plane", "why_tests_cant": "All images.", "anchors": ["c/common/predict.cc:PredictWithAdaptiveMedian", "c/enc/brunsli_encode.cc:PredictDCCoeffs", "c/dec/brunsli_decode.cc:DecodeDC"]}
{"id": "C39", "title": "DC section round trip", "statement": "The DC section decodes to the same DC coefficients and the same empty-block flags that were encoded, for every component, in every sampling configuration.", "quantifier": "every set of component planes within the coefficient limits", "why_tests_cant": "Adaptive contexts over unbounded images.", "anchors": ["c/enc/brunsli_encode.cc:EncodeDC", "c/dec/brunsli_decode.cc:DecodeDC"]}
{"id": "C40", "title": "AC section round trip", "statement": "The AC section decodes to the same AC coefficients that were encoded, for every component, coefficient order and context configuration.", "quantifier": "every set of component planes within the coefficient limits", "why_tests_cant": "Adaptive contexts over unbounded images.", "anchors": ["c/enc/brunsli_encode.cc:EncodeAC,EncodeCoeffOrder,EncodeNumNonzeros", "c/dec/brunsli_decode.cc:DecodeAC,DecodeAcBlock,DecodeCoeffOrder,DecodeNumNonzeros"]}
{"id": "C41", "title": "Coefficient order is always a permutation", "statement": "For any (malicious) input, an accepted coefficient order is a permutation of the 64 positions with the DC position first, so block writes stay inside the block; and the encoder's order is decoded to itself.", "quantifier": "every bit string; every permutation fixing DC", "why_tests_cant": "64! permutations and all malicious inputs.", "anchors": ["c/dec/brunsli_decode.cc:DecodeCoeffOrder", "c/enc/brunsli_encode.cc:ComputeCoeffOrder,EncodeCoeffOrder"]}
{"id": "C42", "title": "Decoded coefficients are bounded", "statement": "For any input, coefficients produced by the decoder have absolute value at most 2054 (AC) and DC prediction residuals likewise, so they fit their 16-bit storage.", "quantifier": "every input stream", "why_tests_cant": "Adversarial inputs.", "anchors": ["c/dec/brunsli_decode.cc:DecodeDC,DecodeAcBlock"]}
{"id": "C43", "title": "Histogram clustering keeps every coded symbol codable", "statement": "Whatever merging decisions the cost heuristics take, every context is mapped to a cluster whose histogram is the sum of the histograms of the contexts mapped to it, cluster numbers are dense, and there are at most 256 clusters; so every symbol that occurs in a context has a positive count in its cluster.", "quantifier": "every set of input histograms and every outcome of the floating-point cost comparisons", "why_tests_cant": "Floating-point heuristics; all merge orders.", "anchors": ["c/enc/cluster.h:ClusterHistograms,HistogramCombine,HistogramRemap,HistogramReindex"]}
{"id": "C44", "title": "C decoder API reports sink failures", "statement": "DecodeBrunsli returns 1 only if every piece of output was fully accepted by the sink and the concatenation of the accepted pieces is the whole reconstructed JPEG; any short write makes it return 0.", "quantifier": "every input and every sink behaviour", "why_tests_cant": "Sinks are arbitrary functions.", "anchors": ["c/dec/decode.cc:DecodeBrunsli", "c/include/brunsli/jpeg_data_writer.h:JPEGOutput::Write", "c/dec/jpeg_data_writer.cc:WriteJpeg"]}
{"id": "C45", "title": "C encoder API reports sink failures", "statement": "EncodeBrunsli returns 0 whenever the sink returns a value different from the number of bytes it was given (documented contract).", "quantifier": "every input and every sink behaviour", "why_tests_cant": "Sinks are arbitrary functions.", "anchors": ["c/enc/encode.cc:EncodeBrunsli", "c/include/brunsli/encode.h"]}
{"id": "C46", "title": "Whole JPEG file round trip through parse and serialise", "statement": "For every byte string that ReadJpeg accepts in full mode, WriteJpeg applied to the resulting JPEGData emits exactly that byte string.", "quantifier": "every byte string accepted by ReadJpeg", "why_tests_cant": "All JPEG files, including odd but valid codings.", "anchors": ["c/enc/jpeg_data_reader.cc:ReadJpeg", "c/dec/jpeg_data_writer.cc:WriteJpeg"]}
{"id": "C47", "title": "JPEG marker segments round trip", "statement": "Each marker segment (SOF, DHT, DQT, DRI, SOS, APP, COM, inter-marker bytes) accepted by the JPEG reader is re-emitted byte for byte by the writer.", "quantifier": "every accepted segment byte string", "why_tests_cant": "All segment contents.", "anchors": ["c/enc/jpeg_data_reader.cc:ProcessSOF,ProcessSOS,ProcessDHT,ProcessDQT,ProcessDRI,ProcessAPP,ProcessCOM", "c/dec/jpeg_data_writer.cc:EncodeSOF,EncodeSOS,EncodeDHT,EncodeDQT,EncodeDRI,EncodeAPP,EncodeCOM"]}
{"id": "C48", "title": "Signature detection", "statement": "IsBrunsli returns true exactly for inputs starting with the 6-byte signature, every encoder output starts with it, and the decoder accepts no stream without it.", "quantifier": "every byte string", "why_tests_cant": "All byte strings.", "anchors": ["c/dec/brunsli_decode.cc:IsBrunsli,VerifySignature", "c/enc/brunsli_encode.cc:EncodeSignature"]}
{"id": "C49", "title": "Image size limits bound decoder allocation", "statement": "Any header accepted by the decoder leads to at most 2^21 blocks per component, so the coefficient storage of all components is bounded by 1 GB, and block grid dimensions are consistent with width, height and sampling.", "quantifier": "every header", "why_tests_cant": "All header values, including products that overflow 32 bits.", "anchors": ["c/dec/brunsli_decode.cc:UpdateSubsamplingDerivatives,DecodeHeader", "c/enc/jpeg_data_reader.cc:ProcessSOF"]}
{"id": "C50", "title": "The JPEG reader never leaves its arrays", "statement": "ReadJpeg, in each of its modes (header, tables, full) and on every byte string, returns success or failure without reading outside the input and without indexing any table or coefficient array out of bounds.", "quantifier": "every byte string and every read mode", "why_tests_cant": "Adversarial files; fuzzing only samples them.", "anchors": ["c/enc/jpeg_data_reader.cc:ReadJpeg", "c/include/brunsli/jpeg_data_reader.h:JpegReadMode"]}
{"id": "C51", "title": "A decoder answering OK hands out a complete, well-formed image", "statement": "Whenever BrunsliDecodeJpeg answers OK on any byte string (in one call or in pieces), the JPEGData is complete and well-formed: dimensions and sampling in range, one coefficient block of 64 bounded values per grid position, quantisation tables that exist and are non-zero, decodable Huffman codes, one scan script per SOS marker, APP/COM segments whose length field is right; or the result is the stored original.", "quantifier": "every byte string and every way of cutting it", "why_tests_cant": "Adversarial streams; the JPEG writer and callers index arrays with these values.", "anchors": ["c/dec/brunsli_decode.cc:BrunsliDecodeJpeg,BrunsliDecoder::Decode", "c/include/brunsli/jpeg_data.h:JPEGData"]}
{"id": "C52", "title": "The JPEG writer never leaves its arrays on decoded data", "statement": "WriteJpeg applied to any JPEGData that BrunsliDecodeJpeg returned with OK succeeds or reports failure; it never indexes a table, scan list or coefficient array out of bounds and never performs an undefined shift.", "quantifier": "every byte string the decoder accepts", "why_tests_cant": "Adversarial streams can pair any Huffman tables with any coefficients and scan scripts.", "anchors": ["c/dec/jpeg_data_writer.cc:WriteJpeg,SerializeJpeg,EncodeScan,EncodeDHT,EncodeSOS", "c/dec/brunsli_decode.cc:BrunsliDecodeJpeg"]}
{"id": "C53", "title": "The maximum encoded size is large enough", "statement": "For every JPEGData within the format's limits, BrunsliEncodeJpeg succeeds in a buffer of GetMaximumBrunsliEncodedSize bytes and writes nothing behind it.", "quantifier": "every JPEGData within the limits", "why_tests_cant": "The worst case is an image no test corpus contains; the bound must hold for all coefficient values.", "anchors": ["c/enc/brunsli_encode.cc:GetMaximumBrunsliEncodedSize,EstimateAuxDataSize,EncodeSection,BrunsliEncodeJpeg", "c/include/brunsli/brunsli_encode.h:GetMaximumBrunsliEncodedSize"]}
{"id": "C54", "title": "The encoder accepts every readable JPEG within explicit limits", "statement": "For every JPEG file below 4 GB that ReadJpeg accepts, BrunsliEncodeJpeg with a large enough buffer succeeds exactly if the file is within the format's limits (DC prediction errors up to 2054, padding bits, numbers of APP/COM segments, 16-bit quantiser differences, size field of the internals); the result decodes to the same file. No other feature of a file can make the encoder fail.", "quantifier": "every JPEG file ReadJpeg accepts, every clustering, every rounding to nearest", "why_tests_cant": "The encoder has many internal failure exits; tests cannot show that none of them is reachable for an accepted file.", "anchors": ["c/enc/brunsli_encode.cc:BrunsliEncodeJpeg,BrunsliSerialize,EncodeAuxData,EncodeHuffmanCode,EncodeSection", "c/enc/jpeg_data_reader.cc:ReadJpeg"]}
{"id": "C55", "title": "A file written while the stream is still being read is the file of the one-shot decoder", "statement": "BrunsliDecoder::Decode writes scans row by row as coefficients arrive. For every stream the one-shot decoder accepts, whose metadata comes before the coefficients, for every split of the input over the calls and every output buffer, no call fails, no memory outside the coefficients is read, the delivered bytes are always a beginning of the file WriteJpeg makes of the image of the one-shot decoder, and in the end all of it.", "quantifier": "every accepted stream with sections in the encoder's order, every split of the input, every sequence of output buffers", "why_tests_cant": "The number of interleavings of parser suspension points (every byte of the coefficient sections), scan scripts and buffer sizes is unbounded.", "anchors": ["c/dec/jpeg_data_writer.cc:EncodeScan,DoEncodeScan,SerializeSection,SerializeJpeg", "c/dec/brunsli_decode.cc:BrunsliDecoder::Decode,ProcessJpeg,DecodeDC,DecodeAC", "c/dec/serialization_state.h:SerializationState"]}
{"id": "C56", "title": "The thread pool runs every task exactly once", "statement": "A call of the executor of ParallelExecutor with n tasks runs each of the tasks 0..n-1 exactly once and to its end before it returns, runs nothing else and nothing outside a call, and comes back if the tasks do; shared plain variables are never written while a thread may read them.", "quantifier": "every number of threads, every sequence of calls, every interleaving of the threads, every spurious wake-up of the condition variables", "why_tests_cant": "Interleavings of threads cannot be enumerated by tests; lost wake-ups and double execution show up once in millions of runs.", "anchors": ["c/experimental/groups.cc:ParallelExecutor::ParallelExecutor,ParallelExecutor::execute", "c/experimental/groups.h:ParallelExecutor"]}
{"id": "C57", "title": "Destroying a thread pool ends", "statement": "Destroying a ParallelExecutor no call of which is active ends its threads and returns.", "quantifier": "every number of threads, every history, every interleaving", "why_tests_cant": "It depends on the interleaving of the threads.", "anchors": ["c/experimental/groups.cc:ParallelExecutor::~ParallelExecutor,ParallelExecutor::ParallelExecutor"]}
{"id": "C58", "title": "Coding in groups is lossless under every schedule", "statement": "EncodeGroups cuts the image into groups of blocks and codes them by independent tasks. Every block belongs to exactly one group; the bytes produced do not depend on the order in which the executor runs the tasks; and DecodeGroups on these bytes, with the same group sizes and its tasks in any order, returns the same JPEGData.", "quantifier": "every JPEGData within the format's limits, all group sizes, every order of the tasks on either side, every clustering and rounding", "why_tests_cant": "Images with ragged borders and subsampling times group sizes times orders of the tasks.", "anchors": ["c/experimental/groups.cc:EncodeGroups,DecodeGroups,SkipSection", "c/experimental/groups.h:EncodeGroups,DecodeGroups"]}
{"id": "C59", "title": "A group that cannot be decoded makes DecodeGroups fail", "statement": "DecodeGroups returns false if and only if some group could not be decoded, whatever the executor and the interleaving of the tasks.", "quantifier": "every set of failing groups, every interleaving of the tasks", "why_tests_cant": "A failure that is lost depends on the interleaving of two threads within a few instructions.", "anchors": ["c/experimental/groups.cc:DecodeGroups", "c/experimental/groups.cc:SequentialExecutor,ParallelExecutor::execute"]}
{"id": "C60", "title": "The buffers for groups are large enough", "statement": "For every JPEGData within the format's limits, EncodeGroups with the group sizes of the tools (32 and 128) succeeds with a large enough output buffer and no task writes behind the buffer of its part.", "quantifier": "every JPEGData within the limits", "why_tests_cant": "The worst case is an image no test corpus contains.", "anchors": ["c/experimental/groups.cc:EncodeGroups", "c/enc/brunsli_encode.cc:EncodeSection,DataStream::EncodeCodeWords,BrunsliSerialize", "c/tools/cbrunsli.cc:main"]}
{"id": "C61", "title": "The group decoder is safe and deterministic on any bytes", "statement": "Whatever bytes DecodeGroups is given: the verdict and the image do not depend on the order in which the executor runs the tasks; an image that is returned is well formed, as one from the sequential decoder is; and no task touches a block outside its own window or leaves the tables, whatever the sections contain.", "quantifier": "every byte string, all group sizes, every order of the tasks", "why_tests_cant": "Hostile inputs times schedules; a clash between two tasks needs both the right bytes and the right interleaving.", "anchors": ["c/experimental/groups.cc:DecodeGroups,SkipSection", "c/dec/brunsli_decode.cc:DecodeDC,DecodeAC"]}
{"id": "C62", "title": "The memory estimate covers the image and the tables", "statement": "For every stream the decoder accepts, BrunsliEstimateDecoderPeakMemoryUsage is at least twice the input plus the coefficients of the decoded image plus the larger of the writer's 384 kB and the context map, decoding tables and component states; a stream cut short anywhere gives 0; the arithmetic does not overflow on any bytes; and whatever cannot be decoded gives 0.", "quantifier": "every byte string; for the lower bound every accepted stream; every cut point", "why_tests_cant": "The estimate is computed by a second way through the stream; agreement on some files does not show agreement on all.", "anchors": ["c/dec/brunsli_decode.cc:BrunsliEstimateDecoderPeakMemoryUsage", "c/common/context.h:ComponentState::SizeInBytes"]}
{"id": "C63", "title": "Accepted JPEG files have a lawful scan script", "statement": "For every file ReadJpeg accepts: each scan uses only Huffman tables that the file defines and names no component twice; and when two scans code the same coefficient of a component, the file is progressive and the later scan is a refinement of a lower bit.", "quantifier": "every byte string the reader accepts, every pair of its scans, every coefficient", "why_tests_cant": "Scan scripts are combinations of ranges and bit positions over any number of scans.", "anchors": ["c/enc/jpeg_data_reader.cc:ProcessSOS,ProcessScan,ProcessDHT,ReadJpeg"]}
{"id": "C64", "title": "The command-line tools restore the file, whatever the file system does", "statement": "If cbrunsli exits with success on a file and dbrunsli exits with success on its output, dbrunsli's output is the file, byte by byte, however few bytes each read and write takes; with a working file system, and an encoder that succeeds, both exit with success. Whatever fails, only the output file is touched and holds what it held or a beginning of the right content; success means all of it. If cbrunsli is killed at any moment, dbrunsli on what is left restores the file or fails, but never succeeds with anything else.", "quantifier": "every file, every pattern of short reads and writes and of failing calls, every moment of interruption", "why_tests_cant": "Short writes, full disks and interruptions are histories no unit test drives, and files of several gigabytes are not in a test corpus.", "anchors": ["c/tools/cbrunsli.cc:main,ProcessFile,ReadFile,WriteFile", "c/tools/dbrunsli.cc:main,ProcessFile,ReadFile,WriteFile"]}
{"id": "C65", "title": "The command-line tools end with an exit code on any file", "statement": "Whatever bytes the input file holds, whatever the arguments and whatever library calls fail, cbrunsli and dbrunsli end with success or failure, without undefined behaviour while reading, parsing and writing; the only other end is an uncaught exception when the size of the input is not known, is 2 GB or more, or the output buffer would need 2^63 bytes.", "quantifier": "every content of the files, all arguments, every pattern of failing calls", "why_tests_cant": "Hostile files and failing calls have too many combinations; undefined behaviour may pass unnoticed in a test.", "anchors": ["c/tools/cbrunsli.cc:main,ProcessFile", "c/tools/dbrunsli.cc:main,ProcessFile", "c/enc/jpeg_data_reader.cc:ReadJpeg", "c/dec/jpeg_data_writer.cc:WriteJpeg"]}
{"id": "C66", "title": "The encoder's memory estimate covers what it allocates", "statement": "For every file ReadJpeg accepts, EstimateBrunsliEncodePeakMemoryUsage is defined (no division by zero, no overflow) and is at least what BrunsliEncodeJpeg has allocated for code words, histograms and component states when it starts coding.", "quantifier": "every accepted file, every size given by the caller", "why_tests_cant": "Whether the guess is too low depends on image size, number of components and compression ratio together.", "anchors": ["c/enc/brunsli_encode.cc:EstimateBrunsliEncodePeakMemoryUsage,SampleNumNonZeros,EncodeDC,EncodeAC,SelectContextBits"]}
{"id": "C67", "title": "The browser and Java wrappers restore the file and own their memory", "statement": "What JpegToBrunsli (or nativeEncode) returns, BrunsliToJpeg (or nativeDecode) turns back into the file, byte by byte, whatever size the output buffer had. A streaming instance that is handed a valid stream in pieces of at most 64 KiB, with all output taken after each call, loses no input although unread input is forgotten, never reports an error, delivers a beginning of the file in portions of at most 64 KiB, reaches result 1 after the last piece and at most one call per 64 KiB of the file and one more, and result 1 means the whole file was delivered. Destroying an instance releases its memory without undefined behaviour.", "quantifier": "every file, every division of the stream into pieces of at most 64 KiB, every state of the memory", "why_tests_cant": "The number of ways to cut a stream is exponential, and mismatched release of memory goes unnoticed with most allocators.", "anchors": ["wasm/codec.cc:BrunsliToJpeg,JpegToBrunsli,BrunsliDecoderInit,BrunsliDecoderProcess,BrunsliDecoderCleanup", "java/dev/brunsli/wrapper/codec_jni.cc:nativeDecode,nativeEncode,ToByteArray"]}
