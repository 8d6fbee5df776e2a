{"id": "C01", "title": "Encode/decode round trip (plain)", "statement": "For every buffer, line size and starting column accepted by encode(), decode(encode(data, line_size, column), false) returns exactly data.", "quantifier": "all byte buffers of any length, all line sizes >= 1, all starting columns 0 <= column <= line_size", "why_tests_cant": "The input space is unbounded (any length, any byte values); a test suite samples it, only a proof covers every input.", "anchors": ["src/encoder.cc:do_encode_generic", "src/decoder.cc:do_decode_noend_scalar<false>", "src/yencode.cc:Encode,Decode"]}
{"id": "C02", "title": "Encode/decode round trip (dot-unstuffing)", "statement": "For every buffer and line size, decode(encode(data, line_size), true) returns exactly data, and so does decoding the encoded text after an NNTP server has dot-stuffed it.", "quantifier": "all byte buffers, all line sizes >= 1 (starting column 0)", "why_tests_cant": "The input space is unbounded (any length, any byte values); a test suite samples it, only a proof covers every input. Interaction of line breaks, escapes and dots at every column cannot be enumerated.", "anchors": ["src/encoder.cc:do_encode_generic", "src/decoder.cc:do_decode_noend_scalar<true>"]}
{"id": "C03", "title": "Encoded output is line-safe", "statement": "encode() output never contains a NUL byte; carriage return and line feed occur only as CRLF pairs separating lines; every '=' is an escape lead that is followed by one of the seven legal escaped characters.", "quantifier": "all byte buffers, line sizes >= 1, columns", "why_tests_cant": "The input space is unbounded (any length, any byte values); a test suite samples it, only a proof covers every input.", "anchors": ["src/encoder.cc:do_encode_generic,escapedLUT,escapeLUT"]}
{"id": "C04", "title": "Line lengths", "statement": "Every line encode() completes holds exactly line_size characters, or line_size+1 when its final character is escaped; the last line is non-empty and not longer than line_size+1; the output never ends with a line break.", "quantifier": "all non-empty buffers, all line sizes >= 1, column 0 (first line shortened by the column otherwise)", "why_tests_cant": "The input space is unbounded (any length, any byte values); a test suite samples it, only a proof covers every input.", "anchors": ["src/encoder.cc:do_encode_generic"]}
{"id": "C05", "title": "No line starts with a dot, none starts or ends with tab or space", "statement": "In encode() output started at column 0 no line begins with '.', tab or space, and no line (including the last) ends with tab or space.", "quantifier": "all byte buffers, all line sizes >= 1", "why_tests_cant": "The input space is unbounded (any length, any byte values); a test suite samples it, only a proof covers every input.", "anchors": ["src/encoder.cc:do_encode_generic"]}
{"id": "C06", "title": "Encoded data cannot be mistaken for an end marker", "statement": "encode() output contains no CRLF followed by '=y' and no CRLF followed by '.', so a streaming decodeChunk() over the encoded body in any chunking returns the original data and never reports ended.", "quantifier": "all byte buffers, line sizes, and all ways of splitting the encoded text into chunks", "why_tests_cant": "Both the data and the chunk split are unbounded.", "anchors": ["src/encoder.cc:do_encode_generic", "src/decoder.cc:do_decode_end_scalar<true>", "index.js:decodeChunk"]}
{"id": "C07", "title": "maxSize is an upper bound", "statement": "The number of bytes encode() produces never exceeds maxSize(length, line_size); in fact it stays at least 64 bytes below it.", "quantifier": "all buffers, line sizes >= 1, columns 0 <= column <= line_size", "why_tests_cant": "The input space is unbounded (any length, any byte values); a test suite samples it, only a proof covers every input.", "anchors": ["index.js:maxSize", "src/yencode.cc:YENC_MAX_SIZE", "src/encoder.cc:do_encode_generic"]}
{"id": "C08", "title": "minSize is a lower bound", "statement": "minSize(length, line_size) never exceeds the size encode() produces for a buffer of that length.", "quantifier": "all buffers, all line sizes >= 1", "why_tests_cant": "The input space is unbounded (any length, any byte values); a test suite samples it, only a proof covers every input.", "anchors": ["index.js:minSize", "README.md:minSize"]}
{"id": "C09", "title": "Encoder memory safety", "statement": "encode() and encodeTo() read only inside the source buffer and write only inside a destination of the size they require, including the over-wide stores the implementation uses.", "quantifier": "all buffers, line sizes 1 .. INT_MAX-16, columns", "why_tests_cant": "Out-of-bounds accesses are silent in tests and depend on exact data/column combinations.", "anchors": ["src/encoder.cc:do_encode_generic", "src/yencode.cc:Encode,EncodeTo"]}
{"id": "C10", "title": "encodeTo accepts a maxSize buffer", "statement": "The destination size encodeTo() insists on equals maxSize(length, line_size) as computed in JavaScript, so a buffer of that size is never rejected and never overrun.", "quantifier": "all lengths below 2^52 and all line sizes 1 .. INT_MAX", "why_tests_cant": "Two formulas in two languages must agree for every length and line size.", "anchors": ["index.js:maxSize", "src/yencode.cc:YENC_MAX_SIZE,EncodeTo"]}
{"id": "C11", "title": "Encoder output does not depend on the implementation selected", "statement": "The bytes returned by encode() are the same for the portable encoder and for the SIMD front-end, whatever prefix of the data the vector kernel handles, provided the kernel emits the same text for that prefix.", "quantifier": "all buffers, line sizes, columns, and all prefixes a kernel may choose to process", "why_tests_cant": "Tests only run the kernel of the machine they run on.", "anchors": ["src/encoder_common.h:do_encode_simd", "src/encoder.cc:do_encode_generic"]}
{"id": "C12", "title": "Incremental encoding equals one-shot encoding", "statement": "Feeding a message to the incremental encoder in pieces, passing each returned column to the next call, produces the same bytes as encoding the concatenation in one call.", "quantifier": "all messages, all ways of splitting them, all line sizes", "why_tests_cant": "Every split position matters; failures only occur when a piece ends at particular columns.", "anchors": ["src/yencode.cc:EncodeIncr", "src/encoder.cc:do_encode_generic"]}
{"id": "C13", "title": "encode argument validation", "statement": "encode() and encodeTo() either throw or run the encoder with 1 <= line_size and 0 <= column < line_size.", "quantifier": "all combinations of supplied/omitted line_size and column, all integer values including those that are truncated to 32 bits", "why_tests_cant": "The integer argument space is too large to enumerate.", "anchors": ["src/yencode.cc:Encode,EncodeTo,EncodeIncr"]}
{"id": "C14", "title": "Incremental encoder destination check", "statement": "encodeIncr() rejects every destination buffer too small for the output it may produce.", "quantifier": "all data lengths, all line sizes, all destination sizes", "why_tests_cant": "An overrun only happens for particular length/line size/content combinations.", "anchors": ["src/yencode.cc:EncodeIncr"]}
{"id": "C15", "title": "Plain decode matches the reference semantics", "statement": "decode(data, false) drops CR and LF, replaces '=' c by c-106 mod 256, every other byte c by c-42 mod 256; a trailing lone '=' yields nothing.", "quantifier": "all byte buffers, well formed or not", "why_tests_cant": "The input space is unbounded (any length, any byte values); a test suite samples it, only a proof covers every input.", "anchors": ["src/decoder.cc:do_decode_noend_scalar<false>"]}
{"id": "C16", "title": "Dot-unstuffing decode matches the reference semantics", "statement": "decode(data, true) equals removing one '.' after each line start of data (and after each CRLF) and then decoding, where CRLF is recognised on the raw text.", "quantifier": "all byte buffers, well formed or not", "why_tests_cant": "The input space is unbounded (any length, any byte values); a test suite samples it, only a proof covers every input.", "anchors": ["src/decoder.cc:do_decode_noend_scalar<true>"]}
{"id": "C17", "title": "Decode never expands and never runs outside its buffers", "statement": "decode, decodeTo and decodeChunk read only bytes of the source buffer, write at most length(source) bytes, and never write at a position ahead of the position being read.", "quantifier": "all byte buffers, all decoder states", "why_tests_cant": "Look-ahead reads at the end of a buffer are invisible to functional tests.", "anchors": ["src/decoder.cc:do_decode_noend_scalar,do_decode_end_scalar"]}
{"id": "C18", "title": "In-place decoding", "statement": "decodeTo(buf, buf) and decodeChunk with output = data give the same bytes as decoding into a separate buffer.", "quantifier": "all byte buffers, all states, destination equal to or below the source", "why_tests_cant": "Aliasing errors depend on exact escape/line-break positions.", "anchors": ["src/decoder.cc:do_decode_noend_scalar,do_decode_end_scalar", "src/yencode.cc:DecodeTo,DecodeIncr"]}
{"id": "C19", "title": "decodeChunk is independent of how the stream is split", "statement": "Decoding a stream chunk by chunk, passing each returned state to the next call, yields the same concatenated output, the same end indication and the same total number of bytes consumed as decoding it in a single call.", "quantifier": "all streams and all ways to cut them into non-empty chunks", "why_tests_cant": "The number of splits is exponential in the stream length; end markers may straddle up to five chunks.", "anchors": ["src/decoder.cc:do_decode_end_scalar<true>", "index.js:decodeChunk", "src/yencode.cc:DecodeIncr"]}
{"id": "C20", "title": "End of data is detected exactly", "statement": "decodeChunk reports ended with state CRLF '=y' (or CRLF '.' CRLF) exactly when the stream so far contains such a marker at a line start (with an optional stuffed dot before '=y'); read points immediately past the first marker; nothing after it is decoded.", "quantifier": "all streams, all decoder states", "why_tests_cant": "Overlapping partial markers, escapes and stuffed dots give unboundedly many cases.", "anchors": ["src/decoder.cc:do_decode_end_scalar<true>", "src/decoder.h:YencDecoderEnd"]}
{"id": "C21", "title": "Returned decoder state describes the end of the stream", "statement": "The state string returned by decodeChunk (while not ended) is the pending part of the text consumed so far: feeding the state string itself to a fresh decoder leads to the same state, and it is a suffix of the consumed text after dot-unstuffing.", "quantifier": "all streams and all states", "why_tests_cant": "The input space is unbounded (any length, any byte values); a test suite samples it, only a proof covers every input.", "anchors": ["index.js:decodePrev", "src/decoder.h:YencDecoderState"]}
{"id": "C22", "title": "Plain decode does not depend on ISA, alignment or buffer length", "statement": "decode(data, false) returns the same bytes from the scalar decoder and from the SIMD front-end for every source alignment and vector width, given a kernel that follows its block contract.", "quantifier": "all buffers, all alignments, all vector widths", "why_tests_cant": "Tests cannot control buffer alignment and run only one ISA.", "anchors": ["src/decoder_common.h:_do_decode_simd"]}
{"id": "C23", "title": "Dot-unstuffing decode does not depend on ISA, alignment or buffer length", "statement": "decode(data, true) returns the same bytes from the scalar decoder and from the SIMD front-end for every source alignment and vector width.", "quantifier": "all buffers, all alignments, all vector widths", "why_tests_cant": "The deviation needs one exact combination of alignment, length and final bytes.", "anchors": ["src/decoder_common.h:_do_decode_simd", "src/decoder.cc:do_decode_noend_scalar<true>"]}
{"id": "C24", "title": "decodeChunk does not depend on ISA or alignment", "statement": "decodeChunk returns the same output, read count, end indication and state from the scalar decoder and from the SIMD front-end for every alignment, width and incoming state.", "quantifier": "all buffers, alignments, vector widths, incoming states", "why_tests_cant": "Tests cannot control alignment and run only one ISA.", "anchors": ["src/decoder_common.h:_do_decode_simd", "src/decoder.cc:do_decode_end_scalar<true>"]}
{"id": "C25", "title": "Escape-run resolution bit trick", "statement": "Given the bit mask of '=' positions in a block and whether the block starts inside an escape, the carry-based trick marks exactly those '=' that act as escape leads.", "quantifier": "all masks of any width, both incoming escape flags", "why_tests_cant": "There are 2^64 masks.", "anchors": ["src/decoder_common.h:fix_eqMask"]}
{"id": "C26", "title": "crc32 is the standard CRC-32", "statement": "crc32(data) equals the bitwise reflected CRC-32 (polynomial 0xEDB88320, initial and final complement) of data.", "quantifier": "all byte buffers, all source alignments", "why_tests_cant": "The input space is unbounded (any length, any byte values); a test suite samples it, only a proof covers every input. The table-driven code has separate paths per alignment and remaining length.", "anchors": ["src/crc.cc:do_crc32_incremental_generic"]}
{"id": "C27", "title": "Incremental crc32", "statement": "crc32(b, crc32(a)) equals crc32(a followed by b).", "quantifier": "all pairs of buffers", "why_tests_cant": "The input space is unbounded (any length, any byte values); a test suite samples it, only a proof covers every input.", "anchors": ["src/crc.cc:do_crc32_incremental_generic", "src/yencode.cc:CRC32"]}
{"id": "C28", "title": "crc32_combine", "statement": "crc32_combine(crc32(a), crc32(b), b.length) equals crc32(a followed by b).", "quantifier": "all pairs of buffers, lengths up to 2^64-1", "why_tests_cant": "The input space is unbounded (any length, any byte values); a test suite samples it, only a proof covers every input.", "anchors": ["src/crc.h:crc32_combine", "src/crc.cc:crc32_shift_generic"]}
{"id": "C29", "title": "crc32_zeroes", "statement": "crc32_zeroes(n, crc32(a)) equals crc32(a followed by n zero bytes), and a negative n undoes it.", "quantifier": "all buffers, all lengths n with |n| < 2^31", "why_tests_cant": "The input space is unbounded (any length, any byte values); a test suite samples it, only a proof covers every input.", "anchors": ["src/crc.h:crc32_zeros,crc32_unzero", "src/yencode.cc:CRC32Zeroes"]}
{"id": "C30", "title": "crc32_zeroes for any JavaScript length", "statement": "crc32_zeroes(n) equals the CRC-32 of n zero bytes for every non-negative integer n a caller can pass.", "quantifier": "all n in 0 .. 2^53-1", "why_tests_cant": "Testing would need multi-gigabyte buffers.", "anchors": ["src/yencode.cc:CRC32Zeroes"]}
{"id": "C31", "title": "crc32_multiply is a field multiplication", "statement": "crc32_multiply is commutative, associative, distributes over xor, has identity 80000000, has no zero divisors, and every non-zero value has an inverse.", "quantifier": "all 32-bit operands", "why_tests_cant": "2^64 to 2^96 operand combinations.", "anchors": ["src/crc.cc:crc32_multiply_generic"]}
{"id": "C32", "title": "crc32_shift", "statement": "crc32_shift(n, c) multiplies c by x^n; crc32_shift(m, crc32_shift(n, c)) = crc32_shift(m+n, c) also for negative shifts, and crc32_shift(-n) undoes crc32_shift(n).", "quantifier": "all 32-bit c, all n, m with |n|,|m|,|n+m| < 2^31", "why_tests_cant": "2^64 and more combinations.", "anchors": ["src/crc.cc:crc32_shift_generic", "src/yencode.cc:CRC32Shift", "src/crc.h:crc32_powmod"]}
{"id": "C33", "title": "Length-to-exponent reduction", "statement": "The reduction of a 64-bit byte or bit count to a 32-bit exponent used by combine, zeroes and shift preserves x^n for every 64-bit n.", "quantifier": "all n in 0 .. 2^64-1", "why_tests_cant": "2^64 values.", "anchors": ["src/crc.h:crc32_powmod,crc32_bytepow"]}
{"id": "C34", "title": "crc32 results do not depend on the ISA", "statement": "The carry-less-multiply, ARM CRC and RISC-V implementations of crc32, multiply and shift return the same values as the portable ones.", "quantifier": "all buffers, all alignments, all operands", "why_tests_cant": "A test run exercises a single ISA.", "anchors": ["src/crc_folding.cc", "src/crc_arm.cc", "src/crc_riscv.cc"]}
{"id": "C35", "title": "Burst error detection", "statement": "Two buffers of the same length that differ only within four consecutive bytes have different crc32 values.", "quantifier": "all pairs of such buffers of any length", "why_tests_cant": "The input space is unbounded (any length, any byte values); a test suite samples it, only a proof covers every input.", "anchors": ["src/crc.cc:do_crc32_incremental_generic"]}
{"id": "C36", "title": "CRC buffer format", "statement": "The 4-byte buffers exchanged with crc32 functions are the big-endian form of the value; reading back a packed value is the identity.", "quantifier": "all 32-bit values and all 4-byte buffers", "why_tests_cant": "2^32 values and their use in every API call.", "anchors": ["src/yencode.cc:read_crc32,pack_crc32"]}
{"id": "C37", "title": "decodeChunk accepts the state it returned", "statement": "Every state string decodeChunk returns can be passed to the next decodeChunk call.", "quantifier": "all possible returned states, including those returned with ended = true", "why_tests_cant": "The failing path raises a ReferenceError only for states returned at the end of data.", "anchors": ["index.js:decodeChunk"]}
{"id": "C38", "title": "decodeChunk argument order", "statement": "decodeChunk(data, state, output) as documented writes into the supplied output buffer.", "quantifier": "all data, states and output buffers", "why_tests_cant": "Needs every combination of optional arguments.", "anchors": ["index.js:decodeChunk", "README.md:decodeChunk"]}
{"id": "C39", "title": "decodeTo rejects a short output buffer", "statement": "decodeTo throws when the output buffer is smaller than the input, and never writes outside it.", "quantifier": "all data and output sizes", "why_tests_cant": "All pairs of sizes.", "anchors": ["src/yencode.cc:DecodeTo", "README.md:decodeTo"]}
{"id": "C40", "title": "multi_post part headers tile the file", "statement": "Over any sequence of successful encode calls on a YEncoder, part numbers count 1,2,..., the begin/end ranges of the parts are contiguous from 1 to size, and the trailer of part k gives the size and CRC of its data.", "quantifier": "all file sizes, part counts, and all sequences of encode calls", "why_tests_cant": "History property over arbitrary call sequences.", "anchors": ["index.js:YEncoder.encode"]}
{"id": "C41", "title": "multi_post running CRC", "statement": "After any sequence of successful encode calls the encoder's crc equals crc32 of all data fed so far, and the last part's trailer carries the CRC of the whole file.", "quantifier": "all call histories", "why_tests_cant": "History property over arbitrary call sequences.", "anchors": ["index.js:YEncoder.encode", "src/crc.h:crc32_combine"]}
{"id": "C42", "title": "A failed multi_post encode leaves the encoder unchanged", "statement": "If YEncoder.encode throws, part, pos and crc are as before the call.", "quantifier": "all states and data", "why_tests_cant": "Needs all failing histories.", "anchors": ["index.js:YEncoder.encode"]}
{"id": "C43", "title": "post/from_post round trip", "statement": "from_post applied to what a single-part YEncoder produced returns the original data, the crc, and no warning other than the missing line terminator.", "quantifier": "all data, sizes, and file names without control characters or outer spaces", "why_tests_cant": "The input space is unbounded (any length, any byte values); a test suite samples it, only a proof covers every input.", "anchors": ["index.js:from_post,YEncoder._encodeSingle"]}
{"id": "C44", "title": "post() works", "statement": "post(filename, data) returns a complete single-part article.", "quantifier": "all file names and data", "why_tests_cant": "No test calls post.", "anchors": ["index.js:post"]}
{"id": "C45", "title": "File names cannot inject header lines", "statement": "The header generated for a post contains exactly one line break per header line whatever the file name.", "quantifier": "all file name strings", "why_tests_cant": "All strings.", "anchors": ["index.js:RE_BADCHAR,YEncoder"]}
{"id": "C46", "title": "ISA dispatch only selects supported implementations", "statement": "The encoder/decoder/CRC implementation selected at start-up only uses instruction sets that CPUID/XCR0 report as available and enabled.", "quantifier": "all CPUID and XCR0 register contents", "why_tests_cant": "Tests run on one CPU.", "anchors": ["src/platform.cc:cpu_supports_isa,cpu_supports_crc_isa", "src/encoder.cc:encoder_init", "src/decoder.cc:decoder_init", "src/crc.cc:crc_init"]}
{"id": "C47", "title": "Returned byte counts are exact", "statement": "The counts returned by encodeTo, decodeTo and decodeChunk (read, written) equal the number of bytes actually produced or consumed.", "quantifier": "all buffers a 64-bit Node.js can allocate, including those of 2 GiB and more", "why_tests_cant": "Counts are converted from size_t to a 32-bit JavaScript integer, so they are wrong only for buffers of 2^31 bytes and more, which test suites do not allocate.", "anchors": ["src/yencode.cc:168", "src/yencode.cc:276", "src/yencode.cc:322", "src/yencode.cc:323"]}
{"id": "C48", "title": "Two-bit error detection", "statement": "Two buffers that differ in exactly two bits less than 2^32-1 bit positions apart have different crc32 values; the multiplicative order of x is exactly 2^32-1.", "quantifier": "all pairs of such buffers of any length, all bit positions", "why_tests_cant": "quantifies over buffers of any length and over all 2^32 distances; relies on the exact order of x modulo the polynomial", "anchors": ["src/crc.cc:33-130", "src/crc.h:24-57"]}
{"id": "C49", "title": "SSE decode kernels implement their block contract", "statement": "On any aligned input whose length is a multiple of 32, the SSE2, SSSE3 and AVX versions of do_decode_sse decode exactly what the byte-by-byte automaton decodes (all of it, or up to a block in which an end marker starts), return the escape flag and nextMask of the automaton state reached, read only the input and its lookahead, and write only as many bytes as they consume.", "quantifier": "all block counts and contents, all entry states, in-place or not, three instruction set levels, three modes", "why_tests_cant": "The kernel is a vector program over 32-byte blocks with carried state (escape, pending dot, compare vectors); tests sample few of the 256^32 block contents and the states crossing a block border.", "anchors": ["src/decoder_sse_base.h:do_decode_sse", "src/decoder_sse_base.h:sse2_compact_vect", "src/decoder.cc:decoder_init_lut", "src/decoder_sse2.cc:decoder_sse_init"]}
{"id": "C50", "title": "from_post never throws", "statement": "For every Buffer, from_post returns normally with a post or a DecoderError; property accesses never hit undefined and the native calls it makes are safe.", "quantifier": "all byte sequences, raw or not", "why_tests_cant": "Header lines are attacker-controlled text, including names such as __proto__ and constructor; tests try a handful of malformed posts.", "anchors": ["index.js:from_post", "index.js:decoderParseLines"]}
{"id": "C51", "title": "No warnings means verified", "statement": "If from_post reports no warning, the decoded data has exactly the size given in the =yend line (equal to that of =ybegin when no part number is given), matches pcrc32 if given and crc32 if given without =ypart line, and the reported crc32 is that of the data.", "quantifier": "all byte sequences", "why_tests_cant": "A soundness claim about arbitrary input text.", "anchors": ["index.js:from_post"]}
{"id": "C52", "title": "multi-part posts go through from_post", "statement": "Every nonempty part produced by a multi-part YEncoder, with anything before and behind it, is returned by from_post with the original data, CRC, part number, range and file name, and no warning other than a missing final line break.", "quantifier": "all files, partitions into parts, file names without line break, surrounding text", "why_tests_cant": "Unbounded data, call histories and names.", "anchors": ["index.js:YEncoder.encode", "index.js:from_post"]}
{"id": "C53", "title": "from_post offsets are in range and mean what they say", "statement": "For every Buffer for which from_post returns a post, yencStart, dataStart, dataEnd and yencEnd are ordered and within the Buffer, yencStart is the first line beginning with '=ybegin ', dataEnd is followed by a '=yend ' line, and the data is the decoded text range.", "quantifier": "all byte sequences", "why_tests_cant": "Arbitrary input text.", "anchors": ["index.js:from_post", "index.js:bufferFind", "index.js:bufferFindRev"]}
{"id": "C54", "title": "The best supported implementation is selected", "statement": "On CPUs that are not on the lists of CPUs with slow PSHUFB or PBLENDVB, start-up selects the best implementation that was compiled in and whose instruction sets are usable; on CPUs with slow PSHUFB it selects SSE2. The family and model arithmetic identifies exactly the listed CPUs.", "quantifier": "all CPUID and XCR0 register contents, all sets of compiled implementations", "why_tests_cant": "Tests run on one CPU.", "anchors": ["src/platform.cc:cpu_supports_isa", "src/encoder.cc:encoder_init", "src/decoder.cc:decoder_init"]}
{"id": "C55", "title": "crc32 reads nothing outside its input", "statement": "Computing a CRC-32 never reads memory outside the input buffer, and the result depends on nothing but the bytes of the input and the initial value.", "quantifier": "all buffers, all alignments, all implementations", "why_tests_cant": "Reads past the end do not show in results and rarely fault.", "anchors": ["src/crc_folding.cc:crc_fold", "src/crc_folding_256.cc:crc_fold", "src/crc.cc:do_crc32_incremental_generic"]}
{"id": "C56", "title": "crc32 is right for every length", "statement": "For every length a size_t can hold, every implementation of crc32 returns the CRC-32 of the whole buffer.", "quantifier": "all buffer lengths, all widths of long", "why_tests_cant": "Buffers of several GiB are not tested, and the width of long differs between platforms.", "anchors": ["src/crc_folding.cc:do_crc32_incremental_clmul", "src/crc_folding_256.cc:do_crc32_incremental_clmul", "src/crc_arm.cc:do_crc32_incremental_arm", "src/crc_riscv.cc:do_crc32_incremental_rv_zbc"]}
{"id": "C57", "title": "CRC multiplication has no undefined behaviour", "statement": "Multiplying two CRC-32 values involves no signed overflow, whatever the operands and the implementation.", "quantifier": "all operands, all implementations", "why_tests_cant": "Signed overflow gives the expected result with most compiler settings and breaks only under some optimisations.", "anchors": ["src/crc_arm.cc:crc32_multiply_arm"]}
{"id": "C58", "title": "Vector encoders do not depend on undefined bit scans", "statement": "When a block holds no character to escape, the SSSE3 and AVX encoders take the bit scan of zero, whose result is undefined; nothing they do depends on it.", "quantifier": "all data, lines, columns, memory layouts and all results of the bit scan", "why_tests_cant": "A test sees the one result its compiler and processor happen to give.", "anchors": ["src/encoder_sse_base.h:do_encode_sse", "src/encoder_sse_base.h:BSR32"]}
{"id": "C59", "title": "The vector decoder hands over only at an end marker", "statement": "The vector loop of the incremental decoder is left before the end of its data only at a block in which an end marker (CR LF . CR LF, CR LF . = y or CR LF = y) starts; all data before it is decoded by the vector code.", "quantifier": "all data, states, alignments and x86 kernels", "why_tests_cant": "The scalar code then decodes the rest to the same result, so a false alarm shows in no output, only in speed.", "anchors": ["src/decoder_sse_base.h:do_decode_sse", "src/decoder_avx2_base.h:do_decode_avx2"]}
{"id": "C60", "title": "The module does the same whichever implementations it is put together from", "statement": "Any combination of the selectable encoder, decoder, CRC and CRC shift implementations gives a module whose encode, decode, crc32, crc32_combine, multi-part articles and from_post return the same for every input, wherever buffers lie in memory.", "quantifier": "all combinations of implementations, all inputs, all memory placements", "why_tests_cant": "A test machine selects one combination; there are hundreds across x86, ARM and RISC-V, and the differences depend on lengths and alignment.", "anchors": ["src/yencode.cc:Init", "src/encoder.cc:encoder_init", "src/decoder.cc:decoder_init", "src/crc.cc:crc32_init", "index.js:from_post"]}
{"id": "C61", "title": "The RVV decoder is correct for every vector length", "statement": "On any aligned input whose length is a multiple of the vector width, the RVV decode kernel decodes exactly what the byte-by-byte automaton decodes, whatever the hardware leaves in vector elements an instruction does not have to write, for every vector length the kernel accepts.", "quantifier": "all inputs, entry states, vector lengths and contents of unwritten vector elements", "why_tests_cant": "Available RISC-V boards have vectors of 128 or 256 bits, and an emulator shows only one choice for the elements left open; the faulty path needs longer vectors and invalid escape sequences.", "anchors": ["src/decoder_rvv.cc:do_decode_rvv", "src/decoder_rvv.cc:mask_lshift", "src/decoder_rvv.cc:decoder_rvv_width"]}
{"id": "C62", "title": "The NEON decoders read only their source", "statement": "On any aligned input whose length is a multiple of the block size, the ARMv7 and AArch64 decode kernels decode exactly what the byte-by-byte automaton decodes, and read no byte outside the source buffer, in each of the three modes.", "quantifier": "all inputs, entry states, modes and buffer positions", "why_tests_cant": "A read of up to 12 bytes behind the buffer stays within 16 aligned bytes, so it never faults; a sanitizer sees it only for buffers of particular lengths whose last block has a line break.", "anchors": ["src/decoder_neon64.cc:do_decode_neon", "src/decoder_neon.cc:do_decode_neon", "src/decoder_common.h:_do_decode_simd"]}
{"id": "C63", "title": "The AVX512 code of the 128-bit decoder is correct in every build", "statement": "Where 256-bit vectors are switched off, the 128-bit decode kernel compiled for AVX512 decodes exactly what the byte-by-byte automaton decodes, whatever choices the compiler options make in it (mask comparisons, fast match, VBMI2, POPCNT, LZCNT, Ice Lake tuning).", "quantifier": "all inputs, entry states, modes, buffer positions and combinations of compile-time options", "why_tests_cant": "These variants are built only with YENC_DISABLE_AVX256 on a compiler with AVX512 support and run only on such processors; no test configuration covers each combination of options, and a dot must fall on the start of a 32-byte block.", "anchors": ["src/decoder_sse_base.h:do_decode_sse", "src/decoder_vbmi2.cc:decoder_set_vbmi2_funcs"]}
{"id": "C64", "title": "crcutil, the generic CRC of x86 builds, computes CRC-32", "statement": "The crcutil library as set up by src/crc.cc returns, for any data, alignment and initial value, the standard CRC-32 and the same as the portable code, however its loop is compiled (C++, amd64 assembly, i386 assembly, MMX intrinsics); its constructor ends and yields an object whose tables, powers of x and constants are what their names say.", "quantifier": "all inputs of any length at any address, all initial values, all four forms of the loop", "why_tests_cant": "Which form runs depends on compiler and architecture, most have never been built by the test configuration; the interleaved loop mixes 4 x 8 bytes through 16 tables of 256 entries, so a wrong entry or loop end shows only for particular lengths and data.", "anchors": ["crcutil-1.0/code/generic_crc.h:GenericCrc", "crcutil-1.0/code/gf_util.h:GfUtil", "crcutil-1.0/code/multiword_64_64_gcc_amd64_asm.cc:CrcMultiword", "crcutil-1.0/code/multiword_64_64_gcc_i386_mmx.cc:CrcMultiwordI386Mmx", "crcutil-1.0/code/multiword_64_64_intrinsic_i386_mmx.cc", "src/crc.cc:do_crc32_incremental_generic"]}
{"id": "C65", "title": "crcutil keeps to the C++ standard", "statement": "The crcutil loops read words only through pointers aligned for them and form no pointer outside the input.", "quantifier": "all lengths and addresses of the input", "why_tests_cant": "x86 compilers translate misaligned access as intended today; only a sanitizer or a vectorising compiler would show the difference.", "anchors": ["crcutil-1.0/code/generic_crc.h:CrcMultiwordGeneric", "crcutil-1.0/code/multiword_64_64_gcc_amd64_asm.cc:CrcMultiwordGccAmd64", "crcutil-1.0/code/multiword_64_64_intrinsic_i386_mmx.cc"]}
{"id": "C66", "title": "On ARM and RISC-V only code the CPU can run is selected", "statement": "On every operating system that does not claim features the CPU lacks, start-up on ARM and RISC-V ends, reads no uninitialised variable, and selects encoder, decoder, CRC and multiply implementations all of whose instructions the CPU has; on Linux it selects the best one compiled in.", "quantifier": "all operating systems distinguished by the code, all values they report, all builds", "why_tests_cant": "A test run sees one CPU under one system; a wrong feature bit or a missing entry shows as an illegal instruction or undefined behaviour on some other machine only.", "anchors": ["src/platform.cc:cpu_supports_neon", "src/platform.cc:cpu_supports_rvv", "src/crc.cc:crc32_init", "src/encoder.cc:encoder_init", "src/decoder.cc:decoder_init"]}
{"id": "C67", "title": "The RVV decoder decodes every text an encoder writes, whatever the vector length", "statement": "For every vector length and every content of the vector elements left open, the RVV decoder returns what the portable decoder returns (decode, decodeTo and decodeChunk, raw or not) on every text in which no '=' is followed by '=', CR or LF; an encoder writes no others, so whatever is encoded, with its dots stuffed or not, is decoded again in one piece or in chunks.", "quantifier": "all texts without invalid escape sequences, all entry states, vector lengths and contents of unwritten vector elements", "why_tests_cant": "No test machine has RISC-V vectors of 512 bits or more, texts and chunk borders are unboundedly many, and the elements left open can hold anything.", "anchors": ["src/decoder_rvv.cc:do_decode_rvv", "src/decoder_common.h:do_decode_simd", "src/yencode.cc:decode"]}
{"id": "C68", "title": "The RVV decoder comes to an end and stays within its buffers", "statement": "For every vector length, every content of the vector elements left open and every text, the RVV decoder comes to an end, reads only the source and writes only the destination.", "quantifier": "all texts, buffer addresses, entry states, vector lengths and contents of unwritten vector elements, any number of rounds of the loop over carries", "why_tests_cant": "No test machine has RISC-V vectors of 2048 bits; that a loop does not end for some text cannot be observed, and texts and addresses are unboundedly many.", "anchors": ["src/decoder_rvv.cc:do_decode_rvv", "src/decoder_rvv.cc:mask_lshift", "src/decoder_common.h:do_decode_simd"]}
{"id": "C69", "title": "The native build encodes and decodes as specified", "statement": "In the default build on Linux and macOS (YENC_BUILD_NATIVE), the encoder and decoders that the macros of -march=native select give the specified text and the data of the portable decoder, whatever instruction-set and tuning macros the compiler defines, with or without YENC_DISABLE_AVX256. (Found: false for combinations such as __AVX2__ without __LZCNT__ or __POPCNT__, or AVX512 code tuned for Atom, with 256-bit vectors disabled; true for the combinations of actual processors.)", "quantifier": "all combinations of instruction-set and tuning macros; all data, line lengths, columns and texts", "why_tests_cant": "A test run compiles for one machine; the macros select among dozens of code paths, and the wrong ones appear only on machines (for instance virtual ones that hide a feature) that the tests do not run on.", "anchors": ["src/common.h:259-287", "src/encoder.cc:153-168", "src/decoder.cc:352-375", "src/encoder_sse_base.h:60-720", "src/encoder_avx_base.h:60-570", "src/decoder_sse_base.h:99-690", "binding.gyp:2-50"]}
{"id": "C70", "title": "When encoding in pieces gives the same text", "statement": "For line sizes from 2 on, feeding a message to encodeIncr in pieces, each returned column passed to the next call, gives the text of the whole message if and only if no piece that has bytes behind it ends with a full line; the calls never throw.", "quantifier": "all messages, all ways of cutting them, all line sizes from 2 and start columns, every encoder of the module", "why_tests_cant": "The ways of cutting a message are exponentially many, and the exact condition (both directions) speaks about all of them.", "anchors": ["src/yencode.cc:EncodeIncr", "src/encoder.cc:do_encode_generic", "src/encoder_common.h:do_encode_simd"]}
{"id": "C71", "title": "When minSize is a lower bound", "statement": "minSize(n, line_size) is a lower bound of the length of every encoded message of n bytes if and only if line_size does not divide n.", "quantifier": "all lengths below 2^53, all line sizes, all data of that length, every encoder of the module", "why_tests_cant": "The bound has to hold for all 256^n messages of a length; a test can only find a shorter one by luck.", "anchors": ["index.js:minSize", "src/encoder.cc:do_encode_generic"]}
{"id": "C72", "title": "For which lengths crc32_zeroes is right", "statement": "For lengths below 2^53 and start values other than ffffffff, crc32_zeroes(n, crc) is the CRC of the data followed by n zero bytes if and only if n is below 2^31.", "quantifier": "all lengths below 2^53, all 2^32 - 1 start values, every implementation of the CRC shift", "why_tests_cant": "That every longer length gives a wrong result, for each start value, is a statement about the order of x in the field of the CRC.", "anchors": ["src/yencode.cc:CRC32Zeroes", "src/crc.h:crc32_zeros", "src/crc.h:crc32_unzero"]}
{"id": "C73", "title": "Which file names break the header line", "statement": "For file names without U+0000, the name written to the =ybegin line contains a line break if and only if CR LF occurs within the first 256 units of the file name; nothing else in the article depends on the name.", "quantifier": "all strings (also with unpaired surrogates), sizes, part counts, line sizes and data", "why_tests_cant": "The strings are infinitely many; a name could become a line break by the conversion to UTF-8 or by being cut at 256 units.", "anchors": ["index.js:YEncoder", "index.js:RE_BADCHAR"]}
{"id": "C74", "title": "minSize and maxSize are not affected by rounding", "statement": "minSize and maxSize, computed in JavaScript's binary64 numbers with every operation rounded, equal the integer formulas for every length below 2^50 and every line size below 2^53; in particular Math.floor(a/b) is the integer quotient for all a, b below 2^53.", "quantifier": "all lengths below 2^50 (2^51 for minSize), all line sizes below 2^53; all dividends and divisors below 2^53", "why_tests_cant": "Whether a rounded quotient reaches the next integer depends on the last bit; there are about 2^103 pairs of length and line size.", "anchors": ["index.js:minSize", "index.js:maxSize"]}
{"id": "C75", "title": "maxSize with an escape ratio", "statement": "If at most the share esc_ratio of the characters of a message is escaped, the encoded message is no longer than maxSize(length, line_size, esc_ratio), computed with rounding, with 62 bytes to spare. Ratios from 0 to 1 are accepted, others rejected up to rounding.", "quantifier": "all messages below 2^50 bytes, line sizes, start columns, ratios (any rational number), every encoder of the module", "why_tests_cant": "The share of escaped characters depends on the data and on where lines break; a test does not meet the messages that just reach the ratio, nor the ratios for which rounding goes down.", "anchors": ["index.js:maxSize", "src/encoder.cc:do_encode_generic"]}
{"id": "C76", "title": "Room for vector stores in the output buffer", "statement": "Whether a build leaves 64 bytes for vector stores beyond the longest text (the default) or 32 (YENC_DISABLE_AVX256), encode(), encodeIncr() and encodeTo() with the smallest buffer it accepts write nothing outside the output buffer and return the specified text.", "quantifier": "both values of YENC_DISABLE_AVX256, every encoder of the module, all inputs, line sizes and columns", "why_tests_cant": "A store beyond the buffer shows only where nearly all characters are escaped at the end of the data, and heap allocators round sizes up; tests are run on one build.", "anchors": ["src/yencode.cc:YENC_MAX_SIZE", "src/encoder_sse_base.h", "src/encoder_avx_base.h"]}
{"id": "C77", "title": "Arguments of any type", "statement": "Whatever values are passed to the native functions, a call throws or returns: no argument leads to undefined behaviour.", "quantifier": "all lists of JavaScript values, all native functions, Node.js before and from 8", "why_tests_cant": "Reading a value of the wrong type as a number gives some number, mostly without a crash; a test sees a plausible result.", "anchors": ["src/yencode.cc:ARG_TO_INT", "src/yencode.cc:Encode", "src/yencode.cc:EncodeTo", "src/yencode.cc:CRC32Combine", "src/yencode.cc:CRC32Zeroes"]}
{"id": "C78", "title": "Documented defaults may be passed", "statement": "Passing the default value that the README gives for an optional argument has the same effect as leaving the argument out.", "quantifier": "all functions with optional arguments, all other arguments", "why_tests_cant": "It is a statement about all other arguments; the existing tests omit optional arguments.", "anchors": ["README.md", "src/yencode.cc:CRC32", "src/yencode.cc:CRC32Zeroes", "src/yencode.cc:CRC32Shift", "src/yencode.cc:Decode"]}
{"id": "C79", "title": "stripDots is a truth value", "statement": "decode treats every value of stripDots as JavaScript treats it in a condition.", "quantifier": "all JavaScript values, all data, Node.js before and from 8", "why_tests_cant": "Tests pass true and false.", "anchors": ["src/yencode.cc:ARG_TO_BOOL", "src/yencode.cc:Decode", "src/yencode.cc:DecodeTo"]}
{"id": "C80", "title": "A returned Buffer owns exactly the memory allocated for it", "statement": "After encode, encodeIncr, decode or decodeIncr exactly one block more is allocated than before: that of the returned Buffer, of the Buffer's length, with the encoded or decoded text in it.  No other allocated memory is changed.  The finaliser gives the block back; finalisers can run in any order, and none frees what is not allocated.  Calls that throw, have a destination or an empty source leave nothing allocated.", "quantifier": "all data, arguments, implementations, heaps, allocators that do not run out of memory, orders of calls and finalisers", "why_tests_cant": "Leaks and double frees do not show in results, and depend on the allocator: where realloc puts the block, and what it does when asked for 0 bytes.", "anchors": ["src/yencode.cc:free_buffer", "src/yencode.cc:Encode", "src/yencode.cc:EncodeIncr", "src/yencode.cc:Decode", "src/yencode.cc:DecodeIncr"]}
{"id": "C81", "title": "Running out of memory is reported", "statement": "If malloc or realloc fails, the native functions have no undefined behaviour and return no Buffer without data.", "quantifier": "all data, arguments, implementations and allocators", "why_tests_cant": "Tests do not run out of memory.", "anchors": ["src/yencode.cc:Encode", "src/yencode.cc:EncodeIncr", "src/yencode.cc:Decode", "src/yencode.cc:DecodeIncr"]}
{"id": "C82", "title": "How far into the destination is written, and from what", "statement": "encodeTo and encodeIncr change at most 32 bytes of the destination behind the encoded text, and decodeTo and decodeIncr at most as many bytes of it as the source has; nothing else changes.  The result and all bytes of the destination afterwards, also those behind the text, depend on nothing but the source and the destination before: nothing from other memory gets there.", "quantifier": "all data, arguments, positions of the buffers, contents of memory, implementations", "why_tests_cant": "Tests compare the text, not the bytes behind it; whether a vector store leaks or overwrites bytes there depends on the CPU and the position of the last characters in a vector.", "anchors": ["src/yencode.cc:EncodeTo", "src/yencode.cc:EncodeIncr", "src/yencode.cc:DecodeTo", "src/yencode.cc:DecodeIncr", "src/encoder_common.h:do_encode_simd", "src/decoder_common.h:_do_decode_simd"]}
{"id": "C83", "title": "The encoded text does not depend on the byte order of the host", "statement": "On little-endian and on big-endian hosts the portable encoder writes the same text: the packing macros lay out the line break and the character behind it in the same order in memory.", "quantifier": "all data, line lengths, columns, both byte orders", "why_tests_cant": "The tests run on little-endian machines; on others the result depends on which character comes first on a line.", "anchors": ["src/common.h:UINT16_PACK", "src/common.h:UINT32_PACK", "src/common.h:UINT32_16_PACK", "src/encoder.cc:do_encode_generic", "src/encoder.cc:escapedLUT"]}
{"id": "C84", "title": "The portable CRC does not depend on the byte order of the host", "statement": "On little-endian and on big-endian hosts crc32 as built without crcutil and SIMD returns the CRC-32 of the data, from 0 or continuing from a given value.", "quantifier": "all data, placements in memory, initial values, both byte orders", "why_tests_cant": "The tests run on little-endian machines.", "anchors": ["src/crc.cc:bswap32", "src/crc.cc:do_crc32_incremental_generic"]}
{"id": "C85", "title": "SIMD decoders find sequences that straddle the start of a chunk on either byte order", "statement": "On little-endian and on big-endian hosts the switch in front of the SIMD kernels recognises the same dot-stuffed lines, article ends and control lines that began in the previous chunk.", "quantifier": "all kernels, modes, states, source texts and placements, both byte orders", "why_tests_cant": "The tests run on little-endian machines; the difference needs a control line split right behind its CR.", "anchors": ["src/decoder_common.h:_do_decode_simd", "src/common.h:UINT16_PACK", "src/common.h:UINT32_PACK"]}
{"id": "C86", "title": "The ARM CRC code does not depend on the byte order of the target", "statement": "On little-endian and on big-endian ARM targets crc32 with the CRC32 instructions returns the same value for the same data: words loaded are brought to little-endian order for the instructions.", "quantifier": "all data, lengths, placements, initial values, AArch32 and AArch64", "why_tests_cant": "No big-endian ARM machine is tested on; each of the loads of 2, 4 and 8 bytes is only taken for some alignments and lengths.", "anchors": ["src/crc_arm.cc:_LE16", "src/crc_arm.cc:_LE32", "src/crc_arm.cc:_LE64", "src/crc_arm.cc:arm_crc_calc"]}
{"id": "C87", "title": "The RISC-V CRC code does not depend on the byte order of the target", "statement": "On little-endian and on big-endian RISC-V targets crc32 with Zbc returns the same value for the same data, including partial words at both ends.", "quantifier": "all data, lengths, placements, initial values, RV32 and RV64", "why_tests_cant": "The source says 'TODO: test big-endian': there is no such machine to test on.", "anchors": ["src/crc_riscv.cc:SWAP", "src/crc_riscv.cc:read_partial", "src/crc_riscv.cc:read_full", "src/crc_riscv.cc:rv_crc_calc"]}
