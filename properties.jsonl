{"id": "C01", "title": "HTTP/2 integers survive the wire", "statement": "Writing an integer with the http2 codec behind any flag byte whose low prefix bits are clear, followed by any other bytes, and reading it back with the same prefix width returns that integer and leaves the reader exactly at the first following byte.", "quantifier": "every natural number, every prefix width 0..8 that the codec uses, every flag byte, every suffix of bytes", "why_tests_cant": "The integer range is unbounded and the multi-byte branch depends on the magnitude; tests sample a few values.", "anchors": ["compressor/http2/http2Codec.py:HTTP2Codec.write_integer", "compressor/http2/http2Codec.py:HTTP2Codec.read_integer", "compressor/http2/http2Codec.py:MAX_VALUES"]}
{"id": "C02", "title": "HTTP/2 codec: every message of a session decodes to the headers that were sent", "statement": "When one codec object encodes a sequence of duplicate-free header lists and a fresh peer decodes the resulting frames in order, then every frame the encoder returns is accepted by the decoder and the decoded header list is a permutation of the list that was encoded; nothing is lost, invented or delivered twice, whatever evictions happen in between.", "quantifier": "every buffer size, every finite history of duplicate-free header lists for which the encoder returns", "why_tests_cant": "The property depends on the unbounded history (table contents, reference set, evictions); bugs show only for particular eviction interleavings.", "anchors": ["compressor/http2/http2Codec.py:HTTP2Codec.encode_headers", "compressor/http2/http2Codec.py:HTTP2Codec.decode_headers"]}
{"id": "C03", "title": "HTTP/2 codec: both ends hold the same table after every message", "statement": "After any number of messages the sender's encoding table and the receiver's decoding table list the same headers in the same order, mark the same ones as referenced and account for the same number of octets.", "quantifier": "every buffer size, every finite history of header lists for which the encoder returns", "why_tests_cant": "A divergence introduced at message k is observable only much later; no finite test suite explores all histories.", "anchors": ["compressor/http2/http2Codec.py:HTTP2Codec.append_encoded_header", "compressor/http2/http2Codec.py:HTTP2Codec.append_decoded_header", "compressor/http2/http2Codec.py:HTTP2Codec.compute_diff"]}
{"id": "C04", "title": "HTTP/2 codec: compressing a header list terminates", "statement": "Encoding a header list always returns (with a frame or an exception). (Expected to be false: a referenced ':path' that is evicted while the same message is being encoded can never re-enter the table, so the final re-encoding loop runs for ever. The conditional version - it terminates whenever the default table fits the buffer and no already-referenced ':path' header is re-sent - should hold.)", "quantifier": "every reachable codec state and every header list", "why_tests_cant": "Termination is a statement about all inputs; a test cannot observe non-termination, and the triggering state needs a specific amount of eviction.", "anchors": ["compressor/http2/http2Codec.py:HTTP2Codec.encode_headers"]}
{"id": "C05", "title": "HTTP/2 decoder memory stays within the negotiated buffer on hostile input", "statement": "Whatever bytes a peer sends, in whatever sequence of frames, the decoder's table never accounts for more octets than the configured buffer (starting from a table that fits), and the accounted size always equals the sum over the entries actually held, also after a frame that makes the decoder raise.", "quantifier": "every finite sequence of arbitrary byte strings, requests or responses, every buffer size at least as large as the default table", "why_tests_cant": "Adversarial inputs are unbounded; eviction/substitution index corner cases are many.", "anchors": ["compressor/http2/http2Codec.py:HTTP2Codec.append_decoded_header", "compressor/http2/http2Codec.py:HTTP2Codec.insert_decoded_header", "compressor/http2/http2Codec.py:HTTP2Codec.decode_headers"]}
{"id": "C06", "title": "HTTP/2 codec keeps repeated headers", "statement": "If the same (name, value) pair occurs several times in a header list handed to the codec, the peer decodes it as many times. (Expected to be false for a pair that is already in the reference set; the set of distinct headers should still be preserved for every list.)", "quantifier": "every finite history of arbitrary header lists, with repetitions", "why_tests_cant": "Depends on history: repetition is preserved for new headers but not for referenced ones.", "anchors": ["compressor/http2/http2Codec.py:HTTP2Codec.compute_diff", "compressor/http2/http2Codec.py:HTTP2Codec.encode_header"]}
{"id": "C07", "title": "HTTP/2 frames are well formed", "statement": "A frame returned by the encoder consists of octets only, its first two octets are the big-endian number of octets after the 8-octet header; the encoder returns a frame exactly when that number is below 65536 and otherwise raises.", "quantifier": "every reachable codec state, every header list of byte strings", "why_tests_cant": "Unbounded message sizes; the boundary depends on the compressed size, hence on history.", "anchors": ["compressor/http2/http2Codec.py:HTTP2Codec.encode_headers"]}
{"id": "C08", "title": "http2 processor satisfies the harness' own round-trip check", "statement": "For every sequence of header dictionaries, decompressing what the http2 processor compressed gives a dictionary for which the harness' compare_headers reports no difference, provided values carry no white space other than blanks at the ends of their pieces. (Without that proviso it is expected to fail: the processor strips tabs, the comparison only blanks.)", "quantifier": "every history of header dictionaries, every iteration order of sets/dicts", "why_tests_cant": "Combines the codec's history-dependence with the splitting/joining conventions of values.", "anchors": ["compressor/http2/__init__.py:Processor.compress", "compressor/http2/__init__.py:Processor.decompress", "lib/processors.py:Processors.compare_headers"]}
{"id": "C09", "title": "headerdiff integers survive the wire", "statement": "Writing an integer with the headerdiff codec with any prefix width of at most 8 bits and reading it back returns the integer and the position right after it; with the 14-bit prefix the same holds for integers below 16383, and larger ones make the writer raise rather than emit a wrong value.", "quantifier": "every natural number, every prefix width in the codec's table, every flag byte, every suffix", "why_tests_cant": "Unbounded integer range, several branches.", "anchors": ["compressor/headerdiff/headerDiffCodec.py:HeaderDiffCodec.writeInteger", "compressor/headerdiff/headerDiffCodec.py:HeaderDiffCodec.readInteger"]}
{"id": "C10", "title": "headerdiff: every message of a session decodes to exactly the same ordered header list", "statement": "For any sequence of header lists in which no two different headers have the same name+value concatenation, each list the encoder turns into a frame is decoded by a peer that saw the earlier frames to exactly that list: same order, same repetitions.", "quantifier": "every buffer size, every delta mode (maximal, bounded with any block list, full-only), every dictionary iteration order, every finite history", "why_tests_cant": "History-dependent tables with LRU substitution and delta references; iteration order of a hash table influences the choice of the reference.", "anchors": ["compressor/headerdiff/headerDiffCodec.py:HeaderDiffCodec.encodeHeaders", "compressor/headerdiff/headerDiffCodec.py:HeaderDiffCodec.decodeHeaders", "compressor/headerdiff/headerDiffCodec.py:HeaderDiffCodec.determineRepresentation"]}
{"id": "C11", "title": "headerdiff distinguishes any two different headers", "statement": "A header is never decoded as a different header, for all header names and values. (Expected to be false: the encoder looks entries up by the concatenation name+value, so ('x','yz') and ('xy','z') are confused. What should hold unconditionally is that the decoded name+value concatenation equals the sent one at every position.)", "quantifier": "every finite history of header lists, no hypothesis on names or values", "why_tests_cant": "Needs two colliding headers in one history; sample corpora do not contain them.", "anchors": ["compressor/headerdiff/headerDiffCodec.py:HeaderDiffCodec.encodeHeaders"]}
{"id": "C12", "title": "headerdiff decoder table stays within the configured size", "statement": "On frames produced by a peer encoder with the same buffer size the decoder never raises 'table size exceeded'; both ends agree on every table index; and whatever bytes arrive, the accounted size equals the sum over held entries. (That it is also at most the maximum after every accepted frame of arbitrary bytes is false: the check precedes each header, so the last one may exceed it; twice the maximum plus the frame length is a bound.)", "quantifier": "every history of header lists; every sequence of arbitrary byte strings", "why_tests_cant": "Depends on an unbounded history of substitutions and of hostile input.", "anchors": ["compressor/headerdiff/headerDiffCodec.py:HeaderDiffCodec.decodeHeaders", "compressor/headerdiff/headerDiffCodec.py:HeaderDiffCodec.encodeHeaders"]}
{"id": "C13", "title": "headerdiff Huffman strings decode exactly and report how many octets they used", "statement": "For every symbol statistics table with at least two symbols that includes the end marker, encoding a string of known symbols and decoding the octets followed by arbitrary further octets returns the string and exactly the number of octets the encoding occupies.", "quantifier": "every statistics table, every string over its symbols, every trailing octets", "why_tests_cant": "Unbounded strings, all possible trees; padding and end-marker alignment vary with bit length modulo 8.", "anchors": ["compressor/headerdiff/Huffman.py:HuffmanCodec.encode", "compressor/headerdiff/Huffman.py:HuffmanCodec.decode", "compressor/headerdiff/Huffman.py:create_tree"]}
{"id": "C14", "title": "Huffman codes are prefix-free and of minimal total cost", "statement": "The code words assigned by the headerdiff Huffman table are prefix-free, and no other binary prefix code for the same symbols has a smaller total weighted length for the (normalised) statistics the table was built from.", "quantifier": "every statistics table with at least two symbols; every competing binary tree on the same symbols", "why_tests_cant": "Optimality quantifies over all competing codes.", "anchors": ["compressor/headerdiff/Huffman.py:create_tree", "compressor/headerdiff/Huffman.py:HuffmanCodec"]}
{"id": "C15", "title": "headerdiff deflate mode feeds the inflater what the deflater produced", "statement": "In deflate mode the octets passed to the inflater are the octets produced by the deflater. (Expected to be false: the decoder passes the 8-octet frame header along.)", "quantifier": "every message, every deflate implementation", "why_tests_cant": "zlib is external; the fault is visible as a relation between the two call sites for any zlib.", "anchors": ["compressor/headerdiff/headerDiffCodec.py:HeaderDiffCodec.decodeHeaders", "compressor/headerdiff/headerDiffCodec.py:HeaderDiffCodec.encodeHeaders"]}
{"id": "C16", "title": "Bit buckets are lossless first-in first-out bit queues", "statement": "Any sequence of stores of bit strings of any lengths, interleaved with pads to octet boundaries, followed by reads of the same widths (skipping the pads) returns exactly the stored bits in order; the consistency check inside the store never raises.", "quantifier": "every sequence of operations, every bit length, every initial alignment", "why_tests_cant": "Eight alignments times arbitrary lengths times arbitrary contents and histories.", "anchors": ["compressor/delta2/bit_bucket.py:BitBucket.StoreBits", "compressor/delta2/bit_bucket.py:BitBucket.GetBits", "compressor/delta2/bit_bucket.py:BitBucket.PadToByteBoundary"]}
{"id": "C17", "title": "bohe's fixed-width stores write the number of bits their name says", "statement": "Storing a value of n bits with the n-bit store of bohe's bit bucket and reading n bits back returns the value (n = 4, 8, 16, 32, 22). (Expected to be false for 22: 30 bits are written and the two least significant bits of the value are lost.)", "quantifier": "every value of the given width, every initial alignment", "why_tests_cant": "2^22 values times 8 alignments; no test reads the result back.", "anchors": ["compressor/bohe/bit_bucket.py:BitBucket.StoreBits22"]}
{"id": "C18", "title": "delta2 variable-length integers survive the wire", "statement": "Packing any non-negative integer in the nibble-based variable-length form at any bit alignment, followed by any bits, and unpacking returns the integer and leaves the reader at the following bit.", "quantifier": "every natural number, every alignment, every following bits", "why_tests_cant": "Unbounded range and alignments.", "anchors": ["compressor/delta2/spdy4_codec_impl.py:PackVarInt", "compressor/delta2/spdy4_codec_impl.py:UnpackVarInt"]}
{"id": "C19", "title": "delta2 canonical Huffman coding is lossless for every frequency table", "statement": "For every frequency table from which the coder can be built and which contains the end marker, the canonical code words are prefix-free, and encoding any string of octets with the end marker, storing it into a bit bucket at any alignment followed by any further bits, and decoding returns the string and stops right after the end marker. The coder can be built from the two tables shipped with the program.", "quantifier": "every frequency table, every string, every alignment, every following bits, every iteration order of the dictionary of code lengths", "why_tests_cant": "All tables and strings; canonical re-numbering correctness is a statement about all code-length multisets.", "anchors": ["compressor/delta2/huffman.py:Huffman.Encode", "compressor/delta2/huffman.py:Huffman.DecodeFromBB", "compressor/delta2/huffman.py:Huffman.BuildCodeTable"]}
{"id": "C20", "title": "delta2 Huffman table construction always succeeds", "statement": "Building the coder from a frequency table always returns a coder. (Expected to be false: the loop that halves the weights until all codes have at most 32 bits never changes the tree, because scaling all weights leaves their order unchanged; it ends with an overflow error.)", "quantifier": "every frequency table", "why_tests_cant": "Needs a table with a code longer than 32 bits (Fibonacci-like); non-termination is not observable by test.", "anchors": ["compressor/delta2/huffman.py:Huffman.BuildCodeTree", "compressor/delta2/huffman.py:Huffman.BuildCodeLengths"]}
{"id": "C21", "title": "delta2 instruction streams survive the wire", "statement": "Serialising any instruction set (toggles, ranges, clones, key-value stores, any counts) whose payload is at most 65527 octets and deserialising it returns the same instructions per kind in the same order and the group id.", "quantifier": "every instruction set, every count per kind (also more than 16 per chunk), every string content, every index", "why_tests_cant": "Unbounded counts, chunking at 16, alignments.", "anchors": ["compressor/delta2/spdy4_codec_impl.py:Spdy4SeDer.SerializeInstructions", "compressor/delta2/spdy4_codec_impl.py:Spdy4SeDer.DeserializeInstructions", "compressor/delta2/spdy4_codec_impl.py:Spdy4SeDer.OutputOps"]}
{"id": "C22", "title": "delta2 fragments large messages correctly", "statement": "Messages whose payload exceeds one frame are split over several frames and decode to the same instructions. (Expected to be false: the first frame is always flagged final, so instructions beyond 65527 payload octets are lost.)", "quantifier": "every instruction set with a payload larger than one frame", "why_tests_cant": "Requires over 64 kB of compressed headers; no sample does.", "anchors": ["compressor/delta2/spdy4_codec_impl.py:Spdy4SeDer.SerializeInstructions", "compressor/delta2/spdy4_codec_impl.py:Spdy4SeDer.DeserializeInstructions"]}
{"id": "C23", "title": "delta2 table indices are unambiguous", "statement": "At every moment all live dynamic-table entries have different sequence numbers, looking a sequence number up returns the entry that got it, and translating between sequence numbers and from-the-end indices is a bijection, also after the numbering has wrapped around.", "quantifier": "every sequence of reserves, stores and pops, every capacity not larger than the number space", "why_tests_cant": "Wrap-around happens only after hundreds or tens of thousands of stores at specific fill levels.", "anchors": ["compressor/delta2/lrustorage.py:LruStorage", "compressor/delta2/spdy4_codec_impl.py:Storage.LruIdxToHgIdx", "compressor/delta2/spdy4_codec_impl.py:Storage.HgIdxToLruIdx"]}
{"id": "C24", "title": "delta2: every message of a session decodes to the headers that were sent", "statement": "For every sequence of header dictionaries sent through one compressor (with any assignment of group ids) whose serialised instructions fit one frame, the peer decompressor reconstructs for each message the same set of (name, value piece) pairs, and both ends hold the same table and header groups afterwards.", "quantifier": "every table limits, every option combination, every history, every set/dict iteration order", "why_tests_cant": "State machine with unbounded history, evictions during execution, sequence-number wrap.", "anchors": ["compressor/delta2/spdy4_codec_impl.py:Spdy4CoDe.MakeOperations", "compressor/delta2/spdy4_codec_impl.py:Spdy4CoDe.DecompressorExecuteOps", "compressor/delta2/spdy4_codec_impl.py:Spdy4CoDe.Compress", "compressor/delta2/spdy4_codec_impl.py:Spdy4CoDe.Decompress"]}
{"id": "C25", "title": "delta2 honours its memory limits", "statement": "The dynamic table never holds more entries than max_entries and never more than max_byte_size octets of keys and values (README). (Expected to be false for octets: key octets are never counted; the entry bound and a bound on value octets should hold.)", "quantifier": "every history of messages, every limit setting", "why_tests_cant": "Needs long keys and long histories.", "anchors": ["compressor/delta2/lrustorage.py:LruStorage.Reserve", "compressor/delta2/lrustorage.py:KV.ByteSize", "compressor/delta2/README.md"]}
{"id": "C26", "title": "delta2 toggle ranges cover exactly the toggled indices", "statement": "Replacing a list of distinct toggles by ranges plus single toggles and expanding the ranges again yields exactly the same set of indices, each once.", "quantifier": "every duplicate-free list of indices, in any order", "why_tests_cant": "All subsets of indices.", "anchors": ["compressor/delta2/spdy4_codec_impl.py:Spdy4CoDe.MutateTogglesToTrangs"]}
{"id": "C27", "title": "ID stores hand out identifiers that are not in use", "statement": "An identifier returned by the store is different from every identifier handed out earlier and not given back. (Expected to be false after the counter wraps; should hold for the first max_idx requests.)", "quantifier": "every sequence of request/return operations", "why_tests_cant": "Only shows after the counter wraps.", "anchors": ["compressor/delta2/common_utils.py:IDStore"]}
{"id": "C28", "title": "delta2 processor satisfies the harness' own round-trip check", "statement": "For header dictionaries whose cookie value contains no NUL, the decompressed dictionary compares equal under the harness' compare_headers. (With a NUL in the cookie value - which the HAR reader produces for repeated cookie headers - it is expected to fail.)", "quantifier": "every header dictionary, every order", "why_tests_cant": "Interaction of three splitting conventions over all strings.", "anchors": ["compressor/delta2/spdy4_codec_impl.py:Spdy4CoDe.MakeOperations", "compressor/delta2/spdy4_codec_impl.py:Spdy4CoDe.GenerateAllHeaders", "lib/processors.py:Processors.compare_headers", "lib/harfile.py:process_headers"]}
{"id": "C29", "title": "simple codec's seven-bit packing is lossless", "statement": "Packing a 7-bit text and unpacking it returns the text. (Expected to be false exactly for non-empty texts whose length is a multiple of eight, which lose their last character.)", "quantifier": "every text of 7-bit characters, every length", "why_tests_cant": "All lengths; the fault shows only in one residue class.", "anchors": ["compressor/simple/seven.py:encode", "compressor/simple/seven.py:decode"]}
{"id": "C30", "title": "simple codec session round trip", "statement": "For every sequence of header dictionaries with lower-case names free of separators and trimmed single-line values, the receiver reconstructs every header although headers equal to those of the previous message are sent by reference only.", "quantifier": "every history of well-formed header dictionaries, every dict iteration order", "why_tests_cant": "Back-references depend on the previous message on both sides; history is unbounded.", "anchors": ["compressor/simple/__init__.py:Processor.compress", "compressor/simple/__init__.py:Processor.decompress"]}
{"id": "C31", "title": "HTTP/1 text form parses back to the same headers", "statement": "Formatting a well-formed request or response header dictionary as HTTP/1 text and parsing the text gives the same headers (plus the protocol version), for any header order.", "quantifier": "every well-formed header dictionary", "why_tests_cant": "All strings; separators, white space and multi-valued headers interact.", "anchors": ["compressor/__init__.py:format_http1", "compressor/__init__.py:parse_http1"]}
{"id": "C32", "title": "SPDY/3 header blocks determine the headers", "statement": "Two different ordered header lists never produce the same SPDY/3 name/value block; the block is the first 12 octets in clear followed by the compressed rest.", "quantifier": "every pair of header lists of ASCII strings shorter than 2^32", "why_tests_cant": "Injectivity quantifies over pairs of arbitrary inputs.", "anchors": ["compressor/spdy3/__init__.py:Processor.Spdy3HeadersFormat", "compressor/spdy3/__init__.py:Processor.compress"]}
{"id": "C33", "title": "The harness reports a difference exactly when headers differ", "statement": "compare_headers returns the empty string if and only if the two messages carry the same (name, piece) pairs after normalisation (names in the ignore list removed, cookies split at ';', others at NUL, blanks trimmed); hence it is reflexive, symmetric in its verdict and insensitive to header and piece order.", "quantifier": "every pair of header dictionaries", "why_tests_cant": "All pairs of inputs; soundness of the checker underlies every other result the tool prints.", "anchors": ["lib/processors.py:Processors.compare_headers", "lib/processors.py:compare_headers_impl"]}
{"id": "C34", "title": "Header filtering removes exactly the hop-by-hop and status-text headers", "statement": "The filtered message contains precisely those headers of the input whose name is neither in the fixed list nor named in the message's own connection header, with unchanged values and order; filtering twice equals filtering once.", "quantifier": "every header dictionary", "why_tests_cant": "All dictionaries, including ones whose connection header lists arbitrary names.", "anchors": ["lib/processors.py:Processors.filter_headers"]}
{"id": "C35", "title": "Processor results of one session do not depend on other sessions", "statement": "For every session the sizes and ratios recorded for each configured processor are what a freshly constructed processor produces on that session's messages in order, one record per message; the baseline's ratio is 1.", "quantifier": "every list of sessions, every (deterministic) processors", "why_tests_cant": "Quantifies over all processors and all session lists.", "anchors": ["lib/processors.py:Processors.process_session", "lib/processors.py:Processors.process_message"]}
{"id": "C36", "title": "Baselines may carry parameters", "statement": "A baseline given with parameters (for example -b delta2=...) that is in the processor list is usable. (Expected to be false: results are stored under the display name, looked up under the raw option string.)", "quantifier": "every processor specification with a parameter", "why_tests_cant": "Configuration space.", "anchors": ["lib/processors.py:Processors.process_message", "lib/processors.py:Processors.get_processors"]}
{"id": "C37", "title": "Streamifiers partition the traffic", "statement": "Every request and every response ends up in exactly one stream of its direction, in its original relative order, requests and responses of a host are in streams with the same name; message k of the request stream belongs to the same exchange as message k of the response stream.", "quantifier": "every list of exchanges, every host names, every public-suffix function", "why_tests_cant": "All traffic lists.", "anchors": ["lib/streamifiers/host.py:Streamifier", "lib/streamifiers/all_one.py", "lib/streamifiers/public_suffix.py"]}
{"id": "C38", "title": "The TOTAL of a direction is the sum of its sessions and leaves the sessions intact", "statement": "Adding up the streams of a direction gives, per processor, the concatenation of sizes and ratios of the sessions in order; the sessions' own names and messages are unchanged afterwards. (The second half is expected to be false: with a single session the session itself is renamed TOTAL, and with several the first session's message list grows.)", "quantifier": "every non-empty list of streams", "why_tests_cant": "Aliasing effects depend on the number of sessions.", "anchors": ["lib/stream.py:Stream.__add__", "lib/stream.py:merge_dols", "compare_compressors.py:CompressionTester.run"]}
{"id": "C39", "title": "HAR header lists are converted without losing values", "statement": "The dictionary built from a HAR header list has, for every lower-cased name, the values of all headers of that name in order joined by NUL (host stored as :host), and nothing else.", "quantifier": "every header list", "why_tests_cant": "All lists including repeated and differently-cased names.", "anchors": ["lib/harfile.py:process_headers"]}
{"id": "C40", "title": "A request's Host header is used as its :host", "statement": "If a HAR request carries a Host header, the :host of the converted request is that header's value; the URL is used only if the header is absent. (Expected to be false: the presence test inspects the wrong object and the URL always wins.)", "quantifier": "every HAR request", "why_tests_cant": "Only visible when Host and URL differ.", "anchors": ["lib/harfile.py:har2hdrs"]}
{"id": "C41", "title": "bohe variable-length integers are uniquely decodable", "statement": "The octets bohe emits for an unsigned integer determine the integer and their own end: no encoding is a prefix of another followed by anything that decodes differently.", "quantifier": "every pair of natural numbers, every following octets", "why_tests_cant": "Unbounded pairs.", "anchors": ["compressor/bohe/bohe.py:enc_uvarint"]}
{"id": "C42", "title": "delta (v1) instruction counts are framed correctly", "statement": "Serialising any number of instructions of one kind and deserialising gives them back. (Expected to be false above 256 of a kind: all are written after a count that is capped.)", "quantifier": "every instruction count", "why_tests_cant": "Needs more than 256 new headers in one message.", "anchors": ["compressor/delta/spdy4_codec_impl.py:Spdy4SeDer.OutputOps"]}
{"id": "C43", "title": "delta2_bohe finds every stored key-value pair", "statement": "Searching the dynamic table for a key-value pair that is stored returns an entry with that pair. (Expected to be false: the oldest entry is never examined and the inner loop compares the wrong entry.)", "quantifier": "every table content", "why_tests_cant": "Efficiency-only fault: output stays correct, so round-trip tests cannot see it.", "anchors": ["compressor/delta2_bohe/lrustorage.py:LruStorage.FindKeyValEntries"]}
{"id": "C44", "title": "Requests and responses of a HAR file stay paired", "statement": "Converting a HAR file gives as many requests as responses; the k-th request and the k-th response come from the same entry; entries are left out exactly when their URL scheme is neither http nor https.", "quantifier": "every list of HAR entries, every URL splitter", "why_tests_cant": "All HAR files, including ones with data: or chrome: entries in any position.", "anchors": ["lib/harfile.py:har2hdrs"]}
{"id": "C45", "title": "The :host taken from a URL is its authority part", "statement": "For every URL scheme://authority/rest the :host is the authority. (Expected to be false for URLs with nothing after the authority: the whole URL is taken.)", "quantifier": "every scheme, authority and rest", "why_tests_cant": "All URLs; browsers always add the slash, other HAR writers do not.", "anchors": ["lib/harfile.py:har2hdrs"]}
{"id": "C46", "title": "The simple compressor's date option keeps date headers", "statement": "With the date option the decompressor returns the date headers (date, expires, last-modified, ...) as they were sent. (Expected to be false: a value that is no HTTP date, such as expires: 0, is changed.)", "quantifier": "every message with a date header", "why_tests_cant": "The values servers send in date headers are arbitrary text; only some of them are dates.", "anchors": ["compressor/simple/__init__.py:Processor.compress", "compressor/simple/__init__.py:Processor.decompress"]}
{"id": "C47", "title": "headerdiff processor satisfies the harness' own round-trip check", "statement": "For every sequence of header dictionaries, decompressing what the headerdiff processor compressed gives a dictionary for which the harness' compare_headers reports no difference, provided values carry no white space other than blanks at the ends of their pieces and no two different (name, piece) pairs of the session have the same concatenation. (Without the last proviso it fails.)", "quantifier": "every history of header dictionaries, every buffer size, every delta mode, every iteration order of sets/dicts", "why_tests_cant": "Combines the codec's history-dependence with the splitting/joining conventions of values.", "anchors": ["compressor/headerdiff/__init__.py:Processor.compress", "compressor/headerdiff/__init__.py:Processor.decompress", "lib/processors.py:Processors.compare_headers"]}
{"id": "C48", "title": "delta2 Huffman construction does not depend on dictionary order", "statement": "Building the coder from a frequency table over the symbols 0..n-1 with codes of at most 32 bits succeeds whatever the order in which the dictionary of code lengths is iterated. (Expected to be false: the canonical numbering shifts by a negative amount when a longer length comes before a shorter one, which CPython 2.7 does for lengths 7 and 8; it succeeds exactly when the lengths come in ascending order.)", "quantifier": "every frequency table, every iteration order", "why_tests_cant": "The two shipped tables happen to iterate in ascending order; the failure depends on the set of code lengths.", "anchors": ["compressor/delta2/huffman.py:Huffman.BuildCanonicalCodeTable"]}
{"id": "C49", "title": "A converted HAR entry carries the entry's own data", "statement": "The request made from a HAR entry has as :method, :scheme, :path, :version and :host the lower-cased method, the lower-cased URL scheme, the URL's path followed by '?' and the query if there is one, the HTTP version and the host taken from the URL; every other field is exactly what the entry's header lines give. The response has the status digits, the HTTP version and the trimmed status text if that is not empty; every other field is what its header lines give.", "quantifier": "every HAR entry, every URL splitter, every field name", "why_tests_cant": "All entries and all field names, including header lines that spell the pseudo-header names themselves.", "anchors": ["lib/harfile.py:har2hdrs"]}
{"id": "C50", "title": "delta (v1) Huffman coder is lossless and optimal", "statement": "A coder can be built from a frequency table exactly when its symbols are numbered 0..n-1; for every text over its symbols, decoding what it encoded, from any alignment and whatever follows, gives the text back and consumes exactly the encoded bits; and no other binary code of the symbols spends fewer bits on the table's frequencies. Both shipped tables qualify.", "quantifier": "every frequency table, every text, every bit position, every continuation", "why_tests_cant": "All tables and all texts at all bit alignments; optimality compares with every other code.", "anchors": ["compressor/delta/huffman.py:Huffman", "compressor/delta/header_freq_tables.py"]}
{"id": "C51", "title": "delta (v1) messages of any size survive fragmentation", "statement": "Serialising instructions of any size into frames and deserialising them gives the same instructions. (Expected to be false for payloads of more than 65527 octets: the first frame already carries the flag of the last one. What arrives is always a beginning of what was sent.)", "quantifier": "every list of instructions, every coder", "why_tests_cant": "Needs header values of more than 64 KiB.", "anchors": ["compressor/delta/spdy4_codec_impl.py:Spdy4SeDer.SerializeInstructions", "compressor/delta/spdy4_codec_impl.py:Spdy4SeDer.DeserializeInstructions"]}
{"id": "C52", "title": "delta (v1) sessions stay in step and lose nothing", "statement": "Sender and receiver of delta v1 that start fresh and iterate sets alike are in the same state after every message; each message that fits one frame decodes to the same names with the same pieces (values split at NUL, cookies at ';'), whatever the iteration orders of the sets of headers and toggles are, through evictions, clones, references and toggles. The processor object therefore passes the harness's check for every sequence of messages and hosts.", "quantifier": "every sequence of messages of at most 128 header pieces, every group numbering, every pair of limits, every frequency table, every iteration order", "why_tests_cant": "All histories of messages, all iteration orders of the interpreter's sets and all limits, including those that evict on every message.", "anchors": ["compressor/delta/spdy4_codec_impl.py:Spdy4CoDe", "compressor/delta/spdy4_codec_impl.py:Storage", "compressor/delta/__init__.py:Processor"]}
{"id": "C53", "title": "delta (v1) compression never raises", "statement": "Compressing a message never raises. (Expected to be false: a header longer than the byte limit raises NameError although the table is empty, and a header whose name equals an opcode name left over by a module-level loop raises AttributeError. True as long as the names used in the session fit the byte limit together with any one value, and there are fewer than 65470 entries.)", "quantifier": "every sequence of messages, every pair of limits", "why_tests_cant": "All histories; the failing branches need limits or names no capture contains.", "anchors": ["compressor/delta/spdy4_codec_impl.py:Storage.MakeSpace", "compressor/delta/spdy4_codec_impl.py:Storage.__init__"]}
{"id": "C54", "title": "delta (v1) memory limits", "statement": "At no time does either end hold more entries than the configured number (one, if that is less), or more octets of names and values than the configured size. (Expected to be false for octets: stored values are never counted.)", "quantifier": "every session", "why_tests_cant": "All histories; the tool never measures the table.", "anchors": ["compressor/delta/spdy4_codec_impl.py:Storage.MakeSpace", "compressor/delta/spdy4_codec_impl.py:Storage.PopOne"]}
{"id": "C55", "title": "delta (v1) does not depend on the iteration order of an entry's groups", "statement": "Two ends whose interpreters iterate an entry's set of groups in different orders understand each other. (Expected to be false: renumbering an entry keeps only the group visited last, so three messages suffice to lose a header. True as long as all messages go to one group. Also, with one order, the group a message was sent to need not hold the message's headers afterwards.)", "quantifier": "every pair of iteration orders, every session", "why_tests_cant": "Both ends run in one process under test, with one iteration order.", "anchors": ["compressor/delta/spdy4_codec_impl.py:Spdy4CoDe.RenumberVELruIdx", "compressor/delta/spdy4_codec_impl.py:Spdy4CoDe.AdjustHeaderGroupEntries"]}
{"id": "C56", "title": "bohe output determines the headers", "statement": "Two dictionaries of headers that the bohe compressor turns into the same octets have the same names in the same order, the same values where the value is sent as text, and values with the same binary encoding otherwise. (Expected to be false in general: the length octet of a name is or-ed with 128, so names of 128 to 255 octets collide with shorter ones, and the length field of a binary value drops its two low bits. True for names of at most 127 octets and binary encodings of a multiple of four octets.)", "quantifier": "every pair of dictionaries of byte strings, every behaviour of the library calls, both coding tables", "why_tests_cant": "The tool has no bohe decompressor, so no round trip is ever tried; and collisions are found only by comparing all pairs.", "anchors": ["compressor/bohe/__init__.py:Processor.compress"]}
{"id": "C57", "title": "bohe's binary encodings keep the value", "statement": "Two values of a header with a binary encoder that get the same encoding are equal. (Expected to be false: directives of cache-control are dropped, numbers lose signs and leading zeros. True for NUL-separated numbers in the usual notation, for the listed methods, and for dates with different times of the library's parse in the range of the epoch.)", "quantifier": "every pair of values", "why_tests_cant": "There is no decoder for the encodings; a lost directive does not show in the sizes the tool prints.", "anchors": ["compressor/bohe/bohe.py"]}
{"id": "C58", "title": "when bohe compress raises", "statement": "Compressing raises exactly when a name that is not registered has 256 or more octets, or the binary encoder of a header raises, or the coded value takes 2^32 or more octets; the exception is struct.error or the encoder's. Encoding a numeric header raises (ValueError) exactly when the value is not empty and one of its NUL-separated parts is not an optionally signed number surrounded by white space. (Compress never raising is expected to be false: content-length: 12 bytes.)", "quantifier": "every dictionary of byte strings, every behaviour of the library calls, both coding tables", "why_tests_cant": "All names, values and lengths; captured traffic has few malformed headers.", "anchors": ["compressor/bohe/__init__.py:Processor.compress", "compressor/bohe/bohe.py"]}
{"id": "C59", "title": "size of bohe's output", "statement": "The number of octets returned is the sum over the headers, in bits, rounded up to whole octets, of: 40 plus the octets of the encoding for registered headers with a binary encoder; 39 plus the code words of the value and the end marker for other registered headers; 40 plus the octets of the name plus the code words of the value and the end marker for all other headers.", "quantifier": "every dictionary that compresses, both coding tables", "why_tests_cant": "The size is what the tool measures, so nothing checks it against anything else.", "anchors": ["compressor/bohe/__init__.py:Processor.compress"]}
{"id": "C60", "title": "a repeated message costs eight octets", "statement": "In a session of a delta_bohe processor whose messages stand for different pairs of a name and an encoded value (crumbs of a cookie count one by one), at most 961 different ones and within the octet limit, every repetition of the message just sent returns the same eight octets, 00 00 01 80 00 04 d2 08, whether or not earlier calls raised for fields that do not fit. (With the same crumb twice in a cookie this is expected to be false.)", "quantifier": "every such session, every message and number of repetitions, every order of iteration of the defaults and of the group", "why_tests_cant": "Needs long sessions and all iteration orders; a wrong toggle shows only in the next message.", "anchors": ["compressor/delta_bohe/spdy4_codec_impl.py:Spdy4CoDe.MakeOperations", "compressor/delta_bohe/__init__.py:Processor.compress"]}
{"id": "C61", "title": "when a delta_bohe session raises", "statement": "Sessions of messages with different pairs, at most 961 pairs in all that fit the octet limit together with the names, and fewer than 65536 numbers used, never raise. (That no session raises is expected to be false: a new pair that occurs twice in one message, a value longer than the octet limit, and, once 961 pairs were sent, a message of nothing but new pairs.)", "quantifier": "every session, every library behaviour, every iteration order", "why_tests_cant": "Depends on the history of the session and on table sizes that captured sessions do not reach.", "anchors": ["compressor/delta_bohe/spdy4_codec_impl.py:Storage.MakeSpace", "compressor/delta_bohe/spdy4_codec_impl.py:Storage.PopOne", "compressor/delta_bohe/spdy4_codec_impl.py:Storage.InsertVal"]}
{"id": "C62", "title": "an exception stops the processor for good", "statement": "When compress raises anything but the two exceptions for fields that do not fit (StandardError and struct.error), and when an encoder raises, every later call of the same processor raises StandardError, whatever its headers.", "quantifier": "every session before, every message, every later session", "why_tests_cant": "The tool runs one stream until it fails; what the processor does after an exception is never tried.", "anchors": ["compressor/delta_bohe/spdy4_codec_impl.py:Storage.PinLRU", "compressor/delta_bohe/spdy4_codec_impl.py:Spdy4CoDe.MakeOperations"]}
{"id": "C63", "title": "the entry numbers run out", "statement": "Every call gives new numbers to all pairs of its message. Once the messages of a session stand for at least 65472 pairs in all, a message that drops a pair of the message before raises StandardError or struct.error.", "quantifier": "every session of different pairs with at most 961 different ones", "why_tests_cant": "Needs tens of thousands of messages on one connection.", "anchors": ["compressor/delta_bohe/spdy4_codec_impl.py:Spdy4CoDe.AdjustHeaderGroupEntries", "compressor/delta_bohe/spdy4_codec_impl.py:Storage.lru_ids"]}
{"id": "C64", "title": "the output of delta_bohe determines the headers", "statement": "Two sessions of the same processor with the same outputs stand for the same pairs, message by message. (Expected to be false with binary values, which are written without length: content-length and :status with several numbers. True when all headers are sent as text, at most 128 different pairs in a message, and outputs below 65536 octets, even when entries are thrown away on the way.)", "quantifier": "every pair of sessions, every iteration order in either of them", "why_tests_cant": "There is no decoder that reads this format; sizes alone do not show an ambiguity.", "anchors": ["compressor/delta_bohe/spdy4_codec_impl.py:Spdy4SeDer.WriteOpData", "compressor/delta_bohe/spdy4_codec_impl.py:PackStr"]}
{"id": "C65", "title": "how much a delta_bohe processor keeps", "statement": "A processor keeps different pairs, at most the larger of 1024 and 63 plus the pairs of the largest message so far. (That names and values kept stay within 65536 octets is expected to be false: values are not counted.)", "quantifier": "every session, every iteration order", "why_tests_cant": "The tables are not visible in the output; captured sessions stay below the limits.", "anchors": ["compressor/delta_bohe/spdy4_codec_impl.py:Storage.MakeSpace"]}
{"id": "C66", "title": "delta2's parser on arbitrary octets", "statement": "Whatever octets a delta2 decompressor is given, parsing them returns a group and operations or raises StandardError; it does not loop forever. Together the number of operations and the octets of their text are at most eight times the number of octets of the message, and every index fits the configured field width.", "quantifier": "every octet string, every field width, both shipped Huffman tables", "why_tests_cant": "The harness only feeds the decompressor what the compressor made.", "anchors": ["compressor/delta2/spdy4_codec_impl.py:Spdy4SeDer.DeserializeInstructions", "compressor/delta2/spdy4_codec_impl.py:UnpackStr", "compressor/delta2/huffman.py:Huffman.DecodeFromBB"]}
{"id": "C67", "title": "cut delta2 messages are refused", "statement": "A message of the compressor whose end is missing makes the parser raise. (Expected to be false: StandardErrors inside a frame are caught. Whenever the nine octets of the frame's head are there, a beginning of the operations is returned without complaint; with fewer octets StandardError is raised; octets after the message are ignored.)", "quantifier": "every message the serialiser can produce, every point at which it is cut, every octet string after it, every Huffman code", "why_tests_cant": "Messages are handed over whole by the harness.", "anchors": ["compressor/delta2/spdy4_codec_impl.py:Spdy4SeDer.DeserializeInstructions", "compressor/delta2/spdy4_codec_impl.py:Spdy4SeDer.SerializeInstructions"]}
{"id": "C68", "title": "a delta2 decompressor with a hostile peer", "statement": "However many arbitrary octet strings a decompressor is given, every call returns headers or raises IndexError, StandardError or OverflowError, the table stays within its limits, and a call that raises leaves the table and all header groups but the one named in the message as they were.", "quantifier": "every sequence of octet strings, all options, every iteration order", "why_tests_cant": "The harness stops at the first exception and never sends made-up octets.", "anchors": ["compressor/delta2/spdy4_codec_impl.py:Spdy4CoDe.RealOpsToOpAndExecute", "compressor/delta2/spdy4_codec_impl.py:Spdy4CoDe.DecompressorExecuteOps"]}
{"id": "C69", "title": "work of one delta2 message is bounded", "statement": "The number of loop steps a decompressor makes for one message is bounded by a constant times the length of the message. (Expected to be false with variable-length indices, which are the default: 22 octets ask for more than 2^60 steps. True, with the constant 8 * 131072, when indices have one or two octets.)", "quantifier": "every state a decompressor can get into, every message", "why_tests_cant": "A test that found it would not finish.", "anchors": ["compressor/delta2/spdy4_codec_impl.py:Spdy4CoDe.DecompressorExecuteOps", "compressor/delta2/spdy4_codec_impl.py:Storage.LruIdxToHgIdx"]}
{"id": "C70", "title": "one bad message blocks a header group", "statement": "At any moment of a session, for any group, there is a message of at most sixteen octets that raises and after which the decompressor raises for every message of that group that refers to existing entries, in particular for the compressor's next message, whatever messages for other groups come in between.", "quantifier": "every session, all options, every group, every later sequence of messages", "why_tests_cant": "The harness never goes on after an exception.", "anchors": ["compressor/delta2/spdy4_codec_impl.py:Spdy4CoDe.DecompressorExecuteOps"]}
{"id": "C71", "title": "HTTP/2 decoder on arbitrary octets: outcomes and amplification", "statement": "Whatever a peer has sent before and sends now, a call of the HTTP/2 decoder ends with a header list or with IndexError, and nothing else. A list got from a frame of n octets after the frame header has at most n + max/32 headers, and its names and values together at most n * (max + 1) + max octets, max being the configured buffer.", "quantifier": "every buffer size that holds the default table, every sequence of earlier inputs, every input", "why_tests_cant": "The harness only feeds the decoder what its own encoder made.", "anchors": ["compressor/http2/http2Codec.py:HTTP2Codec.decode_headers", "compressor/http2/http2Codec.py:HTTP2Codec.read_integer", "compressor/http2/http2Codec.py:HTTP2Codec.read_literal_string"]}
{"id": "C72", "title": "an HTTP/2 frame whose end is missing is noticed", "statement": "Giving the decoder a proper beginning of a frame raises. (Expected to be false: the frame's length field is not looked at and a short read is not noticed. What holds: the decoder raises IndexError or reports a beginning of the headers the whole frame mentions, the last possibly with a beginning of its value, followed by the headers kept from before that were not turned off.)", "quantifier": "every decoder state, every frame it accepts, every cut after the frame header", "why_tests_cant": "The harness never cuts a frame.", "anchors": ["compressor/http2/http2Codec.py:HTTP2Codec.decode_headers", "compressor/http2/http2Codec.py:HTTP2Codec.read_literal_string"]}
{"id": "C73", "title": "HTTP/2 substitution puts the new entry where the draft says", "statement": "A literal with substitution indexing replaces the entry it names; entries are evicted from the front while the new table would not fit, and if the replaced entry is itself evicted the new entry becomes the first one. (The last part is expected to be false: a negative list index is used, which counts from the end.) The exact resulting table is given for every case.", "quantifier": "every decoder history, every index in the table, every name and value", "why_tests_cant": "The encoder of the repository hardly ever makes the frames that show it, and when both ends do the same thing no test can tell.", "anchors": ["compressor/http2/http2Codec.py:HTTP2Codec.insert_decoded_header"]}
{"id": "C74", "title": "headerdiff decoder on arbitrary octets: outcomes", "statement": "Whatever the decoder's state and whatever octets it is given, with or without Huffman coding, a call ends with exactly as many headers as the ninth octet says, or with IndexError, or with the general exception, the last only when the table is over its limit.", "quantifier": "every configuration, every decoder state, every string of octets", "why_tests_cant": "The harness only feeds the decoder what its own encoder made.", "anchors": ["compressor/headerdiff/headerDiffCodec.py:HeaderDiffCodec.decodeHeaders", "compressor/headerdiff/headerDiffCodec.py:HeaderDiffCodec.readInteger", "compressor/headerdiff/headerDiffCodec.py:HeaderDiffCodec.readLiteralString"]}
{"id": "C75", "title": "a headerdiff frame whose end is missing is noticed", "statement": "Giving the decoder a proper beginning of the frame the encoder just made raises IndexError. (True with Huffman coding. Expected to be false without it: the last value may come out shortened by the missing octets, which is then the only possible damage in that message; but the table holds the shortened value, and later complete frames decode to headers never sent.)", "quantifier": "every configuration, every session, every next message, every cut", "why_tests_cant": "The harness never cuts a frame.", "anchors": ["compressor/headerdiff/headerDiffCodec.py:HeaderDiffCodec.decodeHeaders", "compressor/headerdiff/headerDiffCodec.py:HeaderDiffCodec.readLiteralString"]}
{"id": "C76", "title": "a headerdiff decoder over its limit stays there", "statement": "Once the headerdiff decoder's table is over its limit, no frame ever changes the decoder again and every frame announcing a header raises the general exception. From any state within the limit one frame, which is itself accepted, leads there.", "quantifier": "every configuration, every decoder state, every later sequence of frames", "why_tests_cant": "The encoder never exceeds the limit, and the harness never goes on after an exception.", "anchors": ["compressor/headerdiff/headerDiffCodec.py:HeaderDiffCodec.decodeHeaders"]}
{"id": "C77", "title": "the reports of a run are what the processors produced", "statement": "When a run of the tool completes, the TOTAL of each direction counts all messages of that direction, and has for each configured processor, in the order of the options, one line giving: the sum of the sizes a newly made processor produces on each stream taken alone; that sum over the baseline's; the smallest and largest message ratio; and their sample standard deviation (0 for a single message). The reports of single streams are made the same way. The TSV files number the messages of a direction from 1, in the order of the streams, with one size per processor, next to the stream's name. (The last part is expected to be false when a direction has exactly one stream: its rows are called TOTAL.)", "quantifier": "every set of processors, every streamifier, every list of files, every options, every iteration order", "why_tests_cant": "There are no tests of the reports; numbers that are plausible but wrong would not be noticed.", "anchors": ["compare_compressors.py:CompareCompressors.run", "lib/stream.py:Stream.print_summary", "lib/stream.py:meanstdv", "lib/stream.py:Stream.print_tsv", "lib/stream.py:Stream.__add__", "lib/processors.py:Processors.process_session"]}
{"id": "C78", "title": "overall ratios lie between the message ratios", "statement": "On every line of every report the overall ratio is at least the smallest and at most the largest message ratio; on the baseline's line all three are 1 and the deviation is 0.", "quantifier": "every set of processors, every streamifier, every list of files, every options", "why_tests_cant": "Quantifies over all inputs and processors.", "anchors": ["lib/stream.py:Stream.print_summary", "lib/processors.py:Processors.process_session"]}
{"id": "C79", "title": "the tool completes", "statement": "With processors that never raise, usable options and a baseline whose output is never empty, the tool prints its reports. (Expected to be false without messages: it completes exactly if each direction has a message and, with verbosity, no stream is empty. For the host and public_suffix streamifiers that means one exchange in all files together; for all_one with verbosity also that no file is empty.)", "quantifier": "every set of such processors, every streamifier, every list of files", "why_tests_cant": "Empty captures are not among the examples.", "anchors": ["compare_compressors.py:CompareCompressors.run", "lib/stream.py:Stream.print_summary", "lib/stream.py:merge_dols", "lib/streamifiers/all_one.py:Streamifier.streamify", "lib/streamifiers/host.py:Streamifier.streamify"]}
{"id": "C80", "title": "every shipped codec can be used", "statement": "The tool can be started, and for every codec shipped under compressor/ a processor can be loaded and made when it is selected with -c. (Expected to be false: under Python 2 the tool does not start, whatever packages are installed. Under Python 3 http1, http1_gzip, http1_huffman and spdy3 load, and hyper_hpack if its package is installed; the first two gzip codecs, and spdy3 with parameter dict, then fail when a processor is made. fork and delta2_bohe load under neither version. A run that produces reports was only given codecs that can be made.)", "quantifier": "every shipped codec, both Python versions, every set of installed third-party packages, every run", "why_tests_cant": "There is no test that loads the codecs through the tool; the codecs' own tests run under Python 2 in their own directory.", "anchors": ["lib/processors.py:Processors.get_processors", "lib/harfile.py", "compressor/__init__.py", "compressor/fork/__init__.py", "compressor/delta2_bohe/__init__.py", "compressor/http2/__init__.py"]}
{"id": "C81", "title": "HTTP/1 text form of Unicode headers", "statement": "The tool reads its messages as Unicode texts. Formatting a well-formed request or response header dictionary of texts with the http1 codec and parsing the text gives the same headers (plus the protocol version) and the harness reports no difference, where white space and lower case are those of Unicode. (Expected to be false when well-formed only means free of ASCII white space at the ends: a value ending in a no-break space loses it and the harness reports it, a path with an ideographic space is cut.)", "quantifier": "every well-formed header dictionary, every notion of white space that extends the ASCII one without visible ASCII characters, every lower-casing", "why_tests_cant": "All texts; the sample captures are ASCII.", "anchors": ["compressor/__init__.py:format_http1", "compressor/__init__.py:parse_http1", "compressor/http1/__init__.py:Processor"]}
{"id": "C82", "title": "delta v1's parser on arbitrary octets", "statement": "Whatever octets a delta v1 decompressor is given, parsing them returns a group and operations or raises StandardError (the octets end too early) or KeyError (an unknown opcode); it does not loop forever. OverflowError is possible only if the Huffman table has more than 257 symbols, which the shipped ones have not. Together the number of operations and the octets of their text are at most eight times the number of octets of the message, every index is a sixteen bit number and every text is made of octets.", "quantifier": "every octet string, every table the Huffman coder accepts", "why_tests_cant": "The harness only feeds the decompressor what the compressor made.", "anchors": ["compressor/delta/spdy4_codec_impl.py:Spdy4SeDer.DeserializeInstructions", "compressor/delta/spdy4_codec_impl.py:UnpackStr", "compressor/delta/huffman.py:Huffman.DecodeFromBB"]}
{"id": "C83", "title": "cut delta v1 messages are refused", "statement": "A message of the delta v1 compressor (of one frame, with at most 256 operations of a kind, C42) from whose end any number of octets is missing makes the decompressor raise StandardError before its state changes; fewer than nine octets always do. Octets after a message are ignored, whoever made it: unless a message is refused with StandardError, what follows it makes no difference. (In delta2 cuts go unnoticed, C67.)", "quantifier": "every message the serialiser can produce under these conditions, every point at which it is cut, every octet string after any message, every Huffman table with an end symbol", "why_tests_cant": "Messages are handed over whole by the harness.", "anchors": ["compressor/delta/spdy4_codec_impl.py:Spdy4SeDer.DeserializeInstructions", "compressor/delta/spdy4_codec_impl.py:Spdy4SeDer.SerializeInstructions", "compressor/delta/spdy4_codec_impl.py:Spdy4CoDe.Decompress"]}
{"id": "C84", "title": "a repeated HTTP/2 header set costs a frame head", "statement": "In a session of the http2 codec whose headers, together with the initial table, fit in the encoding buffer (name + value + 32 octets each, every header counted once), a message with the same headers as the message before it, in any order, takes exactly 8 octets plus the literals of those ':path' headers that are not in the initial table: 1 octet (requests; 7 in responses, which spell the name out), the base-128 length of the value and the value. So does every further repetition. If these literals exceed 65535 octets struct.error is raised. Without the room this fails: two headers that each fit in the buffer but not both together cost their full length at every repetition.", "quantifier": "requests and responses, every buffer size, every earlier session, every duplicate-free header list, every permutation, any number of repetitions", "why_tests_cant": "The harness reports ratios over HAR files; what a repetition costs depends on the table being large enough for the whole session and on two headers not displacing each other, which particular captures do not separate.", "anchors": ["compressor/http2/http2Codec.py:HTTP2Codec.encode_headers", "compressor/http2/http2Codec.py:HTTP2Codec.compute_diff", "compressor/http2/http2Codec.py:HTTP2Codec.encode_header", "compressor/http2/http2Codec.py:HTTP2Codec.append_encoded_header"]}
{"id": "C85", "title": "headers of the message before cost one or two octets in headerdiff", "statement": "In a session of the headerdiff codec whose header values fit in the buffer together (each header counted once, no two with the same text, at most 16447 of them), every later message made of headers of the last message takes 9 octets and one or two per header, exactly one if at most 64 different headers were sent. With delta coding off, ':path' headers are excepted (always literals). In requests with a buffer below 10000 octets the message must name each header once: two headers of one name (split cookies) replace each other at every repetition however much room there is. Without room headers stay literals.", "quantifier": "requests and responses, every buffer size, delta type, string coder (plain or Huffman) and iteration order of the table, every earlier session, any number of later messages in any order", "why_tests_cant": "The harness measures totals over captures; the pushing-out of two cookies by each other shows only as a slightly worse ratio.", "anchors": ["compressor/headerdiff/headerDiffCodec.py:HeaderDiffCodec.determineRepresentation", "compressor/headerdiff/headerDiffCodec.py:HeaderDiffCodec.encodeHeaders", "compressor/headerdiff/__init__.py:HeaderTuple.split_from_dict"]}
{"id": "C86", "title": "the fork codec and its child: no deadlock, answers in step", "statement": "A parent which hands messages one by one to a child process as the fork codec does (write the whole HTTP/1 text, then read lines up to a blank one), and a child which behaves as the sample codec: the session always ends, the two processes are never both waiting for each other, and every call returns the text of its own message without the final empty line. This holds whatever the capacities of the two pipes (at least one octet), however the octets are grouped into reads and writes, and however the processes are scheduled, as long as no header has a newline in its name or value and the version shows something. (Expected to be false without that: a value with an empty line in it makes every later call return an answer to an earlier text, and for any capacities a long enough one can leave both processes blocked for ever.)", "quantifier": "every list of messages, all pipe capacities, every interleaving of the two processes and every splitting of the transfers", "why_tests_cant": "A test runs under one scheduler with one pipe size and messages far below it; whether a deadlock exists is a question about all interleavings, and the messages which cause one depend on the capacities.", "anchors": ["compressor/fork/__init__.py:26-40", "sample_exec_codec.py:6-26", "compressor/__init__.py:47-79"]}
{"id": "C87", "title": "repeated messages in delta2", "statement": "In a delta2 session (any options except the adjusting of header groups and the use of ephemeral toggles only, any Huffman coder, every iteration order): if the table has room for all pairs of a name and a piece of its value of a message beside what is already in it, then the second sending of this message to the same group adds nothing to the tables, and the third and every later one leave the codec's state exactly as it is and contain nothing but, for each path piece not in the table, one literal that is not kept; a message without a path is then exactly the nine octets of an empty frame. More generally this holds after any sending that added nothing. (Expected to be false without room, and with ephemeral toggles only: then no sending becomes small.)", "quantifier": "every session, all messages, group ids, iteration orders, Huffman coders and options (with the two options named switched off)", "why_tests_cant": "The harness sums sizes over captures which rarely repeat a message; that the state reaches a fixed point, and that it does so at the third sending whatever came before, is a statement about all states.", "anchors": ["compressor/delta2/spdy4_codec_impl.py:959-1027", "compressor/delta2/spdy4_codec_impl.py:1043-1125", "compressor/delta2/spdy4_codec_impl.py:560-618"]}
{"id": "C88", "title": "the text the simple codec makes of a message", "statement": "The message made by the simple codec (date option off) for a message the codec accepts is, before the final coding, exactly: a first line (\"<method> <path> H/2\" or \"H/2 <status> ?\"), one line for each value of each header that is spelled out, one line \"ref:\" naming the references if there are any, and an empty line. References are the first headers, in the sender's order and up to the given limit, that do not start with a colon (or are the host) and have the value of the previous message; all other headers are spelled out under their short names, except version and status text. Hence the number of octets does not depend on the iteration order of the merged dictionary, packed to seven bits it is (7n+7)/8, and a message sent again within the limit takes one line of references besides the first line and the lines of the remaining colon headers.", "quantifier": "all messages, previous messages, limits and iteration orders, requests and responses", "why_tests_cant": "Captures show some messages; which headers are sent by reference and how the limit cuts the list concerns all pairs of messages and all limits.", "anchors": ["compressor/simple/__init__.py:113-150", "compressor/simple/__init__.py:193-196", "compressor/__init__.py:47-79", "compressor/simple/seven.py:11-21"]}
{"id": "C89", "title": "what bohe's messages contain, bit by bit", "statement": "A message of the bohe compressor is, header by header and padded with zeros at the end: the place of the header in the table of 57 names (or 128 or-ed with the length of the name, and the name), the flag for binary values (absent for text values of registered names), the flag for several values (set exactly if the value contains the four characters backslash u 0 0, not if it contains a NUL), the upper thirty bits of the 32-bit length, and the octets of the binary value or the code words of the text and of the end mark. The binary values are: for status, length and age one variable-length number per value; for dates the seconds since 1990 or the number given or 0; for accept the values of positive quality with NUL between; for entity tags the count and 17 octets each; for P3P the policy reference with its length and one octet per token, none if a token is unknown; for cache-control an underscore, max-age, max-stale, min-fresh and 0. The P3P encoder raises exactly for names without value and unknown suffix letters. (Expected to be false that P3P policies are kept.)", "quantifier": "all dictionaries of byte strings, all values of the encoded headers, every behaviour of the library calls", "why_tests_cant": "There is no decompressor, so nothing checks the octets; only their number is printed.", "anchors": ["compressor/bohe/bohe.py:21-51", "compressor/bohe/bohe.py:102-213", "compressor/bohe/__init__.py:31-69"]}
{"id": "C90", "title": "bohe's cookies", "statement": "A cookie value made of an even number of hexadecimal digits is sent as the octets they denote, otherwise one that is base64 (a multiple of four digits with padding, one newline may follow) as the octets it denotes, any other value as it is; hexadecimal digits followed by a newline raise. A Cookie header is sent as, for each name of the library's dictionary, an underscore, length and name, length and value; a Set-Cookie header as, for each cookie, a full stop, length and name, length and value, path and domain with two-octet lengths, and max-age or else the date, with a NUL between the values after the first cookie. The octets of a Cookie header determine the names in order and what each value became. (Expected to be false that they determine the values: 41, A and QQ== are sent alike.)", "quantifier": "all header values and every behaviour of the library's cookie parsers", "why_tests_cant": "Only sizes are printed and nothing decodes; which values are taken for hexadecimal or base64 is a question about all texts.", "anchors": ["compressor/bohe/bohe.py:54-95", "compressor/bohe/bohe.py:215-223"]}
{"id": "C91", "title": "What the -c option means", "statement": "A codec is given on the command line as its name, or as its name, an equals sign and parameters: the text up to the first equals sign is the name; a pair of double quotes around the rest is taken off; the rest is cut at every comma, and blanks around each parameter go. Only a name followed by an equals sign and nothing else raises (IndexError). Every list of trimmed parameters without commas can be given. The name shown in the reports determines the codec and its parameters, for names without full stops and blanks.", "quantifier": "all option texts, all names and parameter lists", "why_tests_cant": "Quotes, blanks, commas and equals signs can be combined in endlessly many ways; that nothing else raises and that names shown do not collide are statements about all of them.", "anchors": ["lib/processors.py:47-64", "compressor/__init__.py:9-20"]}
{"id": "C92", "title": "What the codecs' parameters mean", "statement": "Each codec's settings are determined by its parameter list as follows. An integer is optional white space, an optional sign and decimal digits; anything else raises ValueError. http2: buffer_size and is_request, last occurrence counts, every buffer_size must be an integer, a parameter called self raises TypeError, any other is ignored. headerdiff: buffer, deflate, delta, delta_type, huffman; a flag is off only if its value is false in any case, so huffman=0 switches it on. delta2: max_byte_size, max_entries and flags that count only with a value; a bare flag has no effect; entries are limited to 190 with small indices, 65470 otherwise. delta: the two sizes. simple: seven before huffman, date, max_entries. fork: program, and bin. Which lists raise, and what, is determined too.", "quantifier": "all lists of parameters", "why_tests_cant": "A misspelt, repeated or malformed parameter silently changes the measurement; tests give the spellings the author had in mind.", "anchors": ["compressor/http2/__init__.py:43-48", "compressor/http2/__init__.py:77-97", "compressor/headerdiff/__init__.py:67-138", "compressor/delta2/spdy4_codec_impl.py:776-823", "compressor/delta/spdy4_codec_impl.py:820-841", "compressor/simple/__init__.py:88-111", "compressor/fork/__init__.py:15-19"]}
{"id": "C93", "title": "delta (v1) numbers names in the order they are first stored", "statement": "Whatever messages the decoder has decoded, up to 65534 names, a clone operation with number 2 means the first name ever stored, 3 the second, and so on; names are never forgotten, however small the table; a clone with any other number raises AttributeError. In a session the compressor's clones carry the number of their header's name as the decoder has learnt it, and names it stores are new. The octet counter lets no header in that is longer than the configured size. (Expected to be false: values are subtracted on eviction but never added, so the counter becomes negative and a header refused in the first message is stored later.)", "quantifier": "every sequence of messages decoded, made by anybody; every session", "why_tests_cant": "Numbers depend on the whole history; drift of the counter shows only after many evictions.", "anchors": ["compressor/delta/spdy4_codec_impl.py:673-737", "compressor/delta/spdy4_codec_impl.py:1042-1100", "compressor/delta/common_utils.py:66-74"]}
{"id": "C94", "title": "delta (v1): the decoder and messages made by anybody", "statement": "Whatever octets the decoder has been sent and has not refused, it holds at most the configured number of entries (or one), no pair and no index twice, indices 66 to 65535, and the headers that are on in a header group are entries of the table. A further message that toggles an index without an entry or uses a number of no name raises AttributeError; otherwise it is decoded, or refused with NameError (no room) or StandardError (numbers used up). Any octets at all are decoded or give StandardError, KeyError, AttributeError or NameError.", "quantifier": "every sequence of octet strings decoded; every table size; every iteration order of sets. Messages that toggle the default entries 1 to 65 are excluded", "why_tests_cant": "The harness only decodes what its own compressor made; tables after foreign messages are never seen.", "anchors": ["compressor/delta/spdy4_codec_impl.py:840-914", "compressor/delta/spdy4_codec_impl.py:1022-1100", "compressor/delta/spdy4_codec_impl.py:660-790"]}
{"id": "C95", "title": "headerdiff: what is sent for each header", "statement": "In every session each frame is the length, six zero octets, the number of headers and the headers in order. A header whose name and value together are remembered is sent by its index. Otherwise, when deltas are configured and a remembered header of the same name (with max,N: one used fewer than N times) shares at least two leading characters (with a bound: up to a limit character), the header is sent as a difference to one that shares most; otherwise in full, its name by number if known. It is added if the remembered values and its own stay below the limit (for small tables, requests and deltas only if it is more than 15 octets longer); otherwise it replaces the header it differs from, or the one longest unused among those not sent by index or stored in this and the previous message, if that fits; otherwise it is forgotten. Without deltas a :path header is never remembered. With max,N no header is the reference of more than N deltas.", "quantifier": "every session, every configuration of limit, deltas and string coding, every iteration order of the table", "why_tests_cant": "Decoding is right for any choice, so round-trip tests accept every choice; only sizes would change.", "anchors": ["compressor/headerdiff/headerDiffCodec.py:349-465", "compressor/headerdiff/headerDiffCodec.py:467-561", "compressor/headerdiff/headerDiffCodec.py:44-58"]}
{"id": "C96", "title": "http2: what the encoder sends for each message", "statement": "In every session each frame is the length, six zero octets and, in this order: the index, ascending, of every remembered header that was in force and is not in the message; for every header of the message other than the first occurrence of one in force, its index if remembered (twice if it is in force already), otherwise the header in full, with the lowest index of an entry of that name in place of the name; finally every header in force about which nothing was said and which is no longer remembered, repeatedly until all of them are. A header sent in full is remembered and in force unless it is a :path header; for it as few of the oldest entries as possible are forgotten, and a header larger than the limit on its own empties the table.", "quantifier": "every session of messages that is encoded without exception, every limit, requests and responses", "why_tests_cant": "Decoding is right for many other choices (indices in any order, headers never remembered), so round-trip tests accept them; only sizes would change.", "anchors": ["compressor/http2/http2Codec.py:275-315", "compressor/http2/http2Codec.py:317-375", "compressor/http2/http2Codec.py:400-437"]}
{"id": "C97", "title": "delta2: which instructions the compressor sends", "statement": "For every message in a session, the frame contains each of the following instructions once and nothing else. One entry visible in the header group is kept for every pair of the message that visible entries read; all other visible entries are toggled off. For every pair that no visible entry reads: if some entry reads it, the first such entry (newest first, static entries last) is toggled, for this message only under only_etoggles; otherwise, if some entry has the name, the first such entry and the new value are sent, for this message only if the name is :path; otherwise name and value are sent. Toggles are written as ranges exactly when that saves at least three of them, and then as the maximal runs.", "quantifier": "every session, option setting, message with a frame of at most 65536 octets, and every iteration order of sets and dictionaries", "why_tests_cant": "Decoding is right for many other choices (newer or older entries, text instead of references, other ranges); round-trip tests accept them.", "anchors": ["compressor/delta2/spdy4_codec_impl.py:922-950", "compressor/delta2/spdy4_codec_impl.py:959-1027", "compressor/delta2/lrustorage.py:162-183", "compressor/delta2/spdy4_codec_impl.py:748-756"]}
{"id": "C98", "title": "delta2: the Huffman code is optimal and canonical", "statement": "For every table of frequencies with different symbols from which a coder can be made, no word begins with another, and no other code with that property takes less space for a text with these frequencies, where a symbol that does not occur counts as 1/512 of an occurrence. The words are the canonical ones for their lengths: by length, then by symbol, each is the first number that is left.", "quantifier": "every table of symbols and frequencies, every iteration order of the dictionary of depths for which the constructor returns, every competing prefix-free code", "why_tests_cant": "A test can compare with one other code; that there is none that is shorter is a statement about all of them.", "anchors": ["compressor/delta2/huffman.py:36-79", "compressor/delta2/huffman.py:115-144"]}
{"id": "C99", "title": "delta (v1): which instructions the compressor sends", "statement": "After any session, the instructions in the frame for a message are exactly these, each once: a toggle for every entry of the table that is visible in the message's group and whose pair the message does not have, and for every entry that is not visible and whose pair it has, where two or more consecutive indices are one range and only isolated ones are single; a clone for every pair of which the name has been learnt and no entry has the pair; a store with both texts for every pair whose name has not been learnt; an ephemeral literal for every path and referer, and for nothing else. Paths and referers are never in the table.", "quantifier": "every session, every message, every iteration order of sets and dictionaries, every coder", "why_tests_cant": "A round trip succeeds whatever instructions the compressor prefers, so comparing headers with decoded headers does not see a wrong choice; and the choice depends on the whole state.", "anchors": ["compressor/delta/spdy4_codec_impl.py:361-382", "compressor/delta/spdy4_codec_impl.py:916-1020"]}
{"id": "C100", "title": "A whole run with the tool's own codecs reports no difference", "statement": "Run the tool with any codec options on any files. Suppose every stream made from the files suits every option: for http1 its messages are well-formed HTTP/1 requests or responses; for http2 and headerdiff (not deflate, buffer not negative) no value ends with a white space other than a blank or a tab, and for headerdiff two different headers never give the same text; for delta2 and delta headers are octets, the cookie has no NUL, no text the codec makes is longer than 65536 octets, and for delta also at most 128 pieces per message and no header with the name a module-level loop leaves behind; for simple (plain, or seven-bit without dates) lower-case names as in C30; any other codec has no decompressor. Then if the run ends with a report it shows no differences, and the debugging option, which raises at the first difference, changes nothing at all in what the run does. (Expected to be false for arbitrary files: a URL without a path stops the whole run with IndexError in the baseline, and a value ending with a vertical tab shows as a difference for http2.)", "quantifier": "all option lists, all files and stream groupings, all dictionary and set iteration orders, all behaviours of the codecs that have no decompressor", "why_tests_cant": "It composes option parsing, constructors, filtering, sessions, every codec's state over the session and the comparison; a test run exercises one list of options on one set of files in one iteration order.", "anchors": ["compare_compressors.py:33-78", "lib/processors.py:12-185"]}
{"id": "C101", "title": "simple's date option: which dates survive", "statement": "With the date parameter, simple sends the value of last-modified, if-modified-since, date and expires as a hexadecimal number of seconds when it looks like an HTTP date, and shows what looks like a hexadecimal number as a date. The preferred form and the asctime form (years 100 to 9999) and the RFC 850 form (years 1969 to 2068) of any moment are read as exactly that moment of the Gregorian calendar, whatever day of the week they name; every number of seconds is shown as its date with the right day of the week, the year with its sign and in at least four characters (unless it does not fit the C library's tm_year). A value comes back as it was exactly when it is the preferred form with the right day of the week and a year from 100 to 9999, or is neither taken for a date nor for a hexadecimal number; a text with a character no hexadecimal number has and no colon is safe. A session in which the values of these headers are of these kinds loses nothing. (Expected to be false for arbitrary values: expires: -1 and expires: 0 arrive as dates around 1970, and dates in the other two forms or with a wrong day of the week arrive rewritten.)", "quantifier": "all texts, all dates and times, all numbers of seconds, all sessions of messages of the simple kind, all iteration orders", "why_tests_cant": "There are more than ten to the eleven valid dates and the wrong ones (years below 100, wrong weekdays, texts that happen to be hexadecimal) are rare; a round trip over all texts needs an argument about the calendar and the parsers.", "anchors": ["compressor/simple/__init__.py:131-137", "compressor/simple/__init__.py:165-171", "compressor/simple/__init__.py:209-234"]}
{"id": "C102", "title": "the text of the reports", "statement": "A total size in the summary is its decimal digits in threes with commas between, right justified to 13 places; without the commas the digits are the number. For totals below 10,000,000,000 and times of five characters, names and sizes end in the same columns on every line, and the bars of all lines stand below the bar of the title; the name column is as wide as the longest name and no wider. A file of tab separated values, read as lines and cells, says the processors in the first line and in the others number, name and sizes of the rows, provided no name has a tab or newline, and two runs with the same file have the same processors and rows. (Expected to be false without the conditions: a run of 100 seconds moves its bar, and a host with a tab makes a line with a cell too many.)", "quantifier": "all sizes, processor names, rows, names of streams and texts of times and ratios", "why_tests_cant": "Grouping and justification interact for every length of number (the padding is taken off again after commas are put in), and the columns depend on the lengths of all names; a test looks at a few.", "anchors": ["lib/stream.py:21", "lib/stream.py:32-71", "compare_compressors.py:130-137"]}
{"id": "C103", "title": "how large an http2 frame can get", "statement": "With a table of at most 8160 octets (the default is 4096) and no empty names, every frame of a session has at most 8 octets, plus for each header of the message one octet and its name and value each with a length of one octet (two from 128, three from 16384), plus two octets for each different header of the previous message that is not in this one. Headers that both ends lose while a message is encoded are sent again at most once each. New headers reach the bound.", "quantifier": "all sessions of messages the encoder finishes, all table sizes from 0 to 8160, both directions", "why_tests_cant": "What is sent again depends on what was pushed out of the table by the headers before; the bound is about the worst case over all histories.", "anchors": ["compressor/http2/http2Codec.py:275-468"]}
{"id": "C104", "title": "the text decoders (http1, simple) and messages made by anybody", "statement": "http1's decoder reads every text in which each line after the first, up to the first empty one, has a colon after its first character and whose first line has two words and something more; every other text it refuses, with ValueError for the lines and else IndexError for the first line. Names and values of what it reads are no longer together than the text plus 27 characters. simple's decoder refuses with ValueError, IndexError or KeyError and no other exception, keeps what it had then, and keeps in all no more than 14 times the characters it has received plus 27 for each message. (Expected to be false: that a missing end is noticed; a beginning of a message can be read as a message with another value.)", "quantifier": "all texts, all sequences of texts, all states of the decoder, all iteration orders", "why_tests_cant": "The inputs are all texts; a decoder that loops, raises something else or keeps references for ever would have to be hit by chance.", "anchors": ["compressor/__init__.py:82-111", "compressor/http1/__init__.py:11-12", "compressor/simple/__init__.py:152-191"]}
{"id": "C105", "title": "delta2's README on the index parameters", "statement": "An index below 15 takes four bits with varint_encoding; a larger one takes four bits and four more for each group of three bits of the index less 15, one group at least. Indices are written so unless varint_encoding is given a value other than True, true, 1 or t; only then do they take one octet, or two if small_index is switched off as well. A parameter of any other name changes nothing. (Expected to be false: the README's widths 4, 12, 28 and 60 bits, which hold exactly below 15, from 23 to 78 and from 2^39+15 to 2^42+14; that small_index makes indices one octet; that the parameter the README calls implict_hg_add does anything.)", "quantifier": "all indices, all alignments of the buffer, all lists of parameters", "why_tests_cant": "Sizes are right on average whatever the documentation says; the boundaries between widths are single numbers out of unboundedly many, and no run reports that a parameter's name is unknown.", "anchors": ["compressor/delta2/spdy4_codec_impl.py:231-243", "compressor/delta2/spdy4_codec_impl.py:776-823", "compressor/delta2/README.md:9-17"]}
{"id": "C106", "title": "what the tool writes for each message", "statement": "At verbosity 0 and 1 processing the messages writes one line '  - mismatch in NAME' for each message and codec that does not give it back, in order, and nothing else; with -d the first such line is the only one and the run ends. At every verbosity the text is that of the messages and codecs in order, and the measurements, the mismatches and the exception that ends a run are those of verbosity 0. On standard error there is one warning for each display name whose codec cannot decompress, however many messages and sessions there are, and none for http1_gzip. If names, values and codec names have no line feed and names no colon followed by a blank, the report of differences determines which pieces are only on which side. (Expected to be false otherwise: a value with a line feed forges a line.)", "quantifier": "all codecs (as state machines that may raise), all options, all sessions, all verbosities, all iteration orders of the difference sets", "why_tests_cant": "That printing never influences a result, and that a report determines its cause, are statements about all pairs of runs.", "anchors": ["lib/processors.py:98-158", "lib/processors.py:169-193", "lib/processors.py:66-83"]}
{"id": "C107", "title": "the command line", "statement": "The tool accepts exactly the command lines made of file names (words not beginning with '-', and '-'), clusters of -d and -t, options -v -c -b -s with their value in the same or in the next word, possibly at the end of a cluster, and long options spelled by any non-empty beginning of their name, with the value after '=' or in the next word; after '--' everything is a file name. It is then told: debug and TSV if given anywhere, the codecs in order, and the last baseline, streamifier, prefix and verbosity. Every combination of these and every list of file names can be written. Any other command line ends the program, with status 0 exactly if help is asked for after words of that kind, and with 2 otherwise. (Expected to be false: that an option word always counts as the option. '-c -d' gives a codec called '-d'.)", "quantifier": "all lists of words, all settings and file names, every reading of integers", "why_tests_cant": "Abbreviations, clusters and attached values combine without bound; the claim is a characterisation of all accepted lines.", "anchors": ["compare_compressors.py:86-127", "compare_compressors.py:34"]}
{"id": "C108", "title": "the program as a whole", "statement": "Started with a command line on given files, the program prints reports exactly if the command line is one of C107, the streamifier is host, all_one or public_suffix (with its package), every file named can be opened, is JSON of the shape of a HAR file and can be converted, and the run of C77-C79 on the exchanges of the files in order gives those reports. The first file of which this is not true ends the program; no later file is opened, and nothing has been printed on standard output, because all files are read, and closed, before the first line is printed. Each opened file is closed. The status is 0 exactly if there are reports or help was asked for. Neighbouring words of the command line can change places, unless both name files or both give a value to the same option, without any effect. With processors that never raise and readable files grouped by host or suffix there are reports exactly if some file has an entry with an http or https URL. (Expected to be false: that a file that does not parse ends the program by sys.exit(1) after the message; writing the exception raises TypeError first.)", "quantifier": "all command lines, file systems, URL splitters, suffix lists, processors (as state machines that may raise), iteration orders", "why_tests_cant": "The claim composes option parsing, files, conversion, streams and reports for every combination of them; tests run the program on a few well-formed captures.", "anchors": ["compare_compressors.py:33-84", "compare_compressors.py:130-137", "lib/harfile.py:18-29"]}
{"id": "C109", "title": "codecs that keep a zlib stream lose nothing", "statement": "Suppose of zlib only that a receiver which has read in order all a sender put out reads from one more write-and-flush what was written. Then for every conversation through http1_gzip or http1_huffman a receiver that starts with the octets dropped by the constructor reads back each message's HTTP/1 text, and so its headers; two conversations with the same output are of the same texts. The same for spdy3 with or without its dictionary, provided every uncompressed block has twelve octets; then the frames determine all the headers. A conversation through simple with huffman gives the same headers, or the same exception, as without. (Expected to be false: that the octets sent with the messages suffice, without those the constructor dropped; that spdy3 frames of shorter blocks determine the headers.)", "quantifier": "all streams with that contract, all conversations, all dictionaries, all iteration orders", "why_tests_cant": "These codecs have no decompress method, so the harness checks nothing about them, and the state of the stream depends on all messages before.", "anchors": ["compressor/http1_gzip/__init__.py:9-21", "compressor/http1_huffman/__init__.py:9-21", "compressor/spdy3/__init__.py:10-48", "compressor/simple/__init__.py:96-101", "compressor/simple/__init__.py:198-208"]}
{"id": "C110", "title": "a run with hyper_hpack gives a report", "statement": "When hyper_hpack is among the codecs, a run on a capture ends with a report. (Expected to be false: the codec answers with a list of pairs, the comparison asks the answer for items(), and AttributeError ends the run at the first message. No run with hyper_hpack ends with a report, whatever the hpack package does, whatever the other codecs, options and files. The codec itself is sound: with a package whose decoder gives back what its encoder was given, every message of a conversation comes back as the list of its headers in order; made into a dictionary it would pass the check.) No header is ever marked sensitive.", "quantifier": "all hpack packages (as state machines that may raise), all other codecs, all options, streamifiers and files", "why_tests_cant": "The package is external and often not installed; the failure is an interplay of codec and harness.", "anchors": ["compressor/hyper_hpack/__init__.py:5-17", "lib/processors.py:12-31", "lib/processors.py:130-150"]}
{"id": "C111", "title": "delta2_bohe: messages survive the table", "statement": "Two new delta2_bohe codecs, taken apart from the package that cannot be loaded, carry a conversation: what one makes of each message, the other turns back into the same headers with their values encoded (the crumbs of a cookie in some order). This holds for every number of messages in any groups as long as everything sent, counted twice (each header is stored and then copied to the head of the table), fits into the 16384 octets and 1024 entries of the table and no message has the same pair twice. (Expected to be false without that: a header already in the group keeps its old place in the table although a copy is moved to the head; when another header of the same message pushes that place out, the header is silently lost - with messages of a fifth of the table, the fourth time it is sent. The receiver stores clones before it reads toggles, the sender afterwards, so the receiver can raise where the sender was content. A crumb that stands twice in a cookie is toggled on and off and lost. A header longer than the table raises IndexError in the sender.)", "quantifier": "all conversations, groups, value encodings (functions that may raise) and dictionary orders", "why_tests_cant": "No Python version loads the package, so nothing runs at all; the losses need a table filled to a particular point.", "anchors": ["compressor/delta2_bohe/spdy4_codec_impl.py:577-686", "compressor/delta2_bohe/spdy4_codec_impl.py:747-963", "compressor/delta2_bohe/lrustorage.py:13-104"]}
{"id": "C112", "title": "A bit bucket prints exactly the bits it holds", "statement": "str() of a bit bucket, after any stores, pads and reads, is the bits stored so far in order, a bar before the first and every eighth further one, and in brackets how many are in the last octet; two buckets with the same text hold the same bits. The second line of DebugFormat ends with a caret below the last bit read, except that it is below the bar when that bit is the first of its octet.", "quantifier": "every sequence of operations with octets enough for the bits", "why_tests_cant": "bit_bucket_test.py compares the text after 31 stores; all alignments and lengths are unbounded.", "anchors": ["compressor/delta2/common_utils.py:FormatAsBits", "compressor/delta2/bit_bucket.py:BitBucket.__repr__", "compressor/delta2/bit_bucket.py:BitBucket.DebugFormat", "compressor/delta2/bit_bucket_test.py"]}
{"id": "C113", "title": "delta2_bohe's table of entries", "statement": "Whatever is done with the table, it accounts exactly for the octets of the keys and values it holds and stays within its limits; Reserve drops the fewest oldest entries that make the room asked for and raises IndexError, having dropped all, just when an empty table has not that room; Store raises MemoryError just when there is no room. Looking up the number of a stored entry returns that entry as long as no more entries have been stored than there are numbers. (Afterwards it is expected to be false, for every first number but 1: Store counts up to and including the last number while Lookup reckons without it and without the offset, so the entry found is offset - 1 places off, or IndexError. TestRollOver does not notice, its comparison not being asserted - and would hold anyway, the two mistakes cancelling for keys but not for numbers.)", "quantifier": "all limits, all sequences of reserves, stores and pops", "why_tests_cant": "The numbers start over after thousands of stores; the one test that gets there looks at nothing.", "anchors": ["compressor/delta2_bohe/lrustorage.py:17-85", "compressor/delta2_bohe/lrustorage_test.py"]}
{"id": "C114", "title": "delta2_bohe's identifiers never repeat, but run out", "statement": "An identifier that delta2_bohe's store hands out is never one still in use, however long the store is used. (Unlike delta2's, which starts over, C27. But a request does not always give one: minimum_id is misspelled where it is set, so with none given back the requests give 1, 2, ..., max-1 and every further one raises AttributeError.)", "quantifier": "every maximum, every sequence of requests and returns, every choice among the returned ones", "why_tests_cant": "Needs 2^31 host names.", "anchors": ["compressor/delta2_bohe/common_utils.py:55-78"]}
{"id": "C115", "title": "delta2's letter counts are exact", "statement": "The letter statistics that delta2 keeps for every message it compresses are exact for each description (request, response): of every octet how often it stands in the keys and values of the operations made, how many strings there were, and how many of each length; keeping them never raises for strings of octets (a character above 256, which HAR strings can have, raises IndexError). Printed, they are the 257 pairs in order in indented lines, each taking as many as go into sixty columns. (Sorting the letters by frequency is expected to be false: it raises ValueError always, 256 being no character.)", "quantifier": "every sequence of lists of operations with strings of octets", "why_tests_cant": "The counts influence nothing that is checked; no test reads them.", "anchors": ["compressor/delta2/word_freak.py", "compressor/delta2/spdy4_codec_impl.py:422-434", "compressor/delta2/spdy4_codec_impl.py:1023"]}
{"id": "C116", "title": "delta2's table counts the octets of shared strings once", "statement": "Entries of delta2's table can share their key or value strings. Whatever entries are made from new texts or from strings of entries held, stored, refused and let go, or dropped, the table's octet count is the sum of the lengths of the different strings it holds and stays within the limit; it is 0 when the table is empty, and the reference count of a string is the number of places in the table that have it. The same holds if room is reserved for entries of new texts. (Expected to be false if room is reserved for an entry that shares a string, as the codec does: if the other entry with the string is dropped the string is counted twice and never taken off, so that an empty table can end up refusing every entry.)", "quantifier": "every history of makings, stores, refusals, reservations and drops; every limit", "why_tests_cant": "lrustorage_test.py tests the table without sharing and sharing without the table; the count is wrong only for histories in which the last other user of a string is dropped between making an entry and storing it.", "anchors": ["compressor/delta2/lrustorage.py:4-29", "compressor/delta2/lrustorage.py:36-54", "compressor/delta2/lrustorage.py:78-118", "compressor/delta2/lrustorage_test.py", "compressor/delta2/spdy4_codec_impl.py:731-735"]}
{"id": "C117", "title": "headerdiff: how large a frame can get", "statement": "With any configuration without Huffman coding, in any session, a frame is at most nine octets longer than the sum over its headers of: one octet; the larger of the number of its name (at most 39 plus the headers before it) and the name with its length; the index of a header to be replaced (less than the headers before it); and the value with its length \u2014 numbers and lengths taking one octet for each seven bits. In a session of up to 16344 headers with names and values below 16384 octets that is no more than the name, the value and seven octets for each header. The bound is met.", "quantifier": "every configuration without Huffman coding; every order of dictionary iteration; every session", "why_tests_cant": "The size depends on the choice among five representations, which depends on all messages before; the worst case needs a session that has filled the table.", "anchors": ["compressor/headerdiff/headerDiffCodec.py:349-465", "compressor/headerdiff/headerDiffCodec.py:467-561", "compressor/headerdiff/headerDiffCodec.py:565-620"]}
{"id": "C118", "title": "delta2's messages, bit by bit", "statement": "What delta2 sends for a list of operations is one sequence of octets: for each opcode in turn, up to sixteen operations at a time after an octet of opcode and count; indices of 8 or 16 bits, or of four bits with fifteen announcing groups of three; texts as the code words of their octets and of the end mark, filled with zeros to an octet; all of it behind nine octets of length, type, flags, stream and group, once more for every 65527 octets. Nothing else is sent and nothing is refused. After any session the message is the one so written for operations that the statement about delta2's choices (C97) allows.", "quantifier": "every coder that has a word for all octets and the end mark; every index width; every list of operations with indices in range; every group; every session", "why_tests_cant": "A round trip also succeeds when both ends share a wrong constant; that the octets are exactly these for all operations needs a description that is independent of the reader.", "anchors": ["compressor/delta2/spdy4_codec_impl.py:231-270", "compressor/delta2/spdy4_codec_impl.py:295-304", "compressor/delta2/spdy4_codec_impl.py:487-618", "compressor/delta2/spdy4_codec_impl.py:873-898"]}
{"id": "C119", "title": "delta (v1)'s messages, octet by octet", "statement": "What delta sends for a set of instructions is one sequence of octets: the toggled indices without a neighbour, the runs of neighbours (last index, then first), new values for known names, new pairs, and pairs that are not stored, each kind behind an octet 1 to 5 and an octet with one less than their number (at most 255), indices as two octets, texts as the code words of their octets and the end mark with zeros to the end of the octet; behind nine octets of length, flags 1, stream 1234 with the top bit, type 8 and group, once more for every 65527 octets. Toggles and ranges are in ascending order. Nothing is refused. After any session a message, of whatever length, is the one so written for the instructions of C99.", "quantifier": "every coder built from a table with the end mark; every set of instructions with indices below 65536 and distinct toggles; every group; every session that has learnt no more than 65534 names", "why_tests_cant": "A round trip also succeeds when both ends share a wrong constant, and never looks at messages that do not fit one frame; that the octets are exactly these needs a description independent of the reader.", "anchors": ["compressor/delta/spdy4_codec_impl.py:197-311", "compressor/delta/spdy4_codec_impl.py:357-502", "compressor/delta/spdy4_codec_impl.py:851-870"]}
{"id": "C120", "title": "delta_bohe's messages, octet by octet", "statement": "After any session, what delta_bohe sends for a message is determined by its table and the message alone. It toggles exactly the entries in force that are not among the message's pairs and the entries among them that are not in force; it sends a value with the name's number for every pair that is not in the table but whose name is, and a new pair for every pair whose name is not either, in the order of the message with the crumbs of a cookie in alphabetical order; a text is sent as it is when its header has an encoder of its own and as code words otherwise. On the wire these are the toggled indices without a neighbour, the runs of neighbours (last index, then first), the values and the pairs, each kind behind an octet 1 to 4 and an octet with one less than their number (at most 255), indices as two octets, behind eight octets of length, flags 1, stream 1234 with the top bit and type 8. A message that does not fit 65528 octets is not cut: each frame is followed by all that is left and not only by the octets it announces.", "quantifier": "every order of iteration; every library of header encoders; every session; every message whose pairs are distinct octet strings; every set of instructions with indices below 65536 and distinct toggles", "why_tests_cant": "delta_bohe has no decompressor, so no round trip ever looks at its output; tests compare sizes only.", "anchors": ["compressor/delta_bohe/spdy4_codec_impl.py:179-235", "compressor/delta_bohe/spdy4_codec_impl.py:309-441", "compressor/delta_bohe/spdy4_codec_impl.py:861-944", "compressor/delta_bohe/__init__.py:48-80"]}
{"id": "C121", "title": "Which hosts share a header group", "statement": "delta and delta2 keep one group of headers per site, where the site is the host name cut down. A name of one or two labels is left alone. Otherwise the letters, hyphens, zeros and ones at the end of the first label go, with all the following labels made of these only, up to the last two labels or up to a label with another character; that label and the next are kept without the full stop before them, and the rest is treated likewise. So all hosts whose labels before the last two are made of letters, hyphens, 0 and 1 share the group of their last two labels. The ninth octet of each frame is the number of the site in the order in which the sites are first named, from 1 to 254, then 0, then from 1 again; with at most 255 sites two messages carry the same number exactly when their hosts are cut down to the same name. (Expected to be false: hosts of one site share a group, hosts of different sites do not. img2.example.com does not share a group with www.example.com but with img2example.com; 10.2.3.4 shares with 11.2.3.4; www.alice.co.uk shares with bob.co.uk; and after 255 sites two sites share.)", "quantifier": "every host name; every session of any length with any hosts and headers, for delta and delta2; every Huffman table with an end marker; every order of iteration", "why_tests_cant": "the group only changes which headers are toggled, never what is decompressed, so no test of the output notices that the character class says 0-1 and that digits split a site.", "anchors": ["compressor/delta/__init__.py:46-57", "compressor/delta2/__init__.py:49-60", "compressor/delta2_bohe/__init__.py:67-78"]}
{"id": "C122", "title": "The status and reason phrase of a response read from a HAR file", "statement": "Of the status in a HAR entry the digits at its beginning are kept; the rest of its first line goes, with the newline kept if more lines follow. A status text that is not blank is kept without the blanks around it. Otherwise the phrase of RFC 7231 (RFC 4918 for 207, RFC 7538 for 308) for the status is put in, except for the eighteen statuses 100, 101, 305, 402, 407, 411 to 417, 426 and 501 to 505, for which, as for every status that is not registered, the text is 'unknown'. (Expected to be false: every registered status gets its phrase; 503 does not.)", "quantifier": "every HAR entry with any status, status text, headers and URL; every behaviour of urlsplit", "why_tests_cant": "there are no tests of the HAR conversion; sample files carry a status text in nearly every entry, so the table is hardly ever used.", "anchors": ["lib/harfile.py:56-62", "lib/harfile.py:101-127"]}
{"id": "C123", "title": "delta2_bohe's codec keeps to its table's limits and its groups name no dropped entry", "statement": "Whatever messages a delta2_bohe codec makes or is told to carry out, well-formed or not, in any groups: the octets it accounts for are exactly those of the keys and values in its table, at most 16384, in at most 1024 entries. Looking up the number of an entry in the table gives that entry as long as it is not below the number of the oldest entry; once numbers have started again after 65536, it gives the entry 64 places newer, or IndexError if there is none. In a codec that only sends, every number in a header group is that of one of the 65 fixed entries or of an entry that is in the table. Storing a pair for which an entry has to go leaves no header group without entries.", "quantifier": "every sequence of MakeOperations, ExecuteOps and GenerateAllHeaders calls with any groups, headers, operations, encoders and orders of iteration, from a new codec, up to the first exception", "why_tests_cant": "the package cannot be loaded, and the numbers start again only after 65472 stores.", "anchors": ["compressor/delta2_bohe/lrustorage.py:35-85", "compressor/delta2_bohe/spdy4_codec_impl.py:577-707", "compressor/delta2_bohe/spdy4_codec_impl.py:747-937"]}
{"id": "C124", "title": "delta2_bohe's messages octet by octet, and how many sites its processor can serve", "statement": "For instructions that fit their fields and a group below 256, the octets that delta2_bohe's OpsToRealOps writes are the blocks of delta_bohe's messages in frames of at most 65527 octets of payload, each frame with a ninth octet that holds the group: a message that fits one frame is delta_bohe's message with the group put after its eighth octet. For group 256 and later ones it raises struct.error. In a session of Processor.compress with any hosts and headers, sites (shortened host names) are numbered from 1 as they are first heard of, the ninth octet of every message is the number of its host's site, its octets are those of the operations that MakeOperations gives for that group and the headers left after the filter (values of names with an encoder of their own as they are, others as code words), and a message to a 256th site always raises. (Any processor with ids below 2**31, as the constructor asks for, was expected to serve more than 255 sites; it does not.)", "quantifier": "all instructions, groups, payload lengths, and all sequences of messages, hosts, encoders, filters of connection headers and orders of iteration, up to the first exception", "why_tests_cant": "the package cannot be loaded, and the limit shows only with more than 255 sites in one session.", "anchors": ["compressor/delta2_bohe/spdy4_codec_impl.py:295-302", "compressor/delta2_bohe/spdy4_codec_impl.py:459-524", "compressor/delta2_bohe/__init__.py:26-77", "compressor/delta2_bohe/common_utils.py:55-78"]}
{"id": "C125", "title": "delta2_bohe's encodings of header values depend on the year", "statement": "encode of delta2_bohe's bohe.py gives the octets of bohe's encoder for every header but the Cache-Control of responses, with dates counted in seconds not from 1990 but from the first of January of the last year divisible by 21; earlier dates are 0. Runs in years of the same span of 21 years give the same octets; runs in different spans give different octets for every date after the earlier starting day. The Cache-Control of a response becomes an underscore, max-age, s-maxage and three zeros. Messages with the same names and the same encoded values are treated alike by the codec in every state. (Expected to be false that different dates get different octets: in 2016 to 2036 all dates before 2016 are sent as one octet 0. The lists of no-cache and private are never written: the test asks for an attribute len that strings do not have.)", "quantifier": "all years from 1974 on, requests and responses, headers, values, behaviours of the libraries (date, cookie and accept parsers, digest), and all states of the codec", "why_tests_cant": "the outcome depends on the year in which the tool is run; a test sees one year, and the package cannot be loaded.", "anchors": ["compressor/delta2_bohe/bohe.py:13-66", "compressor/delta2_bohe/bohe.py:91-117", "compressor/delta2_bohe/bohe.py:138-180", "compressor/delta2_bohe/bohe.py:274-301", "compressor/delta2_bohe/spdy4_codec_impl.py:856-863"]}
{"id": "C126", "title": "the fork codec in binary mode", "statement": "With parameter bin the fork codec writes the HTTP/1 text of a message and then reads eight octets, a number, and as many octets as it says. With a child that takes the lines of a message up to the blank one and answers with the length of its answer and the answer: every session ends, the two processes are never both waiting for each other, and every call returns the answer to its own message, whatever octets the answers are made of (blank lines, which line mode cannot carry, and nothing at all included), whatever the capacities of the pipes, the grouping of octets and the scheduling. If one answer announces more octets than follow, or a negative number, no session with that message finishes.", "quantifier": "every list of messages, every function from texts to answers, all pipe capacities, every interleaving of the two processes and every splitting of the transfers", "why_tests_cant": "a test runs one child under one scheduler with one pipe size; the repository has no child for this mode and no test of it.", "anchors": ["compressor/fork/__init__.py:12-40"]}
{"id": "C127", "title": "delta2_bohe's messages read back from their octets", "statement": "delta2_bohe's codec reads its own messages back, as long as they hold texts only: for a message without a header that has an encoder, of at most 256 operations of each kind and 65536 octets, and of a group below 256, RealOpsToOps returns the group and the operations that were written, in their order, each index toggled as often as asked for. Two new codecs, one sending octets by MakeOperations and OpsToRealOps, one receiving by RealOpsToOpAndExecute and GenerateAllHeaders (the decompress that is there as a comment), deliver every message of a conversation of such messages, of at most 128 pairs each, all that is sent counted twice fitting the table. (Expected to be false with the headers that have encoders: their values are written without length or end and are read as code words; a response's Content-Length of 136 arrives as the empty text without an error, one of 5 raises.)", "quantifier": "every instruction list in those bounds; every number of messages, groups, iteration orders of the groups and encoders of values; both shipped code tables", "why_tests_cant": "the package cannot be loaded and its decompress is commented out, so nothing has ever run the two directions against each other; the order of a dictionary and the packing of toggles into ranges differ from message to message.", "anchors": ["compressor/delta2_bohe/spdy4_codec_impl.py:145-222", "compressor/delta2_bohe/spdy4_codec_impl.py:525-575", "compressor/delta2_bohe/spdy4_codec_impl.py:717-730", "compressor/delta2_bohe/spdy4_codec_impl.py:881-888", "compressor/delta2_bohe/__init__.py:74-84"]}
{"id": "C128", "title": "delta_bohe's operations read back from their octets", "statement": "delta_bohe's codec reads back the operations it writes, as long as they hold texts only: for instructions without a binary value, of at most 256 operations of each kind and 65536 octets, RealOpsToOps applied to the octets of OpsToRealOps returns the clones and the stores that were written, in their order, after toggles of exactly the indices asked for, each as often as asked for, singly or in ranges. Several such outputs in a row, each but the last with its flag octet 0 (another frame follows), are read as their operations in a row. An output of any length is read without an error, but all of it only if the toggles and clones alone would have taken at most 65533 octets: otherwise (for instance after a clone of 524288 characters) exactly the stores are lost, silently. (Expected to be false beyond one frame, and with the headers that have encoders: their values are written without length or end and are read as code words; a response's Content-Length of 136, written as the octets 136 and 1, is read as a clone with the empty text without an error, one of 5 raises.)", "quantifier": "every instruction list in those bounds; both shipped code tables", "why_tests_cant": "the processor's decompress is commented out, so nothing that runs calls this codec's RealOpsToOps; the set of instructions, and of ways to pack toggles into ranges, is unbounded.", "anchors": ["compressor/delta_bohe/spdy4_codec_impl.py:77-154", "compressor/delta_bohe/spdy4_codec_impl.py:237-265", "compressor/delta_bohe/spdy4_codec_impl.py:443-491", "compressor/delta_bohe/spdy4_codec_impl.py:806-822"]}
{"id": "C129", "title": "conversations through two delta_bohe codecs", "statement": "A second codec made as the processor's own was, fed each output through Decompress, RealOpsToOpAndExecute and GenerateAllHeaders (the methods the commented-out decompress calls), keeps up with the processor: for any session of dictionaries of at most 128 headers sent as text in which every call returns one frame of at most 65536 octets, the second codec never raises and every header it delivers was in that message with that value, whatever was thrown out of the tables on the way. As long as all the different headers of the session are at most 961 and fit the octet limit, each message arrives complete: a header comes out with a value exactly when it was sent with it. Whatever a codec's table holds, a name with several values comes out with them in the order of their entries' numbers, joined by NUL octets, in a cookie by a semicolon and a blank.", "quantifier": "every session in those bounds, of any length, for any order in which the sender's group is iterated; both shipped code tables; defaults in any order, the same on both sides", "why_tests_cant": "the processor's decompress is commented out, so no run has a receiving codec; that two tables stay equal through every history of toggles, ranges, clones, stores and evictions is a statement about unboundedly many sessions.", "anchors": ["compressor/delta_bohe/spdy4_codec_impl.py:946-1015", "compressor/delta_bohe/__init__.py:83-88"]}
