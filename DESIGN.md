# Formal model of http2/compression-test — design and trusted base

Everything lives in `rocq/theories` (Coq 8.16.1, logical root `Verif`); it uses the Coq standard library only.

## Trusted base

* Coq's kernel (and `coqchk` as an independent re-check). `vm_compute` is used only inside closed examples/witnesses.
* Axioms: none of our own.  `Print Assumptions` is run under every property theorem (files `Prop_*.v`);
  the list of what it prints is in the section "Print Assumptions" at the end of this file.
* The transcription of the Python code into Gallina (files `*_Model.v`). Each definition cites file and lines.
  Nothing mechanical ties the two together.

## Modelling conventions

* A Python string is `str := list N` (code units). Python-2 `str` is a byte string; where the code's behaviour
  depends on units being < 256 (`struct.pack("!B")`, Huffman tables) this is an explicit check or hypothesis.
* Exceptions are values: `res A := Ok a | Err e`. An operation that raises part-way through keeps the state
  changes already made where the theorem needs them (decoder robustness theorems); otherwise the error value
  carries no state because the object is not used afterwards.
* Unbounded `while` loops take a fuel argument; running out gives the distinguished error `Diverge`. Termination
  claims say that some fuel suffices, divergence claims that no fuel does.
* Sizes that may be negative in Python are `Z`; bytes and unbounded non-negative integers are `N`; list
  positions are `nat`.
* A dict is an association list in iteration order. Python 2 dict/set order is arbitrary: where an iteration
  order influences the result the model takes an order oracle (a function returning a permutation) per call and the
  theorems quantify over all of them.
* The code is a mixture: the driver (lib/harfile.py imports urllib.parse) runs under Python 3 only, most codecs (print statements,
  implicit relative imports, the modules Cookie, md5, urlparse) under Python 2 only; C80 says which load. The codecs are modelled as
  Python 2 programs, which they are, the driver so that both readings agree where they can (`/` is on floats in either, iteration
  orders are quantified over).
* Mutable objects are threaded as records. Aliasing is modelled only where it matters (`Stream.messages`).
* External libraries (zlib, hyper's hpack, publicsuffix) are section variables, i.e. universally quantified
  functions in the closed theorems.

## What is modelled, and how each property is proved

| Id | Code modelled | Proof method |
|---|---|---|
| C01 | http2Codec write_integer/read_integer | induction on the base-128 digits |
| C02, C03 | http2Codec, complete encoder and decoder | simulation invariant encoder table ~ decoder table, induction on history |
| C04 | encode_headers' final loop | divergence: invariant "evicted :path is missing" for every fuel; termination: FIFO argument |
| C05 | append/insert_decoded_header, decode_headers | invariant over arbitrary byte input |
| C06 | as C02 | witness by computation + set-level simulation |
| C07 | encode_headers framing | direct |
| C08 | split_headers/join_headers + compare_headers | C02 + normalisation lemmas |
| C09 | headerDiffCodec writeInteger/readInteger | as C01 |
| C10, C11, C12 | headerDiffCodec encoder/decoder | simulation; C11 witness |
| C13, C14 | headerdiff/Huffman.py | structural induction on trees; optimality by induction on Kraft sums, against every prefix-free code |
| C15 | headerdiff deflate call sites, zlib as an oracle | direct |
| C47 | headerdiff/__init__.py compress/decompress + compare_headers | C10 + normalisation lemmas |
| C16, C17 | bit_bucket.py | refinement to a list of bits |
| C19, C20, C48 | delta2/huffman.py, CPython 2.7 dictionary order of small integers | Kraft sums, canonical intervals, tree insertion, refinement of the bucket to bits; scaling relation between trees |
| C18, C21, C22 | delta2 spdy4_codec_impl.py: integers, strings, Spdy4SeDer | refinement of the bucket to bits, induction on the chunks |
| C23, C24, C26 | delta2 spdy4_codec_impl.py, lrustorage.py | invariant + simulation over histories |
| C25 | LruStorage.Reserve/Store, RefCntString | invariant, witness |
| C27 | IDStore | invariant, witness |
| C28 | MakeOperations' value splitting + compare_headers | C24 + normalisation, witness |
| C29 | simple/seven.py | bit-list arithmetic |
| C30 | simple/__init__.py | simulation on the previous message |
| C46 | simple/__init__.py with date functions (calendar, time) as parameters | witness |
| C31, C81 | compressor/__init__.py; the parser for any notion of white space and lower case | parsing lemmas, witness |
| C32 | spdy3 | injectivity of length-prefixed lists |
| C33 - C36 | lib/processors.py | list/dict reasoning |
| C37, C38 | lib/streamifiers, lib/stream.py | list reasoning; explicit heap for message lists |
| C39, C40, C44, C45, C49 | lib/harfile.py (urlsplit an oracle) | list reasoning, witness |
| C41 | bohe enc_uvarint | induction |
| C42, C51 | delta (v1) spdy4_codec_impl.py: Spdy4SeDer | refinement of the bucket to bits, size accounting |
| C50 | delta (v1) huffman.py, shipped tables | as C19; merging invariant and C14's optimality |
| C52 - C55 | delta (v1) spdy4_codec_impl.py: Storage, Spdy4CoDe; `__init__.py` | invariant + simulation over histories, witnesses. Parameters: `dk`, the opcode name left over by the loop at line 310 and stored by Storage.__init__; `iter`, the order in which a set of group ids is iterated, a function of what was done to the set |
| C56 - C59 | bohe/__init__.py compress, bohe.py encoders | refinement of the bucket to bits, unique decoding, witnesses. The record `library` holds what is outside the repository or only forwarded to it: date parsing, md5, the accept and cookie parsers; the theorems quantify over it |
| C60 - C65 | delta_bohe/__init__.py Processor.compress with spdy4_codec_impl.py: Storage, header group 0, MakeOperations, the writing half of Spdy4SeDer (the reading half is not used by the processor; DBR_Model and C128 have it) | invariant of the tables, closed form of a call (which pairs are turned on and off, cloned and stored), induction over sessions; the order in which the defaults and the group are iterated is quantified over; what writing produces is read back as in C42 |
| C66, C67 | delta2 DeserializeInstructions on octets no compressor made; the caught StandardError and KeyError and where they leave the reader | every reader consumes a beginning of the bits or raises; a reader given more bits does the same (monotonicity), which gives the cuts; the decoding trees of the shipped tables are computed to be full |
| C82, C83 | delta v1 DeserializeInstructions on octets no compressor made; nothing is caught there | the same description of readers, with exceptions that are raised whatever follows; reading a compressor's payload takes all of it, so reading a beginning of it runs into the end |
| C84 | http2 encode_headers when nothing is evicted | the table is the initial one followed by headers of the session, so appending never evicts; the reference set after a message is that message (C02's invariant); only `:path` literals remain |
| C85 | headerdiff determineRepresentation, encodeHeaders when the values fit | invariant: the table holds headers of the session, each once, with indices below its length; with room a header is only ever replaced by one of the same name, in requests with small buffers |
| C86 | fork/__init__.py in line mode and sample_exec_codec.py as two processes over two bounded pipes (small-step, all interleavings) | decreasing measure for the end; invariant on what is in the pipes and buffers for progress and the answers; explicit schedule for the deadlock |
| C87 | delta2: a repeated message reaches a fixed point at the third sending; nine octets without a path; false without room and with ephemeral toggles only | D2Code_Repeat, Prop_D2Repeat |
| C88 | simple codec: the text of a message, its length, and what a repeated message takes | Prop_SimpleText |
| C89 | bohe: the bits of a message; the encoders of numbers, dates, accept, etag, P3P and cache-control octet by octet | Prop_BoheEnc |
| C90 | bohe: attempt_decode (hex, base64), enc_cookie and enc_setcookie on top of the library's parsers | BoheCookie_Model, Prop_BoheCookie |
| C91 | lib/processors.py: how an option is cut into name and parameters; the name shown | Prop_Options (model in Lib_Model) |
| C92 | the codecs' reading of their parameters, with int(text) | Params_Model, Prop_Params |
| C93 | delta v1: numbering of names at both ends, drift of the octet counter | Prop_D1Names |
| C94 | delta v1: decoder under arbitrary messages: table, groups, kinds of exceptions | Prop_D1State |
| C95 | headerdiff: functional description of the encoder's choice and its octets | HD_Choice, Prop_HD_Choice |
| C96 | http2: functional description of the encoder's choice and its octets | HTTP2_Choice, Prop_HTTP2_Choice |
| C97 | delta2: functional description of the compressor's choice of instructions | D2Code_Choice, Prop_D2Choice, Prop_D2Ranges |
| C98 | delta2's Huffman code is optimal (weights as in the program) and canonical | D2Huff_Opt, Prop_D2HuffOpt |
| C99 | delta v1: exactly which instructions are sent | D1Code_Choice, Prop_D1Choice |
| C100 | A whole run with the tool's codecs shows no difference | Tool_Model, Tool_Clean, Tool_Proofs, Prop_Tool |
| C101 | simple's date option: which dates survive | PyNum, SDate_Model, SDate_Cal, SDate_Text, SDate_Proofs, Prop_SDate |
| C102 | lib/stream.py: text of the summary and of the TSV files | Report_Model, Prop_Report |
| C103 | http2: the worst size of a frame | HTTP2_Worst, Prop_HTTP2_Worst |
| C104 | http1 and simple decoders on arbitrary texts | Text_Hostile, Prop_Text_Hostile |
| C105 | delta2's README on index widths and parameter names | Prop_D2Widths |
| C106 | what is written for each message (standard output and error, all verbosities) | Verbose_Model, Prop_Verbose |
| C107 | the command line (optparse with this program's options) | Cmd_Model, Prop_Cmd |
| C108 | the whole program: command line, files, streamifier, run; lib/harfile.py read_har_file | Main_Model, Prop_Main |
| C109 | sessions of http1_gzip, http1_huffman, spdy3 and simple with huffman over any faithful stream | Zlib_Model, Prop_Zlib |
| C110 | hyper_hpack's wrapper over any hpack package, in the run of C77 | Hyper_Model, Prop_Hyper |
| C111 | delta2_bohe: storage, groups, MakeOperations, ExecuteOps, GenerateAllHeaders | DC_Model, DC_Proofs, Prop_DC |
| C112 | FormatAsBits, BitBucket.__repr__, DebugFormat | Fmt_Model, Prop_Fmt |
| C113 | delta2_bohe lrustorage: Reserve, Store, PopOne, Lookup for all limits | LB_Model, Prop_LB |
| C114 | delta2_bohe IDStore | LB_Model, Prop_LB |
| C115 | delta2's letter statistics | WF_Model, Prop_WF |
| C116 | delta2/lrustorage.py: reference-counted strings and byte_size; the cases of lrustorage_test.py | D2Store_Model, Prop_RefCnt |
| C117 | headerdiff: worst case of a frame | HD_Model, HD_Choice, Prop_HD_Worst |
| C118 | delta2's wire format bit by bit | D2Wire_Model, Prop_D2Bits |
| C119 | delta's wire format octet by octet | D1Wire_Model, Prop_D1Bits |
| C120 | delta_bohe's choice of instructions and its wire format octet by octet | DB_Model, Prop_DBBits |
| C121 | Cutting down host names and the group octet of delta's and delta2's frames | Host_Model, Prop_Host, Prop_HostGroups |
| C122 | Statuses and phrases of HAR entries | Lib_Model, Prop_Har |
| C123 | The table inside delta2_bohe's codec, for arbitrary use | DC_Model, LB_Model, Prop_DCTable |
| C124 | delta2_bohe's messages octet by octet; at most 255 sites | DCW_Model, DC_Model, DB_Model, Prop_DCBits, Prop_DCSites |
| C125 | delta2_bohe's encodings of header values: dates by the year, Cache-Control of responses | DCE_Model, Bohe_Model, BoheCookie_Model, Prop_DCEnc |
| C126 | the fork codec in binary mode with any child that answers with length and octets | ForkBin_Model, Fork_Proofs, Prop_ForkBin |
| C127 | delta2_bohe's messages read back from their octets | DCR_Model, D1Wire_Model, DCW_Model, DC_Model, DCE_Model, Prop_DCRead |
| C128 | delta_bohe's operations read back from their octets | DBR_Model, D1Wire_Model, DB_Model, DB_Wire, Prop_DBRead |
| C129 | conversations through two delta_bohe codecs | DBX_Model, DBR_Model, DB_Model, DB_Ops, DB_Session, Prop_DBTalk |
| C68 - C70 | D2State_Model.v: RealOpsToOpAndExecute and DecompressorExecuteOps with the state at the moment of an exception (proved to agree with the model of C24 otherwise); xrange's OverflowError with 64-bit longs | invariant of table, heap and groups under arbitrary operations; indices that can never be given to an entry |
| C71 - C73 | the HTTP/2 decoder of C05 | a reader given a beginning of its input does the same or raises IndexError; the table before and after an insertion in closed form |
| C74 - C76 | the headerdiff decoder of C10, C13 | as C71; with Huffman coding a string cut has no end mark |
| C77 - C79 | compare_compressors.py run, lib/stream.py print_summary, meanstdv, print_tsv; reports as data | the sessions of C35, the sums of C38; fractions (mediants) |
| C80 | the top-level import statements of all modules, how Python 2 and 3 resolve them, the texts handed to zlib | computation, for every set of installed packages |
| C43 | delta2_bohe lrustorage | witness |

## Coverage by file

| Source in /repo | Model files | Left out |
|---|---|---|
| compare_compressors.py | Lib_Model, Loading_Model, Params_Model, Run_Model, Tool_Model, Cmd_Model, Main_Model | the text of help and usage messages; setlocale (taken to succeed) |
| lib/harfile.py | Lib_Model, Main_Model | what open and json.loads make of a file is given; encode_strings (never called) |
| lib/processors.py | Lib_Model, Run_Model, Params_Model, Loading_Model, Verbose_Model | a decompress method that returns None |
| lib/stream.py | Lib_Model, Run_Model, Report_Model | the rounding of times and ratios to two places (their texts are given in C102) |
| lib/streamifiers/* | Lib_Model | the public suffix list's contents (an arbitrary function) |
| compressor/__init__.py, http1 | H1_Model | |
| compressor/simple | Simple_Model (codec, seven.py), SDate_Model (dates) | zlib itself (huffman_encode/decode over any faithful stream: Zlib_Model) |
| compressor/http2 | HTTP2_Model, HTTP2_Proc_Model | |
| compressor/headerdiff | HD_Model, HD_Proc_Model, HDHuff_Model, PyMerge | deflate variant (zlib) |
| compressor/delta2 | D2Code_Model, Host_Model, D2Store_Model, D2Wire_Model, D2Huff_Model, D2State_Model, BB_Model, Small_Model, Fmt_Model, WF_Model | debug printing; BuildDecodeTable, Equivalent, MakeBranchEntry (dead code) |
| compressor/delta | D1Code_Model, Host_Model, D1Wire_Model, D1Huff_Model | debug printing; PackOps/UnpackOps (debugging only); word_freak |
| compressor/bohe | Bohe_Model, BoheCookie_Model, BB_Model, Small_Model | debug printing |
| compressor/delta_bohe | DB_Model, reading operations back in DBR_Model, a receiving codec in DBX_Model; bit_bucket.py and huffman.py have the text of delta's (BB_Model, D1Huff_Model) | as for delta |
| compressor/delta2_bohe | lrustorage.py in Small_Model and LB_Model, IDStore in LB_Model, the codec's operations in DC_Model, the octets and Processor.compress in DCW_Model, reading them back in DCR_Model, the value encoders of bohe.py in DCE_Model (the library's parsers are parameters), loading in Loading_Model | the package cannot be loaded (C80) |
| compressor/fork, sample_exec_codec.py | Fork_Model, ForkBin_Model | the end of the processes; what the operating system does with the pipes beyond their capacity |
| compressor/spdy3 | Small_Model, Params_Model, Loading_Model, Zlib_Model | zlib |
| compressor/http1_gzip, http1_huffman, hyper_hpack | Loading_Model, Zlib_Model, Hyper_Model | zlib, hyper |
| bit_bucket_test.py, the two lrustorage_test.py | their cases as Examples in Prop_Fmt, Prop_LB and Prop_RefCnt | the rest of their lines are instances of C16, C17 and C113 |
| the other `*_test.py`, the `word_freak.py` of delta, delta_bohe and delta2_bohe, `harfile_translator.py`, the C++ sources, display_tsv.html | none | not part of the tool's run |

## Not modelled

* optparse beyond the parts this program's options use (Cmd_Model, C107), and its help and error texts; JSON parsing (Main_Model takes its outcome as given), subprocesses other
  than those of `fork` (which cannot be loaded: C80; C86 and C126 take the class in isolation), zlib/gzip contents, hyper's HPACK, wall-clock time, memory use of
  the interpreter.
* Floating point: ratios are modelled as exact fractions, Huffman weights as exact rationals. The code's weights are doubles; delta2 adds counts and halves its
  weights nine times at most, so below 2^44 they are multiples of 1/512 and exact. Dates (C101) pass through a double in gmtime; the model is exact for every number.
* Python's standard library is modelled where the code uses it (str methods, int(), dict and list methods, heapq, array, struct, email.utils, calendar, urlparse);
  those models are part of what is trusted, as are the comments that cite the lines.

## Print Assumptions

`Print Assumptions` follows every property theorem in `Prop_*.v`. For each of them it prints
`Closed under the global context`: no axiom is used, neither ours nor the library's.
`coqchk` lists, for the libraries loaded (not for any theorem), the seven opaque constants
`Coq.ssr.ssrunder.Under_rel.*` that the standard library's `ssrunder` seals with a module type; they come in through
`Require` of standard library files and are not used by the theorems.

`*_refuted` theorems are closed statements `exists ..., ...` (or universal statements that contradict the property);
their witnesses are checked by computation.
