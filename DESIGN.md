# wdns in Rocq: design

## 1. What is modelled and how

* The C library `/repo/wdns` (plus the parts of `/repo/libmy` it links) is modelled function by function as total,
  computable Gallina functions. Every definition cites file and lines.
* Octets and C integers are `Z`; octet strings are `list Z`. Wrap-around is written explicitly (`mod 256`, `mod 65536`,
  `mod 2^32`) wherever the C type is narrower than the value stored in it.
* Every function returns an `outcome`: `Ok v` (returned success), `Err r` (returned the `wdns_res` code `r`),
  `UB f` (undefined behaviour / abort: out-of-bounds read or write, null dereference, read of an uninitialised
  variable, failed assert), `NoFuel` (fuel of a loop exhausted). Undefined behaviour and non-termination are thus
  *visible outcomes* that the theorems must exclude, or that `_refuted` theorems exhibit.
* Memory: a pointer into a caller's buffer is an offset into (or a suffix of) the list of octets that are really
  accessible; dereferencing outside is `UB OobRead`. The declared end (`eop`, `rdlen`) is a separate argument, so the model
  can express reading past the declared end. Writes to fixed-size buffers check the capacity (`UB OobWrite`).
  Forming an out-of-range pointer without dereferencing it is not flagged.
* Heap: `ModelHeap.v`/`ModelHeap2.v` are a second, pointer-level model of the functions that allocate (parse, insert, clear,
  print, to_str, str_to_name, str_to_rdata, deserialize, sort, downcase, serialize). A heap maps addresses to live blocks;
  double free, use after free and NULL dereference are faults; leaks are visible because the footprint of every object is
  exact (`owns h L`: the live blocks are exactly those of `L`). These functions are proved to simulate the value-level model.
  Simplifications: addresses are never reused, allocation always succeeds (the library asserts), realloc always moves, the
  growth of a ubuf is one realloc, block sizes are represented by the contents. Client rule of the histories: never parse
  into a variable that still holds a message (the code leaks in that case: example `C26_ex4`).
* The growable buffer `ubuf` is a list in the codec models; `ModelVector.v` models `libmy/vector.h` itself with size, allocated
  capacity and an allocator that may refuse any single request (an oracle per operation) and justifies the list view. Extending
  a vector with its own storage is not modelled. In `ModelToStr` the `ubuf_cterm` NUL is implicit (a C string is the list of
  its characters).
* Parts of libmy that are not linked into libwdns but live in the repository (C69 and up) are modelled in `ModelLibmy*.v`,
  `ModelQueue*.v` and `ModelVarint.v`, see the table.

## 2. Files (rocq/theories)

| layer | files |
|---|---|
| base | `Base.v` outcome monad, octets; `Lib.v` list lemmas; `Libc.v` the C library functions the code calls |
| spec | `Spec*.v` small declarative specifications, independent of the model |
| model | `ModelName` names; `ModelDescr`, `ModelParse` descriptors and parser; `ModelRRset` serialize/deserialize/sort/downcase/compare; `ModelFormat` my_format, inet_ntop, base32/64; `ModelTables` types, classes, rcodes, opcodes, results, SvcParam keys; `ModelToStr`, `ModelFromStr` text; `ModelVector`; `ModelFile`; `ModelHeap`, `ModelHeap2` |
| proofs | `Proof*.v` |
| theorems | `Prop*.v`: property theorems, each with examples and `Print Assumptions` |

## 3. Property plan

Shape legend: RT round-trip, INV invariant, REF refinement/characterisation, REFUTED false of the code, witness given.

| id | plan |
|---|---|
| C01 | REF: inductive relation `denotes m i labels` (spec); `unpack` = Ok w <-> denotes /\ w = wire labels /\ len <= 255. |
| C02 | fuel bound proved sufficient for all inputs; no `OobWrite` outcome. |
| C03 | REFUTED (reads `*eop`: name cut at a label boundary, or pointer octet last); partial: at most one octet past the end is read. |
| C04 | REF against spec `encoded_len`; clipping lemma for all inputs. |
| C05 | REF against pointer-free `denotes`. |
| C06 | REF for well-formed names; REFUTED upper bound (unterminated name gives olen+1 by uint32 wrap). |
| C07 | bound by induction on remaining octets; REF to spec `present`. |
| C08 | RT by induction over labels, escape inverse per octet. |
| C09 | REF: grammar parser spec vs. model. |
| C10 | REFUTED (labels > 63 accepted); partial: <=255, terminated, no overflow. |
| C11 | REFUTED (trailing backslash); partial for strings without dangling backslash. |
| C12 | REFUTED (escaped capitals are not lowered); partial: without escapes. |
| C13-C17 | REF on `wire labels` for all valid label lists. |
| C18-C24 | REF: relational grammar spec of RR and message; INV over insertion sequences. |
| C25, C26 | INV on the heap model: ownership footprints, simulation of the value-level parser, histories of parse/clear. |
| C27 | REFUTED: SvcParam length 0xFFFC makes kv_len wrap to 0: loops for ever; proved for `tame` packets (below). |
| C28 | REFUTED: alpn with length 0xFFFD over-reads, stray octet of C03; proved for `tame` packets with one readable octet at eop. |
| C29 | REF; REFUTED for canonical forms > 65535 octets (uint16 truncation); partial otherwise. |
| C30 | REF from the rdata grammar relation. |
| C31-C34 | REF/RT on lists; sort by uniqueness of sorted permutations. |
| C35 | REFUTED for A6 (prefix length misread as octet count) and for names with a zero octet inside a label; exact effect for all other well-formed rdata. |
| C36 | REFUTED for unterminated names; partial for rdata that matches its descriptor. |
| C37-C42 | algebra on Z; C41 REFUTED ('{' indexes one past the table). |
| C43-C45 | table lookups lifted to all strings by case-folding lemmas, decimal printing lemmas for TYPEn. |
| C46-C49 | field-wise RT, composed over descriptor lists. |
| C50 | REFUTED (NXT rdata 01 61); partial for rdata with terminated names. |
| C51 | REFUTED for wdns_rrset_to_str on question RRsets (NULL dereference); partial for the rest. |
| C52-C55 | character-class invariants over the printers; C54 REFUTED (trailing blanks in hex). |
| C56 | INV + refinement to list. |
| C57 | REF on list of lines. |
| C58 | REF of the header line. |
| C54 | proved for texts satisfying `text_safe`; each of its conditions is needed (`_refuted` theorems). |
| C59 | REF: `inet6_text` of RFC 5952, functional spec, and uniqueness of the text. |
| C60, C61 | REF: relational text grammar `rdata_text`; the printer produces it and the reader reads any spelling of it. |
| C62 | REF: text of RRs, RRsets and messages from the texts of their parts. |
| C63, C64 | simulation of the pointer-level model; footprint equations. |
| C65 | INV over histories of deserialize/sort/downcase/serialize/clear on any number of RRset variables. |
| C66 | INV through the parser: values fit their C types, counters equal the list lengths. |
| C67 | REF: every field parser's result is a field value of the written form (`SpecWritten.v`); composition over the field list. |
| C68 | composition of C66, C32, C36, C48 with the parser's soundness. |
| C69, C71 | small-step model of the two threads, each memory access a step, with x86-TSO store buffers (`ModelQueue.v`); INV with ghost counters of inserted, published, removed and freed items; histories of call and return events as the observable (`SpecQueue.v`). C71: witness runs, executed by `exec`. |
| C70 | small-step model with a lock and any number of threads (`ModelQueueMutex.v`); REF to an atomic bounded queue, linearization point at the unlock. |
| C72, C73 | sift functions on a list (`ModelLibmyHeap.v`); INV heap order, multiset counted; REF to a bag (`SpecLibmyHeap.v`). C73 REFUTED for the empty heap. |
| C74, C75 | octet lists (`ModelVarint.v`), a flag for strict or wrapping signed shifts; RT and REF to base-128 numbers (`SpecVarint.v`). C75 REFUTED from 2^31 on. |
| C76, C77 | host integers loaded and stored in either byte order (`ModelLibmyIp.v`); bitwise operations proved to commute with the byte order; REF to lowest/highest address of a prefix (`SpecLibmyIp.v`). C77 REFUTED. |
| C78-C82 | string functions on lists (`ModelLibmyText.v`); REF to grammars and to leftmost replacement (`SpecLibmyText.v`). C80, C82 REFUTED. |
| C83 | nondeterministic read(2) and the loop as an inductive relation (`ModelLibmyIo.v`); induction on the run. |
| C84 | timespec records with 64-bit overflow as a fault; exact arithmetic. The rate adjustment of my_rate.c is in `ModelRate.v` (C152, C153). |
| C85 | Both byte orders of the table code with its 4096 table entries, and the SSE 4.2 code over the crc32 instruction as the Intel manual defines it, against the bitwise definition: the register is linear over xor. The dispatch is a choice. |
| C86 | A load through a misaligned pointer is a fault when asked for (`strict`). |
| C87, C88 | `ModelRace.v`: the call as a program over base32_decode calls (proved equal to the sequential model), each access to the shared table a step, any number of threads and any schedule; INV: entries only ever become right. Return under fairness by accessibility of the step relation. C88: witness schedule. |
| C89, C90 | `SpecStrName.v`: the grammar of written names with a treatment of unescaped characters, and the three ways to fail; both directions for every C string, by induction over the scanning loop. |
| C91, C92 | `SpecRead.v`: what each field reads, independent of the scanning code (base64 and base32 as bit strings cut into octets; SvcParams as a grammar of their own); both directions, field by field, by induction over the texts. C92: witnesses from the same grammar. |
| C93, C94, C95 | `SpecLoose.v` (the grammar accepted, with the length wrap-around as its one deviation) and `SpecFault.v` (grammar up to the place where the call hangs or reads outside); soundness and completeness by induction over sections, records, fields and SvcParams; the two bad outcomes are handled by one development (`ProofFault.v`). |
| C96, C97 | `SpecReadFault.v` (up to which place a text is read before it breaks); bind laws for faults and errors over the field loop, with the exact field lemmas of C91; "tidy" (only parse errors, fuel suffices) for every field but names. |
| C98, C99 | `SpecDeliver.v` (field values with any octets as SvcParams, rdata that stops inside a name); `loose_message` of C93 gives these values and the bound 254 octets per name; case analysis "printed or cut" for rdata, RR, section, message. |
| C100 | `SpecFile2.v` defines the turns in which fgets reads any file and the delivery of names (`turns`, `delivers`, with written/failing texts from SpecStrName.v); induction over the turns (`load_delivers`), existence and uniqueness of both; the reader past a lone backslash is bounded by `s2n_beyond`. |
| C101 | `SpecReject.v`: the grammar of C93 up to the first place that does not fit, and what is wrong there, with its code; bind law for errors, both directions for every kind of field, record, section, message (`ProofReject.v`). |
| C102 | Necessity of each condition of all_readable: the readable fields in front are read exactly (fields_front), the first unreadable one is rejected or gives other octets; SvcParams by induction over the printed parameters, lists without a defined text through the length that would have to be announced. Files ProofBack.v, ProofBack2.v, PropBack.v. |
| C103 | rdata_to_str on arbitrary octets; SpecPrint.v gives the grammar of text and faults; both directions proved by showing the grammar total (except rdata that stops inside a name) and that each derivation is what the model computes. |
| C104 | Corollaries of C103: surplus octets, missing octets, A. |
| C105, C106 | `SpecPrintMsg.v`: lines of RRs, RRsets, OPT section, message from the rdata text of C103; proved by totality of the grammar and that each derivation is what the model computes; ProofDeliver gives the hypotheses for accepted packets. |
| C107, C108, C109 | SpecRawName: any octet string is labels (1..255 octets) followed by zero octet/nothing/cut label; name functions exact per shape incl. the octet behind (ProofRawName, PropRawName); name_is of SpecPrintMsg covers such names, so C105/C106 do too; PropRawText: text of anything deserialised. |
| C110 | SpecFold: relation on any octets per field format; ProofFold: every derivation is what the model computes (also with memory behind), the relation is total except for two_endless, which over-reads; RRsets by induction. |
| C111 | ModelExamples.hex_driver is polymorphic in load and test; hex_decode from ModelLibmyText (C78). By cases on the argument list. |
| C112 | Composition of C111 with C93, C94, C95, C98, C106, C52 (no NUL in the text, so fputs writes all of it). |
| C113 | Composition of C111 with C32, C33, C109; rrset_of turns the C structure into the record. |
| C114 | lower_set is C110_rrset plus the untouched types (C35); folding keeps sizes, so C109 applies to the result. |
| C115 | Induction over the RRsets (C31); uniqueness of the hexadecimal lines; C113 for the way back. |
| C116 | The 4096-octet buffer is file ++ zeros; message_memory (C28), C93–C95, C106. |
| C117 | udp_frame describes the frame by concatenation; handler_frame computes the handler on it; capture by induction. |
| C118 | handler_frame for the safe part; two families of frames refute the rest. |
| C119 | Two runs of the parser over a memory and a longer one agree unless the first faults (ProofMono2); with 65535 octets behind no step faults (ProofBound); C94, C95. |
| C120 | ModelFileset (reload, fetch_entry, get): an invariant of all reached sets; the trace of load/unload calls is the observable. |
| C121 | The same invariant says: loaded = unloaded + held, for every prefix of the trace. |
| C122 | Partial: repeated lines and a failing fopen are witnesses against it. |
| C123 | ModelList: links in memory; a representation relation between memory and sequences, kept by every macro. |
| C124 | The same relation; what an illegal call does after a legal history. |
| C125 | ModelLookup3, all five functions on a little-endian machine without VALGRIND; SpecLookup3 gives the hash as a function of zero-padded words. |
| C126 | Corollaries of C125. |
| C127 | Memory behind the key is explicit; 32-bit loads of the aligned path fault when part of the word is outside. |
| C128 | Each line of mix is injective; the last block is added to the state, so it can cancel any difference. |
| C129 | spooldir.c, ModelSpool | invariant over all histories of arrivals and calls (`reached`), and all states inside a call |
| C130 | spooldir.c | case analysis of the scan and of the three system calls behind it |
| C131 | spooldir.c, two interleaved processes | refuted: an interleaving in which the second process unlinks what the first was given; a crash behind rename |
| C132 | threadnum.c, schedules of lock/store/unlock steps | invariant: the numbers of the registered threads are a bijection with 0..n-1 |
| C133 | getenv_int.h, strtoul with base 0 | grammar of C constants against the scanner, both directions |
| C134 | getenv_int.h | refuted with witnesses |
| C135 | zonefile.c over any record parser | induction over the list of parser results |
| C136 | read_soa | refuted: no fuel is enough for a file of comments |
| C137 | zonefile_get_serial | refuted |
| C138 | zonefile_read | refuted |
| C139 | tree.h, SPLAY macros as functions on trees with left/right assembly spines (ModelSplay) | induction over the splay loop for an arbitrary comparison |
| C140 | the same | the splay loop leaves a root around which the signs of the comparison change; histories by induction (`built`) |
| C141 | SPLAY_REMOVE | refuted |
| C142 | RB_INSERT_COLOR and RB_REMOVE_COLOR on places (subtree, path of ancestors); invariant: the path has a place for n black nodes; height by counting |
| C143 | sign of cmp along the in-order list; insertion place from the path |
| C144 | elements before/after a path; climbing is the head of these |
| C145 | programs over message variables on the heap model; ownership of one RRset inside a message is split off, changed and put back |
| C146 | exactness of str_to_generic against names_code: prefix split, strtol as a signed numeral; both directions |
| C147 | exactness of str_to_svckey against names_key |
| C148 | exactness of the two pton loops: an invariant over the remaining text; RFC 4291 grammar as an inductive predicate |
| C149 | case analysis over the enumeration |
| C150 | `ModelOom.v`: where text-to-rdata asks for memory, over an oracle saying which requests fail; a relation to the ordinary model closed under bind, field by field; REFUTED for NULL and for SVCB |
| C151 | `ModelOom2.v`, in the manner of C150, up to messages; no access through NULL by a second predicate closed under bind |
| C152, C153 | the limiter as a function of the clock readings and the lateness of each wake-up (`ModelRate.v`), the doubles replaced by exact quotients; INV between two calls: the next tick is the one after the last return; ticks defined in `SpecRate.v`. C153 REFUTED. |
| C154-C157 | parts of argv.c that do not depend on the argument grid (`ModelArgv.v`): buffers as lists with a size checked at each write; REF to joined arguments, positional numbers and words (`SpecArgv.v`). C155 REFUTED. |
| C158, C159 | the skip loop, strtol and the unit factor with 64-bit overflow as a fault (`ModelArgvSize.v`); REF to sizes as text (`SpecArgvSize.v`); RT through the decimal lemmas of C38. C159 REFUTED for the value 0. |
| C160 | the digits of printf and of the loop over the bits as one function of the base (`ModelArgvBase.v`), read with C156. REFUTED for binary and for negative values. |
| C161, C162 | as C158, C159 with arithmetic modulo 2^64 (`ModelArgvUsize.v`). C162 REFUTED from 2^63 on. |
| C163 | check_or on a list of entries, reads checked against its length (`ModelArgvOr.v`); induction on both loops; groups defined in `SpecArgvOr.v`. REFUTED for the last option of a table. |
| C164 | check_xor as one structural recursion over the suffix of the table with a mode (`ModelArgvXor.v`); induction on the list of groups (`SpecArgvXor.v`). |
| C165 | file_args over the octets of the file with fgets of `ModelFile.v` into the 1024-octet array (`ModelArgvFile.v`); induction on the lines (`lines_of` of `SpecFile.v`). |
| C166 | Same model as C165; induction on the lines and on the length of a line, `chopped` states the pieces independently of the loop. |

`tame` (SpecMessage.v): at no offset that looks like the header of an SVCB/HTTPS IN record, followed by priority and a
target name, does the walk over the SvcParams meet one that announces 65532 octets or more. A legal record cannot contain one.

Notable findings (theorems `_refuted`): trailing name octet over-read (C03, C28, C50), endless SvcParam loop (C27), extended
rcode shifted by 8 instead of 4 (C21), uint16 truncation of rdlen (C29), A6 downcasing (C35), '{' in base64 (C41), NULL
dereference for question RRsets (C51), declared length modulo 65536 (C49), uninitialised octet after trailing blanks (C54).

## 4. Trusted base
* Coq 8.16.1 kernel (`vm_compute` included). No axioms of our own; `Print Assumptions` is run under every theorem and says
  "Closed under the global context" for all of them. A whole-library check (`coqchk`-style listing) names the seven opaque
  module fields `Coq.ssr.ssrunder.Under_rel.*` (`Over_rel`, `Under_rel_from_rel`, `over_rel`, `over_rel_done`, `Under_rel`,
  `Under_relE`, `under_rel_done`) of the standard library, loaded with `Lia`/`ssreflect` files; no theorem depends on them.
* Our reading of the C code, and of the libc functions used (isspace, strtol, strtoul, sscanf, inet_pton, strtok_r, strpbrk,
  qsort, bsearch, strcasecmp, memcmp), modelled in `Libc.v` for the "C" locale, glibc behaviour, LP64, signed `char`.
* malloc never fails (the library asserts) except in the vector model and in `ModelOom.v` and `ModelOom2.v` (C150: names and rdata read from text, C151: printing); malloc(0) returns non-NULL.
* Not modelled in libmy: argv.c except the parts in `ModelArgv.v`, `ModelArgvSize.v`, `ModelArgvUsize.v`, `ModelArgvBase.v`, `ModelArgvOr.v` and `ModelArgvXor.v`, `ModelArgvFile.v`, RB_AUGMENT of tree.h other than the default (nothing), atomic*.h, ldns behind zonefile.c, realpath/mkdir in spooldir_init,
  ubuf-pb.h; none of them is used by wdns.
* Not modelled: `wdns/version.c` (returns constants), FILE buffering behind `fputs` (the `wdns_print_*` functions are modelled
  as handing the text of `*_to_str` to the stream), autoconf/packaging, `t/`, `examples/wdns-print-version.c`, and in `examples/wdns-dump-pcap.c` libpcap itself (opening, BPF, file formats). The code
  generators `gen_*_to_str` are modelled through the tables and functions they emit.
