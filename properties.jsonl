{"id": "C01", "title": "Decompression is exact", "statement": "wdns_unpack_name succeeds on (message, start) exactly when the bytes at start denote a DNS name (labels of 1..63 octets, root octet, compression pointers that point strictly before themselves) that lies inside the message and whose uncompressed wire form is at most 255 octets; on success the output buffer holds exactly that wire form and *sz is its length.", "quantifier": "every message, every start offset", "why_tests_cant": "Pointer graphs are unbounded and adversarial; Input space is unbounded; tests sample a handful of literals.", "anchors": ["wdns/unpack_name.c:wdns_unpack_name"]}
{"id": "C02", "title": "Decompression terminates and never overruns dst", "statement": "For every message and start offset wdns_unpack_name returns after boundedly many steps (pointer loops are cut) and never writes more than 255 octets to dst.", "quantifier": "every message including cyclic pointer graphs, every start offset", "why_tests_cant": "Absence of a looping input or of an overflow cannot be sampled.", "anchors": ["wdns/unpack_name.c:wdns_unpack_name"]}
{"id": "C03", "title": "Decompression reads only the message", "statement": "wdns_unpack_name dereferences only octets in [p, eop).", "quantifier": "every message, every start offset", "why_tests_cant": "Out-of-bounds reads by one are invisible to ordinary test runs.", "anchors": ["wdns/unpack_name.c:wdns_unpack_name"]}
{"id": "C04", "title": "skip_name advances over exactly the encoded name", "statement": "Whenever wdns_unpack_name accepts the name at an offset, wdns_skip_name from that offset advances exactly over its on-the-wire encoding (up to and including the root octet or the first two-octet pointer), and wdns_skip_name never moves past eod for any input.", "quantifier": "every buffer, every start offset", "why_tests_cant": "Input space is unbounded; tests sample a handful of literals.", "anchors": ["wdns/skip_name.c:wdns_skip_name", "wdns/unpack_name.c:wdns_unpack_name"]}
{"id": "C05", "title": "copy_uname copies uncompressed names verbatim", "statement": "wdns_copy_uname succeeds exactly on names without compression pointers that lie in the message and are at most 255 octets, its output equals the source octets, any pointer or reserved length octet is rejected with invalid_length_octet, it never writes beyond 255 octets, and where it succeeds it agrees with wdns_unpack_name.", "quantifier": "every message, every start offset", "why_tests_cant": "Input space is unbounded; tests sample a handful of literals.", "anchors": ["wdns/copy_uname.c:wdns_copy_uname"]}
{"id": "C06", "title": "len_uname measures an uncompressed name", "statement": "wdns_len_uname on a buffer that starts with a well-formed wire name returns success with the exact length of that name whatever follows it; whenever it returns success the reported length does not exceed the buffer.", "quantifier": "every buffer of octets", "why_tests_cant": "Input space is unbounded; tests sample a handful of literals. The boundary case (name cut exactly at a label boundary) is a counter wrap-around.", "anchors": ["wdns/len_uname.c:wdns_len_uname"]}
{"id": "C07", "title": "domain_to_str output fits the documented buffer", "statement": "For every source of at most 255 octets wdns_domain_to_str writes at most WDNS_PRESLEN_NAME (1025) octets including the terminator, and for a well-formed wire name it produces exactly the RFC 1035 presentation form (each label escaped and followed by a dot; '.' for the root) and returns the wire length.", "quantifier": "every octet string up to 255 octets; every valid name", "why_tests_cant": "255^255 inputs; overflow depends on worst-case escaping.", "anchors": ["wdns/domain_to_str.c:wdns_domain_to_str"]}
{"id": "C08", "title": "Name presentation round-trip", "statement": "For every valid wire name n, wdns_str_to_name_case(wdns_domain_to_str(n)) = n, and wdns_str_to_name(wdns_domain_to_str(n)) is n with ASCII letters lower-cased.", "quantifier": "every valid wire name (all octet values in labels, up to 255 octets)", "why_tests_cant": "All byte values in all positions; tests use a few names.", "anchors": ["wdns/domain_to_str.c:wdns_domain_to_str", "wdns/str_to_name.c:_wdns_str_to_name"]}
{"id": "C09", "title": "str_to_name accepts exactly the presentation grammar", "statement": "wdns_str_to_name_case(s) succeeds exactly when s is the empty string, '.', or a dot-separated sequence of non-empty labels (plain characters, \\X, \\DDD <= 255) with optional trailing dot whose wire form is at most 255 octets, and then returns exactly that wire form.", "quantifier": "every NUL-terminated string not ending in a dangling backslash", "why_tests_cant": "Input space is unbounded; tests sample a handful of literals.", "anchors": ["wdns/str_to_name.c:_wdns_str_to_name"]}
{"id": "C10", "title": "str_to_name yields only valid wire names", "statement": "Whenever wdns_str_to_name / wdns_str_to_name_case returns success the result is a valid wire name: every label has 1..63 octets, the name ends with the root octet and is at most 255 octets; at most 255 octets are ever written to the allocated buffer.", "quantifier": "every NUL-terminated string", "why_tests_cant": "Input space is unbounded; tests sample a handful of literals.", "anchors": ["wdns/str_to_name.c:_wdns_str_to_name"]}
{"id": "C11", "title": "str_to_name reads only its argument string", "statement": "wdns_str_to_name never reads beyond the terminating NUL of its argument and terminates.", "quantifier": "every NUL-terminated string", "why_tests_cant": "Over-reads are silent in tests; depends on where escapes end.", "anchors": ["wdns/str_to_name.c:_wdns_str_to_name"]}
{"id": "C12", "title": "str_to_name is the lower-cased str_to_name_case", "statement": "wdns_str_to_name(s) succeeds iff wdns_str_to_name_case(s) does, with the same error code otherwise, and its result is the ASCII-lower-cased result.", "quantifier": "every NUL-terminated string", "why_tests_cant": "Input space is unbounded; tests sample a handful of literals.", "anchors": ["wdns/str_to_name.c:wdns_str_to_name", "wdns/str_to_name.c:wdns_str_to_name_case"]}
{"id": "C13", "title": "reverse_name reverses labels and is an involution", "statement": "For every valid wire name, wdns_reverse_name with its exact length succeeds, writes exactly the wire form of the reversed label sequence inside the len octets of the output, and applying it twice gives the original.", "quantifier": "every valid wire name", "why_tests_cant": "Input space is unbounded; tests sample a handful of literals.", "anchors": ["wdns/reverse_name.c:wdns_reverse_name"]}
{"id": "C14", "title": "count_labels counts labels", "statement": "For every valid wire name wdns_count_labels returns the number of labels, for a name with a reserved length octet it returns invalid_length_octet, and for a label running past the name it returns name_overflow.", "quantifier": "every valid wire name; every malformed name of the two kinds", "why_tests_cant": "Input space is unbounded; tests sample a handful of literals.", "anchors": ["wdns/count_labels.c:wdns_count_labels"]}
{"id": "C15", "title": "left_chop removes the leftmost label", "statement": "For every valid wire name wdns_left_chop yields the wire form of the name without its first label (root stays root); repeating it count_labels times reaches the root.", "quantifier": "every valid wire name", "why_tests_cant": "Input space is unbounded; tests sample a handful of literals.", "anchors": ["wdns/left_chop.c:wdns_left_chop", "wdns/count_labels.c:wdns_count_labels"]}
{"id": "C16", "title": "is_subdomain is exactly the proper-suffix relation", "statement": "For valid names wdns_is_subdomain(n0,n1) is true exactly when the label sequence of n1 is a proper suffix of that of n0 (octet-wise); hence it is irreflexive, asymmetric and transitive and every non-root name is a subdomain of the root.", "quantifier": "every pair (triple) of valid wire names", "why_tests_cant": "Quadratic/cubic unbounded input space.", "anchors": ["wdns/is_subdomain.c:wdns_is_subdomain"]}
{"id": "C17", "title": "downcase_name changes only ASCII letters", "statement": "wdns_downcase_name keeps the length, lower-cases exactly the octets A..Z of the name and no other octet (in particular no octet after len), is idempotent, and maps valid names to valid names.", "quantifier": "every octet string and length", "why_tests_cant": "Input space is unbounded; tests sample a handful of literals.", "anchors": ["wdns/downcase_name.c:wdns_downcase_name"]}
{"id": "C18", "title": "Header parsing", "statement": "wdns_parse_message returns wdns_res_len exactly for messages shorter than 12 octets; otherwise on success id and flags are the big-endian values in the first four octets and rcode is the low 4 bits of flags combined with the EDNS extended bits.", "quantifier": "every byte string", "why_tests_cant": "Input space is unbounded; tests sample a handful of literals.", "anchors": ["wdns/parse_message.c:wdns_parse_message", "wdns/parse_header.c:_wdns_parse_header"]}
{"id": "C19", "title": "Message parsing refines the RFC 1035 grammar", "statement": "When wdns_parse_message succeeds, the RRs recorded per section are exactly those of the message read sequentially by the RFC 1035 grammar according to the section counts (stopping early only if the input ends exactly at an RR boundary), with decompressed owner name, type, class, ttl and canonicalised rdata; conversely a message following that grammar is accepted.", "quantifier": "every byte string", "why_tests_cant": "Input space is unbounded; tests sample a handful of literals.", "anchors": ["wdns/parse_message.c:wdns_parse_message", "wdns/parse_message_rr.c:_wdns_parse_message_rr"]}
{"id": "C20", "title": "Parse of an encoded message returns it", "statement": "For every abstract message (header, sections of RRs with valid names and well-formed rdata) its uncompressed wire encoding is accepted by wdns_parse_message and yields exactly the same RRs in the same order.", "quantifier": "every abstract message within the 16-bit counts", "why_tests_cant": "Input space is unbounded; tests sample a handful of literals.", "anchors": ["wdns/parse_message.c:wdns_parse_message"]}
{"id": "C21", "title": "EDNS handling", "statement": "The first OPT RR of a message, and only it, sets the EDNS version, flags, UDP size, options and the upper rcode bits and is not listed among the RRs; every later OPT RR is kept as an ordinary RR; without OPT RR edns.present is false.", "quantifier": "every byte string accepted by the parser", "why_tests_cant": "Depends on order and count of OPT RRs.", "anchors": ["wdns/parse_edns.c:_wdns_parse_edns", "wdns/parse_message.c:wdns_parse_message"]}
{"id": "C22", "title": "RRset grouping is a faithful partition", "statement": "In every non-question section of a parsed message, the RRsets partition the RRs: each RR's rdata appears exactly once, in order of arrival, in the one RRset with equal class, type and case-insensitively equal owner name; two different RRsets of a section never have the same (name,type,class); no RRset is empty.", "quantifier": "every sequence of inserted RRs", "why_tests_cant": "Order-dependent over unbounded sequences.", "anchors": ["wdns/insert_rr_rrset_array.c:_wdns_insert_rr_rrset_array", "wdns/compare_rr_rrset.c:wdns_compare_rr_rrset"]}
{"id": "C23", "title": "RRset TTL is the minimum", "statement": "The TTL of every RRset produced by the parser is the minimum of the TTLs of its RRs.", "quantifier": "every sequence of inserted RRs", "why_tests_cant": "Order-dependent over unbounded sequences.", "anchors": ["wdns/insert_rr_rrset_array.c:_wdns_insert_rr_rrset_array"]}
{"id": "C24", "title": "Question section", "statement": "In the question section every RR gives its own RRset without rdata, in order, with ttl 0 and NULL rdata.", "quantifier": "every message", "why_tests_cant": "Input space is unbounded; tests sample a handful of literals.", "anchors": ["wdns/insert_rr_rrset_array.c:_wdns_insert_rr_rrset_array", "wdns/parse_message_rr.c:_wdns_parse_message_rr"]}
{"id": "C25", "title": "Failed parse leaves nothing behind", "statement": "If wdns_parse_message fails after the header, the message structure has no RRs, no RRsets, no EDNS options and every block allocated during the call has been freed exactly once.", "quantifier": "every byte string, every failure point", "why_tests_cant": "Failure can occur at any RR; leak freedom is not observable in tests.", "anchors": ["wdns/parse_message.c:wdns_parse_message", "wdns/clear.c:wdns_clear_message"]}
{"id": "C26", "title": "Parse/clear memory discipline", "statement": "For every message, after a successful wdns_parse_message followed by wdns_clear_message no block allocated by the library is still live, no block is freed twice and no freed block is accessed.", "quantifier": "every message, every sequence of parse/clear calls", "why_tests_cant": "Heap histories are unbounded.", "anchors": ["wdns/clear.c:wdns_clear_message", "wdns/insert_rr_rrset_array.c:_wdns_insert_rr_rrset_array", "wdns/parse_edns.c:_wdns_parse_edns"]}
{"id": "C27", "title": "Message parsing terminates", "statement": "wdns_parse_message returns for every input.", "quantifier": "every byte string", "why_tests_cant": "Non-termination cannot be excluded by sampling.", "anchors": ["wdns/parse_rdata.c:_wdns_parse_rdata", "wdns/parse_message.c:wdns_parse_message"]}
{"id": "C28", "title": "Message parsing is memory safe", "statement": "wdns_parse_message never reads outside the packet and never writes outside its buffers.", "quantifier": "every byte string", "why_tests_cant": "Over-reads are silent in tests.", "anchors": ["wdns/parse_rdata.c:_wdns_parse_rdata", "wdns/parse_message_rr.c:_wdns_parse_message_rr"]}
{"id": "C29", "title": "Parsed rdata is compression independent and complete", "statement": "The rdata stored for an RR is the field-wise canonical form: names decompressed, other fields copied verbatim; two encodings that differ only in name compression give the same rdata, and the stored length is the length of that form.", "quantifier": "every RR of every supported type", "why_tests_cant": "Input space is unbounded; tests sample a handful of literals.", "anchors": ["wdns/parse_rdata.c:_wdns_parse_rdata"]}
{"id": "C30", "title": "Malformed rdata is rejected", "statement": "wdns_parse_message rejects an RR whose rdata leaves octets over after the last field of its type, or whose field runs past rdlength.", "quantifier": "every RR of every described type", "why_tests_cant": "Input space is unbounded; tests sample a handful of literals.", "anchors": ["wdns/parse_rdata.c:_wdns_parse_rdata"]}
{"id": "C31", "title": "serialize_rrset size is exact", "statement": "The size reported by wdns_serialize_rrset equals the number of octets it writes, for every RRset.", "quantifier": "every RRset", "why_tests_cant": "Input space is unbounded; tests sample a handful of literals.", "anchors": ["wdns/serialize_rrset.c:wdns_serialize_rrset"]}
{"id": "C32", "title": "serialize/deserialize round-trip", "statement": "wdns_deserialize_rrset applied to the output of wdns_serialize_rrset returns the same RRset (name, type, class, ttl, all rdatas), on either host byte order, ignoring trailing octets.", "quantifier": "every RRset within field widths", "why_tests_cant": "Input space is unbounded; tests sample a handful of literals.", "anchors": ["wdns/serialize_rrset.c:wdns_serialize_rrset", "wdns/deserialize_rrset.c:wdns_deserialize_rrset"]}
{"id": "C33", "title": "deserialize_rrset is total and bounded", "statement": "For every buffer wdns_deserialize_rrset reads only octets inside it and returns success or overflow; it returns overflow on every proper prefix of a serialised RRset; on overflow the RRset is cleared; serialising a deserialised RRset reproduces the consumed octets.", "quantifier": "every octet buffer", "why_tests_cant": "Input space is unbounded; tests sample a handful of literals.", "anchors": ["wdns/deserialize_rrset.c:wdns_deserialize_rrset"]}
{"id": "C34", "title": "sort_rrset yields a canonical order", "statement": "wdns_sort_rrset leaves the RRset's rdatas a sorted permutation (shorter first, then octet order), so the result is independent of the initial order and sorting is idempotent; nothing else changes.", "quantifier": "every RRset, every qsort implementation meeting its contract", "why_tests_cant": "All permutations.", "anchors": ["wdns/sort_rrset.c:wdns_sort_rrset"]}
{"id": "C35", "title": "downcase_rdata only lower-cases names", "statement": "wdns_downcase_rdata changes only ASCII letters inside the domain-name fields of the RFC 4034 types, keeps the length and leaves all other fields and all other types untouched.", "quantifier": "every rdata of every type and class", "why_tests_cant": "Input space is unbounded; tests sample a handful of literals.", "anchors": ["wdns/downcase_rdata.c:wdns_downcase_rdata"]}
{"id": "C36", "title": "downcase_rdata stays inside the rdata", "statement": "wdns_downcase_rdata never reads or writes outside the rdata octets.", "quantifier": "every rdata of every type and class", "why_tests_cant": "Out-of-bounds accesses are silent in tests.", "anchors": ["wdns/downcase_rdata.c:wdns_downcase_rdata"]}
{"id": "C37", "title": "RR/RRset matching", "statement": "wdns_compare_rr_rrset is true exactly if type and class are equal and the names are equal up to ASCII case; it is invariant under changing case on either side.", "quantifier": "every RR and RRset", "why_tests_cant": "Input space is unbounded; tests sample a handful of literals.", "anchors": ["wdns/compare_rr_rrset.c:wdns_compare_rr_rrset"]}
{"id": "C38", "title": "Decimal and hex formatting", "statement": "my_uint64_to_str produces the decimal digits without leading zeros and fits its buffer for every value the library formats; parsing them back gives the value; the hex formatter gives two digits per octet that decode to the octet.", "quantifier": "every 8/16/32-bit value", "why_tests_cant": "2^32 values.", "anchors": ["libmy/my_format.c:my_uint64_to_str", "libmy/my_format.c:my_bytes_to_hex_str"]}
{"id": "C39", "title": "IPv4/IPv6 text round-trip", "statement": "For every IPv4 (IPv6) address the text printed by the library is accepted by inet_pton and yields the same address, and fits in 16 (46) octets.", "quantifier": "all 2^32 and 2^128 addresses", "why_tests_cant": "2^128 inputs.", "anchors": ["libmy/fast_inet_ntop.c:fast_inet4_ntop", "libmy/fast_inet_ntop.c:fast_inet6_ntop"]}
{"id": "C40", "title": "Base64 round-trip", "statement": "Decoding the base64 text the library emits gives back the octets, and the encoder stays within the buffer allocated for it.", "quantifier": "every octet string", "why_tests_cant": "Input space is unbounded; tests sample a handful of literals.", "anchors": ["libmy/b64_encode.c:base64_encode_block", "libmy/b64_decode.c:base64_decode_block", "wdns/rdata_to_ubuf.c:bytes_to_ubuf_base64"]}
{"id": "C41", "title": "Base64 decoding reads only its table", "statement": "base64_decode_value never indexes outside its decoding table.", "quantifier": "every character", "why_tests_cant": "Static-array over-read is silent.", "anchors": ["libmy/b64_decode.c:base64_decode_value"]}
{"id": "C42", "title": "Base32hex round-trip", "statement": "Decoding the base32hex text the library emits gives back the octets, case-insensitively; a character outside the alphabet is rejected.", "quantifier": "every octet string of 1..255 octets", "why_tests_cant": "Input space is unbounded; tests sample a handful of literals.", "anchors": ["libmy/b32_encode.c:base32_encode", "libmy/b32_decode.c:base32_decode"]}
{"id": "C43", "title": "RR type names round-trip", "statement": "For every 16-bit rrtype, its mnemonic (or TYPEn) is mapped back to it by wdns_str_to_rrtype, in any letter case; mnemonics of different types differ.", "quantifier": "all 65536 types, all case variants", "why_tests_cant": "Case variants of all names; binary-search sortedness.", "anchors": ["wdns/gen_rrtype_to_str", "wdns/wdns.h.in"]}
{"id": "C44", "title": "RR class and rcode names round-trip", "statement": "For every class (CLASSn form included) and every known rcode the printed name maps back to the value in any letter case; unknown rcode strings are rejected.", "quantifier": "all 65536 classes, all rcodes, all strings", "why_tests_cant": "Case variants of all names; binary-search sortedness.", "anchors": ["wdns/gen_rrclass_to_str", "wdns/gen_rcode_to_str"]}
{"id": "C45", "title": "SVCB key names round-trip", "statement": "For every SvcParamKey its printed name parses back to it; 65535 and malformed names map to the invalid key.", "quantifier": "all 65536 keys", "why_tests_cant": "Input space is unbounded; tests sample a handful of literals.", "anchors": ["wdns/svcparamkeys_to_str.c:_wdns_svcparamkey_to_str", "wdns/svcparamkeys_to_str.c:_wdns_str_to_svcparamkey"]}
{"id": "C46", "title": "Character-string escaping round-trip", "statement": "The quoted text printed for a character-string contains only printable ASCII and is parsed back to exactly the same octets, whatever follows it.", "quantifier": "every octet string", "why_tests_cant": "Input space is unbounded; tests sample a handful of literals.", "anchors": ["wdns/rdata_to_ubuf.c:rdata_to_str_string", "wdns/str_to_rdata_ubuf.c:rdata_from_str_string"]}
{"id": "C47", "title": "Type bitmaps", "statement": "The bitmap produced from a list of type mnemonics encodes exactly that set of types in canonical RFC 4034 form (ascending windows, no empty window, no trailing zero octet), independent of the order and repetition of the mnemonics; printing it gives the types in ascending order and parsing that gives the same bitmap.", "quantifier": "every list of rrtypes; every canonical bitmap", "why_tests_cant": "Input space is unbounded; tests sample a handful of literals.", "anchors": ["wdns/str_to_rdata_ubuf.c:_wdns_str_to_rdata_ubuf", "wdns/rdata_to_ubuf.c:_wdns_rdata_to_ubuf"]}
{"id": "C48", "title": "rdata presentation round-trip", "statement": "For every supported rrtype and every rdata well-formed for it, wdns_str_to_rdata(wdns_rdata_to_str(rdata)) = rdata.", "quantifier": "every rdata of every supported type", "why_tests_cant": "Input space is unbounded; tests sample a handful of literals.", "anchors": ["wdns/rdata_to_ubuf.c:_wdns_rdata_to_ubuf", "wdns/str_to_rdata_ubuf.c:_wdns_str_to_rdata_ubuf"]}
{"id": "C49", "title": "Generic rdata encoding", "statement": "For every unknown rrtype and every rdata up to 65535 octets the RFC 3597 \\# text parses back to the same rdata; a text whose declared length differs from the number of octets is rejected.", "quantifier": "every unknown type, every rdata", "why_tests_cant": "Input space is unbounded; tests sample a handful of literals.", "anchors": ["wdns/rdata_to_ubuf.c:_wdns_rdata_to_ubuf", "wdns/str_to_rdata_ubuf.c:_wdns_str_to_rdata_ubuf"]}
{"id": "C50", "title": "rdata_to_str is memory safe", "statement": "wdns_rdata_to_str reads only the rdlen octets it is given, for every type, class and content.", "quantifier": "every octet string, type and class", "why_tests_cant": "Over-reads are silent in tests.", "anchors": ["wdns/rdata_to_ubuf.c:_wdns_rdata_to_ubuf"]}
{"id": "C51", "title": "Printing a parsed message is memory safe", "statement": "wdns_message_to_str, wdns_rr_to_str and wdns_rrset_to_str applied to the RRs, RRsets and message produced by a successful wdns_parse_message never access memory out of bounds.", "quantifier": "every message accepted by the parser", "why_tests_cant": "Input space is unbounded; tests sample a handful of literals.", "anchors": ["wdns/message_to_str.c:wdns_message_to_str", "wdns/rrset_to_ubuf.c:_wdns_rrset_to_ubuf", "wdns/rr_to_ubuf.c:_wdns_rr_to_ubuf"]}
{"id": "C52", "title": "Printed text cannot inject", "statement": "The text printed for any RR consists of printable ASCII only and is exactly one line (for types other than OPT), whatever octets the names and rdata contain.", "quantifier": "every RR", "why_tests_cant": "Input space is unbounded; tests sample a handful of literals.", "anchors": ["wdns/rr_to_ubuf.c:_wdns_rr_to_ubuf", "wdns/rdata_to_ubuf.c:_wdns_rdata_to_ubuf"]}
{"id": "C53", "title": "Integer fields of rdata text are range checked", "statement": "wdns_str_to_rdata accepts a decimal integer field exactly if its value fits the field's width, and stores it big-endian.", "quantifier": "every digit string", "why_tests_cant": "Input space is unbounded; tests sample a handful of literals.", "anchors": ["wdns/str_to_rdata_ubuf.c:_wdns_str_to_rdata_ubuf"]}
{"id": "C54", "title": "str_to_rdata uses no undefined values", "statement": "wdns_str_to_rdata never copies an uninitialised variable into its result and never reads past the input string.", "quantifier": "every NUL-terminated string, type and class", "why_tests_cant": "Uninitialised values usually look plausible.", "anchors": ["wdns/str_to_rdata_ubuf.c:_wdns_str_to_rdata_ubuf"]}
{"id": "C55", "title": "EDNS option printing", "statement": "Printing EDNS options is total: every option list is rendered or flagged with a parse error, reading only the option octets, and the printed text consists of printable ASCII and newlines.", "quantifier": "every octet string of options", "why_tests_cant": "Input space is unbounded; tests sample a handful of literals.", "anchors": ["wdns/edns_options.c:_wdns_ednsoptdata_to_ubuf"]}
{"id": "C56", "title": "Growable buffer", "statement": "The library's growable buffer behaves as a list under any sequence of append/add/clip operations: capacity always covers the contents, no write lands outside the allocation and earlier contents are preserved by reallocation.", "quantifier": "every sequence of operations", "why_tests_cant": "Unbounded operation histories.", "anchors": ["libmy/vector.h:VECTOR_GENERATE", "libmy/ubuf.h"]}
{"id": "C57", "title": "Name files", "statement": "wdns_file_load_names calls the callback, in order, exactly with the names of the non-comment, non-blank lines up to the first invalid line, and returns that line's error.", "quantifier": "every text file whose lines fit the line buffer", "why_tests_cant": "Input space is unbounded; tests sample a handful of literals.", "anchors": ["wdns/file_load_names.c:wdns_file_load_names"]}
{"id": "C58", "title": "Message text header", "statement": "wdns_message_to_str shows the opcode, rcode, id, exactly the flags that are set, and the true number of RRs of each section.", "quantifier": "every parsed message", "why_tests_cant": "Input space is unbounded; tests sample a handful of literals.", "anchors": ["wdns/message_to_str.c:wdns_message_to_str"]}
{"id": "C59", "title": "IPv6 text is canonical", "statement": "The text printed for an IPv6 address is the RFC 5952 form: lower case, no leading zeros, \"::\" replaces the first longest run of at least two zero groups, embedded IPv4 for mapped/compatible addresses.", "quantifier": "all 2^128 addresses", "why_tests_cant": "the address space cannot be enumerated", "anchors": ["libmy/fast_inet_ntop.c: fast_inet6_ntop"]}
{"id": "C60", "title": "Text of rdata", "statement": "wdns_rdata_to_str prints well-formed rdata as its fields in order, each in the presentation form of its RFC (names, decimal, hexadecimal, base64, base32hex, addresses, quoted strings, type mnemonics, SvcParams), one blank between tokens; rdata of types without a known format is printed as RFC 3597 \\# length and octets; rdata of an IN-only type in another class prints as nothing.", "quantifier": "every supported type, class and well-formed rdata (SvcParams: no empty key or address list)", "why_tests_cant": "unboundedly many rdata for each of 47 types; tests show samples of each", "anchors": ["wdns/rdata_to_ubuf.c:_wdns_rdata_to_ubuf", "wdns/rdata_to_str.c:wdns_rdata_to_str"]}
{"id": "C61", "title": "Reading rdata text", "statement": "wdns_str_to_rdata applied to text in presentation form gives exactly the rdata whose fields the text shows; generic text is accepted exactly if the declared length (below 65536) is the number of octets.", "quantifier": "every supported type, class and every text in presentation form", "why_tests_cant": "unboundedly many texts", "anchors": ["wdns/str_to_rdata_ubuf.c:_wdns_str_to_rdata_ubuf", "wdns/rdata_to_str.c:wdns_str_to_rdata"]}
{"id": "C62", "title": "Text of RRs and messages", "statement": "For every parsed message whose records have a text, wdns_message_to_str yields exactly: the header lines, the OPT pseudo-section if an OPT RR was present, and per section one line for every question (';name class type') and every record ('name ttl class type rdata') in order, with names, types, classes and rdata in their presentation formats; wdns_rr_to_str yields the line of one record or question.", "quantifier": "all packets that parse, all records and questions of all types and classes", "why_tests_cant": "the text is a composition of unboundedly many records, fields and octets; each combination would need its own test", "anchors": ["wdns/message_to_str.c:wdns_message_to_str", "wdns/rr_to_ubuf.c:_wdns_rr_to_ubuf", "wdns/rrset_array_to_ubuf.c:_wdns_rrset_array_to_ubuf", "wdns/rr_to_str.c:wdns_rr_to_str", "wdns/edns_options.c"]}
{"id": "C63", "title": "Text-to-binary memory discipline", "statement": "For every text, wdns_str_to_name, wdns_str_to_name_case and wdns_str_to_rdata leave exactly one new block (the result) on success and no new block on failure; they never free a block twice, use a freed block or access a block outside its bounds.", "quantifier": "every text, type and class, every heap", "why_tests_cant": "Heap histories and texts are unbounded; a leak on one failing path is silent.", "anchors": ["wdns/str_to_rdata_ubuf.c:wdns_str_to_rdata", "wdns/str_to_rdata_ubuf.c:_wdns_str_to_rdata_ubuf", "wdns/str_to_name.c:wdns_str_to_name"]}
{"id": "C64", "title": "Binary-to-text memory discipline", "statement": "wdns_rdata_to_str, wdns_rr_to_str, wdns_rrset_to_str, wdns_rrset_array_to_str and wdns_message_to_str return one new block with the NUL-terminated text and leave every other block as it was; wdns_print_* writes exactly the text and leaves the heap as it was; parsing, printing and clearing any message restores the heap.", "quantifier": "every RR, RRset, section and message that has a text, every heap", "why_tests_cant": "Heap histories are unbounded.", "anchors": ["wdns/message_to_str.c:wdns_message_to_str", "wdns/rr_to_str.c:wdns_rr_to_str", "wdns/rrset_to_str.c:wdns_rrset_to_str", "wdns/print_message.c:wdns_print_message"]}
{"id": "C65", "title": "RRset object histories", "statement": "Any sequence of wdns_deserialize_rrset, wdns_sort_rrset, wdns_downcase_rrset, wdns_serialize_rrset, wdns_print_rrset and wdns_clear_rrset on any number of wdns_rrset_t variables (never deserialising into a variable that still holds an RRset) runs without memory fault, produces the octets and texts of the value-level functions, and leaves live exactly the blocks of the variables not cleared.", "quantifier": "every sequence of operations, every number of variables, all input octets", "why_tests_cant": "Unbounded operation histories.", "anchors": ["wdns/deserialize_rrset.c:wdns_deserialize_rrset", "wdns/sort_rrset.c:wdns_sort_rrset", "wdns/downcase_rrset.c:wdns_downcase_rrset", "wdns/clear.c:wdns_clear_rrset"]}
{"id": "C66", "title": "Parsed counters and integers fit their types", "statement": "After wdns_parse_message, whatever the packet and return code, every member is within its C type, and no section has more RRs, RRsets, or rdatas in one RRset than the header count of that section, so the 16 bit counters never wrap.", "quantifier": "every packet and length", "why_tests_cant": "Counter wrap-around needs packets tests do not build.", "anchors": ["wdns/parse_message.c:wdns_parse_message", "wdns/insert_rr_rrset_array.c:_wdns_insert_rr_rrset_array", "wdns/wdns.h.in:wdns_rrset_array_t"]}
{"id": "C67", "title": "Rdata read from text is rdata of its type", "statement": "Whatever text wdns_str_to_rdata accepts for a type and class, the octets it returns are well-formed rdata of that type: its fields in order, names with labels of 1 to 63 octets, parameters with their true lengths; the wire parser accepts them, downcasing and printing them is memory-safe, and printing and reading them again gives the same octets.", "quantifier": "every NUL-terminated text, every type and class", "why_tests_cant": "The set of accepted texts is infinite; all field parsers and their combinations are involved.", "anchors": ["wdns/str_to_rdata_ubuf.c:_wdns_str_to_rdata_ubuf", "wdns/str_to_rdata_ubuf.c:_wdns_str_to_rdata_ubuf", "wdns/record_descr.c:record_descr_array"]}
{"id": "C68", "title": "Parsed messages are fit for the other functions", "statement": "Every RRset of a message left by wdns_parse_message can be serialised into wdns_serialize_rrset's announced size and is deserialised from those octets, with anything behind them, as the same RRset; for accepted packets every rdata is well-formed for its type and class, downcasing every rdata and RRset stays within it, and the rdata text is read back as the same octets.", "quantifier": "every packet, every RR and RRset of its parsed form", "why_tests_cant": "Composition of four functions over all packets.", "anchors": ["wdns/parse_message.c:wdns_parse_message", "wdns/serialize_rrset.c:wdns_serialize_rrset", "wdns/deserialize_rrset.c:wdns_deserialize_rrset", "wdns/downcase_rrset.c:wdns_downcase_rrset", "wdns/rdata_to_str.c:wdns_rdata_to_str"]}
{"id": "C69", "title": "The SPSC ring is a lossless FIFO under x86 memory ordering", "statement": "With one thread calling only my_queue_insert and one calling only my_queue_remove (memory-barrier implementation, num_elems a power of two accepted by my_queue_init, all octet offsets below 2^32), in every interleaving and with every store-buffer behaviour of x86-TSO: removed items are, in order and octet for octet, a prefix of the inserted ones; at most num_elems - 1 items are held; no access leaves the data area; reported space and count never exceed the true ones and what was promised to a thread stays available to it; results are exact when nothing else is under way; every call ends by its own thread's steps alone within a bound.", "quantifier": "every interleaving of memory accesses and store-buffer flushes, every history length, every power-of-two ring size and element size with offsets below 2^32", "why_tests_cant": "Interleavings and store-buffer states cannot be enumerated or forced by tests.", "anchors": ["libmy/my_queue_mb.c:my_queue_mb_insert", "libmy/my_queue_mb.c:my_queue_mb_remove", "libmy/my_queue_mb.c:my_queue_mb_init", "libmy/my_memory_barrier.h:smp_mb"]}
{"id": "C70", "title": "The mutex queue is linearizable", "statement": "With any number of threads calling my_queue_insert and my_queue_remove (mutex implementation), every history is linearizable against a FIFO queue of num_elems - 1 items whose operations return exactly the success, the item and the remaining space or count; no access leaves the data area, and any call can be completed after at most one other.", "quantifier": "every number of threads, every interleaving of memory accesses, every ring size and element size with offsets below 2^32", "why_tests_cant": "Schedules of an unbounded number of threads.", "anchors": ["libmy/my_queue_mutex.c:my_queue_mutex_insert", "libmy/my_queue_mutex.c:my_queue_mutex_remove", "libmy/my_queue_mutex.c:my_queue_mutex_init"]}
{"id": "C71", "title": "The ring keeps the promises of its header for every size and schedule", "statement": "Whatever sizes my_queue_init accepts, items come out as they went in; a removal that starts after an insertion has returned sees the item; the results are those of some sequential order of the calls; a consumer that sleeps on 'empty' and is woken by insertions into an empty queue never sleeps with an item queued.", "quantifier": "every interleaving, every accepted num_entries and size_entry", "why_tests_cant": "The failures need particular schedules or multi-gigabyte rings.", "anchors": ["libmy/my_queue.h:my_queue_insert", "libmy/my_queue_mb.c:my_queue_mb_insert", "libmy/my_queue_mb.c:my_queue_mb_remove"]}
{"id": "C72", "title": "heap.c is a priority queue", "statement": "For any comparison function that is a strict weak order, every sequence of heap_push, heap_pop, heap_replace, heap_peek, heap_get and heap_size calls on a heap from heap_init behaves like a bag of items: pop and peek give an item no other item comes before, replace gives such an item and puts in the new one, size is the number of items, an empty heap gives NULL, no call fails an assertion or leaves the vector; pushing all items and popping all of them sorts them.", "quantifier": "every comparison function that orders the items, every sequence of calls of fewer than 2^61 (heap_get not on an empty heap)", "why_tests_cant": "the heap order is an invariant over histories; a test sees a few sequences and item orders", "anchors": ["libmy/heap.c: heap_push, heap_pop, heap_replace, heap_peek, heap_size, siftup, siftdown", "libmy/heap.h"]}
{"id": "C73", "title": "heap_get enumerates the heap", "statement": "heap_get(h, i) for i = 0 .. size - 1 gives each item once, and NULL for every i >= size.", "quantifier": "every heap, every size_t index", "why_tests_cant": "the index ranges over 2^64 values and the heap over all contents, including the empty one", "anchors": ["libmy/heap.c: heap_get"]}
{"id": "C74", "title": "Varints: shortest encoding, exact decoding, round trip", "statement": "varint_encode64 and varint_encode32 write the unique shortest base-128 form of their argument, of the length varint_length announces (at most 10, at most 5 octets); varint_length_packed gives the octets up to and including the first one below 128, or 0 if the first n have none, and reads no other; varint_decode64 and varint_decode32 give the length and the number modulo 2^64 (2^32) for every whole varint, shortest or not, length 0 for an unterminated one, and invert the encoders (varint_decode32 for a compiler whose signed shifts wrap).", "quantifier": "every uint64_t or uint32_t, every octet sequence in memory and whatever follows it", "why_tests_cant": "2^64 numbers and all octet sequences", "anchors": ["libmy/varint.c: varint_length, varint_length_packed, varint_encode32, varint_encode64, varint_decode32, varint_decode64"]}
{"id": "C75", "title": "varint_decode32 is free of undefined behaviour", "statement": "In strict C (a left shift of an int that is not representable is undefined), varint_decode32 of what varint_encode32 wrote gives the number back.", "quantifier": "every uint32_t", "why_tests_cant": "undefined behaviour does not show in a test of one compiler", "anchors": ["libmy/varint.c: varint_decode32"]}
{"id": "C76", "title": "Prefix ranges and address increments", "statement": "On hosts of either byte order, ip4_lower and ip6_lower write the lowest, ip4_upper and ip6_upper the highest address that agrees with the given one in the first prefix_len bits (2..32, and 1..128 except 64); ip4_incr and ip6_incr write the next address, wrapping at the end.", "quantifier": "every address, every such prefix length, both byte orders", "why_tests_cant": "2^32 or 2^128 addresses, 127 prefix lengths, and hosts the tests do not run on", "anchors": ["libmy/ip_arith.h: ip4_lower, ip4_upper, ip4_incr, ip6_lower, ip6_upper, ip6_incr"]}
{"id": "C77", "title": "Prefix arithmetic is defined for every prefix length", "statement": "ip4_lower and ip4_upper for 0..32, ip6_lower and ip6_upper for 0..128 have no undefined behaviour.", "quantifier": "every address and prefix length", "why_tests_cant": "undefined shifts happen to give plausible results on one machine", "anchors": ["libmy/ip_arith.h: ip4_lower, ip4_upper, ip6_lower, ip6_upper"]}
{"id": "C78", "title": "hex_decode accepts exactly hexadecimal text", "statement": "hex_decode succeeds exactly on non-empty strings of two hexadecimal digits (either case) per octet and yields those octets; it reads only the string and writes only the octets allocated.", "quantifier": "every C string", "why_tests_cant": "all strings", "anchors": ["libmy/hex_decode.h: hex_decode, hex_to_int"]}
{"id": "C79", "title": "print_string writes a readable quoted string", "statement": "print_string writes a quote, printable characters and a quote, whatever the data; if the data has no backslash, reading the string (\\\" for a quote, \\xHH for an octet) gives exactly the data, unambiguously and with an unambiguous end.", "quantifier": "every octet string", "why_tests_cant": "all octet strings", "anchors": ["libmy/print_string.h: print_string"]}
{"id": "C80", "title": "print_string loses nothing", "statement": "Different data give different printed strings, and every printed string can be read up to its closing quote.", "quantifier": "every octet string, backslashes included", "why_tests_cant": "needs particular combinations of octets", "anchors": ["libmy/print_string.h: print_string"]}
{"id": "C81", "title": "string_replace replaces the leftmost occurrences", "statement": "For non-empty old, string_replace returns the string with the leftmost occurrence of old replaced by new, and so on in the remainder behind it (new is not searched again); the result is unique.", "quantifier": "all strings str, old, new with old not empty", "why_tests_cant": "all strings, overlaps included", "anchors": ["libmy/string_replace.h: string_replace"]}
{"id": "C82", "title": "string_replace terminates", "statement": "string_replace returns for every argument.", "quantifier": "all strings str, old, new", "why_tests_cant": "non-termination cannot be observed by a test", "anchors": ["libmy/string_replace.h: string_replace"]}
{"id": "C83", "title": "read_bytes delivers exactly what was asked for, whatever read(2) does", "statement": "For every sequence of short reads, interruptions, failures and end of file: the octets stored are the next ones of the descriptor, never more than asked for; true means exactly that many; false means fewer, after a failure or the end of file; without failures the answer is whether there were enough; it returns after at most one uninterrupted read per octet and one more.", "quantifier": "every descriptor content, every count, every behaviour of read", "why_tests_cant": "schedules of short reads and signals", "anchors": ["libmy/read_bytes.h: read_bytes"]}
{"id": "C84", "title": "Time arithmetic is exact and ticks advance", "statement": "my_timespec_add and my_timespec_sub of normalized times give the normalized exact sum and difference; the sign my_rate_sleep tests is the order of the times; the next tick it computes is after now and at most one period later.", "quantifier": "all normalized times within 2^61 seconds (2^32 for the order), every positive period", "why_tests_cant": "64-bit ranges, carries and borrows", "anchors": ["libmy/my_time.h: my_timespec_add, my_timespec_sub", "libmy/my_rate.c: calc_next_tick, ts_nanos"]}
{"id": "C85", "title": "my_crc32c computes CRC-32C whichever implementation runs", "statement": "For every buffer at every address, the table-driven code of either byte order and the SSE 4.2 code return the CRC-32C of RFC 3720 of exactly the given octets, without reading outside the buffer, and so agree with each other; damage confined to four consecutive octets always changes the result.", "quantifier": "every octet string, every length, every address and so every alignment of its start, both byte orders, both implementations", "why_tests_cant": "every alignment times every length times every content; two implementations and 4096 table entries have to agree", "anchors": ["libmy/crc32c-slicing.c: my_crc32c_slicing, g_crc_slicing", "libmy/crc32c-sse42.c: my_crc32c_sse42", "libmy/crc32c.c: my_crc32c"]}
{"id": "C86", "title": "my_crc32c reads integers only through aligned pointers", "statement": "No call of my_crc32c reads a 2, 4 or 8 octet integer through a pointer that is not a multiple of its size. True of the table-driven code; false of the SSE 4.2 code: refuted, with exactly the addresses and lengths for which it happens.", "quantifier": "every buffer, address and length", "why_tests_cant": "undefined behaviour that x86 hardware tolerates does not show in a test run", "anchors": ["libmy/crc32c-sse42.c: my_crc32c_sse42", "libmy/crc32c-slicing.c: my_crc32c_slicing"]}
{"id": "C87", "title": "Concurrent text-to-rdata calls with a set-up decoder table", "statement": "Calls of wdns_str_to_rdata share one object, the lazily filled base32 table. A call that runs alone (even the first in the process) returns what the single-call specification says; once the table is complete, for instance after one base32-decoding call has finished before the others are made, any number of overlapping calls return exactly what each would return alone; and every call returns as long as its thread keeps being scheduled, whatever the others do.", "quantifier": "every set of concurrent calls (text, type, class), every interleaving of their accesses to the shared table, every number of threads", "why_tests_cant": "the outcome depends on the interleaving of single table accesses of several threads; a test sees a few schedules", "anchors": ["libmy/b32_decode.c: base32_decode, base32_map", "wdns/str_to_rdata_ubuf.c: _wdns_str_to_rdata_ubuf (rdf_hash)", "wdns/rdata_to_str.c: wdns_str_to_rdata"]}
{"id": "C88", "title": "First use of the base32 decoder by several threads at once", "statement": "From program start, overlapping calls of wdns_str_to_rdata return what each would return alone. True of every interleaving in which no thread looks at the base32 table while another has filled in only part of it; false in general: a second thread that looks after the first entry was written takes every character for the digit 0, so it reports success with a wrong hash and accepts text that is not base32.", "quantifier": "every set of concurrent calls and every interleaving from program start", "why_tests_cant": "the window is a few hundred stores during the first call of the process", "anchors": ["libmy/b32_decode.c: base32_decode, base32_map", "wdns/str_to_rdata_ubuf.c: _wdns_str_to_rdata_ubuf (rdf_hash)"]}
{"id": "C89", "title": "Exactly which texts are accepted as domain names, and as what", "statement": "wdns_str_to_name_case succeeds on a C string exactly if the string is written by the grammar (labels of ordinary characters, backslash-character and backslash-three-decimal-digits escapes up to 255, non-empty labels separated by dots, with no limit of 63 octets per label, an optional final dot, the empty text and the dot for the root) and the wire form is at most 255 octets, and then returns that wire form and its length; wdns_str_to_name does the same with unescaped capitals made small and escaped octets left alone.", "quantifier": "every C string", "why_tests_cant": "an exact description of the accepted language and its meaning ranges over all strings", "anchors": ["wdns/str_to_name.c: wdns_str_to_name", "wdns/str_to_name.c: wdns_str_to_name_case"]}
{"id": "C90", "title": "Exactly why a text is rejected as a domain name", "statement": "For every C string outside the grammar of C89 the outcome is determined: parse error exactly if the first fault is a syntax fault (a dot that ends an empty label, or a backslash followed by a digit that does not begin three digits of a number up to 255), name overflow exactly if the name outgrows 255 octets first, and a read past the terminating NUL exactly if the text ends in a lone backslash; such a cut text is never accepted whatever follows the NUL. The two functions reject in the same cases.", "quantifier": "every C string and every memory content behind it", "why_tests_cant": "the order in which faults are detected and the over-read must be characterised for all strings", "anchors": ["wdns/str_to_name.c: wdns_str_to_name", "wdns/str_to_name.c: wdns_str_to_name_case"]}
{"id": "C91", "title": "Exactly which texts are accepted as rdata, and as which octets", "statement": "For every type with known fields (except OPT) and class, wdns_str_to_rdata succeeds on a C string exactly if the string is read field by field by the grammar of SpecRead.v (names, numbers, addresses, hexadecimal read pairwise with %02hhx, base64 and base32 bit strings, character-strings, type lists, service parameters; fields may be missing at the end, text behind the last field is not looked at), and then returns exactly the octets of the reading; no text has two readings. For types without known fields, exactly if it is in the generic form with matching length modulo 65536; types defined for class IN only give no octets for any text in another class; OPT accepts white space only.", "quantifier": "every C string, type and class", "why_tests_cant": "an exact description of an accepted language and its meaning ranges over all strings", "anchors": ["wdns/str_to_rdata_ubuf.c: _wdns_str_to_rdata_ubuf", "wdns/rdata_to_str.c: wdns_str_to_rdata", "wdns/b64_decode.c: base64_decode_block", "wdns/b32_decode.c: base32_decode", "wdns/str_to_rdata_ubuf.c: str_to_svcparam"]}
{"id": "C92", "title": "Only complete, well-formed rdata texts are accepted", "statement": "A text accepted by wdns_str_to_rdata gives all fields of the type in the presentation format and nothing else. FALSE of the code: refuted. The empty text is accepted for every type; any text behind the last field is ignored; hexadecimal pairs may be a sign and a digit, a digit and any character; base64 text may consist of other characters; any one character is an empty hash; in a class other than IN any text at all is accepted for A and the other IN types; a trailing comma in alpn gives malformed rdata.", "quantifier": "every C string, type and class", "why_tests_cant": "requires a characterisation of all accepted texts; refuted with witnesses and universally", "anchors": ["wdns/str_to_rdata_ubuf.c: _wdns_str_to_rdata_ubuf"]}
{"id": "C93", "title": "Exactly which packets are accepted", "statement": "For every packet (with nothing but its octets readable), wdns_parse_message succeeds exactly if the packet follows the RFC 1035 grammar extended by one deviation: a SvcParam announcing 65533, 65534 or 65535 octets counts as 1, 2 or 3 octets long; the result is then the content of that message, which is unique. Without such SvcParams the grammar is the RFC grammar.", "quantifier": "every byte string", "why_tests_cant": "An exact description of an accepted language quantifies over all byte strings in both directions.", "anchors": ["wdns/parse_message.c:wdns_parse_message", "wdns/parse_rdata.c:_wdns_parse_rdata", "wdns/parse_rdata.c:svcparam_key_validate"]}
{"id": "C94", "title": "Exactly which packets make the parser hang", "statement": "wdns_parse_message fails to return exactly on packets in which, all entries before it being well-formed, an SVCB or HTTPS record is reached whose SvcParams lead to one that announces 65532 octets and passes the check for its key; and a call that has not returned within 65536 SvcParam iterations of a record never returns.", "quantifier": "every byte string", "why_tests_cant": "Non-termination is not observable by a finite test, and its exact extent ranges over all inputs.", "anchors": ["wdns/parse_rdata.c:_wdns_parse_rdata"]}
{"id": "C95", "title": "Exactly which packets make the parser read outside", "statement": "wdns_parse_message reads outside the packet exactly on packets in which, all entries before it being well-formed, an owner name or rdata name is reached whose decoding runs into the end of the packet (or to a compression pointer cut in half by it), or an alpn SvcParam that announces 65532 or more octets and whose ids lead past the end. There is no other undefined behaviour, and on all packets of neither kind (C94, C95) the call returns.", "quantifier": "every byte string", "why_tests_cant": "Over-reads are silent; their exact extent ranges over all inputs.", "anchors": ["wdns/parse_rdata.c:_wdns_parse_rdata", "wdns/unpack_name.c:wdns_unpack_name", "wdns/parse_rdata.c:svcparam_key_validate"]}
{"id": "C96", "title": "Reading rdata text: the undefined behaviour, exactly", "statement": "For every text, type and class, wdns_str_to_rdata reads behind its text or behind its base64 table, or uses a variable that was never set, exactly on the texts that can be read up to: a name ending in a lone backslash; hexadecimal text followed by two or more characters of white space; base64 text with a '{'; a salt that is only white space from an even column on; an ech parameter with a '{'; or, for types without a known format, backslash-# with nothing but white space behind it. On every other text it returns.", "quantifier": "all texts without NUL, all types, all classes", "why_tests_cant": "Both directions are over all texts: no text outside the list faults, and every text of the list does; the faults are also invisible to a test without instrumentation.", "anchors": ["wdns/str_to_rdata_ubuf.c:_wdns_str_to_rdata_ubuf", "wdns/str_to_rdata_ubuf.c:str_to_svcparam", "libmy/b64_decode.c:base64_decode_value", "wdns/str_to_name.c:wdns_str_to_name_case"]}
{"id": "C97", "title": "Reading rdata text: the error codes, exactly", "statement": "wdns_str_to_rdata reports a name overflow exactly when the text can be read up to a name that does not fit into 255 octets, a parse error exactly when the text is neither readable (C91) nor of C96 nor has such a name, the general failure exactly for OPT with a non-empty text, and never any other code; so every text of every type and class has exactly one of the characterised results.", "quantifier": "all texts without NUL, all types, all classes", "why_tests_cant": "Completeness of the classification is a statement about all texts; the order in which several defects of one text are noticed decides the code.", "anchors": ["wdns/str_to_rdata_ubuf.c:_wdns_str_to_rdata_ubuf", "wdns/rdata_to_str.c:wdns_str_to_rdata", "wdns/str_to_name.c:wdns_str_to_name_case"]}
{"id": "C98", "title": "Exactly which accepted packets cannot be printed", "statement": "For every packet wdns_parse_message accepts, wdns_message_to_str, wdns_rr_to_str and (outside the question section) wdns_rrset_to_str succeed exactly if no rdata to be printed stops inside a domain name, and otherwise read the octet behind that rdata; such rdata is only delivered for records whose rdata, names written out, is longer than 65535 octets, so every accepted packet of up to 65000 octets can be printed, whatever its SvcParams look like.", "quantifier": "every packet accepted by the parser, every RR and RRset of it, every section number", "why_tests_cant": "An exact characterisation over all packets, including those that evade the parser's SvcParam checks.", "anchors": ["wdns/parse_message.c:wdns_parse_message", "wdns/message_to_str.c:wdns_message_to_str", "wdns/rr_to_ubuf.c:_wdns_rr_to_ubuf", "wdns/rrset_to_ubuf.c:_wdns_rrset_to_ubuf", "wdns/rdata_to_ubuf.c:_wdns_rdata_to_ubuf"]}
{"id": "C99", "title": "Accepted packets of up to 65000 octets can be downcased and read back", "statement": "For every packet of up to 65000 octets that wdns_parse_message accepts, the rdata of every record consists of the fields of its type (SvcParams: any octets), wdns_downcase_rdata and wdns_downcase_rrset stay within the rdata, and its text is read back by wdns_str_to_rdata as the same octets (types of C48).", "quantifier": "every accepted packet of up to 65000 octets, every RR and RRset of it", "why_tests_cant": "Composition of several functions over all packets.", "anchors": ["wdns/parse_message.c:wdns_parse_message", "wdns/downcase_rdata.c:wdns_downcase_rdata", "wdns/downcase_rrset.c:wdns_downcase_rrset", "wdns/rdata_to_str.c:wdns_rdata_to_str", "wdns/str_to_rdata_ubuf.c:_wdns_str_to_rdata_ubuf"]}
{"id": "C100", "title": "Exact behaviour of wdns_file_load_names for every file", "statement": "For every file content, wdns_file_load_names reads it in uniquely determined turns (a line with its newline, 1279 octets of a line that does not fit, or the unterminated rest). Turns starting with newline, blank or '#' are skipped; every other turn's text (up to newline or first NUL) is read as a name. The callback gets exactly the lower-cased wire forms of the texts in order up to the first text that is not a name, whose error code is returned; otherwise success. The only memory faults are a turn starting with NUL (the octet before the line buffer is read) and a text ending in a lone backslash (the reader runs on behind the text; never another name is delivered).", "quantifier": "every octet sequence as file content, with no bound on size, lines or line length", "why_tests_cant": "Files are unbounded, and the behaviour depends on the positions of newlines and NULs relative to the 1280-octet buffer and on the residue of earlier lines in it.", "anchors": ["wdns/file_load_names.c:wdns_file_load_names", "wdns/str_to_name.c:wdns_str_to_name"]}
{"id": "C101", "title": "The return code of wdns_parse_message on every packet", "statement": "wdns_parse_message returns a code other than success exactly for the packets that are wrong at a first place in the way that belongs to that code: res_len for fewer than 12 octets; at a name invalid_length_octet, invalid_compression_pointer, name_overflow or out_of_bounds; parse_error for a truncated fixed part of an entry; overflow for an rdlength beyond the packet; parse_error or out_of_bounds for rdata whose fields do not fill it, according to the kind of field. A packet is wrong in at most one way, and every packet is either accepted, wrong, one on which the call never returns, or one on which it reads outside the packet, these being mutually exclusive. After a rejection the message structure holds no RRs, RRsets or EDNS data, and the header's identifier and flags.", "quantifier": "every packet (every octet sequence, of any length)", "why_tests_cant": "The code depends on the first of unboundedly many places in the packet at which any of the nested grammars (sections, records, names with compression, 40 rdata formats, SvcParams) breaks; tests sample a few malformed packets.", "anchors": ["wdns/parse_message.c:wdns_parse_message", "wdns/parse_message_rr.c:_wdns_parse_message_rr", "wdns/parse_rdata.c:_wdns_parse_rdata", "wdns/unpack_name.c:wdns_unpack_name"]}
{"id": "C102", "title": "Exactly which rdata survives printing and reading back", "statement": "For every supported type except OPT and every well-formed rdata, wdns_rdata_to_str succeeds, and wdns_str_to_rdata of the text gives the original octets if and only if: an RRSIG does not cover type 0; type bit maps are canonical (ascending windows, no trailing zero octets); an A6 prefix length of 0 comes without and 128 with a prefix name; in SvcParams the mandatory, ipv4hint and ipv6hint lists are not empty, mandatory does not name key 65535, an alpn list does not end in an empty id, and ech has 1 to 189 octets. Rdata of unknown types always survives; rdata of IN-only types in another class survives only if empty.", "quantifier": "all types, classes and well-formed rdata below 65536 octets", "why_tests_cant": "the if-and-only-if ranges over all rdata; tests show single survivors or failures, not that the list of failing families is complete and that each condition is necessary for every value", "anchors": ["wdns/rdata_to_ubuf.c:_wdns_rdata_to_ubuf", "wdns/rdata_to_ubuf.c:svcparam_to_str", "wdns/str_to_rdata_ubuf.c:_wdns_str_to_rdata_ubuf"]}
{"id": "C103", "title": "Exact text for every rdata octet string", "statement": "For every type, every class and every rdata octet string, well-formed or not, wdns_rdata_to_str returns exactly the text of one grammar: the complete fields in order, printing stops where the octets end at a field boundary, surplus octets are ignored, and the first place where the rdata is wrong ends the text with ' ### PARSE ERROR ###' (octets missing, A6 prefix over 128, reserved SvcParam key), '#3' (bad label), '#8' (name too long) or '#12' (bad value of a SvcParam or EDNS option). The grammar yields at most one text, and it yields one exactly when the rdata does not stop inside a name.", "quantifier": "all octet strings below 65536 octets, all 16-bit types and classes", "why_tests_cant": "The malformed rdata are unbounded in number, length and place of the fault; tests see a handful of them.", "anchors": ["wdns/rdata_to_ubuf.c:_wdns_rdata_to_ubuf", "wdns/rdata_to_str.c:wdns_rdata_to_str", "wdns/edns_options.c"]}
{"id": "C104", "title": "Malformed rdata: what is printed", "statement": "wdns_rdata_to_str ignores any octets behind the last field of rdata whose fields are all of definite extent; and when the octets left are too few for a field, it prints the fields before it, each followed by a blank, and then ' ### PARSE ERROR ###'. For A records: nothing for no octets, the error for one to three octets, the address of the first four octets otherwise.", "quantifier": "all field values, surplus octets and cut points, all types whose fields are printed with blanks", "why_tests_cant": "Ranges over all field values and all continuations behind them.", "anchors": ["wdns/rdata_to_ubuf.c:_wdns_rdata_to_ubuf", "wdns/rdata_to_str.c:wdns_rdata_to_str"]}
{"id": "C105", "title": "Exact text of RRs and RRsets with any rdata", "statement": "For every RR with a well-formed owner name and any rdata octets, wdns_rr_to_str returns exactly one line: owner name, TTL, class, type and the text of the rdata as in C103 (with its error, if any; without the blank if the rdata has no text), ended by a newline; for the question section the line without TTL and rdata behind a ';'. wdns_rrset_to_str returns these lines for the rdatas of the RRset in order. A text exists exactly if no rdata stops inside a name.", "quantifier": "all owner names, types, classes, TTLs, all rdata octet strings below 65536 octets, all RRsets", "why_tests_cant": "Ranges over all rdata octet strings, well-formed or not, and over lists of them of any length.", "anchors": ["wdns/rr_to_ubuf.c:_wdns_rr_to_ubuf", "wdns/rr_to_str.c:wdns_rr_to_str", "wdns/rrset_to_ubuf.c:_wdns_rrset_to_ubuf", "wdns/rrset_to_str.c:wdns_rrset_to_str"]}
{"id": "C106", "title": "Exact text of every message, faulty EDNS options included", "statement": "For every message structure whose owner names are well-formed, and hence for every packet that wdns_parse_message accepts, wdns_message_to_str returns exactly: two header lines, the OPT pseudo section with one line per line of the options' text (a faulty option ends it with its error), and the four sections with the lines of C105. For accepted packets of up to 65000 octets there is always such a text. No condition on the rdata, the SvcParams or the options is needed.", "quantifier": "all message structures with well-formed owner names; all accepted packets", "why_tests_cant": "Ranges over all packets the parser accepts, including those with malformed options.", "anchors": ["wdns/message_to_str.c:wdns_message_to_str", "wdns/rdata_to_ubuf.c:_wdns_rdata_to_ubuf", "wdns/edns_options.c"]}
{"id": "C107", "title": "Text and reversal of arbitrary octets taken as a name", "statement": "Any octets (at most 255) given as a name are labels followed by a zero octet and anything, by nothing, or by a length octet announcing more octets than are there. wdns_domain_to_str gives the text of the labels in the first case, whatever the lengths of the labels (also above 63), and the octets they take; in the other two cases it reads exactly one octet behind the given ones, returns more octets than it was given, and prints the cut label as far as it goes. wdns_reverse_name gives the reversed labels behind as many zero octets as there were surplus octets in the first case, fails with out_of_bounds for a cut label, and writes in front of the output buffer when the labels go up to the very end.", "quantifier": "all octet strings up to 255 octets, all octets behind them", "why_tests_cant": "malformed names are unbounded in kind; over-reads and under-writes by one octet are invisible without exact memory bounds", "anchors": ["wdns/domain_to_str.c:wdns_domain_to_str", "wdns/reverse_name.c:wdns_reverse_name", "wdns/deserialize_rrset.c:wdns_deserialize_rrset"]}
{"id": "C108", "title": "Counting and comparing the labels of arbitrary octets", "statement": "For any octets and any memory behind them wdns_count_labels succeeds, with the number of labels, exactly when labels of 1..63 octets inside the given length are followed by a zero octet (which may be the octet behind the given ones); it fails with invalid_length_octet exactly when the first offending length octet is above 63, with name_overflow exactly when it is 1..63 and its label runs over the end; it reads outside memory exactly when the labels fill the given octets and no memory is behind them. wdns_is_subdomain succeeds exactly when both arguments can be counted, and then says whether the second's labels are a proper suffix of the first's; otherwise the result is parse_error or the over-read of the first argument that cannot be counted.", "quantifier": "all pairs of octet strings up to 255 octets, all memory behind them", "why_tests_cant": "pairs of arbitrary octet strings; the stray read happens at one exact boundary", "anchors": ["wdns/count_labels.c:wdns_count_labels", "wdns/is_subdomain.c:wdns_is_subdomain"]}
{"id": "C109", "title": "The text of any deserialised RRset", "statement": "For every RRset that wdns_deserialize_rrset can produce (it does not look at names or rdata), wdns_rrset_to_str gives exactly the specified text - owner labels of any length, each rdata with its parse errors - and reads outside its memory exactly when there is an rdata to print and the owner name has no end or some rdata stops inside a name.", "quantifier": "all serialised RRsets, both byte orders, every non-question section", "why_tests_cant": "arbitrary stored octets as names and rdata; the condition for the over-read is an exact characterisation", "anchors": ["wdns/deserialize_rrset.c:wdns_deserialize_rrset", "wdns/rrset_to_str.c:wdns_rrset_to_str", "wdns/rrset_to_ubuf.c:_wdns_rrset_to_ubuf", "wdns/rr_to_ubuf.c:_wdns_rr_to_ubuf"]}
{"id": "C110", "title": "Exact effect of case folding on any rdata", "statement": "For each RFC 4034 type and any rdata octets, well-formed or not: wdns_downcase_rdata folds, in each name field, the octets up to the first zero octet, skips the other fields, and returns success or parse_error exactly as the specification says (short fields, surplus octets, a name without a zero octet, an A6 prefix length taken as an octet count); whatever the return code the resulting octets are exactly those of the specification and memory behind the rdata is untouched. It reads outside the rdata exactly when a name without a zero octet stands in front of another name field. wdns_downcase_rrset folds the owner name and the rdatas up to and including the first one refused.", "quantifier": "all rdata octets, all RFC 4034 types, all classes, all RRsets", "why_tests_cant": "malformed rdata is unbounded; the wrapped counter and the fall through between fields only show on exact boundaries", "anchors": ["wdns/downcase_rdata.c:wdns_downcase_rdata", "wdns/downcase_rrset.c:wdns_downcase_rrset"]}
{"id": "C111", "title": "The hex driver of the test programs", "statement": "A test program run with one argument hands the tested function exactly the octets spelt by the argument (two hexadecimal digits of either case per octet, at least one octet); if the load step fails it writes 'Error: load function failed' and exits with 1, otherwise it writes what the test step writes and exits with 0. Any other argument, and any other number of arguments, gives the stated message on stderr, exit status 1, and (only for a bad digit in a text of even length) one line on stdout; no argument spells two octet strings.", "quantifier": "all argument lists, all load and test steps", "why_tests_cant": "all strings of all lengths, valid or not; all load/test functions", "anchors": ["examples/wdns-hex-driver.c:main", "examples/wdns-hex-driver.c:hex_decode", "examples/wdns-hex-driver.c:hex_to_int"]}
{"id": "C112", "title": "wdns-test-print-message from argument to output", "statement": "Run on the hexadecimal text of any octets, wdns-test-print-message exits with 0 having written exactly the specified text of the message if the octets are a message the specification accepts; refuses with exit status 1 exactly if they are not (and parsing ends and stays inside); does not end exactly on the packets of C94; reads outside its memory exactly on the packets of C95 and of C98. These are all cases; a message of up to 65000 octets is always printed.", "quantifier": "all octet strings in all hexadecimal spellings", "why_tests_cant": "end-to-end behaviour for every packet, including those that hang or over-read", "anchors": ["examples/wdns-test-print-message.c:testfunc", "examples/wdns-test-print-message.c:loadfunc", "examples/wdns-hex-driver.c:main", "wdns/print_message.c:wdns_print_message"]}
{"id": "C113", "title": "wdns-test-deserialize-rrset from argument to output", "statement": "Run on the hexadecimal text of any octets, wdns-test-deserialize-rrset prints exactly the specified text of the RRset whose serialised form the octets begin with, and exits with 0; refuses exactly if they begin with none; reads outside its memory exactly if there is a line to print and the owner name has no end or some rdata stops inside a name; it always ends.", "quantifier": "all octet strings, both byte orders", "why_tests_cant": "every buffer, valid or not", "anchors": ["examples/wdns-test-deserialize-rrset.c:testfunc", "examples/wdns-test-deserialize-rrset.c:loadfunc", "wdns/deserialize_rrset.c:wdns_deserialize_rrset", "wdns/print_rrset.c:wdns_print_rrset"]}
{"id": "C114", "title": "wdns-test-downcase-rrset from argument to output", "statement": "As C113, but the RRset is printed in lower case: its owner name, and the names in the rdata of the RFC 4034 types, nothing else. If an rdata is not accepted by the folding, nothing is printed and the exit status is still 0. It reads outside its memory exactly if an rdata has a name without an end in front of another name, or the lower-case RRset cannot be printed (C113).", "quantifier": "all octet strings, both byte orders", "why_tests_cant": "every RRset with any octets in its rdatas", "anchors": ["examples/wdns-test-downcase-rrset.c:testfunc", "wdns/downcase_rrset.c:wdns_downcase_rrset"]}
{"id": "C115", "title": "wdns-test-serialize-rrset and the way back", "statement": "Run on the hexadecimal text of any message the parser accepts, wdns-test-serialize-rrset writes one line of small hexadecimal digits for each RRset of the answer, authority and additional sections, in order: its serialised form; it never fails on an accepted message, and refuses, hangs or over-reads exactly when the parser does. Each line, given to wdns-test-deserialize-rrset, prints exactly the text of the RRset it was made from.", "quantifier": "all octet strings, all RRsets, both byte orders", "why_tests_cant": "composition of parser, serialiser, hex output, hex input, deserialiser and printer on all messages", "anchors": ["examples/wdns-test-serialize-rrset.c:testfunc", "examples/wdns-test-serialize-rrset.c:print_data", "wdns/serialize_rrset.c:wdns_serialize_rrset"]}
{"id": "C116", "title": "wdns-dump-file", "statement": "wdns-dump-file prints the text of the message in a file, an empty line behind it, and exits with 0, for every file of fewer than 4096 octets with a message; it exits with 1 without output if such a file holds no message (parsing ends and stays inside); files from exactly 4096 octets on are refused with a message whatever they contain, as are files that cannot be opened or read. A file that ends inside a name is completed by the zeros behind it in the buffer and is printed although it is no message.", "quantifier": "all files, paths and argument lists", "why_tests_cant": "every file content; boundary at 4096; unread memory behind the data", "anchors": ["examples/wdns-dump-file.c:main", "examples/wdns-dump-file.c:process_data"]}
{"id": "C117", "title": "wdns-dump-pcap on proper frames", "statement": "For every Ethernet frame with an IPv4 header (any options) whose total length covers a UDP header and a DNS datagram, whatever was captured behind it: the message in the datagram is printed and not written to the output file; a datagram of at least 12 octets that is no message is written to the output file and not printed; shorter ones and frames of another type are passed over. With nothing captured behind, the handler hangs or over-reads exactly when the parser does. Over a capture the texts come in order and the packets written are the ones flagged, in order and unchanged.", "quantifier": "all frames, header lengths, datagrams, captures", "why_tests_cant": "all header lengths and contents, trailing octets, sequences of packets", "anchors": ["examples/wdns-dump-pcap.c:packet_handler", "examples/wdns-dump-pcap.c:main"]}
{"id": "C118", "title": "wdns-dump-pcap stays inside the captured octets", "statement": "The packet handler reads no octet outside the captured ones. Proved for proper frames whose datagram does not make the parser over-read; false for a frame that ends behind the type 0x0800 and for an IP header whose total length is below its header length, where the remaining length wraps to almost 2^32.", "quantifier": "all frames", "why_tests_cant": "all damaged headers; wrap-around of an unsigned length", "anchors": ["examples/wdns-dump-pcap.c:packet_handler"]}
{"id": "C119", "title": "Memory behind the packet", "statement": "What lies in memory behind a packet changes the result of wdns_parse_message (return code, parsed message, or never returning) for exactly the packets of C95, and for no other. The reads outside the packet never go further than 65535 octets: with that many readable octets behind, there is no undefined behaviour for any packet; with any smaller number there is a packet for which there is. A packet of C94 makes the call hang whatever lies behind it, and with it wdns-dump-file and wdns-dump-pcap.", "quantifier": "every packet, every content and amount of memory behind it", "why_tests_cant": "the unread memory is arbitrary and unbounded; over-reads are silent in tests", "anchors": ["wdns/parse_message.c:wdns_parse_message", "wdns/parse_rdata.c:svcparam_key_validate", "examples/wdns-dump-file.c:process_data"]}
{"id": "C120", "title": "A fileset reload", "statement": "When my_fileset_reload sees a set file whose inode or mtime differs from the last one and can open it, and every listed file that exists is listed once, then afterwards the set holds exactly the listed files that exist, ordered as octet strings; a file that was held before and is still listed keeps its pointer and is neither loaded nor unloaded; the load function is called once for each other file, in the order of the list, and after that the unload function once for each file no longer listed, in order, with the pointer that load returned. Otherwise (no stat, nothing changed, no open) nothing is called and what is held stays. my_fileset_get returns the i-th name and pointer in order and fails behind the end.", "quantifier": "every set reached by any history of reloads, every set file, every answer of the file system, every load function", "why_tests_cant": "any sequence of set files and file-system states", "anchors": ["libmy/my_fileset.c:my_fileset_reload", "libmy/my_fileset.c:my_fileset_get", "libmy/my_fileset.c:fetch_entry"]}
{"id": "C121", "title": "Every loaded pointer is unloaded exactly once", "statement": "Over any history of reloads of a fileset (no file listed twice), what the load function returned is at every moment either held or has been unloaded, exactly once; also inside a call nothing is unloaded that was not loaded and not yet unloaded; after my_fileset_destroy everything loaded has been unloaded exactly once. No file is held twice and the entries are in order (the precondition of the binary search).", "quantifier": "every history of reloads, every file-system state, every load function", "why_tests_cant": "histories are unbounded", "anchors": ["libmy/my_fileset.c:my_fileset_reload", "libmy/my_fileset.c:my_fileset_destroy"]}
{"id": "C122", "title": "A fileset follows its list", "statement": "After every reload the files held are those listed in the set file that exist, whatever the set file says and whatever failed before; no pointer is unloaded twice.", "quantifier": "every set file including repeated lines, every failure of fopen", "why_tests_cant": "needs a failing fopen at a given moment, or an unusual list", "anchors": ["libmy/my_fileset.c:my_fileset_reload", "libmy/my_fileset.c:fs_reload_needed"]}
{"id": "C123", "title": "Linked lists are sequences", "statement": "After any sequence of ISC_LIST_INIT, _PREPEND, _APPEND, _UNLINK, _INSERTBEFORE, _INSERTAFTER and _APPENDLIST on any number of lists, each used as intended (an element added is in no list, an element named is in the list named, two different lists joined), no invalid address was written; every list read forwards from ISC_LIST_HEAD with ISC_LIST_NEXT is exactly the mathematical sequence these operations give, and read backwards from ISC_LIST_TAIL its reverse; ISC_LIST_EMPTY tells whether it is empty; ISC_LINK_LINKED is false for exactly the elements in no list.", "quantifier": "every legal history of operations, every number of lists and elements", "why_tests_cant": "pointer structures of any size after any history", "anchors": ["libmy/list.h:ISC_LIST_PREPEND", "libmy/list.h:ISC_LIST_APPEND", "libmy/list.h:ISC_LIST_UNLINK", "libmy/list.h:ISC_LIST_INSERTBEFORE", "libmy/list.h:ISC_LIST_INSERTAFTER", "libmy/list.h:ISC_LIST_APPENDLIST"]}
{"id": "C124", "title": "Misused lists are not noticed", "statement": "The list macros do not check the state of a link: after any legal history, ISC_LIST_UNLINK of an element that is in no list writes through an invalid address; ISC_LIST_APPEND of an element that is in the list already succeeds, after which the elements that were behind it cannot be reached from the head and walking back from the tail never ends.", "quantifier": "every legal history, every list, every element", "why_tests_cant": "the corruption shows only later and elsewhere", "anchors": ["libmy/list.h:ISC_LINK_INSIST", "libmy/list.h:ISC_LIST_UNLINK", "libmy/list.h:ISC_LIST_APPEND"]}
{"id": "C125", "title": "The hash functions compute lookup3", "statement": "my_hashword, my_hashword2, my_hashlittle, my_hashlittle2 and my_hashbig return, for every key, length and seeds, Jenkins' lookup3 function of the key: the key as 32-bit words (little-endian, for my_hashbig big-endian), zeros behind its end, all blocks of three words but the last mixed in, the last one through final; a key of length 0 gives the start value. (Little-endian machine.)", "quantifier": "every key of every length, every address of the key, every seed, every content of the memory behind it", "why_tests_cant": "three code paths by address, thirteen cases of the last block, keys of any length", "anchors": ["libmy/lookup3.c:my_hashword", "libmy/lookup3.c:my_hashword2", "libmy/lookup3.c:my_hashlittle", "libmy/lookup3.c:my_hashlittle2", "libmy/lookup3.c:my_hashbig"]}
{"id": "C126", "title": "The hash functions agree", "statement": "The hash of a key depends neither on its address (aligned to 4, to 2 or not) nor on the octets behind it. With second seed 0 the first value of the two-valued functions is the value of the others. The hash of an array of words is the hash of its octets, least significant first by my_hashlittle and most significant first by my_hashbig.", "quantifier": "every key, address, seed, memory behind the key", "why_tests_cant": "equal results for all keys on different code paths", "anchors": ["libmy/lookup3.c:my_hashlittle", "libmy/lookup3.c:my_hashlittle2", "libmy/lookup3.c:my_hashbig"]}
{"id": "C127", "title": "Reads behind the key", "statement": "my_hashlittle of a key at an address that is a multiple of 4 reads up to the end of the last group of 4 octets, also octets behind the key: it is undefined behaviour exactly when these are not readable. With three readable octets behind the key, or at any other address, or when the length is a multiple of 4, nothing outside is read.", "quantifier": "every key, address and amount of memory behind the key", "why_tests_cant": "silent over-reads; every length and address", "anchors": ["libmy/lookup3.c:my_hashlittle"]}
{"id": "C128", "title": "Mixing is reversible, so collisions can be made", "statement": "The mixing of a block into the state loses nothing: different states stay different. Therefore, whatever the seeds and whatever the first block of two keys is, for every last block of the one there is a last block of the other such that both hash values of my_hashword2 are the same: the functions must not be used on keys an adversary chooses.", "quantifier": "every state; every pair of first blocks, every last block, every pair of seeds", "why_tests_cant": "for all pairs of states", "anchors": ["libmy/lookup3.c:mix", "libmy/lookup3.c:my_hashword2"]}
{"id": "C129", "title": "A spool directory hands out every file once", "statement": "For one consumer, after any history of files put into incoming/, of other entries appearing there, of anything happening in active/ and of calls of spooldir_next: no file was returned twice, and every file put there was returned or is still in incoming/, never both. At every moment inside a call (also if the process dies there) a file not yet returned is in incoming/ or in active/. A file that readdir shows makes spooldir_next return a file unless a directory is in the way.", "quantifier": "every history of arrivals and calls, every order in which readdir returns names, every moment inside a call", "why_tests_cant": "an exactly-once property over unbounded histories and crash points", "anchors": ["libmy/spooldir.c:spooldir_next"]}
{"id": "C130", "title": "What spooldir_next does", "statement": "spooldir_next moves the first name of incoming/ that does not begin with a dot and is a regular file to active/, where it replaces a file of this name, and returns its path there; otherwise, or when a directory of this name is in active/, it returns NULL and nothing changes.", "quantifier": "every content of both directories, every order of readdir, names that have vanished included", "why_tests_cant": "all directory contents", "anchors": ["libmy/spooldir.c:spooldir_next"]}
{"id": "C131", "title": "Spool files survive a second consumer and a restart", "statement": "A file that spooldir_next returned stays in active/ when another process uses the directory, and a file moved to active/ before a crash is returned after the restart. (Refuted: the check for an existing destination, unlink and rename are three system calls; and nothing ever reads active/.)", "quantifier": "every interleaving of two processes' system calls, every crash point", "why_tests_cant": "needs one particular interleaving, or a crash at one particular point", "anchors": ["libmy/spooldir.c:spooldir_next"]}
{"id": "C132", "title": "Thread numbers are distinct", "statement": "Threads that have called my_threadnum_register have different my_threadnum values, which are 0, 1, ..., n-1 and do not change; every thread can always complete its registration; a thread that has not begun has the number 0.", "quantifier": "every number of threads and every interleaving of their steps", "why_tests_cant": "holds for every schedule", "anchors": ["libmy/threadnum.c:my_threadnum_register", "libmy/threadnum.c:my_threadnum"]}
{"id": "C133", "title": "getenv_int reads C integers", "statement": "getenv_int returns true exactly when the variable is set and is empty or a decimal, octal or hexadecimal C constant after white space and at most one sign; the value is then this integer as an unsigned long (the largest one if it is too large). Unset: false and the value is left.", "quantifier": "every value of the variable", "why_tests_cant": "equivalence over all strings", "anchors": ["libmy/getenv_int.h:getenv_int"]}
{"id": "C134", "title": "getenv_int accepts only numbers it can represent", "statement": "getenv_int returns true only for a variable that is a number, and the value is that number; when it returns false the value is left. (Refuted: the empty string gives 0, too large numbers give 2^64-1, negative ones a large number, and a false return has stored something.)", "quantifier": "every value of the variable", "why_tests_cant": "a claim about all strings", "anchors": ["libmy/getenv_int.h:getenv_int"]}
{"id": "C135", "title": "A zone file is read completely and in order", "statement": "zonefile_init_fname succeeds when the first thing that is not a comment is an SOA record and gives NULL when it is another record or an error. The calls of zonefile_read then return the SOA record and all further records in the order of the file, the status of an error where it stands, NULL for another SOA record, and at the end NULL for ever; zonefile_get_count is the number of records returned (at least 1), zonefile_get_domain the owner of the SOA. A name ending in .gz is opened through zcat.", "quantifier": "every sequence of results of the record parser, every number of calls, with and without a newline at the end of the file", "why_tests_cant": "all files and all numbers of calls", "anchors": ["libmy/zonefile.c:zonefile_init_fname", "libmy/zonefile.c:zonefile_read", "libmy/zonefile.c:zonefile_get_count", "libmy/zonefile.c:zonefile_get_domain"]}
{"id": "C136", "title": "Opening a zone file returns", "statement": "zonefile_init_fname returns for every file. (Refuted: for a file with no records it never does, because read_soa does not look for the end of the file, where the parser keeps returning LDNS_STATUS_SYNTAX_EMPTY.)", "quantifier": "every file", "why_tests_cant": "termination", "anchors": ["libmy/zonefile.c:read_soa"]}
{"id": "C137", "title": "The serial of an open zone file can be read", "statement": "zonefile_get_serial returns the SOA serial as long as the zone file is open. (Refuted: zonefile_read hands the SOA record out and the serial is gone.)", "quantifier": "every zone file and every history of calls", "why_tests_cant": "depends on the history of calls", "anchors": ["libmy/zonefile.c:zonefile_get_serial", "libmy/zonefile.c:zonefile_read"]}
{"id": "C138", "title": "NULL from zonefile_read means the end", "statement": "After zonefile_read returned NULL with LDNS_STATUS_OK it returns no more records. (Refuted: a second SOA record gives NULL too and the next call reads on behind it.)", "quantifier": "every zone file and every history of calls", "why_tests_cant": "depends on the history of calls", "anchors": ["libmy/zonefile.c:zonefile_read"]}
{"id": "C139", "title": "Splaying keeps the elements", "statement": "Whatever the comparison function answers, splaying a non-empty tree ends, follows no NULL pointer and leaves the elements in the same order; SPLAY_FIND, SPLAY_MIN and SPLAY_MAX change no element, SPLAY_INSERT adds its argument at one place or changes nothing.", "quantifier": "every tree, every comparison function (also an inconsistent one)", "why_tests_cant": "all tree shapes and comparison functions", "anchors": ["libmy/tree.h:SPLAY_GENERATE"]}
{"id": "C140", "title": "A splay tree is an ordered set", "statement": "With a consistent comparison function, after any history of operations the elements are in strictly increasing order; SPLAY_FIND returns the equal element exactly when there is one; SPLAY_INSERT puts an element at its place and returns NULL, or returns the equal element and changes nothing; SPLAY_REMOVE removes exactly the equal element; SPLAY_MIN/MAX return the first/last element, SPLAY_NEXT the one behind; SPLAY_FOREACH visits all in order.", "quantifier": "every element type, consistent comparison function, tree and history", "why_tests_cant": "histories without bound", "anchors": ["libmy/tree.h:SPLAY_INSERT", "libmy/tree.h:SPLAY_REMOVE", "libmy/tree.h:SPLAY_FIND", "libmy/tree.h:SPLAY_NEXT", "libmy/tree.h:SPLAY_FOREACH"]}
{"id": "C141", "title": "SPLAY_REMOVE returns the element it removed", "statement": "SPLAY_REMOVE returns the element that was taken out of the tree. (Refuted: it returns its argument, also when this is another element with the same key; the removed one is lost.)", "quantifier": "every tree and argument", "why_tests_cant": "tests remove the element itself", "anchors": ["libmy/tree.h:SPLAY_REMOVE"]}
{"id": "C142", "title": "Red-black trees stay balanced", "statement": "Whatever the comparison function answers, inserting into and removing from a red-black tree ends, follows no NULL pointer and leaves a red-black tree (no red node has a red child, all ways down meet the same number of black nodes, the root is black) with exactly one element more or less in the same order; so no way down is longer than twice log2 of the size plus one.", "quantifier": "every tree that insertions and removals make, every comparison function, every node removed", "why_tests_cant": "all tree shapes and histories", "anchors": ["libmy/tree.h:RB_INSERT_COLOR", "libmy/tree.h:RB_REMOVE_COLOR", "libmy/tree.h:RB_INSERT", "libmy/tree.h:RB_REMOVE"]}
{"id": "C143", "title": "A red-black tree is an ordered set", "statement": "With a consistent comparison function, after any history the elements are in strictly increasing order; RB_INSERT puts an element at its place and returns NULL, or returns the equal element and changes nothing; RB_FIND returns the equal element exactly when there is one; RB_NFIND the first element that is not less.", "quantifier": "every element type, consistent comparison function, tree and history", "why_tests_cant": "histories without bound", "anchors": ["libmy/tree.h:RB_INSERT", "libmy/tree.h:RB_FIND", "libmy/tree.h:RB_NFIND"]}
{"id": "C144", "title": "RB_FOREACH visits the elements in order", "statement": "RB_MIN and RB_MAX return the first and last element; RB_NEXT and RB_PREV of a node return the element behind and before it in the order, NULL at the ends.", "quantifier": "every tree and node", "why_tests_cant": "all tree shapes", "anchors": ["libmy/tree.h:RB_MINMAX", "libmy/tree.h:RB_NEXT", "libmy/tree.h:RB_PREV"]}
{"id": "C145", "title": "Message object histories", "statement": "Any sequence of wdns_parse_message, wdns_print_message, and - on the RRs, RRsets and RRset arrays inside the messages - wdns_print_rr, wdns_print_rrset, wdns_print_rrset_array, wdns_serialize_rrset, wdns_sort_rrset, wdns_downcase_rrset, and wdns_clear_message on any number of wdns_message_t objects, used according to the API's rules, runs without double free, use after free or access outside a block, writes exactly the texts and octets of the abstract messages (sorting and lower-casing an RRset changes that RRset and nothing else: not the RRs, not other RRsets, not other messages), and leaves live exactly the blocks of the messages not yet cleared.", "quantifier": "every number of variables, every sequence of operations, every packet", "why_tests_cant": "histories without bound over all packets", "anchors": ["wdns/parse_message.c:wdns_parse_message", "wdns/clear.c:wdns_clear_message", "wdns/sort_rrset.c:wdns_sort_rrset", "wdns/downcase_rrset.c:wdns_downcase_rrset", "wdns/serialize_rrset.c:wdns_serialize_rrset", "wdns/print_message.c:wdns_print_message"]}
{"id": "C146", "title": "Words that name a type or class are read exactly", "statement": "For every C string, wdns_str_to_rrtype returns n exactly when the string is, in any letter case, the mnemonic of n or the word TYPE followed by an integer (as strtol takes it, entirely consumed) equal to n in 0..65535, and returns 0 for all other strings; wdns_str_to_rrclass is the same with the class mnemonics and CLASS. No string names two codes.", "quantifier": "every C string of any length, every number", "why_tests_cant": "all strings, including signs, white space, leading zeros and numbers beyond 64 bits", "anchors": ["wdns/gen_rrtype_to_str:wdns_str_to_rrtype", "wdns/gen_rrclass_to_str:wdns_str_to_rrclass"]}
{"id": "C147", "title": "SvcParamKey names are read exactly", "statement": "The key word of a SvcParam in the text given to wdns_str_to_rdata is understood as key k below 65535 exactly when it is the registered mnemonic of k (in lower case) or key followed by an unsigned integer as strtoul takes it, entirely consumed; every other word is no key.", "quantifier": "every string, every key", "why_tests_cant": "all strings, including numbers that wrap modulo 2^64", "anchors": ["wdns/svcparamkeys_to_str.c:_wdns_str_to_svcparamkey", "wdns/str_to_rdata_ubuf.c:wdns_str_to_rdata"]}
{"id": "C148", "title": "Addresses are read exactly", "statement": "wdns_str_to_rdata for A (class IN) and AAAA accepts a text exactly when its first word is an IPv4 address in dotted decimal without leading zeros, or an IPv6 address in one of the forms of RFC 4291 section 2.2 (groups of one to four hexadecimal digits, at most one :: standing for at least one group, an IPv4 tail only as the last 32 bits), and the octets are those of the address; a text names at most one address.", "quantifier": "every text of any length", "why_tests_cant": "all texts", "anchors": ["wdns/str_to_rdata_ubuf.c:wdns_str_to_rdata", "wdns/str_to_rdata_ubuf.c:rdf_ipv6"]}
{"id": "C149", "title": "Result code texts", "statement": "wdns_res_to_str gives every result code a non-empty lower-case text, and no two result codes the same text.", "quantifier": "every pair of result codes", "why_tests_cant": "a completeness and distinctness claim over the whole enumeration, which must survive additions", "anchors": ["wdns/res_to_str.c:wdns_res_to_str"]}
{"id": "C150", "title": "Reading text when memory runs out", "statement": "Whatever requests for memory fail during wdns_str_to_name, wdns_str_to_name_case or wdns_str_to_rdata, the call ends as it would with enough memory or the process stops at a failed assert of my_malloc/my_calloc/my_realloc: it never accesses memory through NULL and never returns anything else.", "quantifier": "every text, type, class and every set of failing requests (malloc, calloc, realloc, strdup)", "why_tests_cant": "the failing request can be any of an unbounded number, in any combination", "anchors": ["wdns/str_to_rdata_ubuf.c:_wdns_str_to_rdata_ubuf", "wdns/str_to_rdata_ubuf.c:str_to_svcparam", "wdns/str_to_name.c:_wdns_str_to_name", "libmy/my_alloc.h:my_malloc", "libmy/vector.h:VECTOR_GENERATE"]}
{"id": "C151", "title": "Printing when memory runs out", "statement": "Whatever requests for memory fail during wdns_rdata_to_str, wdns_rr_to_str, wdns_rrset_to_str, wdns_rrset_array_to_str or wdns_message_to_str, the call returns the text it would return with enough memory or the process stops at a failed assert of my_malloc/my_calloc/my_realloc: it never accesses memory through NULL and never returns another text.", "quantifier": "every object, every set of failing requests", "why_tests_cant": "the failing request can be any of an unbounded number, in any combination", "anchors": ["wdns/rdata_to_ubuf.c:bytes_to_ubuf_base64", "wdns/message_to_str.c:wdns_message_to_str", "libmy/my_alloc.h:my_malloc", "libmy/vector.h:VECTOR_GENERATE"]}
{"id": "C152", "title": "At most one return per tick", "statement": "For a limiter of my_rate_init(rate, 0), 1 <= rate <= 10^9, and my_rate_sleep called again and again, at any times of a monotonic clock and with any lateness of the wake-ups, the returns are in strictly later and later ticks, where the ticks are the multiples of the period within each second (or the seconds, at rate 1), and no call after the first returns in the tick of the return before it.", "quantifier": "every rate, every start time, every sequence of calls, every lateness", "why_tests_cant": "the schedule of calls and wake-ups is unbounded and not under the control of a test", "anchors": ["libmy/my_rate.c:my_rate_sleep", "libmy/my_rate.c:calc_next_tick", "libmy/my_rate.c:my_rate_init"]}
{"id": "C153", "title": "The rate that is maintained", "statement": "my_rate_sleep returns at most rate times in any second, and with a frequency of adjustment the average number of returns per second is led back to the nominal rate, for every schedule of calls, without undefined behaviour.", "quantifier": "every rate, every frequency of adjustment, every sequence of calls", "why_tests_cant": "the schedule of calls and wake-ups is unbounded and not under the control of a test", "anchors": ["libmy/my_rate.c:adjust_rate", "libmy/my_rate.c:my_rate_sleep", "libmy/my_time.h:my_timespec_from_double"]}
{"id": "C154", "title": "argv_copy_args", "statement": "argv_copy_args(buf, size) with size >= 1 writes into buf the arguments behind the program name, a blank between two, cut to size - 1 characters, and a NUL, and nothing outside buf; with size <= 0 it writes nothing, and before argv_process the empty string.", "quantifier": "every list of arguments, every size", "why_tests_cant": "arguments and buffer sizes are unbounded", "anchors": ["libmy/argv.c:argv_copy_args"]}
{"id": "C155", "title": "The value of a character or string variable as text", "statement": "argv_value_string of an ARGV_CHAR or ARGV_CHAR_P variable writes the printable version of the value (a backslash and a letter for special characters, a backslash and three octal digits for other unprintable ones), cut to the buffer, returns its length, and writes nothing outside the buffer.", "quantifier": "every value, every size of the buffer", "why_tests_cant": "values and sizes are unbounded", "anchors": ["libmy/argv.c:argv_value_string", "libmy/argv.c:value_to_string", "libmy/argv.c:expand_buf"]}
{"id": "C156", "title": "Binary, octal and hexadecimal arguments", "statement": "The value of an argument of type ARGV_BIN, ARGV_OCT or ARGV_HEX (with or without 0x) is the number in front of its first character that is not a digit, behind blanks, if the number is at most INT_MAX, and the signed arithmetic overflows exactly if it is more.", "quantifier": "every argument string", "why_tests_cant": "strings are unbounded", "anchors": ["libmy/argv.c:btoi", "libmy/argv.c:otoi", "libmy/argv.c:htoi"]}
{"id": "C157", "title": "The words of the environment variable", "statement": "The arguments taken from the environment variable are its words, the longest pieces without blank or tab, in order, none empty; there is one such list for every text, and loading them never exceeds the array allocated after counting them.", "quantifier": "every text, every set of separators", "why_tests_cant": "texts are unbounded", "anchors": ["libmy/argv.c:vectorize", "libmy/argv.c:preprocess_env_args"]}
{"id": "C158", "title": "Sizes with a unit", "statement": "The value of an argument of type ARGV_SIZE that is blanks, a sign or none, digits, and nothing or b, k, m or g (either case) with anything behind it, is the number times 1, 1024, 1024^2 or 1024^3, if that is a long, and the signed arithmetic overflows exactly if it is not.", "quantifier": "every such string", "why_tests_cant": "strings are unbounded", "anchors": ["libmy/argv.c:string_to_value"]}
{"id": "C159", "title": "The text of a size, read again", "statement": "The text that argv_value_string makes of an ARGV_SIZE variable, given to an argument of type ARGV_SIZE, is the value again, for every long; and making it writes nothing outside the buffer, whatever its size.", "quantifier": "every long, every size of the buffer", "why_tests_cant": "there are 2^64 values, and buffer sizes are unbounded", "anchors": ["libmy/argv.c:value_to_string", "libmy/argv.c:string_to_value", "libmy/argv.c:argv_value_string"]}
{"id": "C160", "title": "The text of a binary, octal or hexadecimal value, read again", "statement": "The text that argv_value_string makes of an ARGV_BIN, ARGV_OCT or ARGV_HEX variable, in a buffer that holds it, given to an argument of the same type, is the value again, for every int.", "quantifier": "every int", "why_tests_cant": "there are 2^32 values in three bases", "anchors": ["libmy/argv.c:value_to_string", "libmy/argv.c:btoi", "libmy/argv.c:otoi", "libmy/argv.c:htoi"]}
{"id": "C161", "title": "Unsigned sizes with a unit", "statement": "The value of an argument of type ARGV_U_SIZE that is blanks, a sign or none, digits that denote a long, and nothing or b, k, m or g with anything behind it, is the number times its unit modulo 2^64.", "quantifier": "every such string", "why_tests_cant": "strings are unbounded", "anchors": ["libmy/argv.c:string_to_value"]}
{"id": "C162", "title": "The text of an unsigned size", "statement": "The text that argv_value_string makes of an ARGV_U_SIZE variable is the decimal number of the value, with its unit, and given to an argument of type ARGV_U_SIZE is the value again, for every unsigned long.", "quantifier": "every unsigned long", "why_tests_cant": "there are 2^64 values", "anchors": ["libmy/argv.c:value_to_string", "libmy/argv.c:argv_value_string"]}
{"id": "C163", "title": "Options that exclude each other", "statement": "When argv_process handles an option, it reports an error exactly if another option of its group (the options joined to it by ARGV_OR or ARGV_XOR, next to each other) has been used, and it reads no entry of the table behind ARGV_LAST, for every table that ends with ARGV_LAST.", "quantifier": "every table of options, every set of used options, every option", "why_tests_cant": "tables and combinations of used options are unbounded", "anchors": ["libmy/argv.c:check_or", "libmy/argv.c:do_arg", "libmy/argv.c:argv_process"]}
{"id": "C164", "title": "Options of which one must be used", "statement": "At the end of argv_process an error is reported for the groups of options joined by ARGV_XOR exactly if there is a group of two or more of which none has been used; no entry outside the table is read for it, for every table that ends with ARGV_LAST and has an option on both sides of every ARGV_XOR.", "quantifier": "every such table, every set of used options", "why_tests_cant": "tables and combinations of used options are unbounded", "anchors": ["libmy/argv.c:check_xor", "libmy/argv.c:argv_process"]}
{"id": "C165", "title": "Arguments from a file", "statement": "Reading the arguments of a file for the argv library never leaves the line buffer or the array of arguments, for every content of the file; if no line is longer than 1022 octets and none contains a NUL the arguments are exactly the non-empty lines of the file, in order, without their newlines.", "quantifier": "every sequence of octets as content of the file, any number of lines of any length", "why_tests_cant": "files are unbounded and the array of arguments grows at sizes a test does not hit", "anchors": ["libmy/argv.c:file_args", "libmy/argv.c:argv_process", "libmy/argv_loc.h:FILE_LINE_SIZE"]}
{"id": "C166", "title": "Arguments from a file with lines of any length", "statement": "For a file without NUL octets the arguments read from it are, in order, those of its lines: an empty line gives none, a line of up to 1023 octets gives itself, and a longer line gives its octets in pieces of 1023 octets with a shorter last one; no octet is lost, and the pieces are determined by the line.", "quantifier": "every file without NUL, any number of lines of any length", "why_tests_cant": "lines and files are unbounded; lines at and around multiples of the buffer size all matter", "anchors": ["libmy/argv.c:file_args", "libmy/argv_loc.h:FILE_LINE_SIZE"]}
