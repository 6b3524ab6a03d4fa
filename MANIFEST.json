{
 "claims": [
  {
   "property": "C01",
   "status": "proved",
   "theorems": [
    "C01_unpack_exact",
    "C01_unpack_start",
    "C01_unpack_bad_length_octet",
    "C01_unpack_bad_pointer",
    "C01_unpack_too_long",
    "C01_unpack_cut_label"
   ],
   "note": "full statement proved for the model"
  },
  {
   "property": "C02",
   "status": "proved",
   "theorems": [
    "C02_unpack_total"
   ],
   "note": "full statement proved for the model"
  },
  {
   "property": "C03",
   "status": "partial",
   "theorems": [
    "C03_unpack_reads_message_refuted",
    "C03_unpack_uses_stray_octet_refuted",
    "C03_unpack_reads_partial"
   ],
   "note": "FALSE of the code: a name whose labels end exactly at eop makes wdns_unpack_name read *eop (refuted, with witness), and that octet can turn rejection into acceptance. Proved instead: nothing beyond the one octet at eop is ever read or matters, and it is read only if the decoder runs into the end without root octet."
  },
  {
   "property": "C04",
   "status": "proved",
   "theorems": [
    "C04_skip_exact",
    "C04_extent_unique",
    "C04_skip_bounded",
    "C04_skip_never_past_end"
   ],
   "note": "full statement proved for the model"
  },
  {
   "property": "C05",
   "status": "proved",
   "theorems": [
    "C05_copy_exact",
    "C05_copy_rejects_pointers",
    "C05_copy_safe"
   ],
   "note": "full statement proved for the model"
  },
  {
   "property": "C06",
   "status": "partial",
   "theorems": [
    "C06_len_uname_wire",
    "C06_len_uname_bound_refuted",
    "C06_len_uname_partial"
   ],
   "note": "FALSE of the code (upper bound): 01 61 is measured as 3. Proved: exactness on well-formed names with any continuation, and the exact set of successes (well-formed names, and names cut at a label boundary, reported one octet too long)."
  },
  {
   "property": "C07",
   "status": "proved",
   "theorems": [
    "C07_domain_to_str_presents",
    "C07_domain_to_str_fits"
   ],
   "note": "full statement proved for the model"
  },
  {
   "property": "C08",
   "status": "proved",
   "theorems": [
    "C08_name_roundtrip"
   ],
   "note": "full statement proved for the model"
  },
  {
   "property": "C09",
   "status": "proved",
   "theorems": [
    "C09_str_to_name_grammar",
    "C09_str_to_name_errors"
   ],
   "note": "full statement proved for the model"
  },
  {
   "property": "C10",
   "status": "partial",
   "theorems": [
    "C10_str_to_name_valid_refuted",
    "C10_str_to_name_partial",
    "C10_str_to_name_no_overrun"
   ],
   "note": "FALSE of the code: labels over 63 octets are accepted (witness). Proved: result is terminated, at most 255 octets, non-empty labels, no store outside the buffer. Missing only: the 63 octet limit."
  },
  {
   "property": "C11",
   "status": "partial",
   "theorems": [
    "C11_str_to_name_reads_string_refuted",
    "C11_str_to_name_reads_partial"
   ],
   "note": "FALSE of the code: a trailing lone backslash makes the loop read past the NUL (witness). Proved for every string that does not end in a lone backslash."
  },
  {
   "property": "C12",
   "status": "partial",
   "theorems": [
    "C12_downcase_variant_refuted",
    "C12_variants_agree_partial",
    "C12_downcase_variant_partial"
   ],
   "note": "FALSE of the code: escaped capitals are not lowered (witness). Proved: same success/error/length for every string and the results differ only in lowered capitals; the full claim for strings without backslash."
  },
  {
   "property": "C13",
   "status": "proved",
   "theorems": [
    "C13_reverse",
    "C13_reverse_involutive"
   ],
   "note": "full statement proved for the model"
  },
  {
   "property": "C14",
   "status": "proved",
   "theorems": [
    "C14_count_labels",
    "C14_count_labels_reserved",
    "C14_count_labels_overflow"
   ],
   "note": "full statement proved for the model"
  },
  {
   "property": "C15",
   "status": "proved",
   "theorems": [
    "C15_left_chop",
    "C15_left_chop_root",
    "C15_chop_to_root"
   ],
   "note": "full statement proved for the model"
  },
  {
   "property": "C16",
   "status": "proved",
   "theorems": [
    "C16_is_subdomain",
    "C16_subdomain_order"
   ],
   "note": "full statement proved for the model"
  },
  {
   "property": "C17",
   "status": "proved",
   "theorems": [
    "C17_downcase_name",
    "C17_downcase_idempotent",
    "C17_downcase_valid"
   ],
   "note": "full statement proved for the model"
  },
  {
   "property": "C18",
   "status": "proved",
   "theorems": [
    "C18_len_iff_short",
    "C18_short",
    "C18_header",
    "C18_rcode_plain"
   ],
   "note": "full statement proved for the model"
  },
  {
   "property": "C19",
   "status": "partial",
   "theorems": [
    "C19_accepts_grammar",
    "C19_rr_lists",
    "C19_accepts_only_grammar_partial",
    "C19_unambiguous",
    "C19_accepts_only_grammar_refuted"
   ],
   "note": "Completeness (every grammatical message is accepted with its meaning) is proved in full. Soundness is FALSE of the code: a SvcParam announcing 65533 octets or more wraps kv_len (witness); proved for all packets without a SvcParam announcing 65532 octets or more (tame)."
  },
  {
   "property": "C20",
   "status": "proved",
   "theorems": [
    "C20_encode_parse",
    "C20_encode_parse_rrs"
   ],
   "note": "full statement proved for the model"
  },
  {
   "property": "C21",
   "status": "partial",
   "theorems": [
    "C21_no_opt",
    "C21_first_opt",
    "C21_rcode",
    "C21_rfc6891_rcode_refuted"
   ],
   "note": "All EDNS statements of the property are proved for the code as written. The RFC 6891 reading of 'upper rcode bits' is refuted: the code ORs ext_rcode << 8 instead of << 4 (BADVERS 16 is reported as 256)."
  },
  {
   "property": "C22",
   "status": "proved",
   "theorems": [
    "C22_rrsets_partition_rrs",
    "C22_insert_keeps_rrs"
   ],
   "note": "full statement proved for the model"
  },
  {
   "property": "C23",
   "status": "proved",
   "theorems": [
    "C23_rrset_ttl_is_minimum"
   ],
   "note": "full statement proved for the model"
  },
  {
   "property": "C24",
   "status": "proved",
   "theorems": [
    "C24_question_section"
   ],
   "note": "full statement proved for the model"
  },
  {
   "property": "C25",
   "status": "proved",
   "theorems": [
    "C25_failed_parse_frees_all",
    "C25_failed_parse_is_empty"
   ],
   "note": "full statement proved for the model"
  },
  {
   "property": "C26",
   "status": "proved",
   "theorems": [
    "C26_parse_owns",
    "C26_clear_frees",
    "C26_parse_clear",
    "C26_no_heap_fault",
    "C26_history",
    "C26_history_clean"
   ],
   "note": "full statement proved for the model"
  },
  {
   "property": "C27",
   "status": "partial",
   "theorems": [
    "C27_terminates_refuted",
    "C27_bound_irrelevant",
    "C27_terminates_partial"
   ],
   "note": "FALSE of the code: a SvcParam of announced length 65532 makes kv_len 0 and the loop never ends (witness, every fuel). Proved: returns within 65536 iterations per RR for every tame packet; the bound is irrelevant to the result."
  },
  {
   "property": "C28",
   "status": "partial",
   "theorems": [
    "C28_memory_safe_partial",
    "C28_only_packet_matters",
    "C28_reads_only_packet_refuted",
    "C28_stray_octet_decides_refuted",
    "C28_alpn_overread_refuted"
   ],
   "note": "FALSE of the code: a packet ending inside a name reads the octet behind it, and that octet decides acceptance; an alpn of announced length 65533 over-reads up to 65000 octets (witnesses). Proved: with one readable octet behind a tame packet no fault at all; if the exact packet gives no fault, nothing behind it matters."
  },
  {
   "property": "C29",
   "status": "partial",
   "theorems": [
    "C29_compression_independent",
    "C29_rdata_canonical_partial",
    "C29_rdata_length_refuted"
   ],
   "note": "FALSE of the code for canonical forms over 65535 octets: the uint16 length wraps and the stored rdata is empty (witness). Proved for all shorter ones, and compression independence."
  },
  {
   "property": "C30",
   "status": "partial",
   "theorems": [
    "C30_accepts_iff_fields_fill",
    "C30_a_record_length",
    "C30_every_record_fills_partial"
   ],
   "note": "For types without names: accepted iff the fields fill the rdata (proved in full). For whole packets: every recorded RR fills its rdlength, under tame (the SvcParam wrap of C27 otherwise lets a malformed SVCB rdata through, see C19_accepts_only_grammar_refuted). Rdata that stops at a field boundary is accepted by design (rdata_at, ra_end)."
  },
  {
   "property": "C31",
   "status": "proved",
   "theorems": [
    "C31_size_exact",
    "C31_size_number",
    "C31_size_minimal"
   ],
   "note": "full statement proved for the model"
  },
  {
   "property": "C32",
   "status": "proved",
   "theorems": [
    "C32_roundtrip",
    "C32_injective"
   ],
   "note": "full statement proved for the model"
  },
  {
   "property": "C33",
   "status": "proved",
   "theorems": [
    "C33_total",
    "C33_success_iff",
    "C33_stays_inside",
    "C33_proper_prefix_overflows",
    "C33_reserialise"
   ],
   "note": "full statement proved for the model"
  },
  {
   "property": "C34",
   "status": "proved",
   "theorems": [
    "C34_comparison_is_total_order",
    "C34_sorted_permutation",
    "C34_any_qsort",
    "C34_order_independent",
    "C34_idempotent",
    "C34_rest_unchanged"
   ],
   "note": "full statement proved for the model"
  },
  {
   "property": "C35",
   "status": "partial",
   "theorems": [
    "C35_only_letters",
    "C35_other_types_untouched",
    "C35_names_folded_partial",
    "C35_a6_refuted",
    "C35_a6_rejected_refuted",
    "C35_zero_octet_refuted",
    "C35_rrset_partial",
    "C35_trailing_octets_partial",
    "C35_rrset_stops"
   ],
   "note": "FALSE of the code for A6 (prefix length used as octet count) and for names with a zero octet inside a label (witnesses). Proved: exact effect on all other well-formed rdata of the RFC 4034 types, identity on all other types, RRset version, behaviour with trailing octets."
  },
  {
   "property": "C36",
   "status": "partial",
   "theorems": [
    "C36_safe_iff_partial",
    "C36_wellformed_safe_partial",
    "C36_soa_refuted",
    "C36_soa_write_refuted"
   ],
   "note": "FALSE of the code: SOA rdata 'a' is scanned past its end, and memory behind it is changed (witnesses). Proved: an exact characterisation (safe iff not unterminated) for all rdata, types and classes, and that well-formed rdata is safe."
  },
  {
   "property": "C37",
   "status": "proved",
   "theorems": [
    "C37_compare_exact",
    "C37_compare_names",
    "C37_case_invariant"
   ],
   "note": "full statement proved for the model"
  },
  {
   "property": "C38",
   "status": "proved",
   "theorems": [
    "C38_decimal",
    "C38_short_buffer",
    "C38_decimal_fits",
    "C38_decimal_parses",
    "C38_decimal_unique",
    "C38_hex",
    "C38_escape"
   ],
   "note": "full statement proved for the model"
  },
  {
   "property": "C39",
   "status": "proved",
   "theorems": [
    "C39_ipv4",
    "C39_ipv6",
    "C39_injective"
   ],
   "note": "full statement proved for the model"
  },
  {
   "property": "C40",
   "status": "proved",
   "theorems": [
    "C40_encode",
    "C40_roundtrip"
   ],
   "note": "full statement proved for the model"
  },
  {
   "property": "C41",
   "status": "partial",
   "theorems": [
    "C41_table_refuted",
    "C41_table_partial",
    "C41_decode_exact"
   ],
   "note": "FALSE of the code: '{' indexes one past the table. Proved: it is the only such character."
  },
  {
   "property": "C42",
   "status": "proved",
   "theorems": [
    "C42_encode",
    "C42_roundtrip",
    "C42_reject",
    "C42_safe"
   ],
   "note": "full statement proved for the model"
  },
  {
   "property": "C43",
   "status": "proved",
   "theorems": [
    "C43_registry",
    "C43_roundtrip",
    "C43_generic",
    "C43_unknown",
    "C43_injective"
   ],
   "note": "full statement proved for the model"
  },
  {
   "property": "C44",
   "status": "proved",
   "theorems": [
    "C44_class_registry",
    "C44_class_roundtrip",
    "C44_class_generic",
    "C44_rcode_registry",
    "C44_rcode_exact",
    "C44_opcode"
   ],
   "note": "full statement proved for the model"
  },
  {
   "property": "C45",
   "status": "proved",
   "theorems": [
    "C45_roundtrip",
    "C45_text",
    "C45_generic",
    "C45_invalid"
   ],
   "note": "full statement proved for the model"
  },
  {
   "property": "C46",
   "status": "proved",
   "theorems": [
    "C46_printable",
    "C46_strings",
    "C46_followed"
   ],
   "note": "full statement proved for the model"
  },
  {
   "property": "C47",
   "status": "proved",
   "theorems": [
    "C47_set",
    "C47_order",
    "C47_canonical",
    "C47_print"
   ],
   "note": "full statement proved for the model"
  },
  {
   "property": "C48",
   "status": "partial",
   "theorems": [
    "C48_roundtrip_partial",
    "C48_all",
    "C48_roundtrip_refuted"
   ],
   "note": "FALSE of the code for the six families of C48_roundtrip_refuted. Proved for every other well-formed rdata of every supported type (all_readable lists the exclusions)."
  },
  {
   "property": "C49",
   "status": "partial",
   "theorems": [
    "C49_roundtrip",
    "C49_mismatch_partial",
    "C49_mismatch_refuted",
    "C49_odd_digits"
   ],
   "note": "Round trip proved in full. Mismatch FALSE of the code: the declared length is taken modulo 65536 (exact behaviour proved for every declared number below 2^64); below 65536 a mismatch is rejected; an odd digit at the end is rejected."
  },
  {
   "property": "C50",
   "status": "partial",
   "theorems": [
    "C50_rdata_safe_partial",
    "C50_no_names",
    "C50_well_formed",
    "C50_truncated_name_refuted"
   ],
   "note": "FALSE of the code exactly when the rdata stops inside a name: then the octet behind it is read, in every case (refuted, universally quantified). In all other cases safe and printable: an exact dichotomy."
  },
  {
   "property": "C51",
   "status": "partial",
   "theorems": [
    "C51_small_partial",
    "C51_parsed_safe_partial",
    "C51_question_rrset_refuted",
    "C51_long_rdata_refuted"
   ],
   "note": "FALSE of the code for wdns_rrset_to_str on question RRsets (NULL dereference, for all of them) and for rdata whose canonical form exceeds 65535 octets (witness). Proved for every RR, every non-question RRset and the message, for tame packets without such rdata."
  },
  {
   "property": "C52",
   "status": "proved",
   "theorems": [
    "C52_one_line",
    "C52_rdata",
    "C52_message",
    "C52_rrset",
    "C52_rr_opt"
   ],
   "note": "full statement proved for the model"
  },
  {
   "property": "C53",
   "status": "proved",
   "theorems": [
    "C53_accepted",
    "C53_rejected"
   ],
   "note": "full statement proved for the model"
  },
  {
   "property": "C54",
   "status": "partial",
   "theorems": [
    "C54_safe_partial",
    "C54_plain_types",
    "C54_trailing_blanks_refuted",
    "C54_conditions_refuted"
   ],
   "note": "FALSE of the code: trailing blanks after hex text, lone backslash, missing generic length, vertical tabs in a salt, '{' in base64 (witnesses, the first for all hex texts). Proved safe for every text satisfying text_safe, each condition of which is shown to be needed."
  },
  {
   "property": "C55",
   "status": "proved",
   "theorems": [
    "C55_rendered_or_flagged",
    "C55_printable"
   ],
   "note": "full statement proved for the model"
  },
  {
   "property": "C56",
   "status": "proved",
   "theorems": [
    "C56_new",
    "C56_list",
    "C56_no_abort",
    "C56_value",
    "C56_capacity",
    "C56_detach",
    "C56_extend",
    "C56_cstr",
    "C56_dup",
    "C56_advance"
   ],
   "note": "full statement proved for the model"
  },
  {
   "property": "C57",
   "status": "partial",
   "theorems": [
    "C57_lines_partial",
    "C57_names",
    "C57_open",
    "C57_backslash_refuted",
    "C57_nul_refuted",
    "C57_long_comment_refuted"
   ],
   "note": "FALSE of the code for lines that end in a lone backslash (over-read), lines that start with NUL (line[-1]) and comments over 1279 octets (tail taken for a name). Proved for all files without such lines, with uniqueness of the reading."
  },
  {
   "property": "C58",
   "status": "proved",
   "theorems": [
    "C58_header",
    "C58_parsed"
   ],
   "note": "full statement proved for the model"
  },
  {
   "property": "C59",
   "status": "proved",
   "theorems": [
    "C59_rfc5952",
    "C59_unique",
    "C59_parses"
   ],
   "note": "full statement proved for the model"
  },
  {
   "property": "C60",
   "status": "proved",
   "theorems": [
    "C60_fields",
    "C60_generic",
    "C60_other_class"
   ],
   "note": "full statement proved for the model"
  },
  {
   "property": "C61",
   "status": "proved",
   "theorems": [
    "C61_fields",
    "C61_generic"
   ],
   "note": "full statement proved for the model"
  },
  {
   "property": "C62",
   "status": "proved",
   "theorems": [
    "C62_message",
    "C62_record",
    "C62_question"
   ],
   "note": "full statement proved for the model"
  },
  {
   "property": "C63",
   "status": "proved",
   "theorems": [
    "C63_name",
    "C63_rdata"
   ],
   "note": "full statement proved for the model"
  },
  {
   "property": "C64",
   "status": "proved",
   "theorems": [
    "C64_rdata_to_str",
    "C64_rr_to_str",
    "C64_rrset_to_str",
    "C64_array_to_str",
    "C64_message_to_str",
    "C64_print_rr",
    "C64_print_rrset",
    "C64_print_array",
    "C64_print_message",
    "C64_parse_print_clear"
   ],
   "note": "full statement proved for the model"
  },
  {
   "property": "C65",
   "status": "proved",
   "theorems": [
    "C65_deserialize",
    "C65_sort",
    "C65_downcase",
    "C65_serialize",
    "C65_history",
    "C65_history_clean"
   ],
   "note": "full statement proved for the model"
  },
  {
   "property": "C66",
   "status": "proved",
   "theorems": [
    "C66_types",
    "C66_counts"
   ],
   "note": "full statement proved for the model"
  },
  {
   "property": "C67",
   "status": "partial",
   "theorems": [
    "C67_shape",
    "C67_wellformed_partial",
    "C67_octet_types",
    "C67_print",
    "C67_stable_partial",
    "C67_parse_partial",
    "C67_downcase_partial",
    "C67_long_label_refuted",
    "C67_alpn_refuted",
    "C67_other_class_refuted"
   ],
   "note": "FALSE of the code for labels over 63 octets, alpn lists with an empty last id or ids of 256 octets, and for IN-only types in other classes, where any text gives empty rdata (witnesses). Proved: the exact shape of every result, printing it is safe for every accepted text, types without names and parameters are well-formed unconditionally, the rest under no_long_label and no_alpn."
  },
  {
   "property": "C68",
   "status": "partial",
   "theorems": [
    "C68_store",
    "C68_rdata_partial",
    "C68_downcase_partial",
    "C68_text_partial",
    "C68_small"
   ],
   "note": "Storing: proved for every packet and return code. Rdata well-formed, downcasing: proved for every tame packet of up to 65000 octets, or any size if no canonical rdata exceeds 65535 octets. Text: the types excluded in C48 are missing."
  },
  {
   "property": "C69",
   "status": "proved",
   "theorems": [
    "C69_init",
    "C69_fifo",
    "C69_capacity",
    "C69_safe",
    "C69_space",
    "C69_count",
    "C69_quiet_insert",
    "C69_quiet_remove",
    "C69_insert_completes",
    "C69_remove_completes",
    "C69_wait_free"
   ],
   "note": "full statement proved for the model"
  },
  {
   "property": "C70",
   "status": "proved",
   "theorems": [
    "C70_linearizable",
    "C70_safe",
    "C70_completes",
    "C70_spec_fifo"
   ],
   "note": "full statement proved for the model"
  },
  {
   "property": "C71",
   "status": "partial",
   "theorems": [
    "C71_any_size_refuted",
    "C71_fresh_refuted",
    "C71_sequential_refuted",
    "C71_wakeup_refuted"
   ],
   "note": "FALSE of the code in all four parts, each with a witness run: offsets are computed modulo 2^32, so a ring of 4 elements of 2 GiB loses items; an insertion that has returned may still be in the store buffer; no sequential order explains a full and an empty answer; the wake-up suggested by the header can be lost. What holds is C69."
  },
  {
   "property": "C72",
   "status": "proved",
   "theorems": [
    "C72_history",
    "C72_sorts"
   ],
   "note": "full statement proved for the model"
  },
  {
   "property": "C73",
   "status": "partial",
   "theorems": [
    "C73_get_partial",
    "C73_get_empty_refuted"
   ],
   "note": "FALSE of the code for an empty heap: size - 1 wraps, and every index fails the assertion of ptrvec_value (refuted for all indexes). Proved for every non-empty heap."
  },
  {
   "property": "C74",
   "status": "proved",
   "theorems": [
    "C74_encode64",
    "C74_encode32",
    "C74_unique",
    "C74_length_packed",
    "C74_decode64",
    "C74_decode32",
    "C74_roundtrip64",
    "C74_roundtrip32"
   ],
   "note": "full statement proved for the model"
  },
  {
   "property": "C75",
   "status": "partial",
   "theorems": [
    "C75_roundtrip32_partial",
    "C75_roundtrip32_refuted"
   ],
   "note": "FALSE of the code for every number from 2^31 on: data[4] << 28 overflows int (harmless with GCC, see C74). Proved below 2^31."
  },
  {
   "property": "C76",
   "status": "proved",
   "theorems": [
    "C76_ip4",
    "C76_ip6",
    "C76_ip6_long",
    "C76_unique",
    "C76_incr"
   ],
   "note": "full statement proved for the model"
  },
  {
   "property": "C77",
   "status": "partial",
   "theorems": [
    "C77_defined_refuted",
    "C77_defined_partial"
   ],
   "note": "FALSE of the code, for every address: /0 and everything above /32 shift an int by 32 or more, /1 computes INT_MIN - 1; IPv6 /0 and /64 shift by 64. Proved defined for all other lengths."
  },
  {
   "property": "C78",
   "status": "proved",
   "theorems": [
    "C78_hex_decode"
   ],
   "note": "full statement proved for the model"
  },
  {
   "property": "C79",
   "status": "proved",
   "theorems": [
    "C79_printable",
    "C79_reads_back",
    "C79_unambiguous"
   ],
   "note": "full statement proved for the model"
  },
  {
   "property": "C80",
   "status": "partial",
   "theorems": [
    "C80_lossless_refuted"
   ],
   "note": "FALSE of the code: a backslash is not escaped (witnesses: different data print alike, a printed string that does not end). What holds is C79."
  },
  {
   "property": "C81",
   "status": "proved",
   "theorems": [
    "C81_replace",
    "C81_unique"
   ],
   "note": "full statement proved for the model"
  },
  {
   "property": "C82",
   "status": "partial",
   "theorems": [
    "C82_terminates_refuted"
   ],
   "note": "FALSE of the code: with an empty old it loops for ever, for every string (refuted for all). What holds is C81."
  },
  {
   "property": "C83",
   "status": "proved",
   "theorems": [
    "C83_read",
    "C83_answer",
    "C83_calls",
    "C83_continues"
   ],
   "note": "full statement proved for the model"
  },
  {
   "property": "C84",
   "status": "proved",
   "theorems": [
    "C84_add",
    "C84_sub",
    "C84_order",
    "C84_next_tick"
   ],
   "note": "full statement proved for the model"
  },
  {
   "property": "C85",
   "status": "proved",
   "theorems": [
    "C85_slicing",
    "C85_sse42",
    "C85_dispatch",
    "C85_burst"
   ],
   "note": "full statement proved for the model"
  },
  {
   "property": "C86",
   "status": "partial",
   "theorems": [
    "C86_aligned_refuted"
   ],
   "note": "FALSE of the SSE 4.2 code (refuted for every misaligned buffer of 8 octets or more, and exactly the lengths for aligned ones); the table-driven code is proved clean (C85_slicing faults on misalignment)."
  },
  {
   "property": "C87",
   "status": "proved",
   "theorems": [
    "C87_alone",
    "C87_concurrent",
    "C87_after_first",
    "C87_returns"
   ],
   "note": "Every set of calls and every schedule; accesses to the table are atomic and sequentially consistent in the model."
  },
  {
   "property": "C88",
   "status": "partial",
   "theorems": [
    "C88_cold_partial",
    "C88_cold_refuted",
    "C88_garbage_accepted_refuted"
   ],
   "note": "FALSE of the code (witness schedules: wrong rdata, garbage accepted). C88_cold_partial: right whenever no thread looks at a half-filled table. What holds unconditionally is C87."
  },
  {
   "property": "C89",
   "status": "proved",
   "theorems": [
    "C89_case_preserving_exact",
    "C89_lowering_exact"
   ],
   "note": "Every C string, both functions; [after] is the memory behind the NUL."
  },
  {
   "property": "C90",
   "status": "proved",
   "theorems": [
    "C90_rejections_exact",
    "C90_lowering_rejections",
    "C90_cut_escape_never_accepted"
   ],
   "note": "Every C string. The over-read with a lone backslash is the defect recorded in C16/C54."
  },
  {
   "property": "C91",
   "status": "proved",
   "theorems": [
    "C91_exact",
    "C91_generic_exact",
    "C91_other_class_exact",
    "C91_opt_exact",
    "C91_unambiguous"
   ],
   "note": "Both directions for every C string; inet_pton, the type mnemonics and the service parameter keys enter through their models (C39, C43, C45). All types and classes are covered."
  },
  {
   "property": "C92",
   "status": "partial",
   "theorems": [
    "C92_nothing_refuted",
    "C92_complete_refuted",
    "C92_surplus_refuted",
    "C92_malformed_refuted",
    "C92_other_class_refuted",
    "C92_service_params_refuted"
   ],
   "note": "FALSE of the code (universally: the empty text for every type, any junk behind an address, any text at all for an address in a class other than IN; witnesses for malformed service parameters, hexadecimal, base64 and hash fields). What holds is C91."
  },
  {
   "property": "C93",
   "status": "proved",
   "theorems": [
    "C93_accepts_exactly",
    "C93_grammar_included",
    "C93_same_when_tame",
    "C93_unambiguous"
   ],
   "note": "No hypothesis on the packet besides being octets; memory is exactly the packet (what an octet behind it changes is C28)."
  },
  {
   "property": "C94",
   "status": "proved",
   "theorems": [
    "C94_hangs_exactly",
    "C94_bound_decides"
   ],
   "note": "The exact complement of termination; together with C95 it settles C27 and C28 for every packet."
  },
  {
   "property": "C95",
   "status": "proved",
   "theorems": [
    "C95_overreads_exactly",
    "C95_otherwise_returns"
   ],
   "note": "Memory is exactly the packet. With one more readable octet the names no longer fault (C28)."
  },
  {
   "property": "C96",
   "status": "proved",
   "theorems": [
    "C96_exact",
    "C96_generic_exact",
    "C96_other"
   ],
   "note": "Exact in both directions for all texts, types and classes; with C91 and C97 the outcome of wdns_str_to_rdata is completely characterised."
  },
  {
   "property": "C97",
   "status": "proved",
   "theorems": [
    "C97_name_overflow_exact",
    "C97_parse_error_exact",
    "C97_generic_exact",
    "C97_opt_exact"
   ],
   "note": "All error codes; the four outcomes (read, fault, name overflow, parse error) are each characterised and exhaustive."
  },
  {
   "property": "C98",
   "status": "proved",
   "theorems": [
    "C98_message_exactly",
    "C98_rr_exactly",
    "C98_rrset_exactly",
    "C98_question",
    "C98_only_long",
    "C98_small"
   ],
   "note": "All accepted packets, without tame. Question RRsets: C51_question_rrset_refuted."
  },
  {
   "property": "C99",
   "status": "proved",
   "theorems": [
    "C99_rdata",
    "C99_rrset",
    "C99_text"
   ],
   "note": "Replaces tame in C68 by nothing for packets of up to 65000 octets; longer ones: C68."
  },
  {
   "property": "C100",
   "status": "proved",
   "theorems": [
    "C100_every_file",
    "C100_success_exactly",
    "C100_no_fault"
   ],
   "note": "Total: every file, including NUL octets, overlong lines and lone backslashes; the fault cases are characterised instead of excluded (strengthens C57)."
  },
  {
   "property": "C101",
   "status": "proved",
   "theorems": [
    "C101_code_exactly",
    "C101_one_code",
    "C101_four_classes",
    "C101_codes",
    "C101_left_behind"
   ],
   "note": "Full: with C93 (accepted), C94 (never returns) and C95 (reads outside) the behaviour of wdns_parse_message is determined for every packet whose memory ends with it."
  },
  {
   "property": "C102",
   "status": "proved",
   "theorems": [
    "C102_exactly",
    "C102_generic",
    "C102_other_class",
    "C102_rrsig",
    "C102_nsec",
    "C102_a6",
    "C102_ech"
   ],
   "note": "The condition is all_readable of SpecText.v, shown necessary as well as sufficient (C48 has sufficiency). Families spelled out for RRSIG, NSEC, A6 and ech. Among the failures some are silent: an empty mandatory list in front of no-default-alpn is read as other rdata (C102_ex)."
  },
  {
   "property": "C103",
   "status": "proved",
   "theorems": [
    "C103_printed",
    "C103_one_text",
    "C103_some_text"
   ],
   "note": "Exact for all octet strings of exactly the rdata (the memory behind the rdata is not part of the statement; see C50 for that)."
  },
  {
   "property": "C104",
   "status": "proved",
   "theorems": [
    "C104_a",
    "C104_surplus",
    "C104_missing"
   ],
   "note": "Corollaries of C103 in a form that does not need the grammar of faults; EUI48/EUI64 (printed without a blank) are left to C103."
  },
  {
   "property": "C105",
   "status": "proved",
   "theorems": [
    "C105_record",
    "C105_question",
    "C105_rrset",
    "C105_rrset_question",
    "C105_rrset_no_rdata",
    "C105_some_record"
   ],
   "note": "Exact in both directions. Owner names are assumed well-formed (as the parser and wdns_str_to_name deliver them up to C10)."
  },
  {
   "property": "C106",
   "status": "proved",
   "theorems": [
    "C106_message",
    "C106_packet",
    "C106_one_text"
   ],
   "note": "Exact in both directions; strengthens C62 by dropping its conditions on SvcParams and options. Above 65000 octets a text exists iff no record is cut (C98)."
  },
  {
   "property": "C107",
   "status": "proved",
   "theorems": [
    "C107_shapes",
    "C107_shapes_unique",
    "C107_text_ended",
    "C107_text_open",
    "C107_text_cut",
    "C107_text_reads",
    "C107_reverse_ended",
    "C107_reverse_cut",
    "C107_reverse_open"
   ],
   "note": "Every octet string has one of three shapes, and the result for each shape is exact, with the memory behind the octets in view; the over-read and the write in front of the buffer are findings."
  },
  {
   "property": "C108",
   "status": "proved",
   "theorems": [
    "C108_cases",
    "C108_count",
    "C108_subdomain"
   ],
   "note": "Exact outcomes for all octets and all memory behind them."
  },
  {
   "property": "C109",
   "status": "proved",
   "theorems": [
    "C109_text",
    "C109_reads",
    "C109_deserialised"
   ],
   "note": "All RRsets whose parts have the sizes of the C types, hence everything deserialised."
  },
  {
   "property": "C110",
   "status": "proved",
   "theorems": [
    "C110_exact",
    "C110_reads",
    "C110_behind",
    "C110_one_result",
    "C110_rrset"
   ],
   "note": "Exact, for all octets; complements C35 and C36, whose refuted parts stay."
  },
  {
   "property": "C111",
   "status": "proved",
   "theorems": [
    "C111_spelt",
    "C111_not_spelt",
    "C111_usage",
    "C111_one_meaning"
   ],
   "note": "Driver for any load/test functions: behaviour on every argument list; hex_decode of the driver is libmy's code plus a printf."
  },
  {
   "property": "C112",
   "status": "proved",
   "theorems": [
    "C112_prints",
    "C112_refuses",
    "C112_hangs",
    "C112_overreads",
    "C112_cases",
    "C112_small"
   ],
   "note": "Program = driver + parser + printer: iff-characterisation of printing, refusing, hanging and over-reading, and that these are all cases."
  },
  {
   "property": "C113",
   "status": "proved",
   "theorems": [
    "C113_prints",
    "C113_refuses",
    "C113_overreads",
    "C113_returns"
   ],
   "note": "iff-characterisation of printing, refusing and over-reading for every octet string; always ends."
  },
  {
   "property": "C114",
   "status": "proved",
   "theorems": [
    "C114_prints",
    "C114_refuses",
    "C114_overreads"
   ],
   "note": "iff-characterisation; finding: an rdata the folding rejects gives no output and exit status 0."
  },
  {
   "property": "C115",
   "status": "proved",
   "theorems": [
    "C115_lines",
    "C115_accepted",
    "C115_refuses",
    "C115_back"
   ],
   "note": "Lines exactly the serialised forms; each line read back by the deserialise program prints the RRset; refuse/hang/over-read as the parser."
  },
  {
   "property": "C116",
   "status": "proved",
   "theorems": [
    "C116_prints",
    "C116_message",
    "C116_refuses",
    "C116_long",
    "C116_no_file",
    "C116_usage",
    "C116_zeros_complete"
   ],
   "note": "Exact for files that neither over-read nor hang the parser on their own; finding: 4096-octet files refused, files cut inside a name completed by the zeroed buffer."
  },
  {
   "property": "C117",
   "status": "proved",
   "theorems": [
    "C117_prints",
    "C117_dumps",
    "C117_alone",
    "C117_not_ip",
    "C117_capture"
   ],
   "note": "Handler on all proper frames; capture by induction."
  },
  {
   "property": "C118",
   "status": "partial",
   "theorems": [
    "C118_inside_partial",
    "C118_short_refuted",
    "C118_wrap_refuted"
   ],
   "note": "Safe on proper frames; refuted for a frame of 14 octets and for total length < header length."
  },
  {
   "property": "C119",
   "status": "proved",
   "theorems": [
    "C119_memory_is_irrelevant",
    "C119_reach",
    "C119_matters_exactly",
    "C119_hangs_anyway",
    "C119_reach_tight",
    "C119_programs_hang"
   ],
   "note": "Irrelevance and hanging by a relation between runs over two memories (ProofMono2); the reach by bounds through all loops (ProofBound); tight by a 30-octet packet."
  },
  {
   "property": "C120",
   "status": "proved",
   "theorems": [
    "C120_reload",
    "C120_otherwise",
    "C120_get"
   ],
   "note": "Invariant of all reached sets (sorted, nothing kept, balance of the trace); binary search on a sorted list; insertion sort for qsort."
  },
  {
   "property": "C121",
   "status": "proved",
   "theorems": [
    "C121_balance",
    "C121_distinct",
    "C121_destroyed",
    "C121_at_every_moment"
   ],
   "note": "By the invariant over histories; every prefix of the trace."
  },
  {
   "property": "C122",
   "status": "partial",
   "theorems": [
    "C122_follows_partial",
    "C122_twice_refuted",
    "C122_missed_refuted"
   ],
   "note": "Holds when no file is listed twice and fopen does not fail; refuted otherwise: a repeated line unloads twice, a failed fopen loses the change."
  },
  {
   "property": "C123",
   "status": "proved",
   "theorems": [
    "C123_history",
    "C123_step"
   ],
   "note": "Heap of links refines sequences, operation by operation; walks proved by induction on the sequence."
  },
  {
   "property": "C124",
   "status": "proved",
   "theorems": [
    "C124_unlink_unlinked",
    "C124_append_twice"
   ],
   "note": "Fault for every legal history; append twice: forward walk cut, backward walk runs through a cycle."
  },
  {
   "property": "C125",
   "status": "proved",
   "theorems": [
    "C125_hashlittle",
    "C125_hashlittle2",
    "C125_hashbig",
    "C125_hashword",
    "C125_hashword2"
   ],
   "note": "Model of the three address paths, the masks and the fall-through switches; value for every key by one loop lemma. The published test vectors hold."
  },
  {
   "property": "C126",
   "status": "proved",
   "theorems": [
    "C126_anywhere",
    "C126_little2",
    "C126_word2",
    "C126_words"
   ],
   "note": "From C125; words against octets in both orders."
  },
  {
   "property": "C127",
   "status": "proved",
   "theorems": [
    "C127_aligned",
    "C127_reach"
   ],
   "note": "Exact condition for the over-read of the masked loads."
  },
  {
   "property": "C128",
   "status": "proved",
   "theorems": [
    "C128_mix",
    "C128_collisions"
   ],
   "note": "Injectivity line by line; collisions for arbitrary first blocks."
  },
  {
   "property": "C129",
   "status": "proved",
   "theorems": [
    "C129_once",
    "C129_moment",
    "C129_progress"
   ],
   "note": "Model of the system calls of spooldir_next over two name spaces; files have identities."
  },
  {
   "property": "C130",
   "status": "proved",
   "theorems": [
    "C130_take",
    "C130_null"
   ],
   "note": "full statement proved for the model"
  },
  {
   "property": "C131",
   "status": "partial",
   "theorems": [
    "C131_two_refuted",
    "C131_restart_refuted"
   ],
   "note": "Refuted: witnesses for two consumers and for a crash."
  },
  {
   "property": "C132",
   "status": "proved",
   "theorems": [
    "C132_distinct",
    "C132_dense",
    "C132_kept",
    "C132_progress",
    "C132_before"
   ],
   "note": "Each thread registers once; int overflow is not reached."
  },
  {
   "property": "C133",
   "status": "proved",
   "theorems": [
    "C133_unset",
    "C133_value",
    "C133_only",
    "C133_range"
   ],
   "note": "strtoul with base 0 as in glibc, LP64."
  },
  {
   "property": "C134",
   "status": "partial",
   "theorems": [
    "C134_getenv_refuted"
   ],
   "note": "Refuted, four ways."
  },
  {
   "property": "C135",
   "status": "proved",
   "theorems": [
    "C135_init",
    "C135_reads",
    "C135_zone",
    "C135_open"
   ],
   "note": "Over an arbitrary record parser (ldns is not modelled)."
  },
  {
   "property": "C136",
   "status": "partial",
   "theorems": [
    "C136_empty_zone_refuted"
   ],
   "note": "Refuted: with an ldns that returns SYNTAX_EMPTY at the end of the file (1.6 and later)."
  },
  {
   "property": "C137",
   "status": "partial",
   "theorems": [
    "C137_serial_refuted"
   ],
   "note": "Refuted."
  },
  {
   "property": "C138",
   "status": "partial",
   "theorems": [
    "C138_end_refuted"
   ],
   "note": "Refuted."
  },
  {
   "property": "C139",
   "status": "proved",
   "theorems": [
    "C139_splay",
    "C139_any_cmp"
   ],
   "note": "Nodes are the elements; pointer groups are tree constructions."
  },
  {
   "property": "C140",
   "status": "proved",
   "theorems": [
    "C140_find",
    "C140_insert",
    "C140_remove",
    "C140_min_max",
    "C140_next",
    "C140_foreach",
    "C140_history"
   ],
   "note": "full statement proved for the model"
  },
  {
   "property": "C141",
   "status": "partial",
   "theorems": [
    "C141_removed_refuted"
   ],
   "note": "Refuted for any two elements with equal keys."
  },
  {
   "property": "C142",
   "status": "proved",
   "theorems": [
    "C142_insert",
    "C142_remove",
    "C142_history",
    "C142_height"
   ],
   "note": "ModelRb.v (a node is a place: subtree and ancestors), SpecRb.v, PropRb.v"
  },
  {
   "property": "C143",
   "status": "proved",
   "theorems": [
    "C143_insert",
    "C143_history",
    "C143_find",
    "C143_nfind"
   ],
   "note": "PropRb.v; comparison and sorted from SpecSplay.v"
  },
  {
   "property": "C144",
   "status": "proved",
   "theorems": [
    "C144_min_max",
    "C144_next_prev",
    "C144_node"
   ],
   "note": "PropRb.v"
  },
  {
   "property": "C145",
   "status": "proved",
   "theorems": [
    "C145_history",
    "C145_history_clean"
   ],
   "note": "SpecMsgProg.v (the programs), PropMsgProg.v; on the heap models of ModelHeap.v and ModelHeap2.v"
  },
  {
   "property": "C146",
   "status": "proved",
   "theorems": [
    "C146_rrtype",
    "C146_rrclass",
    "C146_unique"
   ],
   "note": "The soundness half of C44: exact on every C string. Closes the references to str_to_rrtype in the specifications of C91."
  },
  {
   "property": "C147",
   "status": "proved",
   "theorems": [
    "C147_key"
   ],
   "note": "Exact on every string, including strtoul negation modulo 2^64."
  },
  {
   "property": "C148",
   "status": "proved",
   "theorems": [
    "C148_ipv4",
    "C148_ipv6",
    "C148_A",
    "C148_AAAA"
   ],
   "note": "inet_pton (a libc function) is modelled after the glibc source; the theorem says the model is exactly RFC 4291 text. Closes the references to inet_pton4/6 in C91."
  },
  {
   "property": "C149",
   "status": "proved",
   "theorems": [
    "C149_distinct",
    "C149_text"
   ],
   "note": "Finite claim, decided by case analysis over the enumeration."
  },
  {
   "property": "C150",
   "status": "partial",
   "theorems": [
    "C150_enough",
    "C150_success_partial",
    "C150_rdata_partial",
    "C150_name",
    "C150_null_refuted",
    "C150_accepts_refuted"
   ],
   "note": "FALSE of the code: strdup, strndup, malloc and calloc are not checked, so every text of an A, AAAA or NS record accesses NULL when the first strdup fails (refuted, universally); and no-default-alpn=\"\" is accepted when calloc of the empty value fails (witness). Proved: names in full; fail-stop (same end, failed assert, or access through NULL) for every type but SVCB/HTTPS, and for these whenever the text is read; nothing changes without failures."
  },
  {
   "property": "C151",
   "status": "partial",
   "theorems": [
    "C151_enough",
    "C151_rdata_partial",
    "C151_rr_partial",
    "C151_rrset_partial",
    "C151_array_partial",
    "C151_message_partial",
    "C151_rdata_checked",
    "C151_rr_checked",
    "C151_rrset_checked",
    "C151_array_checked",
    "C151_message_checked",
    "C151_null_refuted"
   ],
   "note": "FALSE of the code for base64 text: the malloc of bytes_to_ubuf_base64 is not checked (refuted for every OPENPGPKEY). Proved in full (C151_*_checked) for every type but the six that print base64 (DNSKEY, RRSIG, CDNSKEY, OPENPGPKEY, SVCB, HTTPS), and for messages without these; for all types fail-stop: same text, failed assert, or access through NULL (C151_*_partial)."
  },
  {
   "property": "C152",
   "status": "proved",
   "theorems": [
    "C152_ticks",
    "C152_any_period"
   ],
   "note": "freq = 0; C152_any_period does not depend on how the doubles round the period."
  },
  {
   "property": "C153",
   "status": "partial",
   "theorems": [
    "C153_per_second_refuted",
    "C153_refuted",
    "C153_ratchet_partial"
   ],
   "note": "The code is wrong: C153_refuted (my_rate_init(1, 1): after two calls in a row the adjusted rate is 0, the period infinite and its conversion to time_t undefined), C153_per_second_refuted (rate 3 without lateness: four returns in less than a second, two of them 1 ns apart, because the last tick of a second is short), C153_ratchet_partial (an adjusted rate below 100 can never rise). The doubles of adjust_rate are replaced by exact quotients."
  },
  {
   "property": "C154",
   "status": "proved",
   "theorems": [
    "C154_copy_args",
    "C154_nothing"
   ],
   "note": "full statement proved for the model"
  },
  {
   "property": "C155",
   "status": "partial",
   "theorems": [
    "C155_within_partial",
    "C155_plain_partial",
    "C155_refuted"
   ],
   "note": "The code is wrong: C155_refuted (snprintf with the exact size cuts the last character: every special character is shown as a backslash and a NUL, and octets 1 and 2 as the same text); C155_plain_partial for printable characters without special meaning (no NUL is written behind them), C155_within_partial: never outside the buffer."
  },
  {
   "property": "C156",
   "status": "proved",
   "theorems": [
    "C156_binary",
    "C156_octal",
    "C156_hexadecimal"
   ],
   "note": "ARGV_BIN, ARGV_OCT and ARGV_HEX; C156_overflow_ex shows a string that overflows."
  },
  {
   "property": "C157",
   "status": "proved",
   "theorems": [
    "C157_words",
    "C157_one"
   ],
   "note": "full statement proved for the model"
  },
  {
   "property": "C158",
   "status": "proved",
   "theorems": [
    "C158_read"
   ],
   "note": "strtol for atol."
  },
  {
   "property": "C159",
   "status": "partial",
   "theorems": [
    "C159_round_trip_partial",
    "C159_refuted",
    "C159_within_partial"
   ],
   "note": "The code is wrong: C159_refuted (the value 0 is copied with strcpy: a buffer of one octet is overrun); C159_within_partial: only then; C159_round_trip_partial: every other value in a buffer that holds its text."
  },
  {
   "property": "C160",
   "status": "partial",
   "theorems": [
    "C160_octal_partial",
    "C160_hexadecimal_partial",
    "C160_refuted",
    "C160_bits_partial"
   ],
   "note": "The code is wrong: C160_refuted (the text of every binary value but 0 starts with 0b and is read as 0; -1 in octal or hexadecimal overflows when it is read). C160_octal_partial and C160_hexadecimal_partial are exact (negative values overflow, others are read back), C160_bits_partial: the bits behind 0b are right."
  },
  {
   "property": "C161",
   "status": "proved",
   "theorems": [
    "C161_read"
   ],
   "note": "full statement proved for the model"
  },
  {
   "property": "C162",
   "status": "partial",
   "theorems": [
    "C162_round_trip_partial",
    "C162_refuted"
   ],
   "note": "The code is wrong: C162_refuted (it prints with %ld: every value from 2^63 on has a minus sign in its text). C162_round_trip_partial: read again it is the value all the same, for all values."
  },
  {
   "property": "C163",
   "status": "partial",
   "theorems": [
    "C163_groups_partial",
    "C163_refuted"
   ],
   "note": "The code is wrong: C163_refuted (in every table, using the last option, when it is in no group, reads the entry two places on, behind ARGV_LAST). C163_groups_partial: the result is right if one more entry behind ARGV_LAST can be read, whatever it is."
  },
  {
   "property": "C164",
   "status": "proved",
   "theorems": [
    "C164_groups"
   ],
   "note": "An ARGV_OR is an entry that belongs to no XOR group; the messages are not modelled."
  },
  {
   "property": "C165",
   "status": "partial",
   "theorems": [
    "C165_safe",
    "C165_lines_partial",
    "C165_refuted"
   ],
   "note": "Safety holds for every file; the arguments are the non-empty lines when lines have at most 1022 octets and no NUL (C165_lines_partial); a line of more than 1023 octets becomes two arguments (C165_refuted). malloc and realloc are taken not to fail."
  },
  {
   "property": "C166",
   "status": "proved",
   "theorems": [
    "C166_lines",
    "C166_unique"
   ],
   "note": "Exact companion of C165: what file_args does with lines of any length. malloc and realloc are taken not to fail."
  }
 ]
}