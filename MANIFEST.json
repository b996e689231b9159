{
 "claims": [
  {
   "property": "C01",
   "status": "proved",
   "theorems": [
    "C01_chunking_independence",
    "C01_same_body"
   ],
   "note": ""
  },
  {
   "property": "C02",
   "status": "partial",
   "theorems": [
    "C02_simple_body_exact",
    "C02_simple_body_partial",
    "C02_simple_body_refuted"
   ],
   "note": "Exact behaviour proved for every body; the RFC claim is false for bodies consisting only of CRLFs (C02_simple_body_refuted)."
  },
  {
   "property": "C03",
   "status": "partial",
   "theorems": [
    "C03_relaxed_body_exact",
    "C03_relaxed_body_partial",
    "C03_relaxed_body_refuted"
   ],
   "note": "Exact behaviour proved for every body; the RFC claim is false for bodies ending in an unterminated WSP-only line (C03_relaxed_body_refuted)."
  },
  {
   "property": "C04",
   "status": "proved",
   "theorems": [
    "C04_no_unreachable"
   ],
   "note": ""
  },
  {
   "property": "C05",
   "status": "partial",
   "theorems": [
    "C05_empty_or_crlf",
    "C05_relaxed_lines_clean",
    "C05_simple_empty_line_end_iff",
    "C05_relaxed_empty_line_end_iff",
    "C05_simple_idempotent_iff",
    "C05_relaxed_idempotent_iff",
    "C05_idempotent_refuted"
   ],
   "note": "Shape proved; idempotence and absence of a trailing empty line hold exactly outside the corner cases of C02/C03 (iff theorems, C05_idempotent_refuted)."
  },
  {
   "property": "C06",
   "status": "proved",
   "theorems": [
    "C06_relaxed_header",
    "C06_same_form_iff",
    "C06_refolding",
    "C06_idempotent"
   ],
   "note": ""
  },
  {
   "property": "C07",
   "status": "proved",
   "theorems": [
    "C07_simple_header",
    "C07_simple_injective"
   ],
   "note": ""
  },
  {
   "property": "C08",
   "status": "proved",
   "theorems": [
    "C08_bottom_up_selection"
   ],
   "note": ""
  },
  {
   "property": "C09",
   "status": "proved",
   "theorems": [
    "C09_agree_same_input",
    "C09_unsigned_names_irrelevant",
    "C09_instances_above_irrelevant"
   ],
   "note": ""
  },
  {
   "property": "C10",
   "status": "proved",
   "theorems": [
    "C10_body_hash_result"
   ],
   "note": ""
  },
  {
   "property": "C11",
   "status": "proved",
   "theorems": [
    "C11_result_function_of_body"
   ],
   "note": ""
  },
  {
   "property": "C12",
   "status": "proved",
   "theorems": [
    "C12_done_is_final",
    "C12_skipping_is_safe",
    "C12_done_iff_satisfied",
    "C12_signer_done_is_final",
    "C12_verifier_done"
   ],
   "note": ""
  },
  {
   "property": "C13",
   "status": "proved",
   "theorems": [
    "C13_counting_hasher"
   ],
   "note": ""
  },
  {
   "property": "C14",
   "status": "proved",
   "theorems": [
    "C14_encode_exact",
    "C14_decode_exact",
    "C14_decode_section_exact",
    "C14_round_trip"
   ],
   "note": ""
  },
  {
   "property": "C15",
   "status": "proved",
   "theorems": [
    "C15_alphabet",
    "C15_alphabet_ascii_only",
    "C15_escapes",
    "C15_tag_value"
   ],
   "note": ""
  },
  {
   "property": "C16",
   "status": "proved",
   "theorems": [
    "C16_folding_tolerated",
    "C16_fws_longest_match"
   ],
   "note": ""
  },
  {
   "property": "C17",
   "status": "proved",
   "theorems": [
    "C17_encode_exact",
    "C17_parse_exact",
    "C17_round_trip",
    "C17_injective"
   ],
   "note": ""
  },
  {
   "property": "C18",
   "status": "proved",
   "theorems": [
    "C18_next_chunk",
    "C18_split_unique",
    "C18_from_utf8_exact"
   ],
   "note": ""
  },
  {
   "property": "C19",
   "status": "proved",
   "theorems": [
    "C19_field_name_accepted",
    "C19_equality_and_hash"
   ],
   "note": ""
  },
  {
   "property": "C20",
   "status": "proved",
   "theorems": [
    "C20_field_body_accepted",
    "C20_from_pairs",
    "C20_header_fields_new"
   ],
   "note": ""
  },
  {
   "property": "C21",
   "status": "proved",
   "theorems": [
    "C21_parse_exact",
    "C21_parsed_fields_valid",
    "C21_round_trip"
   ],
   "note": ""
  },
  {
   "property": "C22",
   "status": "proved",
   "theorems": [
    "C22_tag_list_exact",
    "C22_grammar_unambiguous",
    "C22_syntax_error",
    "C22_name_and_value_tests",
    "C22_values_well_formed",
    "C22_name_and_equals",
    "C22_colon_separated_exact",
    "C22_copied_field_exact"
   ],
   "note": ""
  },
  {
   "property": "C23",
   "status": "proved",
   "theorems": [
    "C23_duplicates_rejected"
   ],
   "note": ""
  },
  {
   "property": "C24",
   "status": "proved",
   "theorems": [
    "C24_signature_exact",
    "C24_never_panics",
    "C24_invariants"
   ],
   "note": ""
  },
  {
   "property": "C25",
   "status": "proved",
   "theorems": [
    "C25_record_tag_order",
    "C25_signature_tag_order"
   ],
   "note": ""
  },
  {
   "property": "C26",
   "status": "proved",
   "theorems": [
    "C26_error_exact",
    "C26_raw_tags"
   ],
   "note": ""
  },
  {
   "property": "C27",
   "status": "partial",
   "theorems": [
    "C27_numbers_exact",
    "C27_signature_numbers",
    "C27_digits_partial",
    "C27_digits_refuted"
   ],
   "note": "Exact acceptance is C27_numbers_exact; the claim holds for values without a leading plus sign (C27_digits_partial). False as stated: a leading plus sign is accepted (C27_digits_refuted)."
  },
  {
   "property": "C28",
   "status": "proved",
   "theorems": [
    "C28_subdomain_exact",
    "C28_subdomain_relation"
   ],
   "note": "That IDNA conversion ignores case is an explicit hypothesis; the exact relation without it is C28_subdomain_exact."
  },
  {
   "property": "C29",
   "status": "partial",
   "theorems": [
    "C29_domain_accepted",
    "C29_selector_accepted",
    "C29_two_labels_refuted",
    "C29_conversions",
    "C29_no_conversion"
   ],
   "note": "Exact acceptance is C29_domain_accepted and C29_selector_accepted. False as stated: a domain of one label is accepted (C29_two_labels_refuted), which the code documents as intended; also, the last label of a domain may not be all digits, which the claim does not say."
  },
  {
   "property": "C30",
   "status": "proved",
   "theorems": [
    "C30_identity_exact",
    "C30_round_trip",
    "C30_from_domain"
   ],
   "note": ""
  },
  {
   "property": "C31",
   "status": "proved",
   "theorems": [
    "C31_record_names",
    "C31_record_names_round_trip",
    "C31_algorithm_names",
    "C31_canonicalization_names",
    "C31_names_round_trip",
    "C31_no_sha1"
   ],
   "note": ""
  },
  {
   "property": "C32",
   "status": "proved",
   "theorems": [
    "C32_record_exact",
    "C32_error_exact",
    "C32_never_panics",
    "C32_invariants",
    "C32_is_testing",
    "C32_notes_lossy"
   ],
   "note": ""
  },
  {
   "property": "C33",
   "status": "proved",
   "theorems": [
    "C33_sign_exact",
    "C33_first_problem_unique",
    "C33_accepted_iff"
   ],
   "note": "Exact: the first problem in the order of checking, or one result per request, each as specified in SpecSign.v."
  },
  {
   "property": "C34",
   "status": "partial",
   "theorems": [
    "C34_output_is_a_field_partial",
    "C34_indentation_refuted"
   ],
   "note": "Header field always valid. False as stated for the indentation (C34_indentation_refuted): lines are indented as configured exactly if those in the values of additional tags are (C86_indentation). Assumes idna_ok."
  },
  {
   "property": "C35",
   "status": "partial",
   "theorems": [
    "C35_output_parses_partial",
    "C35_any_request_refuted",
    "C35_copied_names_refuted"
   ],
   "note": "False as stated: C35_any_request_refuted, C35_copied_names_refuted (see findings in DESIGN.md). C85_read_back proves when exactly the output is read back as the signature reported, with domain names in the form written and additional tags in the order written; C85_accepted when it is accepted at all."
  },
  {
   "property": "C36",
   "status": "proved",
   "theorems": [
    "C36_signature_removed",
    "C36_no_signature",
    "C36_signed_text"
   ],
   "note": ""
  },
  {
   "property": "C37",
   "status": "partial",
   "theorems": [
    "C37_sign_then_verify_partial",
    "C37_default_partial",
    "C37_fresh_partial",
    "C37_oversigned_refuted"
   ],
   "note": "Proved for any correct pair of keys under the conditions of C35, an acceptable configuration and record, and provided that the fields added are not covered by oversigned names in h=. False without the latter (C37_oversigned_refuted)."
  },
  {
   "property": "C38",
   "status": "proved",
   "theorems": [
    "C38_auto_selection"
   ],
   "note": ""
  },
  {
   "property": "C39",
   "status": "proved",
   "theorems": [
    "C39_body_length"
   ],
   "note": "For the canonical body as computed by the code (C02, C03)."
  },
  {
   "property": "C40",
   "status": "partial",
   "theorems": [
    "C40_width_refuted",
    "C40_lines_partial",
    "C40_long_lines_partial",
    "C40_early_break_refuted"
   ],
   "note": "False as stated: the semicolon after bh=, b=, z= may go one beyond the width, also on a line that could have been broken (C40_width_refuted); and with a line break in the value of an additional tag that is written before b=, lines of several tags may be much too long (C40_early_break_refuted). Everything else is proved: C40_lines_partial, C40_long_lines_partial, and with line breaks in other places C87. The line with the header name may be longer too. Assumes signatures of the size announced by the key."
  },
  {
   "property": "C41",
   "status": "proved",
   "theorems": [
    "C41_results",
    "C41_examined",
    "C41_verdicts",
    "C41_verdict_unique",
    "C41_evaluation"
   ],
   "note": "One result per examined field, in order, with its index; None iff max_signatures = 0 or there is no field named DKIM-Signature; no panic; every result is the (unique) verdict of a separate specification given what the resolver answered."
  },
  {
   "property": "C42",
   "status": "proved",
   "theorems": [
    "C42_success"
   ],
   "note": "Success iff the field reads as a signature passing all checks, one of the consulted records accepts it, and the body matches."
  },
  {
   "property": "C43",
   "status": "proved",
   "theorems": [
    "C43_order",
    "C43_separate"
   ],
   "note": "For resolvers whose answer depends only on the name; arbitrary permutations for hash map iteration; arbitrary latency and chunking."
  },
  {
   "property": "C44",
   "status": "proved",
   "theorems": [
    "C44_lookups"
   ],
   "note": "The log of lookups has exactly the distinct pairs of the signatures in progress, each once, at most max_signatures, with the names queried."
  },
  {
   "property": "C45",
   "status": "proved",
   "theorems": [
    "C45_records",
    "C45_others"
   ],
   "note": ""
  },
  {
   "property": "C46",
   "status": "partial",
   "theorems": [
    "C46_timeout_refuted",
    "C46_timeout_unused",
    "C46_time_spent"
   ],
   "note": "False of the code: Config::lookup_timeout is never applied. C46_timeout_refuted gives a witness; C46_timeout_unused shows that neither timeout nor latency has any influence on results; C46_time_spent that time adds up over sequential lookups."
  },
  {
   "property": "C47",
   "status": "proved",
   "theorems": [
    "C47_required",
    "C47_unsigned"
   ],
   "note": ""
  },
  {
   "property": "C48",
   "status": "partial",
   "theorems": [
    "C48_expired",
    "C48_in_future",
    "C48_length",
    "C48_expired_partial",
    "C48_expired_refuted"
   ],
   "note": "Exact with the sum capped at 2^64-1 (C48_expired); the claim holds as stated at any time before 2^64-1 (C48_expired_partial), and fails at that time (C48_expired_refuted). Also l= too large for the machine (C48_length)."
  },
  {
   "property": "C49",
   "status": "partial",
   "theorems": [
    "C49_key_partial",
    "C49_bits_partial",
    "C49_bits_refuted"
   ],
   "note": "False as stated: key sizes are counted in whole bytes, so that RSA keys of 1017 to 1023 bits pass as 1024 bits (C49_bits_refuted). C49_key_partial and C49_bits_partial prove everything with sizes counted so. With the pre-RFC 8301 build flag the RSA minimum is 512 instead of 1024, and SHA-1 depends on Config::allow_sha1."
  },
  {
   "property": "C50",
   "status": "proved",
   "theorems": [
    "C50_forbidden",
    "C50_beyond",
    "C50_appended"
   ],
   "note": ""
  },
  {
   "property": "C51",
   "status": "proved",
   "theorems": [
    "C51_classes",
    "C51_pass_temperror",
    "C51_temporary"
   ],
   "note": ""
  },
  {
   "property": "C52",
   "status": "proved",
   "theorems": [
    "C52_same_digest",
    "C52_genuine",
    "C52_tags",
    "C52_fields"
   ],
   "note": "The two cryptographic assumptions are stated per run: keys published for the signature's domain and selector confirm only what a given set of signings produced, and the conclusion names the two texts that would have to collide otherwise (C52_genuine, C52_same_digest). The set of tags compared leaves out b= and q= and, for uninterpreted tags, whitespace."
  },
  {
   "property": "C53",
   "status": "proved",
   "theorems": [
    "C53_default_policy",
    "C53_fresh_request"
   ],
   "note": "C53_fresh_request gives the exact time window."
  },
  {
   "property": "C54",
   "status": "proved",
   "theorems": [
    "C54_ascii_output"
   ],
   "note": ""
  },
  {
   "property": "C55",
   "status": "proved",
   "theorems": [
    "C55_fresh_signature",
    "C55_fresh_text",
    "C55_better_unsigned",
    "C55_better_unsigned_names",
    "C55_default_success",
    "C55_default_enough",
    "C55_default_values"
   ],
   "note": "The exceptions to the line length are those of C40."
  },
  {
   "property": "C56",
   "status": "proved",
   "theorems": [
    "C56_transit",
    "C56_same_body",
    "C56_same_field",
    "C56_on_top",
    "C56_unreadable"
   ],
   "note": "C56_same_body, C56_same_field show that the allowed changes are the ones that keep the canonical form."
  },
  {
   "property": "C57",
   "status": "proved",
   "theorems": [
    "C57_separate",
    "C57_together"
   ],
   "note": ""
  },
  {
   "property": "C58",
   "status": "proved",
   "theorems": [
    "C58_equal",
    "C58_equivalence",
    "C58_hash",
    "C58_interchangeable"
   ],
   "note": "The input given to a hasher is modelled, not the hash. C58_interchangeable assumes that idna ignores case (idna_ignores_case)."
  },
  {
   "property": "C59",
   "status": "proved",
   "theorems": [
    "C59_no_key",
    "C59_records",
    "C59_split",
    "C59_time"
   ],
   "note": "C59_no_key and C59_records assume of the resolver that it says the same about the name whenever asked during the verification; errors are mapped as in lookup_error (SpecVerify.v), by the kind of I/O error."
  },
  {
   "property": "C60",
   "status": "proved",
   "theorems": [
    "C60_key",
    "C60_error"
   ],
   "note": ""
  },
  {
   "property": "C61",
   "status": "proved",
   "theorems": [
    "C61_told",
    "C61_source",
    "C61_signing",
    "C61_one_line",
    "C61_parts",
    "C61_tags",
    "C61_result"
   ],
   "note": ""
  },
  {
   "property": "C62",
   "status": "proved",
   "theorems": [
    "C62_read_back",
    "C62_told"
   ],
   "note": "The library has no function that writes a whole record; the writing is part of the specification (SpecReport.v)."
  },
  {
   "property": "C63",
   "status": "proved",
   "theorems": [
    "C63_on_top"
   ],
   "note": ""
  },
  {
   "property": "C64",
   "status": "proved",
   "theorems": [
    "C64_several",
    "C64_text"
   ],
   "note": "Under the hypotheses of C37 on idna and cryptography. Only requests in which nothing was changed, hence not oversigning (finding 5)."
  },
  {
   "property": "C65",
   "status": "proved",
   "theorems": [
    "C65_looser",
    "C65_stricter"
   ],
   "note": "Assumes of the resolver that it says the same about a name whenever asked. C65_example has the case left out: with two records a raised minimum key size can give another failure than that of policy."
  },
  {
   "property": "C66",
   "status": "proved",
   "theorems": [
    "C66_sign",
    "C66_verify",
    "C66_one_message",
    "C66_crlf",
    "C66_usage",
    "C66_no_name"
   ],
   "note": "Assumes idna_ok, and that arguments are Unicode text. C66_sign: C66_one_message shows that the message is determined by the input."
  },
  {
   "property": "C67",
   "status": "proved",
   "theorems": [
    "C67_together"
   ],
   "note": "Under the hypotheses of C37 on idna and cryptography; assumes of the resolver that it says the same about a name whenever asked."
  },
  {
   "property": "C68",
   "status": "proved",
   "theorems": [
    "C68_only_signed_fields"
   ],
   "note": ""
  },
  {
   "property": "C69",
   "status": "proved",
   "theorems": [
    "C69_recovered",
    "C69_default"
   ],
   "note": "Under the hypotheses of C37 on idna and cryptography, for readable requests (readable_output) as named in the statement."
  },
  {
   "property": "C70",
   "status": "proved",
   "theorems": [
    "C70_value_exact",
    "C70_text_exact",
    "C70_literal",
    "C70_plain",
    "C70_header"
   ],
   "note": "Under tables_ok: the printability tables of the standard library, a parameter, are right for US-ASCII."
  },
  {
   "property": "C71",
   "status": "proved",
   "theorems": [
    "C71_results",
    "C71_results_told_apart",
    "C71_signature",
    "C71_record"
   ],
   "note": "Under tables_ok (as C70), and idna_keeps as named in the statement; for values as parsed, not for hand-built ones."
  },
  {
   "property": "C72",
   "status": "proved",
   "theorems": [
    "C72_report",
    "C72_printable"
   ],
   "note": "The first part without conditions on tables or idna; the second under tables_ok and idna_keeps."
  },
  {
   "property": "C73",
   "status": "proved",
   "theorems": [
    "C73_exact",
    "C73_rfc"
   ],
   "note": "C73_exact is for all bodies with the canonical form the code computes (C02_simple_body_exact, C03_relaxed_body_exact); C73_rfc is the statement."
  },
  {
   "property": "C74",
   "status": "proved",
   "theorems": [
    "C74_any_signer",
    "C74_rfc_signer",
    "C74_signed_data_unique",
    "C74_regular_refuted"
   ],
   "note": "C74_regular_refuted: the condition on bodies is needed."
  },
  {
   "property": "C75",
   "status": "proved",
   "theorems": [
    "C75_verifier",
    "C75_unique",
    "C75_without_key"
   ],
   "note": "For results of resolvers that change their mind see C41_verdicts."
  },
  {
   "property": "C76",
   "status": "proved",
   "theorems": [
    "C76_rsa",
    "C76_library",
    "C76_programs",
    "C76_assumptions"
   ],
   "note": "RSA, SHA-256, DER and PEM are written out in Concrete.v from the standards; it is an assumption that the crates compute the same, and that crate rsa accepts keys within the limits stated."
  },
  {
   "property": "C77",
   "status": "proved",
   "theorems": [
    "C77_result",
    "C77_verification",
    "C77_header",
    "C77_signature",
    "C77_signature_error",
    "C77_record",
    "C77_output",
    "C77_format",
    "C77_errors"
   ],
   "note": "The texts of results are typed by C77_verification; of other values by the types of Rust. Two transcriptions of names from the source are compared, one in the model and one in the specification."
  },
  {
   "property": "C78",
   "status": "proved",
   "theorems": [
    "C78_sign",
    "C78_key",
    "C78_key_regular",
    "C78_key_irregular",
    "C78_verify",
    "C78_confirms",
    "C78_library",
    "C78_programs"
   ],
   "note": "Ed25519, SHA-512, DER and PEM are written out in Concrete.v from the standards; it is an assumption that the crates compute the same for these inputs. Which keys ed25519-dalek reads is modelled from knowledge of that crate, as its source is not at hand."
  },
  {
   "property": "C79",
   "status": "proved",
   "theorems": [
    "C79_reading",
    "C79_texts",
    "C79_canonicalize",
    "C79_data_hash",
    "C79_signing",
    "C79_requests",
    "C79_verification"
   ],
   "note": "For the resolver to be allowed any answers, C79_verification compares the two builds without conditions on it. The counters of the body are those of C82, and those of the formatter are those of C88; see DESIGN.md for other additions on usize."
  },
  {
   "property": "C80",
   "status": "proved",
   "theorems": [
    "C80_rsa_key",
    "C80_ed_key",
    "C80_rsa",
    "C80_success",
    "C80_rfc"
   ],
   "note": "RSA, Ed25519, SHA-1, SHA-2 and DER are written out in Concrete.v from the standards; it is an assumption that the crates compute the same. The hash functions are those of Concrete.v. Which keys ed25519-dalek reads is modelled from knowledge of that crate, as its source is not at hand."
  },
  {
   "property": "C81",
   "status": "proved",
   "theorems": [
    "C81_sha256",
    "C81_sha1",
    "C81_sha512",
    "C81_ed_sign",
    "C81_success",
    "C81_rfc"
   ],
   "note": "C81_success is for all bodies with the canonical form the code computes, C81_rfc with that of the RFC for bodies other than the two corner cases. It is an assumption that the crates compute what the standards say. Messages of 2^64 bits and more, for which FIPS 180-4 has no digest, are hashed with their length modulo 2^64 (SHA-512: 2^128)."
  },
  {
   "property": "C82",
   "status": "partial",
   "theorems": [
    "C82_verifying_partial",
    "C82_signing_partial",
    "C82_checked_verifying",
    "C82_checked_signing",
    "C82_large_verifying",
    "C82_large_signing",
    "C82_verifying_twice_partial",
    "C82_signing_twice_partial",
    "C82_unnoticed_verifying",
    "C82_unnoticed_signing",
    "C82_panic_verifying",
    "C82_panic_signing",
    "C82_refuted"
   ],
   "note": "Proved for bodies of up to usize::MAX - 2 bytes (C82_verifying_partial, C82_signing_partial), and without overflow checks for up to 2 * usize::MAX bytes (verification; signing, other than for the value of l= if that is to be the length of the body). With checks, results are right if there are any. Refuted beyond: without checks, usize::MAX + 1 empty lines inserted in a body go unnoticed; with checks they are a panic."
  },
  {
   "property": "C83",
   "status": "proved",
   "theorems": [
    "C83_rsa",
    "C83_ed25519",
    "C83_same_text",
    "C83_altered"
   ],
   "note": "An Ed25519 signature is determined by its first half, as whoever has the private key can make more than one for the same text. The RSA key is assumed to be a key pair in the sense of RFC 8017. The cryptography is that of Concrete.v; it is an assumption that the crates compute the same."
  },
  {
   "property": "C84",
   "status": "partial",
   "theorems": [
    "C84_rsa",
    "C84_ed25519_partial",
    "C84_ed25519_any_key",
    "C84_rsa_partial",
    "C84_rsa_content_partial",
    "C84_ed25519_content_partial",
    "C84_weak_key",
    "C84_every_sender_refuted",
    "C84_refuted"
   ],
   "note": "Proved for RSA keys, whatever their numbers are (C84_rsa, C84_rsa_partial, C84_rsa_content_partial), and for Ed25519 keys that belong to a private key, up to equality of the SHA-512 values modulo the order of the base point (C84_ed25519_partial, C84_ed25519_content_partial). C84_ed25519_any_key is exact for all Ed25519 keys: the multiples of the public key must be the same. Refuted for the neutral element as Ed25519 key, which is accepted: one signature field makes messages from every sender verify (C84_every_sender_refuted, C84_refuted)."
  },
  {
   "property": "C85",
   "status": "proved",
   "theorems": [
    "C85_read_back",
    "C85_accepted"
   ],
   "note": "Assumes idna_ok and crypto_nonempty (digests and signatures are not empty), and rust_values: text is made of Unicode characters, numbers have 64 bits, rsa-sha1 is used only in builds that have it."
  },
  {
   "property": "C86",
   "status": "proved",
   "theorems": [
    "C86_indentation"
   ],
   "note": "Assumes idna_ok."
  },
  {
   "property": "C87",
   "status": "proved",
   "theorems": [
    "C87_lines",
    "C87_default_order"
   ],
   "note": "Assumes idna_ok, and signature_sizes: signatures have the size announced by the key. C40_early_break_refuted: the condition on tags before b= is needed."
  },
  {
   "property": "C88",
   "status": "proved",
   "theorems": [
    "C88_counting",
    "C88_checked"
   ],
   "note": "Assumes signature_sizes: signatures have the size announced by the key. Sums and products of the formatter and of the estimate of the length of b=, and the counters of C82; not positions in the header value being verified."
  },
  {
   "property": "C89",
   "status": "proved",
   "theorems": [
    "C89_covered",
    "C89_protected",
    "C89_author",
    "C89_body",
    "C89_ed25519"
   ],
   "note": "Assumes idna_ok. Cryptography is modelled (Concrete.v). Ed25519 keys that belong to no private key are excluded: see C84_every_sender_refuted."
  },
  {
   "property": "C90",
   "status": "proved",
   "theorems": [
    "C90_body",
    "C90_rsa",
    "C90_rsa_one_record",
    "C90_ed25519_one_record",
    "C90_ed25519_private_key"
   ],
   "note": "C90_body: any cryptography. The others: cryptography is modelled (Concrete.v), idna_ok assumed; for Ed25519 there is one TXT record."
  },
  {
   "property": "C91",
   "status": "proved",
   "theorems": [
    "C91_while_reading",
    "C91_at_the_end",
    "C91_never_taken_back",
    "C91_header",
    "C91_one_chunk_unbounded"
   ],
   "note": "Sizes are in octets, unbounded counters."
  },
  {
   "property": "C92",
   "status": "proved",
   "theorems": [
    "C92_break",
    "C92_simple_relaxed",
    "C92_message",
    "C92_stricter"
   ],
   "note": "C92_stricter shows that relaxed is stricter than simple in one case, a consequence of finding 2."
  },
  {
   "property": "C93",
   "status": "proved",
   "theorems": [
    "C93_made",
    "C93_made_rfc",
    "C93_output",
    "C93_fresh",
    "C93_real",
    "C93_success",
    "C93_valid",
    "C93_forms",
    "C93_all_refuted"
   ],
   "note": "Validity by the RFC is the definition valid_dkim with rfc_body (SpecDkim.v). Assumes idna_ok; C93_real has the modelled cryptography (Concrete.v). Consequence of findings 1 and 2: C93_all_refuted gives a message signed and accepted here that is not valid by the RFC."
  },
  {
   "property": "C94",
   "status": "proved",
   "theorems": [
    "C94_exact",
    "C94_failure",
    "C94_between",
    "C94_more",
    "C94_order",
    "C94_order_refuted"
   ],
   "note": "Assumes of the resolver that, during one verification, it says the same about a name whenever asked. C94_order_refuted: four records."
  },
  {
   "property": "C95",
   "status": "proved",
   "theorems": [
    "C95_rsa",
    "C95_ed25519"
   ],
   "note": "Cryptography is modelled (Concrete.v); idna_ok assumed. The result given is that of verify_message; during one verification the resolver says the same about a name whenever asked."
  },
  {
   "property": "C96",
   "status": "proved",
   "theorems": [
    "C96_rsa",
    "C96_ed25519"
   ],
   "note": "Cryptography is modelled (Concrete.v); idna_ok assumed. The result given is that of verify_message; during one verification the resolver says the same about a name whenever asked."
  },
  {
   "property": "C97",
   "status": "proved",
   "theorems": [
    "C97_rsa",
    "C97_ed25519"
   ],
   "note": "Cryptography, PEM and PKCS#8 are modelled (Concrete.v); idna_ok assumed. During one verification the resolver says the same about a name whenever asked."
  },
  {
   "property": "C98",
   "status": "proved",
   "theorems": [
    "C98_signing",
    "C98_rsa",
    "C98_ed25519"
   ],
   "note": "Cryptography is modelled (Concrete.v), nothing is assumed of it; idna_ok assumed for verification. During one verification the resolver says the same about a name whenever asked."
  },
  {
   "property": "C99",
   "status": "proved",
   "theorems": [
    "C99_width",
    "C99_counters",
    "C99_same",
    "C99_feature",
    "C99_success",
    "C99_signing",
    "C99_interop",
    "C99_signed"
   ],
   "note": "Cryptographic primitives are any functions (C99_interop, as C37: crypto_typed, crypto_nonempty and idna_ok assumed). During one verification the resolver says the same about a name whenever asked. Theorems other than C99_counters are about unbounded counters, which is the same for such bodies (C82)."
  },
  {
   "property": "C100",
   "status": "proved",
   "theorems": [
    "C100_settled",
    "C100_single",
    "C100_other_names",
    "C100_settled_refuted"
   ],
   "note": "For the condition see also C100_settled_refuted. With C100, theorems about resolvers that always answer alike (C95 to C99 and others) also tell the results of other resolvers."
  },
  {
   "property": "C101",
   "status": "proved",
   "theorems": [
    "C101_verifier",
    "C101_verifier_results",
    "C101_none",
    "C101_whole",
    "C101_signer",
    "C101_signer_results",
    "C101_cr_refuted"
   ],
   "note": "C101_cr_refuted is for the exception stated. C12 has the same in terms of the canonicalizer of the model."
  },
  {
   "property": "C102",
   "status": "proved",
   "theorems": [
    "C102_read",
    "C102_readable",
    "C102_signed_text",
    "C102_results",
    "C102_trailing_refuted"
   ],
   "note": "C102_trailing_refuted is for the last sentence. C102_results extends C56, where the value of the field is unchanged."
  },
  {
   "property": "C103",
   "status": "proved",
   "theorems": [
    "C103_results",
    "C103_tags",
    "C103_flags",
    "C103_order",
    "C103_whitespace",
    "C103_notes_refuted"
   ],
   "note": "C103_notes_refuted is for the last sentence."
  },
  {
   "property": "C104",
   "status": "proved",
   "theorems": [
    "C104_same",
    "C104_fields",
    "C104_copied_refuted",
    "C104_case_refuted"
   ],
   "note": "C104_copied_refuted and C104_case_refuted are for the last sentence."
  },
  {
   "property": "C105",
   "status": "proved",
   "theorems": [
    "C105_timeless",
    "C105_restyled"
   ],
   "note": ""
  },
  {
   "property": "C106",
   "status": "proved",
   "theorems": [
    "C106_results",
    "C106_lookups"
   ],
   "note": ""
  },
  {
   "property": "C107",
   "status": "proved",
   "theorems": [
    "C107_converted",
    "C107_panics",
    "C107_read",
    "C107_bare_lf_refuted"
   ],
   "note": "C107_bare_lf_refuted is for the last sentence."
  }
 ]
}