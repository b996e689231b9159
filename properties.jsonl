{"id": "C01", "title": "Body canonicalization does not depend on chunking", "statement": "Feeding a message body to a body canonicalizer in any sequence of chunks and finishing yields, concatenated, the same bytes as feeding the whole body in one chunk.", "quantifier": "every byte string, every split of it into any number of (possibly empty) chunks, both algorithms", "why_tests_cant": "the number of splits is exponential in the body length; a split inside CR LF or inside a whitespace run hits different state-machine edges", "anchors": ["src/canonicalize.rs: BodyCanonicalizer::canonicalize_chunk, BodyCanonicalizer::finish"]}
{"id": "C02", "title": "Simple body canonicalization is RFC 6376 section 3.4.3", "statement": "The simple canonical form of a body is the body with all trailing CRLFs removed and exactly one CRLF appended (an empty body becomes CRLF).", "quantifier": "every byte string as body (incl. stray CR/LF)", "why_tests_cant": "infinitely many bodies; the corner cases (only empty lines, stray CR before CRLF) are exactly those not in the test suite", "anchors": ["src/canonicalize.rs: BodyCanonicalizer (Simple)"]}
{"id": "C03", "title": "Relaxed body canonicalization is RFC 6376 section 3.4.4", "statement": "The relaxed canonical form of a body is obtained by, on every CRLF-separated line, dropping trailing WSP and reducing inner WSP runs to one SP, then dropping all empty lines at the end and terminating every remaining line with CRLF (empty if nothing remains).", "quantifier": "every byte string as body (incl. stray CR/LF)", "why_tests_cant": "infinitely many bodies and interactions of WSP, CR, LF with end of input", "anchors": ["src/canonicalize.rs: BodyCanonicalizer (Relaxed)"]}
{"id": "C04", "title": "Body canonicalizer never hits its unreachable states", "statement": "No sequence of chunks makes the canonicalizer panic (neither while processing chunks nor on finish).", "quantifier": "every finite sequence of chunks, both algorithms", "why_tests_cant": "a panic needs one particular state history; tests only follow a few", "anchors": ["src/canonicalize.rs: canon_chunk_simple (unreachable!), finish (unreachable!)"]}
{"id": "C05", "title": "Shape of the canonicalized body", "statement": "A canonicalized body is empty or ends in CRLF; in a relaxed body no line ends in SP/TAB and no TAB or double SP occurs; canonicalizing again changes nothing; and canonical form never ends in an empty line.", "quantifier": "every body, both algorithms", "why_tests_cant": "universally quantified output shape and idempotence", "anchors": ["src/canonicalize.rs: BodyCanonicalizer"]}
{"id": "C06", "title": "Relaxed header canonicalization", "statement": "The relaxed form of a header field is lower-cased name, colon, and the value's whitespace-separated words joined by single spaces; so it is insensitive to folding, to amount and kind of whitespace at existing whitespace positions, and to the letter case of the name, and it is idempotent.", "quantifier": "every field name and value, every two values with the same words", "why_tests_cant": "relay rewrites are unbounded; tests sample a handful", "anchors": ["src/canonicalize.rs: canonicalize_header, canonicalize_header_relaxed"]}
{"id": "C07", "title": "Simple header canonicalization is verbatim and injective", "statement": "The simple form of a header field is exactly name, colon, value; two distinct valid fields never have the same simple form.", "quantifier": "every pair of valid header fields", "why_tests_cant": "injectivity ranges over all pairs of inputs", "anchors": ["src/canonicalize.rs: canonicalize_header"]}
{"id": "C08", "title": "Signed header instances are taken bottom-up, each at most once", "statement": "In the header hash input, the k-th occurrence of a name in the list of signed names contributes the k-th matching field counted from the bottom of the header (case-insensitive match), or nothing when fewer exist; contributions appear in list order, each followed by CRLF.", "quantifier": "every header and every list of signed names, with any repetition and letter case", "why_tests_cant": "unbounded repetitions and orderings; multi-instance semantics needs a global counting argument", "anchors": ["src/canonicalize.rs: canonicalize_headers"]}
{"id": "C09", "title": "Header fields whose names are not signed do not affect the hash input", "statement": "Adding, removing or changing header fields whose names are not in the signed names, anywhere in the header, and adding further instances of signed names above the ones already consumed, leaves the header hash input unchanged.", "quantifier": "every header, every list of signed names, every such modification", "why_tests_cant": "ranges over all modifications in transit", "anchors": ["src/canonicalize.rs: canonicalize_headers", "src/message_hash.rs: compute_data_hash"]}
{"id": "C10", "title": "Body hash results are the digest of the limited canonical body", "statement": "For each registered (length limit, hash, canonicalization): without limit the result is the digest of the whole canonical body and its length; with limit n it is InsufficientInput if the canonical body is shorter than n, InputTruncated if it is longer and truncation is forbidden, otherwise the digest of its first n bytes and n.", "quantifier": "every body, every chunking, every set of registrations, both truncation settings, every digest function", "why_tests_cant": "limits interact with chunk boundaries, with other registrations sharing the canonicalizer and with early completion", "anchors": ["src/message_hash.rs: BodyHasherBuilder, BodyHasher::hash_chunk, BodyHasher::finish", "src/crypto/hash.rs: CountingHasher"]}
{"id": "C11", "title": "Body hash results are independent of chunking, other registrations and map order", "statement": "The result for a registration is a function of the concatenated body only; it is the same whatever chunking is used, whatever other registrations exist, in whatever order registrations are inserted or internally iterated.", "quantifier": "every two chunkings of a body, every two registration sets containing the key, every iteration order", "why_tests_cant": "hash map iteration order is randomised per run; the space of schedules is not enumerable by tests", "anchors": ["src/message_hash.rs: BodyHasher"]}
{"id": "C12", "title": "Done means done", "statement": "Once chunk processing reports Done, feeding any further chunks changes no result, and skipping them is safe; this also holds for the signer and the verifier.", "quantifier": "every chunk history that reported Done, every continuation", "why_tests_cant": "quantifies over all continuations", "anchors": ["src/message_hash.rs: BodyHasherStance, BodyHasher::hash_chunk", "src/signer/mod.rs: process_body_chunk", "src/verifier/mod.rs: process_body_chunk"]}
{"id": "C13", "title": "Counting hasher never exceeds its limit", "statement": "In any sequence of updates the hasher digests exactly the first min(limit,total) bytes, never trips its internal assertion, reports Truncated exactly when input had to be dropped, and finishes with an error exactly when fewer than limit bytes were supplied.", "quantifier": "every limit, every sequence of updates", "why_tests_cant": "history-dependent counter invariant", "anchors": ["src/crypto/hash.rs: CountingHasher"]}
{"id": "C14", "title": "Quoted-printable round trip", "statement": "Decoding the DKIM-quoted-printable encoding of any byte string gives back that byte string, for every choice of additional special character and for both the Unicode-preserving and the ASCII-only encoder.", "quantifier": "every byte string (including invalid UTF-8), every special character", "why_tests_cant": "the input space is all byte strings; UTF-8 boundary handling has many partial-sequence cases", "anchors": ["src/quoted_printable.rs: encode, encode_ascii_only, decode", "src/util.rs: next_utf8_chunk"]}
{"id": "C15", "title": "Quoted-printable output alphabet", "statement": "Encoder output contains no US-ASCII whitespace or control characters, no semicolon, no occurrence of the special character (unless that is '=' or an upper-case hex digit, which escapes need), and '=' only as the start of an escape with two upper-case hex digits; the ASCII-only encoder emits only ASCII. Output is empty or a tag value.", "quantifier": "every byte string and special character", "why_tests_cant": "universally quantified output property", "anchors": ["src/quoted_printable.rs: encode_internal, is_dkim_safe_char"]}
{"id": "C16", "title": "Quoted-printable decoding tolerates folding", "statement": "Inserting one run of folding whitespace between any two characters of encoder output (even inside an =XX escape), or before the first or after the last, does not change what it decodes to.", "quantifier": "every byte string, every choice of insertion points", "why_tests_cant": "exponentially many foldings of each string", "anchors": ["src/quoted_printable.rs: decode, strip_hex_octet"]}
{"id": "C17", "title": "Base64 round trip under folding", "statement": "Decoding a base64 tag value gives back the encoded bytes whatever spaces, tabs, CRs and LFs are inserted into the encoded text; distinct byte strings have distinct encodings.", "quantifier": "every byte string, every insertion of whitespace", "why_tests_cant": "exponentially many foldings", "anchors": ["src/util.rs: encode_base64, decode_base64", "src/tag_list.rs: parse_base64_value"]}
{"id": "C18", "title": "UTF-8 chunking is lossless", "statement": "Splitting bytes into valid-UTF-8 chunks and invalid remainders loses nothing: concatenation of the pieces is the input, each valid piece is valid UTF-8, every invalid piece is nonempty when input remains, so the loop terminates.", "quantifier": "every byte string", "why_tests_cant": "partial multi-byte sequences at every position", "anchors": ["src/util.rs: next_utf8_chunk"]}
{"id": "C19", "title": "Field names: acceptance, equality and hashing agree", "statement": "A field name is accepted exactly when non-empty and composed of printable US-ASCII other than colon; equality ignores ASCII case, is an equivalence relation, and equal names always hash equally.", "quantifier": "every string; every pair/triple of names", "why_tests_cant": "equivalence and hash agreement quantify over pairs and triples", "anchors": ["src/header.rs: FieldName"]}
{"id": "C20", "title": "Field bodies: acceptance", "statement": "A field body is accepted exactly when each of its CRLF-separated lines is free of bare CR, bare LF and other control characters except TAB, and every continuation line starts with SP/TAB and contains a non-blank byte.", "quantifier": "every byte string", "why_tests_cant": "acceptance iff over all byte strings", "anchors": ["src/header.rs: FieldBody::new, split_crlf"]}
{"id": "C21", "title": "Header block parsing round trip", "statement": "Writing any valid list of header fields as text (name, colon, value, line break) and parsing it gives back exactly those fields, whether lines end in CRLF or LF; parsing never yields an empty header or invalid fields.", "quantifier": "every non-empty list of valid header fields with UTF-8 values; every input string", "why_tests_cant": "folded values of arbitrary shape", "anchors": ["src/header.rs: HeaderFields::from_str, HeaderFields::new"]}
{"id": "C22", "title": "Tag-list parser accepts exactly the RFC grammar", "statement": "A string parses as a tag list iff it is derivable from the RFC 6376 tag-list grammar (with erratum 5070 for internal whitespace) with distinct tag names, and the parsed names and values are those of the derivation, in order, with surrounding folding whitespace removed.", "quantifier": "every string", "why_tests_cant": "grammar equivalence over an infinite language", "anchors": ["src/tag_list.rs: TagList::from_str, strip_tag_list, strip_tag_spec"]}
{"id": "C23", "title": "Tag names in an accepted tag list are unique", "statement": "An accepted tag list never contains two tags with the same name; a grammatical list with a repeated name is rejected as a duplicate, not accepted with one of them.", "quantifier": "every string", "why_tests_cant": "universally quantified; smuggling attacks rely on one unchecked input", "anchors": ["src/tag_list.rs: TagList::from_str"]}
{"id": "C24", "title": "Invariants of every parsed DKIM signature", "statement": "Whenever a header value parses as a signature: version is 1; From is among the signed headers; signature data and body hash are non-empty; the identity's domain equals or is a subdomain of the signing domain; expiration, if given with timestamp, is later; names in the signed header list are valid; extension tags have names not otherwise interpreted.", "quantifier": "every string that parses", "why_tests_cant": "security-relevant invariant over all adversarial inputs", "anchors": ["src/signature.rs: DkimSignature::from_str, from_tag_list_internal"]}
{"id": "C25", "title": "Tag order is irrelevant when parsing signatures and key records", "statement": "Permuting the tags of a signature that parses leaves every component of the parse unchanged except the relative order of extension tags; likewise for key records as long as v= stays first when present.", "quantifier": "every accepted tag list and every permutation of it", "why_tests_cant": "factorially many permutations", "anchors": ["src/signature.rs: from_tag_list_internal", "src/record.rs: from_tag_list"]}
{"id": "C26", "title": "Rejected signatures still report their identifying tags faithfully", "statement": "When a tag list is well-formed but not a valid signature, the error carries for a=, b=, d=, i=, s= exactly the raw text given for these tags (or nothing if absent), and rejection happens exactly when the value is not an acceptable signature.", "quantifier": "every string", "why_tests_cant": "ranges over all invalid inputs", "anchors": ["src/signature.rs: DkimSignature::from_tag_list, DkimSignatureError"]}
{"id": "C27", "title": "Numeric tags accept exactly decimal numbers in range", "statement": "l=, t= and x= are accepted exactly when the value is a non-empty string of decimal digits denoting a number below 2^64, and the parsed number is its value.", "quantifier": "every string value", "why_tests_cant": "overflow boundaries and odd spellings", "anchors": ["src/signature.rs: from_tag_list_internal (l, t, x)"]}
{"id": "C28", "title": "Subdomain relation is label-suffix", "statement": "A domain is reported equal to or a subdomain of another iff the other's label sequence is a suffix of its label sequence, ASCII case-insensitively in A-label form; so the relation is reflexive and transitive and never matches inside a label.", "quantifier": "every pair and triple of domain names; every IDNA mapping that ignores ASCII case", "why_tests_cant": "ranges over all pairs/triples; the off-by-one at the label boundary is a classical security bug", "anchors": ["src/signature.rs: DomainName::eq_or_subdomain_of"]}
{"id": "C29", "title": "Domain and selector syntax limits", "statement": "A domain/selector is accepted iff its A-label form consists of dot-separated non-empty labels of at most 63 letters, digits, hyphens (not at the ends; underscore handling as implemented), total length at most 253 (a domain has at least two labels, a selector at least one), and its stored text is what the user gave.", "quantifier": "every string, every IDNA mapping", "why_tests_cant": "infinite input space with length boundaries", "anchors": ["src/signature.rs: is_valid_domain_string, is_valid_dns_name, is_label"]}
{"id": "C30", "title": "Identity parse/print round trip", "statement": "Printing an identity and parsing it again gives the same identity; accepted local parts are exactly RFC 5321 dot-strings or quoted strings extended with non-ASCII characters; the split is at the last '@'.", "quantifier": "every string accepted as identity", "why_tests_cant": "quoted local parts may contain '@', quotes and escapes", "anchors": ["src/signature.rs: Identity::new, is_local_part, is_dot_string, is_quoted_string"]}
{"id": "C31", "title": "Algorithm and canonicalization names", "statement": "Parsing the canonical name of any signing algorithm, canonicalization, key type, hash, service type, or flag yields it back; parsing is ASCII case-insensitive; nothing else is accepted; in the default build no SHA-1 algorithm can be named.", "quantifier": "every string", "why_tests_cant": "negative part (nothing else is accepted) ranges over all strings", "anchors": ["src/signature.rs: SigningAlgorithm, Canonicalization, CanonicalizationAlgorithm", "src/record.rs: ServiceType, SelectorFlag", "src/crypto/mod.rs: KeyType, HashAlgorithm"]}
{"id": "C32", "title": "Invariants of every parsed key record", "statement": "Whenever a TXT string parses as a key record: v=, if present, is the first tag and is DKIM1; p= was present; hash algorithms and service types are non-empty; absent tags take the RFC defaults; unknown tags are ignored.", "quantifier": "every string that parses", "why_tests_cant": "adversarial DNS content", "anchors": ["src/record.rs: DkimKeyRecord::from_tag_list"]}
{"id": "C33", "title": "Sign requests are validated completely before signing", "statement": "prepare_signing succeeds iff there are between 1 and 10 requests, the header contains From, and every request is individually valid; otherwise it reports the first problem; and for accepted input, signing never panics and yields exactly one result per request in request order.", "quantifier": "every header, request list, body and chunking", "why_tests_cant": "panics hide in combinations of request options", "anchors": ["src/signer/mod.rs: Signer::prepare_signing, validate_request, Signer::sign", "src/signer/sign.rs: perform_signing"]}
{"id": "C34", "title": "Signer output is a well-formed header field", "statement": "The header name and value produced by the signer always form a valid header field (no panic in conversion), every continuation line starts with the configured indentation and is not blank.", "quantifier": "every accepted request, every output format (width, indentation, tag order), header and body", "why_tests_cant": "folding decisions depend on all lengths", "anchors": ["src/signer/mod.rs: SigningOutput::to_header_field", "src/signer/format.rs: format_without_signature, insert_signature_data"]}
{"id": "C35", "title": "Signer output parses back to the reported signature", "statement": "Parsing the signer's header value as a DKIM signature succeeds and gives the very signature data reported in the signing output.", "quantifier": "every accepted request, every output format, header and body", "why_tests_cant": "print/parse agreement over all option combinations", "anchors": ["src/signer/format.rs: UnsignedDkimSignature::format_without_signature", "src/signature.rs: DkimSignature::from_str"]}
{"id": "C36", "title": "Verifier strips exactly the signature value", "statement": "From any parseable DKIM-Signature value the verifier reconstructs the text with exactly the value of the b= tag and the whitespace around it removed, every other byte intact; on signer output this reconstructs precisely the text the signer hashed.", "quantifier": "every parseable header value; every signer output", "why_tests_cant": "position and whitespace around b= are arbitrary", "anchors": ["src/verifier/verify.rs: make_original_dkim_sig", "src/signer/format.rs: insert_signature_data", "src/signer/sign.rs: produce_signature"]}
{"id": "C37", "title": "Sign then verify succeeds", "statement": "If a message is signed and the resulting field is prepended, verifying the message with the matching public key record yields Success for that signature, for any body chunking on either side.", "quantifier": "every header, body, accepted request, output format, chunking; every correct signature scheme and digest", "why_tests_cant": "end-to-end agreement over all option combinations", "anchors": ["src/signer/mod.rs: Signer", "src/verifier/mod.rs: Verifier", "src/signer/sign.rs", "src/verifier/verify.rs", "src/signer/format.rs"]}
{"id": "C38", "title": "Automatic header selection signs every default header instance", "statement": "With automatic selection the signed names are exactly the fields of the message whose name is in the default list, one entry per instance, bottom to top; hence every such instance enters the hash input and adding another one later is detectable by count.", "quantifier": "every header", "why_tests_cant": "multiplicity argument over all headers", "anchors": ["src/signer/mod.rs: select_headers, default_signed_headers", "src/signer/sign.rs: select_signed_headers"]}
{"id": "C39", "title": "Signed body length reflects hashed content", "statement": "Without a limit no l= is produced; with message-content length l= equals the canonical body length; with exact n, l= is n and signing fails with InsufficientContent iff the canonical body is shorter.", "quantifier": "every body, chunking, canonicalization and n", "why_tests_cant": "length/truncation boundaries", "anchors": ["src/signer/sign.rs: perform_signing", "src/signer/mod.rs: BodyLength"]}
{"id": "C40", "title": "Output lines respect the line width", "statement": "Every line of the signer's header that can be folded stays within the configured width; lines longer than it consist of a single unbreakable token after the indentation.", "quantifier": "every accepted request and output format", "why_tests_cant": "folding decisions depend on all lengths", "anchors": ["src/signer/format.rs: format_chunks_into_string, advance_i, insert_signature_data"]}
{"id": "C41", "title": "Verification results correspond to the signature headers", "statement": "The verifier returns one result for each of the first max_signatures DKIM-Signature fields, in header order, each with the index of its field; None is returned iff there is none to evaluate; no panic occurs.", "quantifier": "every header, configuration, resolver behaviour, body", "why_tests_cant": "combination of evaluation orders and failures", "anchors": ["src/verifier/mod.rs: Verifier::verify_header, finish", "src/verifier/header.rs: find_signatures, verify_all"]}
{"id": "C42", "title": "Success is sound and complete", "statement": "A signature is reported as Success iff it parses, passes all signature policy checks, one of its consulted key records parses, matches and verifies the data hash with an acceptable key, and the body hash matches.", "quantifier": "every header, body, resolver answer, configuration, crypto primitive", "why_tests_cant": "the central security property ranges over all adversarial messages and DNS answers", "anchors": ["src/verifier/mod.rs: Verifier", "src/verifier/header.rs: verify_task, validate_signature, validate_key_record", "src/verifier/verify.rs: perform_verification"]}
{"id": "C43", "title": "Verification is independent of lookup order", "statement": "Results do not depend on the order in which key lookups are performed or complete (hash map iteration order), nor on how signatures share lookups or cached key records.", "quantifier": "every permutation of lookup groups, every header with any number of signatures sharing or not sharing keys", "why_tests_cant": "iteration order is randomised per process", "anchors": ["src/verifier/query.rs: QueriesBuilder", "src/verifier/header.rs: verify_all, CachedDkimKeyRecord"]}
{"id": "C44", "title": "Lookups are shared and bounded", "statement": "Exactly one DNS lookup is made per distinct (A-label domain, selector) pair among signatures still in progress, so at most max_signatures lookups; the name queried is selector._domainkey.domain. in absolute form.", "quantifier": "every header and configuration", "why_tests_cant": "counts over all inputs (denial-of-service bound)", "anchors": ["src/verifier/query.rs: QueriesBuilder::add_lookup, look_up_records"]}
{"id": "C45", "title": "Multiple key records: bounded, first success wins", "statement": "At most three key records are consulted per lookup (the first two and the last); if any of these confirms the signature, the first that does is reported with the result, which then depends on the body alone; otherwise the failure reported is that of the last one.", "quantifier": "every resolver answer", "why_tests_cant": "all record lists", "anchors": ["src/verifier/query.rs: look_up_records", "src/verifier/header.rs: verify_task"]}
{"id": "C46", "title": "Lookup timeout is honoured", "statement": "A key lookup that takes longer than the configured lookup_timeout is abandoned and reported as a Timeout error.", "quantifier": "every resolver latency and configured timeout", "why_tests_cant": "timing schedules", "anchors": ["src/verifier/mod.rs: Config::lookup_timeout", "src/verifier/query.rs: spawn_all"]}
{"id": "C47", "title": "Signed-header policy", "statement": "With the configured sets, a signature is rejected for policy iff some required header is absent from its signed names (RequiredHeaderNotSigned) or some header that must not occur unsigned has more instances in the message than in the signed names (UnsignedHeaderOccurrence).", "quantifier": "every header, signature and configuration", "why_tests_cant": "multiset comparison over all inputs", "anchors": ["src/verifier/header.rs: validate_signed_headers"]}
{"id": "C48", "title": "Time policy", "statement": "Expired is reported iff a given expiration plus tolerance is at or before now; a timestamp in the future is reported iff timestamp exceeds now plus tolerance; the two switches disable exactly their check; arithmetic never overflows.", "quantifier": "every timestamp, expiration, clock reading, tolerance in u64", "why_tests_cant": "boundaries at 2^64 and equality points", "anchors": ["src/verifier/header.rs: validate_signature"]}
{"id": "C49", "title": "Key strength policy", "statement": "No signature verified with an RSA key below max(1024, configured minimum) bits is a success, and in the default build no SHA-1 signature can succeed; key records restricted by h= never validate a signature with another hash; a key marked for strict domain matching never validates an identity in a subdomain; an empty p= never validates.", "quantifier": "every key record, signature and configuration", "why_tests_cant": "ranges over all adversarial records", "anchors": ["src/verifier/header.rs: validate_key_record, validate_verifying_key", "src/crypto/mod.rs: VerifyingKey", "src/crypto/rsa.rs: read_rsa_public_key"]}
{"id": "C50", "title": "Partially signed bodies can be refused", "statement": "With unsigned content forbidden, a success implies the whole canonical body was covered by the signature; without it, content beyond l= does not affect the result.", "quantifier": "every body, extension of it, chunking, l=", "why_tests_cant": "quantifies over all appended content", "anchors": ["src/verifier/mod.rs: verify_body_hash, Config::forbid_unsigned_content", "src/message_hash.rs: BodyHasher"]}
{"id": "C51", "title": "Result classification", "statement": "A verification status maps to pass iff it is Success; to temperror iff the cause is a lookup failure or timeout; all syntactic and policy problems map as documented and every status maps to exactly one result.", "quantifier": "every verification status", "why_tests_cant": "exhaustiveness over the full error taxonomy", "anchors": ["src/verifier/mod.rs: VerificationStatus::to_dkim_result"]}
{"id": "C52", "title": "Tampering is detected", "statement": "Assuming a collision-free digest and unforgeable signature check, a Success for a modified message implies the modified message has the same canonical signed header fields and same canonical (l=-limited) body as the message that was signed.", "quantifier": "every modification of header and body", "why_tests_cant": "ranges over all modifications", "anchors": ["src/verifier/verify.rs: perform_verification", "src/verifier/mod.rs: verify_body_hash", "src/message_hash.rs: compute_data_hash"]}
{"id": "C53", "title": "Default configuration accepts what default signing produces", "statement": "A message signed with a fresh request and automatic header selection passes the default verifier policy checks (required headers, unsigned occurrences, time).", "quantifier": "every header and body, every clock reading from five minutes before the time of signing until five minutes after the expiration five days later", "why_tests_cant": "two independent default lists must stay consistent for all headers", "anchors": ["src/signer/mod.rs: SignRequest::new, default_signed_headers", "src/verifier/mod.rs: Config::default"]}
{"id": "C54", "title": "ASCII-only output", "statement": "With the ascii_only format option the formatted header value consists of ASCII characters only, given ASCII additional tag values: domain names are written as A-labels and other text is quoted-printable encoded.", "quantifier": "every header, body, accepted request and format with ascii_only set", "why_tests_cant": "ranges over all Unicode domains, local parts and header field contents", "anchors": ["src/signer/format.rs", "src/quoted_printable.rs: encode"]}
{"id": "C55", "title": "Defaults", "statement": "Signing with a request in which nothing was changed produces a DKIM-Signature with relaxed/simple canonicalization, the time of signing, an expiration five days later (capped at the largest representable time), no l=, i=, z= or other tags, signing exactly the fields with a name of the default list and none of those better left unsigned; it is written in a fixed order of tags on tab-indented lines of at most 78 characters, except by a semicolon or for a token that cannot be broken. Under the default verifier configuration a success implies that the field is among the first ten signatures, every From field is signed, the signature is within its times give or take five minutes, uses SHA-256 and no RSA key under 1024 bits; and a signature with no l= that meets this and is confirmed by a consulted key record and the body hash has success. The time limit for lookups is ten seconds by default.", "quantifier": "every header, body, key, clock reading, resolver answer", "why_tests_cant": "the defaults combine a dozen settings; their effect is quantified over all messages", "anchors": ["src/signer/mod.rs: SignRequest::new, OutputFormat::default, default_signed_headers, default_unsigned_headers", "src/verifier/mod.rs: Config::default"]}
{"id": "C56", "title": "Changes in transit that do not matter", "statement": "A signature's result (status, signature, key record) is the same for two messages with the same signature field value if the fields with a name that is signed or forbidden to be unsigned are pairwise the same up to the header canonicalization, in the same order per name, and the bodies are the same up to trailing empty lines and, for relaxed, amounts of whitespace inside lines and whitespace at line ends; other fields may be added, removed or moved freely, and fields may be put on top of the header unless the signature covers more fields of that name than there were.", "quantifier": "every two messages so related, every configuration, resolver and chunking", "why_tests_cant": "quantifies over all harmless modifications", "anchors": ["src/verifier/header.rs: verify_all", "src/message_hash.rs: compute_data_hash, BodyHasher", "src/canonicalize.rs: canonicalize_headers, BodyCanonicalizer"]}
{"id": "C57", "title": "Signing requests do not influence each other", "statement": "When a message is signed with several requests, the result for each of them is the one that signing with this request alone gives, whatever the other requests, the iteration order of the hash maps and the chunks of the body; and up to ten requests which are accepted individually are accepted together.", "quantifier": "every list of requests, header, body, chunking and map order", "why_tests_cant": "ranges over all combinations of requests sharing body hashers", "anchors": ["src/signer/mod.rs: Signer::prepare_signing, Signer::sign", "src/message_hash.rs: BodyHasherBuilder"]}
{"id": "C58", "title": "Equality of names", "statement": "Domain names, selectors and header field names are equal exactly if they differ in the case of ASCII letters only; identities if in addition the local parts are identical; headers if their fields have equal names and identical values in the same order. These are equivalence relations, equal values give a hasher the same input and unequal ones do not, and domain names that are equal have the same ASCII form up to case and the same subdomains.", "quantifier": "every two names, identities and headers", "why_tests_cant": "the laws of Eq and Hash range over all pairs and triples of values", "anchors": ["src/signature.rs: PartialEq, Hash for DomainName, Selector, Identity", "src/header.rs: PartialEq, Hash for FieldName, HeaderFields"]}
{"id": "C59", "title": "Key lookup with the Hickory resolver", "statement": "With the Hickory resolver, a signature with nothing wrong before key lookup fails with InvalidKeyDomain if the key's name is not a DNS name, with NoKeyFound if there are no records, and with Timeout, InvalidKeyDomain or KeyLookup according to other lookup errors; otherwise the key records tried are the TXT records, each the concatenation of its character strings, and how records are split into strings has no effect on any result. The time spent on lookups is that taken by Hickory for them.", "quantifier": "every message, configuration, chunking and answers of the resolver", "why_tests_cant": "ranges over all DNS answers and ways of splitting records", "anchors": ["src/verifier/lookup/hickory_resolver.rs: lookup_txt", "src/verifier/query.rs: spawn_all"]}
{"id": "C60", "title": "Signing keys from PEM", "statement": "Reading a signing key from a PKCS#8 PEM document succeeds exactly if the document is a PEM document labelled as a private key, has the structure of a private key info and contains an RSA or Ed25519 key, and yields this key; otherwise the error is the first that applies of: not a PEM document, wrong label, invalid structure, unsupported key type.", "quantifier": "every document, every implementation of the PKCS#8, RSA and Ed25519 readers", "why_tests_cant": "ranges over all documents and all outcomes of the external readers", "anchors": ["src/crypto/mod.rs: SigningKey::from_pkcs8_pem"]}
{"id": "C61", "title": "Errors and results in words", "statement": "The text of a verification error together with the text of its source tells which error it is (up to the data salvaged from a broken signature); the texts of the errors of signing are distinct, and so are those of the errors of the parts (tag lists, header fields, domains, identities, algorithms, encodings, keys, hashing), across all parts; all texts are one line of printable ASCII words separated by single spaces; errors about a missing or empty signature tag name the tag; results are written in the words of RFC 8601, and only success is written pass.", "quantifier": "every error and result", "why_tests_cant": "ranges over all pairs of errors", "anchors": ["src/verifier/mod.rs: Display, Error for VerificationError, PolicyError, CanonicalStr for DkimResult", "src/signature.rs: Display for DkimSignatureErrorKind", "src/record.rs: Display for DkimKeyRecordError", "src/signer/mod.rs: Display for RequestError, SigningError", "src/crypto/mod.rs: Display for VerificationError"]}
{"id": "C62", "title": "Key records in words", "statement": "A DKIM key record written as a tag list with the canonical names of its hash algorithms, key type, service types and flags, its key data in Base64 and its extension tags, reads back as the same record; hence two records written alike are the same.", "quantifier": "every key record without notes, with at least one hash algorithm and service type, SHA-1 only with the feature for it, and well-formed extension tags", "why_tests_cant": "ranges over all records", "anchors": ["src/record.rs: DkimKeyRecord::from_str, CanonicalStr for ServiceType, SelectorFlag", "src/crypto/mod.rs: CanonicalStr for HashAlgorithm, KeyType"]}
{"id": "C63", "title": "Signatures on top of the message text", "statement": "When the formatted headers of any signing outputs are put on top of the text of a message header, each followed by a line break, the text reads as the header with the signature fields added on top, in that order; this holds with CRLF as well as with LF as the line break.", "quantifier": "every list of signing outputs (of any accepted requests) and every header text that reads", "why_tests_cant": "ranges over all header texts, requests and formats", "anchors": ["src/signer/mod.rs: SigningOutput::format_header", "src/header.rs: HeaderFields::from_str"]}
{"id": "C64", "title": "Several signatures on one message", "statement": "If a message is signed with up to ten requests in which nothing was changed, together or separately, with an algorithm other than rsa-sha1, matching keys of acceptable size are published, and the signatures are put on top of the message in any order, then on verification with the default configuration at a suitable time all of them have success and are reported in order with the signature as it was written; also when going through the text of the header.", "quantifier": "every message, keys, domains, selectors, chunkings, iteration orders, up to ten signatures", "why_tests_cant": "ranges over all messages and combinations of signatures", "anchors": ["src/signer/mod.rs: Signer::sign", "src/verifier/mod.rs: Verifier::verify_header, Verifier::finish"]}
{"id": "C65", "title": "Stricter and looser configurations", "statement": "A signature that has success on verification under some configuration also has success, with the same parsed signature, under every looser one (more signatures, fewer or the same headers required or not to be left unsigned, a smaller minimum key size, more allowed, a larger time tolerance); with the same minimum key size the whole result is the same. The other way, any other configuration (in particular a stricter one), at whatever time, turns success into a policy failure only, provided that the minimum key size is the same or that no more than one key record is published for a name.", "quantifier": "every message, pair of configurations, zone of key records, chunking and iteration order", "why_tests_cant": "ranges over all pairs of configurations and messages", "anchors": ["src/verifier/mod.rs: Config, Verifier::verify_header, Verifier::finish", "src/verifier/header.rs: validation of signatures", "src/verifier/verify.rs: key records"]}
{"id": "C66", "title": "The example programs", "statement": "Given a readable key file, a domain name, a selector and a message with LF line breaks, the program dkimsign prints exactly one header field, which is the library's signature of that message without expiration, its line breaks as LF, or reports that signing failed if the key cannot be used; in all other cases it prints nothing and panics. The program dkimverify lists the library's results for the message, numbered from 1, and panics exactly if there is no message or no signature in it. Messages without two consecutive LF, such as those with CRLF line breaks, make both panic; with a wrong number of arguments both only say how to use them, with exit code 1.", "quantifier": "every arguments, files, key reader, standard input, clock, resolver and iteration order", "why_tests_cant": "ranges over all inputs and outcomes of the external parts", "anchors": ["examples/dkimsign.rs: main", "examples/dkimverify.rs: main"]}
{"id": "C67", "title": "The example programs one after the other", "statement": "If the output of dkimsign is put on top of its input, again and again up to ten times, with any keys, domains, selectors and times, and matching keys of acceptable size are published, then dkimverify lists that many successes first, whatever the time and the rest of the message.", "quantifier": "every message, keys, names, clocks, resolver, iteration orders, one to ten applications", "why_tests_cant": "ranges over all messages and sequences of signings", "anchors": ["examples/dkimsign.rs: main", "examples/dkimverify.rs: main"]}
{"id": "C68", "title": "Signing looks only at the header fields it signs", "statement": "Two headers that agree in their From fields and in the fields whose names any of the requests signs (the default names with automatic selection, else the given names), in order, give the same outcome of the whole signing process: the same error, or the same results with the same output text. Other fields, their number and their position do not matter.", "quantifier": "every pair of headers, requests, body, chunking, clock and iteration order", "why_tests_cant": "relates runs on all pairs of headers", "anchors": ["src/signer/mod.rs: Signer::prepare_signing, select_headers", "src/signer/sign.rs: perform_signing, prepare_copied_headers"]}
{"id": "C69", "title": "Recovering the header from copied header fields", "statement": "Let a request ask for copied headers, have a well-formed local part of its identity, no extension tag q and a time before the greatest one, and let names of signed header fields be without = and | (such requests are known from C35 to give signatures that can be read back). The field made by signing is then found in any message, with any other header and body. The verifier's result for it, whatever its status, reports exactly the signed fields of the original header, in order. The message made of this field, these fields and the original body is verified with success, if the key is published and the original message meets the verifier's policy (and names in h= do not cover the signature field itself); with automatic selection and the default configuration, this is so whenever the time is right.", "quantifier": "every original and other message, request with copied headers, configurations, resolvers, clocks", "why_tests_cant": "ranges over all messages and what may have happened to them", "anchors": ["src/signer/sign.rs: prepare_copied_headers", "src/signature.rs: DkimSignature::copied_headers", "tests/copied_headers.rs"]}
{"id": "C70", "title": "Field values in debugging output", "statement": "The debugging text of a field value (Debug for FieldBody) is a double-quoted literal on one line: valid UTF-8 characters as such if printable, else as \\n, \\u{...} etc.; other bytes as \\xNN. It is determined by the bytes and determines them; text that needs no escapes appears unchanged. The debugging text of a header is on one line, has no ASCII control characters, and no two headers have the same.", "quantifier": "every byte string, every header, every table of printable characters that is right for US-ASCII", "why_tests_cant": "byte strings are unbounded, and distinctness relates all pairs", "anchors": ["src/util.rs: BytesDebug", "src/header.rs: Debug for FieldName, FieldBody, HeaderFields"]}
{"id": "C71", "title": "Results of verification in debugging output", "statement": "The debugging texts ({:?} and {:#?}) of the results of any verification contain no ASCII control characters (other than the line breaks of {:#?}), whatever is in the message and in DNS. Two results, also of different verifications, with the same {:?} text are equal in all of status, index, signature and key record. The same holds for signatures and key records as parsed.", "quantifier": "every message, configuration, resolver, clock; every signature and key record text (idna conversion keeps ASCII characters other than those that compose)", "why_tests_cant": "ranges over hostile input; distinctness relates all pairs of results", "anchors": ["src/signature.rs: Debug for DkimSignature, Identity, CopiedHeadersDebug", "src/record.rs: Debug for DkimKeyRecord", "src/verifier/mod.rs: VerificationResult, VerificationStatus, VerificationError", "src/util.rs: Base64Debug"]}
{"id": "C72", "title": "Output of the verification program cannot be forged", "statement": "In the output of the dkimverify program, the lines that begin with 'SIGNATURE ' are exactly the numbered headings, one for each result of the verification, and the lines that begin with '    status: ' are exactly the statuses of the results, in order. There are no ASCII control characters other than line breaks. So nothing in a message or in DNS can make the program print another verdict.", "quantifier": "every input message, resolver, clock (for the second part: idna conversion keeps ASCII characters other than those that compose)", "why_tests_cant": "ranges over hostile input", "anchors": ["examples/dkimverify.rs", "src/verifier/mod.rs: VerificationResult"]}
{"id": "C73", "title": "Success is the validity of a signature", "statement": "With a resolver that answers the same question always the same, the result for a header field is success if and only if the field's value is the text of a DKIM signature that is valid by RFC 6376: a list of tags with a well-formed signature; admitted by the configuration; a key record, among those consulted of the ones published at selector._domainkey.domain, that has a usable key of the right type, hash and flags; the key confirms the signature over the hash of the signed header fields (chosen from the bottom) followed by the signature's own field without the value of b=, in canonical form; the hash of the canonical body, up to the length given, is the one in the signature; and nothing is left over if unsigned content is forbidden. The result then has this signature, and such a key record. The canonical body is the RFC's, for bodies other than the corner cases of C02 (simple: nothing but line breaks) and C03 (relaxed: last line of whitespace only, not terminated).", "quantifier": "every header, body in any chunks, field, configuration, time, DNS content", "why_tests_cant": "relates the whole verification to a definition of validity for unbounded inputs; every condition must be necessary and together they must be sufficient", "anchors": ["src/verifier/mod.rs: Verifier", "src/verifier/header.rs", "src/verifier/query.rs", "src/verifier/verify.rs", "src/message_hash.rs", "src/canonicalize.rs", "src/signature.rs", "src/record.rs"]}
{"id": "C74", "title": "Signatures made by other programs are accepted", "statement": "If a signature text in whatever layout - any order of tags, any folding whitespace allowed by the grammar, unknown tags, b= at any place - has been made with a private key for a header and body (by any program, including through the library's low-level functions), is put on top of the header, perhaps among other fields that its h= does not cover, and a record with the matching public key is published, and the configuration admits the signature, then the verifier's result for it is success, with this signature. This is for bodies other than the corner cases of C02 and C03; at a body of two line breaks an RFC signer's signature is not accepted. What is signed is determined by the text.", "quantifier": "every header, body, signature text, key pair, DNS content, added fields", "why_tests_cant": "ranges over all layouts of signature texts and all programs that could have made them; tests try a handful of layouts", "anchors": ["tests/low_level.rs", "src/verifier/mod.rs: Verifier", "src/verifier/verify.rs: make_original_dkim_sig", "src/canonicalize.rs"]}
{"id": "C75", "title": "Every result has its reason", "statement": "With a resolver that answers the same question always the same, a verification returns nothing if there is no signature field to examine, and otherwise one result for each field examined, in order, as follows, and nothing else. If the value is not UTF-8, not a tag list, or a tag is wrong: failure for the first such reason, with the raw tags. Else, if a header required is not signed, one that must not occur unsigned does, the length is not representable, the signature is expired, from the future, or uses a forbidden hash: failure for the first of these. Else, if there is no answer or no record at selector._domainkey.domain: failure according to the kind of error. Else, of the records consulted, the first one without an error counts, or if there is none the last one, with its first error: unreadable as a key record (with the first reason), wrong key type, revoked, hash not allowed, domain mismatch, invalid key, key too small (absolutely, or by configuration), signature does not verify. Else the body: shorter than the length given; longer, if forbidden; hash different. Else success. The result has the position, the signature if readable, and the key record that counted.", "quantifier": "every header, body in any chunks, configuration, time, DNS content, order of hash maps", "why_tests_cant": "a complete description of the verifier's results over unbounded inputs, including the precedence of all reasons", "anchors": ["src/verifier/mod.rs: Verifier", "src/verifier/header.rs", "src/verifier/query.rs", "src/verifier/verify.rs", "src/message_hash.rs", "src/signature.rs", "src/record.rs"]}
{"id": "C76", "title": "Sign then verify with RSA and SHA-256, without assumptions on cryptography", "statement": "With RSA (PKCS #1 v1.5) and SHA-256 as given by their standards: whatever is signed with a private key is confirmed by its public key. A message with a From field, signed with the options of SignRequest::new and any RSA key of 1017 (counted as 1024 by the library) to 4096 bits with an odd public exponent from 3 to 2^33 - 1, the field put on top, verifies within its time of validity with the default configuration, if a record with the public key (in either encoding) is among the records consulted. Likewise dkimsign, given the PEM text of the PKCS #8 encoding of the key, and a message, prints a header field with which dkimverify, for the message with that field on top, lists a success first.", "quantifier": "every RSA key pair of these sizes (any number of distinct primes), domain, selector, message, chunking, clock within validity, DNS zone with the key", "why_tests_cant": "ranges over all keys and messages; rests on a theorem of number theory", "anchors": ["src/crypto/rsa.rs", "src/crypto/mod.rs: SigningKey", "src/signer/mod.rs: Signer", "src/verifier/mod.rs: Verifier", "examples/dkimsign.rs: main", "examples/dkimverify.rs: main"]}
{"id": "C77", "title": "Exact debugging texts", "statement": "The {:?} and {:#?} texts of headers, signatures, signature errors, key records, key record errors, verification results, signing outputs, output formats and the errors of signing are exactly: the type or variant name; named fields in braces, unnamed ones in parentheses, lists in brackets, separated by \", \" on one line, or in the indented form each on lines of its own, indented by four spaces per level and followed by a comma; binary data in base64 (or the word Empty), texts and field values in quotes with exactly the escapes needed, numbers in decimal, names and domains as they are, the tag order only as <closure>. The results of any verification are among these.", "quantifier": "every value of these types, every table of printable characters that is right for US-ASCII", "why_tests_cant": "texts and nesting are unbounded; tests compare a few values", "anchors": ["src/util.rs: Base64Debug, BytesDebug", "src/header.rs: Debug", "src/signature.rs: Debug", "src/record.rs: Debug", "src/verifier/mod.rs: VerificationResult", "src/signer/mod.rs: OutputFormat, SigningOutput, RequestError, SigningError"]}
{"id": "C78", "title": "Sign then verify with Ed25519, without assumptions on cryptography", "statement": "With Ed25519 as specified by RFC 8032 (for a SHA-512 function): signing produces the signature of the specification; a public key is read exactly if it encodes a point of the curve, or is one of 26 other byte strings, with y = 2^255 - 19 + k for certain k < 19, or x = 0 and the sign bit set, and is then taken for the point with y reduced, or x = 0; exactly the signatures valid by the specification (without multiplying by the cofactor) are confirmed; every private key has one public key, which confirms every signature made with it. A message with a From field, signed with the options of SignRequest::new and any Ed25519 key, the field put on top, verifies within its time of validity with the default configuration, if a record with the public key (raw, or as public key info) is among the records consulted. Likewise dkimsign, given the PEM text of the PKCS #8 encoding of the key, and a message, prints a header field with which dkimverify, for the message with that field on top, lists a success first.", "quantifier": "every Ed25519 private key, domain, selector, message, chunking, clock within validity, DNS zone with the key", "why_tests_cant": "ranges over all keys and messages; rests on the group law of the curve, the primality of 2^255 - 19 and the order of the base point", "anchors": ["src/crypto/ed25519.rs", "src/crypto/mod.rs: SigningKey", "src/signer/mod.rs: Signer", "src/verifier/mod.rs: Verifier", "examples/dkimsign.rs: main", "examples/dkimverify.rs: main"]}
{"id": "C79", "title": "Builds with debug assertions behave like release builds", "statement": "In a build with debug assertions and overflow checks (what cargo builds by default), no debug assertion fails and no subtraction goes below zero when signatures, key records, domains, selectors and identities are read from any text, when sign requests are validated, when messages are signed, and when messages are verified, whatever the header fields, the body and the answers of the resolver: the results are the very same as in a release build. Only the public functions for canonicalizing a single header field and for computing the data hash may fail an assertion, exactly if the algorithm is relaxed and the value given is not a valid header field body.", "quantifier": "every text, every list of requests, every message and chunking, every configuration and resolver", "why_tests_cant": "an assertion that fails for one rare input is a denial of service in such builds; tests run in such builds but reach few inputs", "anchors": ["src/parse.rs: strip_suffix", "src/quoted_printable.rs: u8_from_digits", "src/tag_list.rs: is_tag_value", "src/signature.rs: is_label", "src/canonicalize.rs: canonicalize_header", "src/message_hash.rs: compute_data_hash", "src/signer/format.rs: insert_signature_data", "src/verifier/verify.rs: make_original_dkim_sig"]}
{"id": "C80", "title": "Success is validity down to the cryptography", "statement": "With the cryptographic algorithms as given by their standards, a result is Success exactly if the signature is valid, which is defined without reference to any part of the library: the field is a tag list describing a signature that the configuration admits; among the records consulted is one for its type and hash whose key data is the DER encoding (SubjectPublicKeyInfo or RSAPublicKey; for Ed25519 also the bare 32 bytes) of a public key; if RSA, the key is within the limits of the crate and has enough bits, counted in whole bytes; the signature data is valid for that key according to RFC 8017 (PKCS #1 v1.5, DigestInfo) or RFC 8032 (except that 26 byte strings which are no encodings of points by RFC 8032 are taken for Ed25519 keys, too), of the digest of the signed header fields and the signature field itself; and the digest of the canonical body, up to l=, is the one of bh=. In particular no other encoding of a key, padding or signature is accepted.", "quantifier": "every message, configuration, DNS zone, key record and signature", "why_tests_cant": "ranges over all byte strings as keys and signatures, including forged paddings and encodings", "anchors": ["src/crypto/rsa.rs", "src/crypto/ed25519.rs", "src/crypto/mod.rs: VerifyingKey", "src/verifier/verify.rs: perform_verification", "src/verifier/header.rs: verify_task", "src/record.rs: DkimKeyRecord"]}
{"id": "C81", "title": "Success is validity, with the hash functions of FIPS 180-4", "statement": "SHA-1, SHA-256 and SHA-512 are specified bit by bit after FIPS 180-4 (for SHA-256 and SHA-512 with the constants as roots of the first primes). The digests used for signing and verifying are those of this specification, which gives exactly one for each message. With any functions that compute these hashes: signing with Ed25519 produces the signature of RFC 8032; and a result is Success exactly if the signature is valid in the sense of the property on validity down to the cryptography. Nothing is left open in this notion of validity except for IDNA.", "quantifier": "every message, configuration, DNS zone, key record and signature; every function that computes the hashes", "why_tests_cant": "ranges over messages of any length; test vectors exercise a few lengths of padding", "anchors": ["src/message_hash.rs", "src/crypto/hash.rs", "src/crypto/rsa.rs", "src/crypto/ed25519.rs", "src/verifier/verify.rs: perform_verification"]}
{"id": "C82", "title": "Counters of any width", "statement": "The body is streamed, so that it may be larger than usize::MAX, the largest value of the counters of empty lines and of bytes hashed. Signing and verifying a message give the results they would give with unbounded counters, for every width of usize, in builds with and without overflow checks, whatever the size of the body.", "quantifier": "every width of usize, build with or without overflow checks, message, configuration, list of requests, body of any size in any chunks", "why_tests_cant": "bodies of more than 4 GiB on 32-bit platforms cannot be tried in unit tests, and 2^64 bytes nowhere", "anchors": ["src/canonicalize.rs: BodyCanonicalizer", "src/crypto/hash.rs: CountingHasher", "src/message_hash.rs: BodyHasher", "src/signer/mod.rs: Signer", "src/verifier/mod.rs: Verifier"]}
{"id": "C83", "title": "Signatures cannot be altered", "statement": "A message is verified with success; then the value of b= in the signature is replaced by anything, and the message (with the same or another body) is verified with success again, with the same key record. Then the signature, as decoded from base64, is the same as before, if the key is an RSA key that belongs to a key pair, or if it is an Ed25519 key and the first 32 bytes are unchanged. More generally, no two messages in which the same text was signed verify with different signatures by such a key; they agree in the tags covered by the signature, and in the header fields covered.", "quantifier": "every pair of messages, worlds in which they are verified (configuration, DNS, times), key record and signature; cryptography as in RFC 8017 and RFC 8032", "why_tests_cant": "says that no other signature exists; a test can only try a few", "anchors": ["src/crypto/rsa.rs: verify_rsa", "src/crypto/ed25519.rs: verify_ed25519", "src/verifier/verify.rs: perform_verification"]}
{"id": "C84", "title": "A signature stands for one message", "statement": "Two messages verified with success with the same key record and the same signature (as decoded from base64) have the same digest of what was signed, the header fields and the signature's own field. Hence, unless there is a collision of the hash function, they are the same in all that the signature covers.", "quantifier": "every pair of messages, worlds in which they are verified, key record (also weak ones) and signature; cryptography as in RFC 8017 and RFC 8032", "why_tests_cant": "says that no other message exists; tests use keys from the key generator, not ones made by somebody on purpose", "anchors": ["src/crypto/rsa.rs: verify_rsa", "src/crypto/ed25519.rs: read_ed25519_verifying_key, verify_ed25519", "src/verifier/verify.rs: perform_verification"]}
{"id": "C85", "title": "When the signer's output is read back", "statement": "The parser reads the header value produced by the signer as the signature that the signer reports (domain names in the form written, additional tags in the order written) if and only if: the local part of the identity is a valid one; no additional tag is named q; if both t= and x= are written, t= is less than 2^64 - 1; and no name of a copied header field contains = or |. If no such name does, the header value is accepted by the parser at all if and only if: the local part is empty or a valid one; the value of an additional tag q is a list of query methods that has dns/txt in it; and the condition on t= and x= holds.", "quantifier": "every message, sign request accepted by the signer (of values that exist in a Rust program), output format, key and time at which a signature is produced; idna and cryptography satisfying minimal conditions", "why_tests_cant": "an equivalence: a test shows for one request that it is or is not read back, not that the list of reasons is complete", "anchors": ["src/signer/format.rs: format_without_signature", "src/signer/mod.rs: validate_request", "src/signature.rs: DkimSignature::from_tag_list"]}
{"id": "C86", "title": "When lines are indented as configured", "statement": "The continuation lines of the header value produced by the signer all start with exactly the configured indentation, followed by a visible character, if and only if this is so in the values of all additional tags of the request.", "quantifier": "every message, sign request accepted by the signer, output format, key and time at which a signature is produced; idna satisfying minimal conditions", "why_tests_cant": "an equivalence over all requests: a test sees one output", "anchors": ["src/signer/format.rs: format_without_signature, insert_signature_data", "src/signer/mod.rs: validate_request"]}
{"id": "C87", "title": "Width of lines, with line breaks in additional tags", "statement": "Every line of the header field produced by the signer, counted with the header name, is no longer than the configured width, except that: it may be longer by one if its last character is a semicolon; it may consist of the header name and the colon alone; and it may be (one of the lines of) a single indented piece of text that the signer does not break: a tag, a name in h=, a name in z=, or one character of encoded text, maybe with a semicolon after it. This holds if the values of the additional tags that are written before b= have no line breaks; for the default order of tags it holds whatever the values of the additional tags are.", "quantifier": "every message, sign request accepted by the signer, output format, key with signatures of the size it announces, and time at which a signature is produced; idna satisfying minimal conditions", "why_tests_cant": "folding decisions depend on all lengths, and the signature is inserted after the rest has been laid out; tests look at a few outputs", "anchors": ["src/signer/format.rs: advance_i_initial, format_tag_name_b, format_chunks_into_string, insert_signature_data"]}
{"id": "C88", "title": "Writing a signature does not overflow", "statement": "Signing gives the same results whether numbers of type usize are unbounded, or limited with overflow checks (a panic), or limited without (wrapping around), provided that: the body has at most usize::MAX - 2 bytes; for every signature produced the header name, header value and indentation together have at most usize::MAX - 2 bytes; and no request fails in the cryptographic operation. With overflow checks, results are right whenever there are any.", "quantifier": "every message, list of sign requests, clock, usize::MAX, with and without overflow checks; keys with signatures of the size they announce", "why_tests_cant": "the lengths at which an addition may overflow cannot be allocated in a test; the sums run ahead of what has been written, by the announced size of a signature not yet computed", "anchors": ["src/signer/format.rs: advance_i, advance_i_initial, format_chunks_into_string, format_tag_name_b, insert_signature_data", "src/signer/sign.rs: estimate_b_tag_length"]}
{"id": "C89", "title": "What two messages with one signature have in common", "statement": "Two messages are verified with success, with the same key record and the same signature (as decoded from base64); the key is an RSA key, or an Ed25519 key that belongs to a private key. Then the header fields that the signature covers are the same, name by name, up to the header canonicalization; and of names that must not be left unsigned in either verification (by default From) all the fields are the same, in order, whatever else was added, removed or moved. The bodies are the same as far as they are covered, and have the same canonical form if no content was left unsigned. Otherwise, the two signed texts or the two covered bodies are different texts with the same hash (for Ed25519, the signed texts are different texts whose SHA-512 values, as computed in Ed25519, agree modulo the order of the base point).", "quantifier": "All pairs of messages (any header fields, bodies), configurations, worlds and zones, signature texts and key records.", "why_tests_cant": "Tests try a few modified messages; here, any two messages whatsoever are compared, and the only way out is an explicit collision of the hash function.", "anchors": ["src/verifier/header.rs: validate_signed_headers", "src/verifier/verify.rs: perform_verification", "src/message_hash.rs: compute_data_hash", "src/crypto/rsa.rs", "src/crypto/ed25519.rs"]}
{"id": "C90", "title": "Exactly which changes go unnoticed", "statement": "A message has a valid signature. Another message has the same signature field value (its name and position, all other fields and the body may differ) and is verified with the same configuration, time and DNS contents. With an RSA key, the signature is valid for it under the same key record exactly if all of these hold: no field was added, beyond those signed, of a name that must not be left unsigned; of each name, the lowest fields, as many as the signature lists, are the same as before up to the header canonicalization, as is the name of the signature field (or the two signed texts are a collision of the hash); the body is the same up to the body canonicalization or, with l=, its canonical form is long enough, not longer if unsigned content is forbidden, and the same in the part covered (or else the bodies, or covered parts, are a collision). If DNS has one TXT record for the key, this is exactly when the signature is valid; so too for an Ed25519 key, where instead of a collision of the signed texts there are different texts with SHA-512 values that give the same multiple of the public key (if it belongs to a private key: that agree modulo the order of the base point). If only the body is changed, the condition on the body is exact whatever the cryptography.", "quantifier": "every two messages with the same signature field value, every configuration, time, DNS contents, chunking", "why_tests_cant": "an exact description of all undetected modifications, in both directions, over all pairs of messages", "anchors": ["src/verifier/header.rs: verify_all", "src/verifier/verify.rs: perform_verification", "src/message_hash.rs: compute_data_hash, BodyHasher", "src/canonicalize.rs"]}
{"id": "C91", "title": "Canonicalization does not write more than it reads", "statement": "While a body is streamed, in whatever chunks, canonicalization has at no time written more octets than it has read, and what it has written is the beginning of the canonical form of every body that begins like this; in the end, it has written at most two octets more than the body has. The header part of the hash input is at most as large as the header of the message with two octets (CRLF) added for each field, however many names the signature lists and however often. But what is written for a single chunk is not bounded by the size of the chunk: for every n, one octet after n empty lines makes 2n+1 octets be written at once.", "quantifier": "every body, chunking, canonicalization algorithm, header with valid names, list of names", "why_tests_cant": "a bound on output for all inputs; tests measure a few", "anchors": ["src/canonicalize.rs: BodyCanonicalizer, canonicalize_headers, canonicalize_header"]}
{"id": "C92", "title": "Line breaks at the end of the body", "statement": "Adding a line break at the end of a body leaves its canonical form unchanged exactly if the body is not empty (simple), or does not have whitespace and nothing else after its last line break (relaxed). If it is added to a message with a valid signature without l=, the signature stays valid exactly in these cases, or else the two canonical forms are a collision of the hash. Of two bodies with the same simple canonical form, the relaxed canonical forms are the same exactly if both or neither have whitespace and nothing else after the last line break: relaxed does not forgive everything that simple does.", "quantifier": "every body, message, configuration, DNS contents, signature and cryptography", "why_tests_cant": "the exceptions are bodies of a special form, which a test is unlikely to include; ranges over all bodies", "anchors": ["src/canonicalize.rs: BodyCanonicalizer", "src/message_hash.rs: BodyHasher", "src/verifier/mod.rs: Verifier"]}
{"id": "C93", "title": "Agreement with other implementations of the RFC", "statement": "What the signer returns is, for a body other than the two corner cases of canonicalization (a body of line breaks only for simple; whitespace and nothing else after the last line break for relaxed), a signature of the message by RFC 6376. Put on top of the message, with the key published and the policy met, it is valid by the RFC exactly if the body is not such a case, or the case makes no difference: l= stops before the difference and content not signed is tolerated, or the two forms of the body have the same hash. With a request made by SignRequest::new, the default configuration and SHA-256 it is valid by the RFC exactly if the body does not consist of line breaks only. For bodies in the corner cases, a signature this library finds valid is valid by the RFC, and one valid by the RFC is found valid by this library, exactly if the case makes no difference in this sense.", "quantifier": "every header, body, chunking, accepted request with readable output, key, configuration, DNS contents, time; every message and signature received", "why_tests_cant": "relates the library to all conforming implementations, for all messages; a test compares with one implementation on a few messages", "anchors": ["src/signer/mod.rs: sign, Signer", "src/verifier/mod.rs: Verifier", "src/canonicalize.rs: BodyCanonicalizer", "src/message_hash.rs: BodyHasher"]}
{"id": "C94", "title": "The same message verified again", "statement": "A message was verified, and a signature found valid. When the message is verified again under the same configuration, at another time, with other contents of DNS, the signature is found valid exactly if its timestamp and expiration admit the time (within the tolerance, as far as they are checked), and one of the records looked at under the key's name now has a usable key that confirms the signature. Otherwise the same signature is reported with a failure that is on account of time, of the lookup, or of key records; it is expired, or from the future, exactly if that is so by the clock. The times at which a signature is valid have no gaps. Publishing more records does no harm as long as those looked at before are still looked at; and up to three records may be returned in any order. With four, the order matters.", "quantifier": "every message, signature, configuration, two times, two contents of DNS, cryptography", "why_tests_cant": "compares two runs at arbitrary times and arbitrary contents of DNS", "anchors": ["src/verifier/mod.rs: Verifier", "src/verifier/header.rs: HeaderVerifier, validate_signature, verify_task", "src/verifier/query.rs: Queries, look_up_records", "src/verifier/verify.rs: perform_verification"]}
{"id": "C95", "title": "What becomes of a signed message, in whatever form it is received", "statement": "A message with a From field is signed in the default way (a fresh request; Ed25519, or RSA with a key of a size as in C76; the clock not at its maximum), and its key published in the only TXT record at its name. The message is received at any time, with any header and body, and with a DKIM-Signature field that has the value the signer made, and it is verified with the default configuration. The result for that field is completely determined: the first of these that applies, or else success. (1) There are more From fields than were signed: unsigned header occurrence. (2) Five days and five minutes have passed since signing, or the clock is at its maximum: expired. (3) It is more than five minutes before signing: timestamp in the future. (4) For some name that is signed by default, the lowest fields of that name, as many as there were at signing, are not the same as then up to whitespace and letter case of the name: verification failure. The exception is a collision of the hash (for Ed25519, of SHA-512 modulo the order of the base point) between the two signed texts. (5) The body differs in more than line breaks at the end, or only one of the two is empty: body hash mismatch, except for a collision of the two bodies in canonical form. No other failure is possible, and the signature reported is the one in the field.", "quantifier": "every key pair, domain and selector, message signed, time of signing, message received, time of reception, other contents of DNS", "why_tests_cant": "composes signing and verification, and quantifies over every message that might be received instead of the one sent", "anchors": ["src/signer/mod.rs: Signer, SignRequest", "src/signer/sign.rs: perform_signing", "src/signature.rs: DkimSignature", "src/verifier/mod.rs: Verifier, Config", "src/verifier/header.rs: HeaderVerifier, validate_signature, verify_task", "src/verifier/verify.rs: perform_verification", "src/verifier/query.rs: look_up_records", "src/crypto/mod.rs: VerifyingKey, SigningKey"]}
{"id": "C96", "title": "What becomes of a signed message, for any request and configuration", "statement": "A message is signed with any request that is accepted, with a RSA or Ed25519 key, with output that is readable (C35) and does not list DKIM-Signature among the signed names more often than the header has such fields; the only TXT record at the key's name is a key record fit for the request and for the verifier's configuration. The message is received at any time, with any header and body, and with a DKIM-Signature field that has the value the signer made, and is verified with that configuration, whatever it is. The signature reported is the one that was signed, and the result is completely determined: the first of these that applies, or else success. (1) A header required by the configuration is not signed. (2) Fields of a name the configuration does not allow to be unsigned are not all signed. (3) The value of l= is not representable. (4) The signature is expired. (5) Its timestamp is in the future. (6) SHA-1 is not allowed. (7) For some name, the lowest fields of that name, as many as the signature lists, are not the same as when signed, up to the header canonicalization, or the name of the signature's field is not: verification failure, except for a collision of the hash (for Ed25519, of SHA-512 modulo the order of the base point) between the two signed texts. (8) With l=: the body in canonical form is shorter than that; or longer, and unsigned content is forbidden; or the first part of that length is not the same, except for a collision. (9) Without l=: the body is not the same up to the body canonicalization, except for a collision. No other failure is possible.", "quantifier": "every accepted request, message signed, key pair, configuration, message received, time of signing and reception, other contents of DNS", "why_tests_cant": "composes signing and verification, and quantifies over every request, every configuration, and every message that might be received instead of the one sent", "anchors": ["src/signer/mod.rs: Signer, SignRequest", "src/signer/sign.rs: perform_signing", "src/signature.rs: DkimSignature", "src/verifier/mod.rs: Verifier, Config", "src/verifier/header.rs: HeaderVerifier, validate_signature, verify_task", "src/verifier/verify.rs: perform_verification", "src/verifier/query.rs: look_up_records", "src/message_hash.rs: compute_data_hash, BodyHasher", "src/crypto/mod.rs: VerifyingKey, SigningKey"]}
{"id": "C97", "title": "What the verification program says of the signing program's messages", "statement": "The program dkimsign is given a message with a From field, and a PKCS#8 PEM file with an Ed25519 key, or a RSA key of a size as in C76, whose public key is in the only TXT record at its name. It prints one header field. The program dkimverify is then given any message whatever that has a DKIM-Signature field with this value among its first ten, at any time, whatever the rest. It exits normally, and the result it lists for that field, at its place among the results, is completely determined: the first of these that applies, or else success. (1) There are more From fields than were signed: unsigned header occurrence. (2) Of some name signed by default, the fields that were there are not the lowest ones any more, up to whitespace and spelling of the name, and the two texts that are hashed are not a collision (RSA), or do not give the same scalar (Ed25519): verification failure. (3) The body is not the same, up to empty lines at the end, and the canonical forms are not a collision of SHA-256: body hash mismatch. The line of the output about its status, which has the same place among the lines that begin with '    status: ', says Success or Failure accordingly.", "quantifier": "every key pair, domain and selector, message given to dkimsign, time, message given to dkimverify, other contents of DNS", "why_tests_cant": "composes two programs, and quantifies over every message that the second might be given", "anchors": ["examples/dkimsign.rs", "examples/dkimverify.rs", "src/signer/mod.rs: Signer, SignRequest", "src/verifier/mod.rs: Verifier, Config", "src/verifier/header.rs: HeaderVerifier, validate_signature, verify_task", "src/verifier/verify.rs: perform_verification", "src/crypto/mod.rs: VerifyingKey, SigningKey"]}
{"id": "C98", "title": "Any accepted request gives a signature, and it verifies", "statement": "A message is signed with any number of requests, with RSA keys that are pairs (the exponents are inverse to each other modulo each prime factor less one) or any Ed25519 keys. Signing never panics: either all is refused, with the first reason there is in header and requests (C33), or there is one result for each request: a signature, or else the first of these errors that applies. (1) The request limits the signed body to more bytes than the canonical body has: insufficient content. (2) The number of signed bytes to be written is 2^64 or more: overflow. (3) The RSA modulus is too small for the hash encoded as in PKCS #1 v1.5, that is, below 256^61 (SHA-256) or 256^45 (SHA-1): signing failure. If such a signature is readable (C35), and its field is placed above the header as it was, with any fields above and below it in between that are not of names signed more often than the header has such fields, and a key record with the public key is among those consulted at the key's name, is meant for the hash and the identity, and a RSA key is within the limits of C80 and has at least the size that the configuration and the build demand, then verification with any configuration that gets to examine it reports the signature that was signed, and the result is: the first of the demands of the configuration on signatures that is not met at that time; or, when unsigned content is forbidden and l= is less than the size of the canonical body, unsigned content; or else success.", "quantifier": "every list of requests, message, key pair, configuration, time of signing and verification, fields added on top, other contents of DNS", "why_tests_cant": "composes signing and verification with real cryptography, and quantifies over every request and configuration; a test signs a few messages with a few keys", "anchors": ["src/signer/mod.rs: Signer, SignRequest", "src/signer/sign.rs: perform_signing", "src/signature.rs: DkimSignature", "src/verifier/mod.rs: Verifier, Config", "src/verifier/header.rs: HeaderVerifier, validate_signature, verify_task", "src/verifier/verify.rs: perform_verification", "src/crypto/mod.rs: SigningKey, VerifyingKey", "src/crypto/rsa.rs", "src/crypto/ed25519.rs"]}
{"id": "C99", "title": "Builds and platforms", "statement": "Verify the same message, under the same configuration, clock and answers of DNS, with two builds of the library. If they differ only in the largest length a platform can represent, and the size of the body is at most that of the smaller platform less two, then the results are the same, except for a signature with a length (l=) too large for the smaller platform: there it fails because of its length, unless one of the two checks made before it (required header not signed, unsigned header occurrence) fails, which both report alike; if the smaller platform reports no such failure at all, the results of the two are equal. If they differ only in the feature pre-rfc8301, then the signatures read without it are those read with it that do not use rsa-sha1, and those are reported as using a historic algorithm; the signatures that verify without it are exactly those that verify with it through a key record whose key, if RSA, has 1024 bits or more, and that are not made with rsa-sha1. Signing with the same requests gives the same whether or not the feature is enabled, and on both platforms, unless the smaller one refuses a request for a length that it cannot represent. A message signed with one build, other than with rsa-sha1 for a build without the feature, verifies with the other under the conditions of C37 (and one with a signature made by any other program under those of C74) for that other build.", "quantifier": "for all messages, configurations, clocks, steady resolvers, cryptographic primitives, and pairs of builds", "why_tests_cant": "Tests run in one build on one platform; that two builds agree on every message, or differ just where they should, cannot be seen by running one of them.", "anchors": ["Cargo.toml:pre-rfc8301", "src/verifier/header.rs", "src/verifier/verify.rs", "src/signature.rs", "src/record.rs", "src/crypto/rsa.rs"]}
{"id": "C100", "title": "One answer for each name", "statement": "Let the resolver answer as it likes, differently each time it is asked, and fail at times. If signatures of the message that need a key record of the same DNS name have the same domain and selector (all compared as texts, in A-label form), as is so for any message of which a single signature is examined, then the results of verification are those with some resolver that always gives the same answer for a name, an answer that the given resolver gives at some time; and answers for names that no signature needs make no difference. The condition cannot be left out: selector a of domain b._domainkey.example.com and selector a._domainkey.b of domain example.com have the same DNS name, which is looked up twice.", "quantifier": "for all messages, configurations, clocks, resolvers, bodies in any chunks, and cryptographic primitives", "why_tests_cant": "Test resolvers answer from a fixed table; answers that change between the lookups of one verification, in all possible ways, are not tested.", "anchors": ["src/verifier/header.rs: HeaderVerifier", "src/verifier/query.rs: Queries, look_up_records", "src/verifier/mod.rs: Verifier, LookupTxt"]}
{"id": "C101", "title": "When reading the body can stop", "statement": "While the body is read in chunks, the verifier answers that it is done only if every signature that a key record has confirmed has a length l=, and the first l bytes of its canonical body (l+1, if unsigned content is forbidden) are certain, that is, present and the same however the body goes on. If so, and the body read so far does not end in CR, it does answer that it is done; after CR it does if one more byte is certain. When it is done, finishing at once gives the results of the whole message whatever follows. So nothing of the body is needed if no signature is confirmed, and all of it if one without length is. The same holds for the signer, with the lengths requested. The exception for CR is needed: after ab and CR, the first three bytes are certain, but the signer still asks for more.", "quantifier": "for all messages, configurations, resolvers, clocks, requests, and bodies in any chunks", "why_tests_cant": "That nothing which could still follow would make a difference, and that something would, is about all continuations of a body.", "anchors": ["src/message_hash.rs: BodyHasher, hash_chunk", "src/canonicalize.rs: BodyCanonicalizer", "src/verifier/mod.rs: Verifier::process_body_chunk", "src/signer/mod.rs: Signer::process_body_chunk"]}
{"id": "C102", "title": "Whitespace in the signature's own field", "statement": "If the stretches of folding whitespace in the value of a DKIM-Signature field are replaced with others, and whitespace at its start also added or removed, then a signature is read from the one exactly if it is read from the other, and it is the same except for whitespace within the values of tags that are not interpreted. With relaxed header canonicalization the text that was signed then has the same canonical form, and so the field has the same verification result, with the same status and key record, also together with the changes to the rest of the message that its canonicalization disregards. Not all changes of whitespace that relaxed canonicalization disregards are harmless, though: a space added after a final semicolon makes the signature unreadable.", "quantifier": "for all field values, messages, configurations, resolvers and clocks; where IDNA conversion keeps ASCII characters", "why_tests_cant": "Whitespace may be anywhere in each of fourteen tags with different syntax, within base64, quoted-printable, and lists.", "anchors": ["src/tag_list.rs: TagList::from_str", "src/signature.rs: DkimSignature::from_tag_list", "src/verifier/verify.rs: make_original_dkim_sig", "src/canonicalize.rs: canonicalize_header"]}
{"id": "C103", "title": "What of a key record matters", "statement": "If DNS has for the name of a signature's key, instead of some records, others that hold the same key of the same type, usable with the same hash algorithms and likewise restricted or not to the very domain (t=s), then the signature has the same result, but for the key record that is reported. In particular, notes, service types, the testing flag and unknown flags, and unknown tags do not matter as long as the record is well-formed; nor does the order of tags, if v= comes first; nor does whitespace in place of other whitespace, if there is no n= tag. Within notes it does matter: a line break there makes the record unreadable.", "quantifier": "for all messages, configurations, resolvers, clocks, and texts of key records", "why_tests_cant": "That a record's other contents have no influence on any message is a statement about pairs of runs.", "anchors": ["src/record.rs: DkimKeyRecord::from_tag_list", "src/verifier/verify.rs: verify_signature", "src/verifier/mod.rs: Verifier"]}
{"id": "C104", "title": "What signing disregards in a message", "statement": "If two messages both have or both lack a From field and, for each request, the same field names are signed, the fields of these names differ only in ways that the request's header canonicalization disregards, the same fields, if any, are copied to the signature, and the bodies differ only in ways that the request's body canonicalization disregards, then signing the one has the same outcome as signing the other: the same error, or the same results, with the same header texts. In particular this is so for a request without copies if the fields of the messages correspond one by one, with the same names written in the same case. When fields are copied, or when names differ in case and are selected automatically, the texts may differ.", "quantifier": "for all messages, requests, environments, divisions of the body into chunks and clocks", "why_tests_cant": "It relates pairs of runs on any two equivalent messages, of which there are infinitely many.", "anchors": ["src/signer/sign.rs: perform_signing", "src/signer/mod.rs: Signer", "src/signer/mod.rs: select_headers", "src/message_hash.rs: compute_data_hash", "src/canonicalize.rs: canonicalize_header"]}
{"id": "C105", "title": "The time of signing and the format", "statement": "Requests without timestamp and duration of validity, and requests with a given timestamp, have the same results at whatever time they are signed, whatever the times of signing of other requests. If a request is accepted with one output format and, perhaps at another time, with another, then there is either not enough content or too much of it with both or with neither; and if both times a signature is made, the two signatures differ in nothing but their signature data, the timestamp, if it is that of signing, and the expiration time, which is the given duration after the timestamp, or without one after the time of signing, but at most the greatest 64-bit number.", "quantifier": "for all messages, requests, formats, environments and clocks", "why_tests_cant": "It relates pairs of runs that differ in line width, indentation, order of tags, or time.", "anchors": ["src/signer/sign.rs: perform_signing", "src/signer/mod.rs: Signer, SignRequest", "src/signer/format.rs: format_without_signature"]}
{"id": "C106", "title": "The limit on the number of signatures", "statement": "If the configured maximum number of signatures is lowered, verification gives the first ones of the results it gives otherwise, unchanged, up to the new maximum; with a maximum of zero it gives none. Lookups are then made only for names that are looked up otherwise, too, and not more of them than the maximum.", "quantifier": "for all messages, configurations, divisions of the body into chunks, and resolvers, in the first sentence such that say the same about a name whenever asked", "why_tests_cant": "It relates pairs of runs with different numbers of signatures.", "anchors": ["src/verifier/mod.rs: Verifier", "src/verifier/mod.rs: Config", "src/verifier/header.rs: HeaderVerifier"]}
{"id": "C107", "title": "Converting an output to a header field: what panics and what is read back", "statement": "For any signing output, including one whose public fields were set or altered by the caller: `SigningOutput::to_header_field` returns a field exactly if the header name is a well-formed field name and the bytes of the header value are a well-formed field body (lines without control characters other than TAB, each after the first preceded by CRLF and starting with but not consisting of whitespace); the field is then that name and those bytes unchanged. Otherwise it panics. If it returns a field, then the text of `format_header` followed by CRLF, alone or on top of the text of a header, is read by `HeaderFields::from_str` as exactly that field, alone or on top of the fields of that header. The other direction does not hold: there is an output such that with bare LFs for the CRLFs in the value, the text is read as the field of the unaltered output, but the conversion panics.", "quantifier": "all outputs (any name, any value of Unicode scalar values), all header texts", "why_tests_cant": "The tests convert one output of the signer; what is documented to panic is any of infinitely many ill-formed names and values.", "anchors": ["src/signer/mod.rs:403-447", "src/header.rs:75-105", "src/header.rs:140-189"]}
