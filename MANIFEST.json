{
 "claims": [
  {
   "property": "C01",
   "status": "proved",
   "theorems": [
    "C01_protocol_exact",
    "C01_nonweb_never_blocked"
   ],
   "note": "Exact characterisation of isBlockableProtocol and its effect on matches()."
  },
  {
   "property": "C02",
   "status": "proved",
   "theorems": [
    "C02_empty_client",
    "C02_no_network_rules",
    "C02_no_block_rule"
   ],
   "note": ""
  },
  {
   "property": "C03",
   "status": "proved",
   "theorems": [
    "C03_decision",
    "C03_hashes_irrelevant"
   ],
   "note": "C03_decision characterises the decision without any prefilter; C03_hashes_irrelevant lets all Bloom hash functions vary."
  },
  {
   "property": "C04",
   "status": "proved",
   "theorems": [
    "C04_fingerprint_in_url"
   ],
   "note": "Every line text, every environment (so every bad-fingerprint table), every URL and context."
  },
  {
   "property": "C05",
   "status": "proved",
   "theorems": [
    "C05_bloom_only_accelerates",
    "C05_never_adds_matches",
    "C05_client_bloom"
   ],
   "note": "For every rule parsed from a line."
  },
  {
   "property": "C06",
   "status": "proved",
   "theorems": [
    "C06_listed_domains",
    "C06_listed_domains_exception"
   ],
   "note": ""
  },
  {
   "property": "C07",
   "status": "partial",
   "theorems": [
    "C07_refuted",
    "C07_excluded_domains_partial",
    "C07_excluded_domains_exception_partial"
   ],
   "note": "The full property fails: a page excluded by one such rule hides all of them (C07_refuted). Proved for pages no such rule excludes; C79_any_request says exactly which rules count."
  },
  {
   "property": "C08",
   "status": "proved",
   "theorems": [
    "C08_block_needs_rule",
    "C08_exception_wins",
    "C08_find_block_needs_rule",
    "C08_find_exception_wins"
   ],
   "note": ""
  },
  {
   "property": "C09",
   "status": "proved",
   "theorems": [
    "C09_first_party_exact",
    "C09_third_party_exact"
   ],
   "note": "All pairs of byte strings."
  },
  {
   "property": "C10",
   "status": "proved",
   "theorems": [
    "C10_separators_exact"
   ],
   "note": "All 256 byte values."
  },
  {
   "property": "C100",
   "status": "proved",
   "theorems": [
    "C100_saves",
    "C100_restores",
    "C100_restores_any",
    "C100_said",
    "C100_no_buffer"
   ],
   "note": ""
  },
  {
   "property": "C101",
   "status": "proved",
   "theorems": [
    "C101_accepted",
    "C101_format",
    "C101_iff",
    "C101_saved"
   ],
   "note": ""
  },
  {
   "property": "C102",
   "status": "proved",
   "theorems": [
    "C102_footprint",
    "C102_footprint_bound",
    "C102_each",
    "C102_quiet",
    "C102_clear",
    "C102_asks"
   ],
   "note": "blocks are counted, not bytes; a list parsed over a restored buffer is excluded because it is undefined (C54)"
  },
  {
   "property": "C103",
   "status": "proved",
   "theorems": [
    "C103_matches",
    "C103_find",
    "C103_determined",
    "C103_find_determined"
   ],
   "note": "which rules are considered at all is C35"
  },
  {
   "property": "C104",
   "status": "proved",
   "theorems": [
    "C104_console",
    "C104_once",
    "C104_mentions",
    "C104_clients",
    "C104_defined"
   ],
   "note": ""
  },
  {
   "property": "C105",
   "status": "partial",
   "theorems": [
    "C105_known_options_partial",
    "C105_race_iff",
    "C105_refuted"
   ],
   "note": "The code violates the property (C105_refuted); C105_race_iff says exactly for which programs it holds. Calls on one and the same client from several threads are outside its scope."
  },
  {
   "property": "C106",
   "status": "partial",
   "theorems": [
    "C106_find_partial",
    "C106_refuted",
    "C106_first_refuted",
    "C106_race_iff",
    "C106_detection",
    "C106_consults",
    "C106_find_consults",
    "C106_find_exceptions",
    "C106_matches_consults",
    "C106_matches_exceptions",
    "C106_hosts",
    "C106_warm",
    "C106_matches_counts",
    "C106_web_only",
    "C106_as_in_turn",
    "C106_lost_counts",
    "C106_defined"
   ],
   "note": "The code violates the property (C106_refuted, C106_first_refuted); C106_race_iff says exactly for which programs it holds. Clients with bad-fingerprint detection (a developer's tool) are excluded. The walk through the rules is one step; the accesses to what queries write (counters, lazily computed members of rules) follow it one by one."
  },
  {
   "property": "C107",
   "status": "partial",
   "theorems": [
    "C107_answers_partial",
    "C107_refuted",
    "C107_contains_exactly",
    "C107_written",
    "C107_admits",
    "C107_options_refuted",
    "C107_exactly"
   ],
   "note": "Refuted for containsDomain() asked first and for parseOptions() called again; C107_contains_exactly and C107_exactly say what every answer is."
  },
  {
   "property": "C108",
   "status": "partial",
   "theorems": [
    "C108_side_by_side_partial",
    "C108_refuted",
    "C108_exactly",
    "C108_left"
   ],
   "note": "Refuted only for copied clients (C108_refuted): the full statement without copies is C108_side_by_side_partial, and C108_exactly decides every polite history, with copies."
  },
  {
   "property": "C109",
   "status": "proved",
   "theorems": [
    "C109_side_by_side",
    "C109_left"
   ],
   "note": "As in C89, the memory of JavaScript and of the C++ objects themselves is left out."
  },
  {
   "property": "C11",
   "status": "proved",
   "theorems": [
    "C11_host_extraction",
    "C11_host_total"
   ],
   "note": "Every NUL-free URL."
  },
  {
   "property": "C110",
   "status": "proved",
   "theorems": [
    "C110_exactly",
    "C110_order",
    "C110_client",
    "C110_single",
    "C110_web"
   ],
   "note": "A list filter given by the caller is any total function; one that throws is not modelled."
  },
  {
   "property": "C111",
   "status": "partial",
   "theorems": [
    "C111_refuted",
    "C111_cut_partial",
    "C111_whole_partial",
    "C111_torn",
    "C111_every_part",
    "C111_rerun",
    "C111_uncut",
    "C111_manifests_partial",
    "C111_manifests_uncut"
   ],
   "note": "Refuted (C111_refuted): files are emptied and written in place. What holds at every cut is C111_cut_partial; C111_every_part shows it is the most that can be said. Writes reach the disk in program order."
  },
  {
   "property": "C112",
   "status": "partial",
   "theorems": [
    "C112_refuted",
    "C112_backups_partial",
    "C112_whole",
    "C112_whole_single",
    "C112_done",
    "C112_stops",
    "C112_torn_published"
   ],
   "note": "Refuted for the one file the run stopped at (C112_refuted); C112_backups_partial says that it is the only one. An object appears as a whole or not at all."
  },
  {
   "property": "C113",
   "status": "proved",
   "theorems": [
    "C113_kinds",
    "C113_apart",
    "C113_inert",
    "C113_third_party",
    "C113_first_party"
   ],
   "note": "Requests with a page (every request from JavaScript has one). Without a page a constant that is neither type nor party still makes the type known, which matters to rules such as $~script: C113_no_page_refuted."
  },
  {
   "property": "C12",
   "status": "proved",
   "theorems": [
    "C12_plain_substring"
   ],
   "note": "Also proves that evaluation is defined."
  },
  {
   "property": "C13",
   "status": "partial",
   "theorems": [
    "C13_wildcards_exact",
    "C13_sound",
    "C13_wildcards_partial",
    "C13_refuted"
   ],
   "note": "The exact criterion is proved for all patterns; it equals the textbook reading for patterns without '^' and without two stars in a row. 'foo**' is a counterexample."
  },
  {
   "property": "C14",
   "status": "partial",
   "theorems": [
    "C14_trailing_caret_partial",
    "C14_trailing_exact",
    "C14_inner_exact",
    "C14_refuted"
   ],
   "note": "Holds when something precedes t in the URL; fails when t is the whole URL. C14_trailing_exact and C14_inner_exact say exactly which URLs the rules t^ and t^u match."
  },
  {
   "property": "C15",
   "status": "proved",
   "theorems": [
    "C15_anchors"
   ],
   "note": "Bodies are literal, also with * and ^."
  },
  {
   "property": "C16",
   "status": "partial",
   "theorems": [
    "C16_host_rules_partial",
    "C15_anchors",
    "C16_refuted"
   ],
   "note": "Exact criterion for '||' rules without a right bar; with one ('||a.com/x|') the host is not checked (C15_anchors is exact for these)."
  },
  {
   "property": "C17",
   "status": "partial",
   "theorems": [
    "C17_matching_safe_partial",
    "C17_anchored_safe",
    "C17_overread_iff",
    "C17_any_line",
    "C17_defined_otherwise",
    "C17_safe_endings",
    "C17_refuted"
   ],
   "note": "Safe for anchored rules and when every '^' ends a piece; 'a^b' reads behind the URL. C17_overread_iff and C17_any_line say exactly when that happens; otherwise the answer is defined and the documented one."
  },
  {
   "property": "C18",
   "status": "partial",
   "theorems": [
    "C18_safe_lines_partial",
    "C18_fault_is_one_line",
    "C18_fault_iff",
    "C18_reading_total",
    "C18_refuted_bar",
    "C18_refuted_long",
    "C18_refuted_domain"
   ],
   "note": "Proved for lines meeting three restrictions, each shown necessary: the code does leave its buffers on '||a|b', on '||' lines of 2048 bytes or more and on domains longer than 1024 bytes. C18_fault_iff is the exact condition for every text."
  },
  {
   "property": "C19",
   "status": "proved",
   "theorems": [
    "C19_arrays_exact",
    "C19_passes_agree",
    "C19_line_class_agrees"
   ],
   "note": "Whenever parse is defined: arrays are exactly the lines' rules in order, both passes count the same."
  },
  {
   "property": "C20",
   "status": "proved",
   "theorems": [
    "C20_parse_in_pieces"
   ],
   "note": "Equality of the resulting clients, hence of every answer and count."
  },
  {
   "property": "C21",
   "status": "partial",
   "theorems": [
    "C21_decisions",
    "C21_counts_exactly",
    "C21_comments_inert_partial",
    "C21_refuted"
   ],
   "note": "Decisions never change (C21_decisions); C21_counts_exactly says when a count does. The resulting client is identical when the comment mark (or end of the blanks) is within the first 2047 bytes; a line of 2048 blanks is stored as a rule (counts change), so the full statement is false."
  },
  {
   "property": "C22",
   "status": "proved",
   "theorems": [
    "C22_line_ends"
   ],
   "note": "Equality of the resulting clients."
  },
  {
   "property": "C23",
   "status": "partial",
   "theorems": [
    "C23_exactly",
    "C23_leading_blanks_partial",
    "C23_refuted"
   ],
   "note": "Exact condition in C23_exactly. Equal rules unless the line ends in '/' and begins with '/', '@' or a blank; ' /ad/' differs from '/ad/'."
  },
  {
   "property": "C24",
   "status": "partial",
   "theorems": [
    "C24_exactly",
    "C24_one_meaning",
    "C24_own_meaning",
    "C24_options_partial",
    "C24_order",
    "C24_unknown_inert",
    "C24_refuted_abbreviation",
    "C24_refuted_negated"
   ],
   "note": "C24_exactly gives the bits for all names, C24_options_partial what the English says for names that are written out. Abbreviations ('$s', '$') count as the first name they begin; a negated unknown name does not make the rule inert."
  },
  {
   "property": "C25",
   "status": "proved",
   "theorems": [
    "C25_unsupported_inert",
    "C25_exactly",
    "C25_answers"
   ],
   "note": "Also: such rules are never stored."
  },
  {
   "property": "C26",
   "status": "partial",
   "theorems": [
    "C26_types_partial",
    "C26_options_exact",
    "C26_refuted",
    "C26_answers_partial"
   ],
   "note": "Both restrictions are proved for requests with declared types, and for positive types without; a rule with only negated types does apply to a request without declared type once a party flag is set."
  },
  {
   "property": "C27",
   "status": "proved",
   "theorems": [
    "C27_documents",
    "C27_document_bit",
    "C27_answers"
   ],
   "note": ""
  },
  {
   "property": "C28",
   "status": "partial",
   "theorems": [
    "C28_domain_option_partial",
    "C28_refuted",
    "C28_answers_partial"
   ],
   "note": "Exact for all page domains with two or more labels; single-label page domains never match a listed domain."
  },
  {
   "property": "C29",
   "status": "partial",
   "theorems": [
    "C29_matches",
    "C29_find",
    "C29_third_party",
    "C29_first_party_partial",
    "C29_refuted"
   ],
   "note": "third-party and ~third-party are respected by every rule that matches() and findMatchingFilters() answer with, after any history; first-party has no effect."
  },
  {
   "property": "C30",
   "status": "partial",
   "theorems": [
    "C30_tag_state",
    "C30_only_own_tags_matter",
    "C30_disabled_exactly",
    "C30_disabled_absent_partial",
    "C30_refuted"
   ],
   "note": "A disabled host rule still hides later rules for the same host (C30_refuted). Proved for all other rules; C30_disabled_exactly is exact for all rules."
  },
  {
   "property": "C31",
   "status": "partial",
   "theorems": [
    "C31_add_block_exactly",
    "C31_add_exception_exactly",
    "C31_add_block_partial",
    "C31_add_exception_partial",
    "C31_refuted"
   ],
   "note": "Fails for rules restricted by excluded page domains only (C31_refuted); proved for all other rules, and the two exactly theorems say when it fails."
  },
  {
   "property": "C32",
   "status": "partial",
   "theorems": [
    "C32_refuted",
    "C32_first_rule_partial",
    "C79_any_request"
   ],
   "note": "Only the first rule loaded for a host counts; later ones are lost (C32_refuted). C79_any_request is exact."
  },
  {
   "property": "C33",
   "status": "proved",
   "theorems": [
    "C33_queries_inert",
    "C33_queries_inert_later"
   ],
   "note": ""
  },
  {
   "property": "C34",
   "status": "partial",
   "theorems": [
    "C34_agree_partial",
    "C34_differ_iff",
    "C34_found_decision",
    "C34_refuted"
   ],
   "note": "C34_differ_iff says exactly when they differ on a web URL. They differ on pages excluded by a rule, without a page domain, and for URLs that are not web URLs (C34_refuted)."
  },
  {
   "property": "C35",
   "status": "proved",
   "theorems": [
    "C35_matches_reports",
    "C35_find_reports"
   ],
   "note": ""
  },
  {
   "property": "C36",
   "status": "partial",
   "theorems": [
    "C36_list_roundtrip_partial",
    "C36_client_lists_partial",
    "C36_any_rules",
    "C36_unchanged_iff",
    "C36_any_client",
    "C36_refuted"
   ],
   "note": "C36_any_rules and C36_any_client say for every parsed rule and every client exactly what is read back, C36_unchanged_iff that the storable rules are exactly the unchanged ones. Round trip proved for every list of parsed rules that are storable (non-empty pattern, non-empty domain list, untagged rules whose domain list does not start with '~#'), and for the arrays of every client. C36_refuted: an empty domain list ('foo$domain=') is read back as none."
  },
  {
   "property": "C37",
   "status": "partial",
   "theorems": [
    "C37_host_rule_roundtrip_partial",
    "C37_any_host_rule",
    "C37_unchanged_iff",
    "C37_refuted"
   ],
   "note": "C37_any_host_rule says what is read back for every rule, C37_unchanged_iff when it is unchanged. Proved for every storable rule; refuted for a host rule with an empty domain list."
  },
  {
   "property": "C38",
   "status": "partial",
   "theorems": [
    "C38_restored_decides_partial",
    "C38_any_client",
    "C38_refuted"
   ],
   "note": "C38_any_client: for every client, the restored client decides like the one whose rules are what the format makes of them. Same verdicts and reported rules from both queries, immediately and after any further history of calls, for every client all of whose rules are storable. C38_refuted: '/foobar$domain=' matches nothing on a page until the client is serialized and restored."
  },
  {
   "property": "C39",
   "status": "proved",
   "theorems": [
    "C39_size_exact"
   ],
   "note": ""
  },
  {
   "property": "C40",
   "status": "partial",
   "theorems": [
    "C40_stable_partial",
    "C40_steady_partial",
    "C40_steady_iff",
    "C40_refuted"
   ],
   "note": "C40_steady_partial: byte-identical for every client whose rules are steady, and C40_steady_iff: these are exactly the rules whose bytes do not change. Byte-identical for clients whose rules are storable; refuted by 'x$domain=~#y'."
  },
  {
   "property": "C41",
   "status": "proved",
   "theorems": [
    "C41_text",
    "C41_rule"
   ],
   "note": "Leftmost usable window or none, for texts and for rules in the usual syntax."
  },
  {
   "property": "C42",
   "status": "partial",
   "theorems": [
    "C42_memory_safe_partial",
    "C42_safe_iff",
    "C42_refuted"
   ],
   "note": "Full statement refuted: parse() on a client restored by deserialize() moves rules that point into the caller's buffer into slots that own their memory (swapData does not swap borrowed_data), so the next clear/destruction frees the inside of the buffer. Proved for every history without such a parse: no read of freed memory, no double or invalid free. C42_safe_iff: of the histories that use the interface as asked, exactly those go wrong that parse while a restored rule with a text of its own is in the lists."
  },
  {
   "property": "C43",
   "status": "proved",
   "theorems": [
    "C43_clear_is_fresh"
   ],
   "note": ""
  },
  {
   "property": "C44",
   "status": "partial",
   "theorems": [
    "C44_host_rule_partial",
    "C44_host_list",
    "C44_host_list_found",
    "C44_refuted"
   ],
   "note": "Exact for lists of hosts and host exceptions (C44_host_list). Fails for single-label hosts on subdomains (C44_refuted) and for hosts that already have a rule (C32_refuted)."
  },
  {
   "property": "C45",
   "status": "proved",
   "theorems": [
    "C45_cosmetic_inert"
   ],
   "note": ""
  },
  {
   "property": "C46",
   "status": "partial",
   "theorems": [
    "C46_same_decisions",
    "C46_text_partial",
    "C46_text_exactly",
    "C46_cosmetic_text",
    "C46_refuted"
   ],
   "note": "Decisions, counts and definedness are unaffected (C46_same_decisions). The kept text is exact except for cosmetic and regular expression rules (C46_refuted); C46_text_exactly and C46_cosmetic_text say what those keep."
  },
  {
   "property": "C47",
   "status": "partial",
   "theorems": [
    "C47_refuted",
    "C47_important_partial"
   ],
   "note": "$important has no effect: exceptions still win (C47_refuted)."
  },
  {
   "property": "C48",
   "status": "partial",
   "theorems": [
    "C48_exactly",
    "C48_exceptions_partial",
    "C48_refuted"
   ],
   "note": "Exact condition in C48_exactly. Proved for all lines but those the regular-expression shortcut can catch; '@@/re/' is stored as a block rule."
  },
  {
   "property": "C49",
   "status": "proved",
   "theorems": [
    "C49_party_flags"
   ],
   "note": ""
  },
  {
   "property": "C50",
   "status": "proved",
   "theorems": [
    "C50_load_twice"
   ],
   "note": ""
  },
  {
   "property": "C51",
   "status": "proved",
   "theorems": [
    "C51_order_irrelevant",
    "C51_same_host_order_matters"
   ],
   "note": ""
  },
  {
   "property": "C52",
   "status": "proved",
   "theorems": [
    "C52_network_rules",
    "C52_collections",
    "C52_cosmetic_rules",
    "C52_every_line",
    "C19_arrays_exact"
   ],
   "note": "Network lines in the usual syntax, cosmetic and HTML lines, and for every line agreement of the collection with the type bits; C19_arrays_exact says that each line lands in its one collection."
  },
  {
   "property": "C53",
   "status": "partial",
   "theorems": [
    "C53_no_leak_partial",
    "C53_leak_exact",
    "C53_leak_count",
    "C53_calls_leak",
    "C53_refuted"
   ],
   "note": "Full statement refuted: a second domain= or tag= option on a line overwrites the pointer of the first. Proved: nothing is left unless an option is repeated, and exactly two blocks per repeated option otherwise, for every history that gets to its end; C53_calls_leak reads the number off the texts parsed."
  },
  {
   "property": "C54",
   "status": "partial",
   "theorems": [
    "C54_binding_safe_partial",
    "C54_safe_iff",
    "C54_leak_exact",
    "C54_calls_have_story",
    "C54_calls_leak",
    "C54_calls_leak_bound",
    "C54_calls_safe",
    "C54_calls_unsafe",
    "C54_refuted"
   ],
   "note": "Refuted by parse after deserialize followed by cleanup. Proved for all other sequences of calls; C54_safe_iff says exactly which are safe and C54_leak_exact exactly how many blocks they leave. The C54_calls theorems say the same of the calls themselves, from the texts and buffers given to them."
  },
  {
   "property": "C55",
   "status": "proved",
   "theorems": [
    "C55_lines",
    "C55_same_decisions",
    "C55_same_definedness"
   ],
   "note": ""
  },
  {
   "property": "C56",
   "status": "proved",
   "theorems": [
    "C56_lists_as_one",
    "C56_same_definedness"
   ],
   "note": ""
  },
  {
   "property": "C57",
   "status": "partial",
   "theorems": [
    "C57_exactly",
    "C57_made_up_page",
    "C57_omitted_page_partial",
    "C57_refuted"
   ],
   "note": "C57_exactly and C57_made_up_page say exactly what an omitted page means. The omitted page becomes the domain 'undefined' (C57_refuted: $domain=b.com). Proved when no loaded rule looks at the page."
  },
  {
   "property": "C58",
   "status": "partial",
   "theorems": [
    "C58_defined_iff",
    "C58_complete_partial",
    "C58_only_last_bucket",
    "C58_overrun",
    "C58_refuted"
   ],
   "note": "The length is reset for every bucket: only the selectors of the last bucket are returned, and the buffer is overrun by any longer bucket. C58_defined_iff: exactly when it returns; complete only if all selectors lie in the last bucket."
  },
  {
   "property": "C59",
   "status": "proved",
   "theorems": [
    "C59_behavioural_options"
   ],
   "note": ""
  },
  {
   "property": "C60",
   "status": "partial",
   "theorems": [
    "C60_report_partial",
    "C60_refuted"
   ],
   "note": "Exact: faithful unless a host rule is reported, whose stored copy has no terminating NUL and is read past its end."
  },
  {
   "property": "C61",
   "status": "proved",
   "theorems": [
    "C61_get_filters",
    "C61_unknown_name"
   ],
   "note": ""
  },
  {
   "property": "C62",
   "status": "proved",
   "theorems": [
    "C62_host_list",
    "C62_nothing_else",
    "C62_exactly"
   ],
   "note": "Single-label hosts only on themselves, as in C44."
  },
  {
   "property": "C63",
   "status": "proved",
   "theorems": [
    "C63_page_irrelevant",
    "C63_unknown_type_matters"
   ],
   "note": ""
  },
  {
   "property": "C64",
   "status": "proved",
   "theorems": [
    "C64_array_of_lists"
   ],
   "note": ""
  },
  {
   "property": "C65",
   "status": "partial",
   "theorems": [
    "C65_restarts_partial",
    "C65_any_life",
    "C65_refuted"
   ],
   "note": "Proved when the rules loaded at each save are storable (C36); C65_refuted: one restart changes '/foobar$domain='. C65_any_life says for all rules and tags what the client answers like after its restarts."
  },
  {
   "property": "C66",
   "status": "proved",
   "theorems": [
    "C66_parsing_stats",
    "C66_restarts"
   ],
   "note": "For all rules."
  },
  {
   "property": "C67",
   "status": "proved",
   "theorems": [
    "C67_matching_stats"
   ],
   "note": ""
  },
  {
   "property": "C68",
   "status": "proved",
   "theorems": [
    "C68_collected",
    "C68_recorded",
    "C68_inert"
   ],
   "note": ""
  },
  {
   "property": "C69",
   "status": "partial",
   "theorems": [
    "C69_data_file_partial",
    "C69_any_rules",
    "C69_fails_iff",
    "C69_safe",
    "C69_refuted",
    "C69_counts_refuted"
   ],
   "note": "Verdicts and reports for storable rules, all statistics but the number of cosmetic rules; C69_refuted: '/foobar$domain='; C69_counts_refuted: the file has no cosmetic rules. C69_any_rules says for all rules what the restored client answers like."
  },
  {
   "property": "C70",
   "status": "partial",
   "theorems": [
    "C70_iff",
    "C70_header_partial",
    "C70_refuted"
   ],
   "note": "C70_iff is the exact condition on the collected fingerprints. Fingerprints are written without escaping: refuted by an asked URL with a double quote, proved when built-in fingerprints and asked URLs contain no double quote, backslash or line feed."
  },
  {
   "property": "C71",
   "status": "partial",
   "theorems": [
    "C71_refuted",
    "C71_always_overruns_partial"
   ],
   "note": "deserialize() gets no length. Refuted; the partial theorem shows that every cut of saved data makes it read past the end."
  },
  {
   "property": "C72",
   "status": "proved",
   "theorems": [
    "C72_counts",
    "C72_lines",
    "C72_defined"
   ],
   "note": ""
  },
  {
   "property": "C73",
   "status": "partial",
   "theorems": [
    "C73_refuted",
    "C73_counts_all_partial"
   ],
   "note": "The script tests the returned object instead of its 'matches' field: every site is counted as a match."
  },
  {
   "property": "C74",
   "status": "proved",
   "theorems": [
    "C74_uuids_distinct",
    "C74_catalogue",
    "C74_known",
    "C74_unknown",
    "C74_several"
   ],
   "note": ""
  },
  {
   "property": "C75",
   "status": "proved",
   "theorems": [
    "C75_type",
    "C75_negated_type"
   ],
   "note": ""
  },
  {
   "property": "C76",
   "status": "partial",
   "theorems": [
    "C76_refuted",
    "C76_header_defined_partial"
   ],
   "note": "Null pointer unless detection is on; the partial theorem states exactly when."
  },
  {
   "property": "C77",
   "status": "partial",
   "theorems": [
    "C77_lists_partial",
    "C77_lists_any_rules",
    "C77_all_or_nothing",
    "C77_region_partial",
    "C77_region_any_rules",
    "C77_refuted"
   ],
   "note": "Storable rules, and for all rules what the file restores to (any_rules); C77_refuted: a region's list is not prepared, so the two added rules are missing from its data file."
  },
  {
   "property": "C78",
   "status": "partial",
   "theorems": [
    "C78_requests_safe_partial",
    "C78_prepared_safe",
    "C78_usual_list_safe",
    "C78_loaded_safe",
    "C78_fault_cause",
    "C78_caret_faults",
    "C78_host_caret_faults",
    "C78_refuted_star",
    "C78_refuted_caret"
   ],
   "note": "Proved for lists whose lines parse safely (C18) and whose network rules have every '^' at the beginning or the end of a piece and no star at the end of a pure host; refuted otherwise ('||ads.*' on http://ads.*/, 'a^b'). C78_caret_faults and C78_host_caret_faults: a rule with a '^' in the middle of a piece makes some request fail."
  },
  {
   "property": "C79",
   "status": "partial",
   "theorems": [
    "C79_end_to_end_partial",
    "C79_any_request",
    "C79_any_request_found",
    "C79_with_expressions",
    "C79_with_expressions_found",
    "C79_same_reading",
    "C79_rule_of_line",
    "C79_refuted_hosts",
    "C79_refuted_page"
   ],
   "note": "Proved for lists with one host rule per host and whose short rules with only excluded domains agree about the page; the two refutations show that neither condition can be dropped (C34, C07). C79_any_request drops all of them and says exactly which rules are listened to, for any request, and C79_any_request_found the same for findMatchingFilters(); C79_with_expressions allows regular expressions in the list too."
  },
  {
   "property": "C80",
   "status": "partial",
   "theorems": [
    "C80_same_twice_partial",
    "C80_two_halves",
    "C80_any_rules",
    "C80_refuted"
   ],
   "note": "The same lines twice for storable rules; C80_refuted: '/foobar$domain='. C80_any_rules gives both halves for all rules."
  },
  {
   "property": "C81",
   "status": "proved",
   "theorems": [
    "C81_manifest_text",
    "C81_manifest_files",
    "C81_same_lists"
   ],
   "note": ""
  },
  {
   "property": "C82",
   "status": "proved",
   "theorems": [
    "C82_complete",
    "C82_interrupted",
    "C82_complete_iff",
    "C82_safe",
    "C82_safe_complete",
    "C82_fails_iff",
    "C82_paths_distinct"
   ],
   "note": "C82_safe says that safe lists (C78) cannot stop it, C82_fails_iff what can. What the data of a list decides is C77."
  },
  {
   "property": "C83",
   "status": "partial",
   "theorems": [
    "C83_last_region_partial",
    "C83_refuted"
   ],
   "note": "The header is overwritten for every data file; proved: what is left is the header of the last region."
  },
  {
   "property": "C84",
   "status": "partial",
   "theorems": [
    "C84_all_files",
    "C84_distinct_keys",
    "C84_test_apart",
    "C84_single_file_partial",
    "C84_refuted"
   ],
   "note": "The single file is proved for production and refuted for the test location, where the version is missing from the key."
  },
  {
   "property": "C85",
   "status": "proved",
   "theorems": [
    "C85_kept_apart",
    "C85_occurrences",
    "C85_ascii",
    "C85_lines",
    "C85_prepared",
    "C85_word_list"
   ],
   "note": ""
  },
  {
   "property": "C86",
   "status": "partial",
   "theorems": [
    "C86_cut",
    "C86_all_lines_partial",
    "C86_refuted"
   ],
   "note": "Everything behind the first U+0000 is ignored; all lines of texts without it are loaded."
  },
  {
   "property": "C87",
   "status": "partial",
   "theorems": [
    "C87_throwing_partial",
    "C87_refuted",
    "C87_parse_undefined",
    "C87_refuted_omitted"
   ],
   "note": "A throwing call changes no answer, but matches() then changes the statistics; parse() loads 'undefined'."
  },
  {
   "property": "C88",
   "status": "partial",
   "theorems": [
    "C88_session",
    "C88_session_calls",
    "C88_no_crash_partial",
    "C88_unconvertible",
    "C88_refuted"
   ],
   "note": "Sessions whose arguments can be converted are the C++ calls; a symbol makes the methods read through a null pointer."
  },
  {
   "property": "C89",
   "status": "partial",
   "theorems": [
    "C89_safe_iff",
    "C89_closed",
    "C89_left_open",
    "C89_calls_left_open",
    "C89_after_cleanup",
    "C89_refuted_use",
    "C89_refuted_leak"
   ],
   "note": "Exactly which lives are safe and what they leave; refuted: calls after cleanup(), and the buffer that garbage collection leaves."
  },
  {
   "property": "C90",
   "status": "partial",
   "theorems": [
    "C90_one_address",
    "C90_one_address_discover",
    "C90_types",
    "C90_addresses",
    "C90_addresses_discover",
    "C90_saved_partial",
    "C90_saved_any_rules",
    "C90_refuted"
   ],
   "note": "The answers are those of the client; the data file repeats them for rules that survive saving, and gives those of the rules as read back otherwise. With --discover every address of a file counts as matching (C73)."
  },
  {
   "property": "C91",
   "status": "partial",
   "theorems": [
    "C91_outcome",
    "C91_file_written_partial",
    "C91_refuted",
    "C91_safe_partial",
    "C91_safe_refuted"
   ],
   "note": "Exact conditions for the two kinds of failure; --stats makes it ignore --output. C91_safe_partial: with safe lists it reaches its end, with --discover only if they name no mere hosts (C60)."
  },
  {
   "property": "C92",
   "status": "proved",
   "theorems": [
    "C92_regex_lines",
    "C92_regex_rule",
    "C92_regex_matches",
    "C92_usual_form"
   ],
   "note": "Lines shorter than 2048 bytes. The regular expression engine is a function of the environment."
  },
  {
   "property": "C93",
   "status": "proved",
   "theorems": [
    "C93_history",
    "C93_data_file",
    "C93_kept_rules"
   ],
   "note": "For the texts named in the statement; C18_refuted_bar, C78_refuted_star and C38_refuted show that other lines can fault or change."
  },
  {
   "property": "C94",
   "status": "proved",
   "theorems": [
    "C94_words",
    "C94_report",
    "C94_any_rules",
    "C94_total"
   ],
   "note": "The program ends if its queries are defined (C18); times are not modelled."
  },
  {
   "property": "C95",
   "status": "proved",
   "theorems": [
    "C95_matches",
    "C95_find",
    "C95_types",
    "C95_constants",
    "C95_parse",
    "C95_numbers",
    "C95_texts",
    "C95_integers"
   ],
   "note": "The conversions of strings and objects to numbers and of objects to strings are given by the environment."
  },
  {
   "property": "C96",
   "status": "partial",
   "theorems": [
    "C96_forgets_partial",
    "C96_dat_file",
    "C96_refuted",
    "C96_dat_refuted"
   ],
   "note": "Everything held before is replaced in all cases. The rules read before the fault stay in force (C96_refuted) and the promise is resolved with that client (C96_dat_refuted)."
  },
  {
   "property": "C97",
   "status": "proved",
   "theorems": [
    "C97_saved_size",
    "C97_no_overflow",
    "C97_headers_fit",
    "C97_rule_headers_fit"
   ],
   "note": ""
  },
  {
   "property": "C98",
   "status": "proved",
   "theorems": [
    "C98_every_line",
    "C98_any_length",
    "C98_reading"
   ],
   "note": ""
  },
  {
   "property": "C99",
   "status": "proved",
   "theorems": [
    "C99_rule",
    "C99_host",
    "C99_javascript",
    "C99_any_request",
    "C99_any_request_found",
    "C99_fault",
    "C99_any_list",
    "C99_any_list_found"
   ],
   "note": ""
  }
 ]
}