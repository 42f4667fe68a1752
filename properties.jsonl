{"id": "C01", "title": "Only web-protocol URLs can be blocked", "statement": "AdBlockClient::matches returns false for every URL that is not longer than five bytes or whose text does not start, ignoring ASCII case, with an optional 'blob:' followed by one of http:, https:, ws:, wss: and '//'. isBlockableProtocol accepts exactly the URLs of that shape.", "quantifier": "every client state, every URL byte string, every context option and page domain", "why_tests_cant": "the set of URLs is infinite; the recogniser is a hand-written character-by-character decision tree whose missing branch would be invisible to sampled URLs", "anchors": ["protocol.cc:isBlockableProtocol", "ad_block_client.cc:AdBlockClient::matches"]}
{"id": "C02", "title": "A client without network rules never blocks", "statement": "A freshly constructed client, a client after clear(), and a client that has only parsed text consisting of blank, comment, element-hiding or HTML-filtering lines, answers false to matches() and to findMatchingFilters() for every request.", "quantifier": "every URL, context option, page domain; every rule-less list text; every tag set", "why_tests_cant": "the code path dereferences null collections and computes an internal 'has match = true' before returning false; only exhaustive reasoning shows that it can never leak out", "anchors": ["ad_block_client.cc:AdBlockClient::matches", "ad_block_client.cc:AdBlockClient::isHostAnchoredHashSetMiss", "ad_block_client.cc:AdBlockClient::clear"]}
{"id": "C03", "title": "Probabilistic prefilters never change the blocking decision", "statement": "For every list text, the answer of matches() equals the answer obtained by scanning every stored rule one by one without any Bloom filter, whatever the Bloom filters' hash functions are (i.e. whatever their false positives).", "quantifier": "every sequence of parsed list texts, every URL/context/page domain, every choice of Bloom hash functions and of bad-fingerprint table", "why_tests_cant": "a false negative would need a URL/rule pair that a sampled test does not contain; false positives depend on hash collisions", "anchors": ["ad_block_client.cc:AdBlockClient::matches", "ad_block_client.cc:AdBlockClient::getFingerprint", "ad_block_client.cc:parseFilter", "filter.cc:Filter::matches"]}
{"id": "C04", "title": "A rule that matches a URL always shares its fingerprint with it", "statement": "If a rule has a fingerprint and the rule matches a URL then the six fingerprint bytes occur consecutively in the URL (so the substring Bloom filter cannot miss it).", "quantifier": "every rule text accepted by the parser, every URL, every bad-fingerprint table", "why_tests_cant": "quantifies over all rules and all URLs; interaction of wildcard, separator and anchors with fingerprint selection", "anchors": ["ad_block_client.cc:AdBlockClient::getFingerprint", "filter.cc:Filter::matches", "filter.cc:indexOfFilter"]}
{"id": "C05", "title": "The two-byte URL Bloom filter is only an accelerator for a single rule", "statement": "Filter::matches called with a Bloom filter holding all adjacent byte pairs of the URL returns the same answer as when called without one.", "quantifier": "every rule, every URL, every Bloom size and hash", "why_tests_cant": "hash collisions and rule/URL combinations are unbounded", "anchors": ["filter.cc:Filter::matches", "ad_block_client.cc:AdBlockClient::matches"]}
{"id": "C06", "title": "Page-domain index never hides a domain-restricted rule", "statement": "If a page domain is supplied, a rule without fingerprint that is restricted to listed page domains and that would match the request on its own is consulted by matches(): the index of page domains never causes it to be skipped.", "quantifier": "every list, every page domain string, every URL", "why_tests_cant": "the index is built from a different splitting routine than the one used to evaluate the rule; agreement is needed on every string", "anchors": ["ad_block_client.cc:isNoFingerprintDomainHashSetMiss", "ad_block_client.cc:AddFilterDomainsToHashSet", "filter.cc:Filter::contextDomainMatchesFilter", "filter.cc:Filter::parseDomains"]}
{"id": "C07", "title": "Excluding one page domain from one rule does not disable other rules on that page", "statement": "A rule without fingerprint whose only domain restriction is a list of excluded page domains applies on every page domain it does not itself exclude, whatever other rules are loaded.", "quantifier": "every list, every page domain, every URL", "why_tests_cant": "needs two rules interacting through a shared index; single-rule tests always pass", "anchors": ["ad_block_client.cc:AdBlockClient::matches", "ad_block_client.cc:isNoFingerprintDomainHashSetMiss", "ad_block_client.cc:AdBlockClient::parse"]}
{"id": "C08", "title": "Block needs a matching block rule; a matching exception always wins", "statement": "matches() returns true only if some loaded, enabled block rule matches the request; and whenever some loaded, enabled exception rule matches the request (and is consulted), matches() returns false.", "quantifier": "every reachable client, URL, context option, page domain", "why_tests_cant": "a control-flow property over six early returns and eight collections, for all inputs", "anchors": ["ad_block_client.cc:AdBlockClient::matches", "ad_block_client.cc:AdBlockClient::hasMatchingFilters", "ad_block_client.cc:AdBlockClient::isHostAnchoredHashSetMiss"]}
{"id": "C09", "title": "First-party test is exact on label boundaries", "statement": "A request host is first party for a page domain exactly when it equals the domain or ends with '.' followed by the domain; otherwise it is third party.", "quantifier": "every pair of byte strings", "why_tests_cant": "boundary cases (equal length, no dot, partial label) are unbounded", "anchors": ["filter.cc:isThirdPartyHost", "filter.cc:endsWith"]}
{"id": "C10", "title": "Separator class is a fixed set of six characters", "statement": "The characters treated as separators are exactly  $ / : = ? ^  for all 256 byte values.", "quantifier": "all 256 byte values", "why_tests_cant": "the class is stored as a signed bit table that disagrees with its own comment (':?/=^;'); tests probe only some characters", "anchors": ["ad_block_client.cc:isSeparatorChar", "ad_block_client.cc:separatorBuffer"]}
{"id": "C11", "title": "Host extraction", "statement": "For a URL scheme://host rest, where scheme has no ':' , host has no separator character and does not start with '/', and rest is empty or starts with a separator, the host used for matching is exactly host.", "quantifier": "every scheme, host and rest string", "why_tests_cant": "infinite family of URLs", "anchors": ["ad_block_client.cc:getUrlHost", "ad_block_client.cc:findFirstSeparatorChar"]}
{"id": "C12", "title": "Plain rules are substring search", "statement": "A rule whose pattern contains none of * ^ | and no anchors matches a URL exactly when the pattern occurs in the URL as a contiguous, case-sensitive substring (options permitting).", "quantifier": "every pattern, every URL", "why_tests_cant": "hand-written search loop with early exits", "anchors": ["filter.cc:indexOfFilter", "filter.cc:Filter::matches"]}
{"id": "C13", "title": "Wildcard rules match the pieces in order", "statement": "An unanchored rule with * matches a URL exactly when the pieces between the stars occur in the URL in order without overlapping, ^ inside a piece standing for one separator character (or the end of the URL at the end of a piece).", "quantifier": "every pattern, every URL", "why_tests_cant": "greedy leftmost search is used; that greediness loses no match is a theorem about all inputs", "anchors": ["filter.cc:Filter::matches", "filter.cc:indexOfFilter", "filter.cc:getNextPos"]}
{"id": "C14", "title": "A trailing ^ accepts the end of the URL", "statement": "If a URL ends with text t then the rule 't^' matches it.", "quantifier": "every t and every URL", "why_tests_cant": "depends on relative lengths of rule and rest of URL", "anchors": ["filter.cc:indexOfFilter"]}
{"id": "C15", "title": "Anchored rules compare the beginning, the end, or the whole URL", "statement": "A rule '|t' matches exactly the URLs starting with t, 't|' exactly those ending with t and '|t|' exactly t, for t without special characters.", "quantifier": "every t and every URL", "why_tests_cant": "infinite inputs; string comparison at boundaries", "anchors": ["filter.cc:Filter::matches", "ad_block_client.cc:parseFilter"]}
{"id": "C16", "title": "Host-anchored rules only apply to the host and its subdomains", "statement": "A rule '||host...' can only match a URL whose host equals host or is a subdomain of it at a label boundary.", "quantifier": "every host, every rule remainder, every URL", "why_tests_cant": "lookalike hosts (evilexample.com) are unbounded", "anchors": ["filter.cc:Filter::matches", "filter.cc:isThirdPartyHost", "ad_block_client.cc:AdBlockClient::isHostAnchoredHashSetMiss"]}
{"id": "C17", "title": "Matching never reads outside the URL or the rule", "statement": "Evaluating any rule against any NUL-terminated URL reads only bytes of the URL up to and including its terminator, and only bytes of the rule's own storage.", "quantifier": "every parsed rule, every URL, every option", "why_tests_cant": "an out-of-bounds read usually does not change a test's result", "anchors": ["filter.cc:indexOfFilter", "filter.cc:Filter::matches", "filter.cc:Filter::Filter(const Filter&)"]}
{"id": "C18", "title": "Parsing never reads or writes outside its buffers", "statement": "parse() on any NUL-terminated text stays inside the text, the 2048-byte line buffer, the 1024-byte domain buffer and the arrays it allocates.", "quantifier": "every NUL-terminated byte string, every client state", "why_tests_cant": "needs adversarial text; memory errors are silent in tests", "anchors": ["ad_block_client.cc:AdBlockClient::parse", "ad_block_client.cc:parseFilter", "ad_block_client.cc:AddFilterDomainsToHashSet", "ad_block_client.cc:AdBlockClient::getFingerprint"]}
{"id": "C19", "title": "The two parser passes agree", "statement": "parse() classifies each line identically in its counting pass and in its storing pass, so each rule array receives exactly as many rules as were allocated and the reported rule counts equal the number of stored rules.", "quantifier": "every list text, both values of preserveRules, every prior state", "why_tests_cant": "the passes call the parser with different arguments; equality must hold for every line", "anchors": ["ad_block_client.cc:AdBlockClient::parse", "ad_block_client.cc:parseFilter"]}
{"id": "C20", "title": "Parsing in pieces equals parsing the concatenation", "statement": "parse(a) followed by parse(b) leaves a client that answers every query like parse(a + newline + b) and reports the same counts.", "quantifier": "every pair of texts, every prior state", "why_tests_cant": "equality of all future answers cannot be sampled", "anchors": ["ad_block_client.cc:AdBlockClient::parse"]}
{"id": "C21", "title": "Comments and blank lines have no effect", "statement": "Inserting a blank, whitespace-only, '!' , '[' or '# ' comment line anywhere in a list changes neither decisions nor counts.", "quantifier": "every list, every position, every comment text", "why_tests_cant": "infinite comment texts and positions", "anchors": ["ad_block_client.cc:parseFilter", "ad_block_client.cc:AdBlockClient::parse"]}
{"id": "C22", "title": "Line terminators are interchangeable", "statement": "Lists that differ only in using CR, LF or CRLF as line terminators (and in repeated terminators) produce the same client.", "quantifier": "every list of lines", "why_tests_cant": "infinite texts", "anchors": ["ad_block_client.cc:AdBlockClient::parse", "filter.h:isEndOfLine"]}
{"id": "C23", "title": "Leading blanks of a rule line are ignored", "statement": "A rule line preceded by spaces or tabs is parsed to the same rule as the line without them.", "quantifier": "every line, every number of leading blanks", "why_tests_cant": "regex lines use offsets from the beginning of the line; only a per-line universal statement covers all cases", "anchors": ["ad_block_client.cc:parseFilter"]}
{"id": "C24", "title": "Option names set exactly their option", "statement": "A rule with options o1,...,on has exactly the option bits of its positive options and the negative bits of its '~' options, independent of the order in which they are listed; a name that is not a supported option makes the rule inert.", "quantifier": "every list of options and permutation of it", "why_tests_cant": "prefix comparison accepts abbreviated and empty names; combinatorially many option lists", "anchors": ["filter.cc:Filter::parseOption", "filter.cc:Filter::parseOptions"]}
{"id": "C25", "title": "Rules with unsupported options never act", "statement": "A rule carrying popup, csp=, elemhide, generichide, genericblock, empty or an unknown option never matches any request.", "quantifier": "every rule, URL, context", "why_tests_cant": "all requests", "anchors": ["filter.cc:Filter::hasUnsupportedOptions", "filter.cc:Filter::matchesOptions"]}
{"id": "C26", "title": "Resource-type options restrict the rule to those types", "statement": "A rule with resource-type options applies only if the request's declared types include one of them and none of its negated types; with no declared type such rules never apply.", "quantifier": "every option mask, every context mask", "why_tests_cant": "2^30 x 2^30 combinations of masks", "anchors": ["filter.cc:Filter::matchesOptions", "filter.h:FilterOption"]}
{"id": "C27", "title": "Top-level documents are only blocked by $document rules", "statement": "For a request declared as a document, only rules with the document option can match.", "quantifier": "every rule, every context containing the document flag", "why_tests_cant": "all rules and masks", "anchors": ["filter.cc:Filter::matchesOptions"]}
{"id": "C28", "title": "$domain= decides by the most specific listed suffix of the page domain", "statement": "For a page domain with at least two labels, among its label suffixes with at least two labels the longest one listed (plain or negated) decides; if none is listed the rule applies exactly when it lists no plain domain. Page domains of a single label (localhost) are handled like any other.", "quantifier": "every domain list, every page domain", "why_tests_cant": "interaction between domain lists and suffix walk on all strings", "anchors": ["filter.cc:Filter::contextDomainMatchesFilter", "filter.cc:Filter::parseDomains"]}
{"id": "C29", "title": "Party options are respected", "statement": "A $third-party rule never matches a first-party request, and a $~third-party or $first-party rule never matches a third-party request, when a page domain or a party flag is supplied.", "quantifier": "every rule, URL, page domain, context", "why_tests_cant": "all hosts and domains", "anchors": ["filter.cc:Filter::matchesOptions", "filter.cc:Filter::parseOption", "ad_block_client.cc:AdBlockClient::matches"]}
{"id": "C30", "title": "Tags switch rules on and off", "statement": "tagExists reports exactly the tags added and not removed since; a tagged rule influences answers exactly while its tag is enabled; untagged rules are unaffected by tags; clear() keeps tags.", "quantifier": "every history of addTag/removeTag/parse/clear/matches calls", "why_tests_cant": "histories are unbounded", "anchors": ["ad_block_client.cc:AdBlockClient::addTag", "ad_block_client.cc:AdBlockClient::removeTag", "ad_block_client.cc:AdBlockClient::tagExists", "ad_block_client.cc:AdBlockClient::hasMatchingFilters"]}
{"id": "C31", "title": "Adding a block rule never unblocks; adding an exception never blocks", "statement": "Parsing one additional block rule never turns a blocked request into an allowed one, and parsing one additional exception rule never turns an allowed request into a blocked one.", "quantifier": "every list, every additional rule, every request", "why_tests_cant": "needs all pairs of lists and rules", "anchors": ["ad_block_client.cc:AdBlockClient::parse", "ad_block_client.cc:AdBlockClient::matches"]}
{"id": "C32", "title": "Every host rule counts, also when several rules name the same host", "statement": "A rule '||host^$options' acts on the requests its own options select, no matter which other rules for the same host were loaded before it.", "quantifier": "every list, every host, every pair of option sets", "why_tests_cant": "pairs of rules; set-style storage silently drops duplicates by host only", "anchors": ["ad_block_client.cc:parseFilter", "filter.h:Filter::operator==", "ad_block_client.cc:AdBlockClient::isHostAnchoredHashSetMiss"]}
{"id": "C33", "title": "Queries do not change future answers", "statement": "matches() and findMatchingFilters() calls never change the answer of any later query; they only update statistics counters (and lazily computed caches).", "quantifier": "every history of queries interleaved in any way", "why_tests_cant": "histories are unbounded", "anchors": ["ad_block_client.cc:AdBlockClient::matches", "filter.cc:Filter::parseDomains", "filter.cc:Filter::matches"]}
{"id": "C34", "title": "matches() and findMatchingFilters() agree", "statement": "For the same request both entry points give the same decision.", "quantifier": "every client, URL, context and page domain", "why_tests_cant": "two independent traversals of ten collections with different gates", "anchors": ["ad_block_client.cc:AdBlockClient::matches", "ad_block_client.cc:AdBlockClient::findMatchingFilters"]}
{"id": "C35", "title": "Reported rules are real", "statement": "The rule reported by findMatchingFilters() (and by matches()) is a loaded, enabled rule that itself matches the request; the result is true exactly when a block rule and no exception rule is reported.", "quantifier": "every client and request", "why_tests_cant": "all inputs; out-parameters are written by nested calls", "anchors": ["ad_block_client.cc:AdBlockClient::findMatchingFilters", "ad_block_client.cc:AdBlockClient::matches", "ad_block_client.cc:AdBlockClient::hasMatchingFilters"]}
{"id": "C36", "title": "Rule lists survive serialization", "statement": "Serializing a list of rules and reading it back yields rules with the same type, options, pattern, tag, domain list and host.", "quantifier": "every list of rules produced by the parser", "why_tests_cant": "delimiter-based format without escaping: needs all strings", "anchors": ["ad_block_client.cc:serializeFilters", "ad_block_client.cc:deserializeFilters"]}
{"id": "C37", "title": "Host rules survive serialization", "statement": "Writing a host rule into the hash-set format and reading it back yields the same rule.", "quantifier": "every host rule produced by the parser", "why_tests_cant": "delimiter-based format with a length-prefixed unterminated field", "anchors": ["filter.cc:Filter::Serialize", "filter.cc:Filter::Deserialize"]}
{"id": "C38", "title": "A restored client decides like the original", "statement": "deserialize(serialize(client)) answers every matches() query exactly like the original client (with the same tags enabled).", "quantifier": "every client built by parse(), every query", "why_tests_cant": "equality of infinitely many answers over all lists", "anchors": ["ad_block_client.cc:AdBlockClient::serialize", "ad_block_client.cc:AdBlockClient::deserialize"]}
{"id": "C39", "title": "The serialized size is exact", "statement": "serialize() writes exactly totalSize bytes, never past the allocated buffer, for every client and both ignore flags.", "quantifier": "every client", "why_tests_cant": "size and content are computed by two separate runs", "anchors": ["ad_block_client.cc:serializeFilters", "ad_block_client.cc:AdBlockClient::serialize"]}
{"id": "C40", "title": "Serialization is stable", "statement": "Serializing a restored client gives the same bytes as the first serialization.", "quantifier": "every client built by parse()", "why_tests_cant": "byte equality over all lists", "anchors": ["ad_block_client.cc:AdBlockClient::serialize", "ad_block_client.cc:AdBlockClient::deserialize"]}
{"id": "C41", "title": "Fingerprints are well formed and found whenever possible", "statement": "getFingerprint returns the first six-byte window of the pattern that contains no | * ^, contains neither 'http' nor 'www', and is not in the bad-fingerprint table; it fails exactly when there is none.", "quantifier": "every pattern and every bad-fingerprint table", "why_tests_cant": "backtracking scan over all strings", "anchors": ["ad_block_client.cc:AdBlockClient::getFingerprint", "ad_block_client.cc:hasBadSubstring", "ad_block_client.cc:isBadFingerprint"]}
{"id": "C42", "title": "No double or invalid free over the life of a client", "statement": "Over any history of parse, deserialize, clear, serialize, query and destruction, each heap block is freed at most once, only blocks owned by the client are freed, and no freed or foreign block is released.", "quantifier": "every history of API calls", "why_tests_cant": "histories are unbounded and the defect is silent without instrumentation", "anchors": ["filter.cc:Filter::swapData", "filter.cc:Filter::~Filter", "ad_block_client.cc:AdBlockClient::parse", "ad_block_client.cc:AdBlockClient::clear", "ad_block_client.cc:AdBlockClient::deserialize"]}
{"id": "C43", "title": "clear() resets to a fresh client except for tags", "statement": "After clear() the client answers every query, and behaves under every later sequence of calls, like a newly constructed client with the same tags.", "quantifier": "every history before and after clear()", "why_tests_cant": "histories are unbounded", "anchors": ["ad_block_client.cc:AdBlockClient::clear"]}
{"id": "C44", "title": "The host index finds every applicable host rule", "statement": "A loaded rule '||host^' blocks every web request whose host is host or one of its subdomains (no options, no exceptions loaded).", "quantifier": "every host string, every URL with that host or a subdomain", "why_tests_cant": "suffix walk with a shortcut for the top-level label over all strings", "anchors": ["ad_block_client.cc:AdBlockClient::isHostAnchoredHashSetMiss", "ad_block_client.cc:parseFilter"]}
{"id": "C45", "title": "Cosmetic and HTML rules never influence network decisions", "statement": "Inserting element-hiding rules, element-hiding exceptions or HTML-filtering rules into a list changes no matches() answer.", "quantifier": "every list, every cosmetic rule, every request", "why_tests_cant": "all lists and positions", "anchors": ["ad_block_client.cc:AdBlockClient::parse", "ad_block_client.cc:parseFilter"]}
{"id": "C46", "title": "preserveRules keeps the original rule text and nothing else changes", "statement": "With preserveRules every stored network rule carries the text of its line without leading blanks; decisions and counts are the same as without it.", "quantifier": "every list text", "why_tests_cant": "positions are tracked by a second pointer; equality needed on every line", "anchors": ["ad_block_client.cc:parseFilter", "ad_block_client.cc:AdBlockClient::parse"]}
{"id": "C47", "title": "$important rules override exceptions", "statement": "A matching block rule with the important option blocks the request even if an exception matches.", "quantifier": "every list and request", "why_tests_cant": "documented in the option table; universal claim", "anchors": ["filter.h:FOImportant", "ad_block_client.cc:AdBlockClient::matches"]}
{"id": "C48", "title": "Exception prefix is honoured for every rule form", "statement": "A line starting with @@ never yields a block rule.", "quantifier": "every line", "why_tests_cant": "regular-expression shortcut overwrites the rule type; needs all line shapes", "anchors": ["ad_block_client.cc:parseFilter"]}
{"id": "C49", "title": "Caller-supplied party flags take precedence", "statement": "If the caller passes the third-party or not-third-party flag, the page domain does not influence the party classification; otherwise exactly one of the two flags is derived from it.", "quantifier": "every context mask, URL and page domain", "why_tests_cant": "all masks and hosts", "anchors": ["ad_block_client.cc:AdBlockClient::matches", "ad_block_client.cc:AdBlockClient::findMatchingFilters"]}
{"id": "C50", "title": "Loading a list twice changes no decision", "statement": "Parsing the same text a second time changes no answer.", "quantifier": "every list text and request", "why_tests_cant": "equality of all answers", "anchors": ["ad_block_client.cc:AdBlockClient::parse"]}
{"id": "C51", "title": "Line order does not change decisions", "statement": "Reordering the lines of a list changes no matches() decision as long as no two host-only rules of the same kind share a host.", "quantifier": "every list and permutation of its lines", "why_tests_cant": "factorially many orders, infinitely many lists", "anchors": ["ad_block_client.cc:AdBlockClient::parse", "ad_block_client.cc:AdBlockClient::matches"]}
{"id": "C52", "title": "Rule-line type classification", "statement": "Each line becomes exactly one of: nothing (blank/comment), a cosmetic rule, an HTML rule, an exception or a block rule; and network rules land in exactly one collection.", "quantifier": "every line", "why_tests_cant": "bit-mask classification with overlapping flags over all lines", "anchors": ["ad_block_client.cc:AdBlockClient::parse", "filter.h:FilterType"]}
{"id": "C53", "title": "A client releases everything it allocates", "statement": "After any history of parse, deserialize, clear, serialize, query calls and the destruction of the client, every block the client allocated has been released; only blocks handed to the application (results of serialize) or allocated by it remain.", "quantifier": "every history of API calls and every list text", "why_tests_cant": "leaks are silent and depend on the whole history of calls and on which options a line repeats", "anchors": ["filter.cc:Filter::parseOption", "filter.cc:Filter::~Filter", "ad_block_client.cc:AdBlockClient::parse", "ad_block_client.cc:AdBlockClient::clear"]}
{"id": "C54", "title": "The Node binding manages its buffers correctly", "statement": "Through the Node binding, any sequence of parse, clear, matches, findMatchingFilters, serialize, deserialize and enableBadFingerprintDetection calls followed by cleanup releases every internal buffer exactly once, never reads a released buffer, and leaves nothing allocated.", "quantifier": "every sequence of calls on the JavaScript object", "why_tests_cant": "sequences are unbounded; the old buffer is deleted while rules still point into it, which is only safe because of what happens next", "anchors": ["ad_block_client_wrap.cc:AdBlockClientWrap::Deserialize", "ad_block_client_wrap.cc:AdBlockClientWrap::Serialize", "ad_block_client_wrap.cc:AdBlockClientWrap::Cleanup", "ad_block_client.cc:AdBlockClient::deserialize"]}
{"id": "C55", "title": "Preparing a filter list keeps its decisions", "statement": "A client that loads the text prepared by sanitizeABPInput decides every request like one that loads the original text followed by the two added IMA rules; blank lines are dropped, two known lines get 'explicitcancel', every other line is kept as it is and in order, and preparing never makes loading undefined.", "quantifier": "every list text, every history before and after, every request", "why_tests_cant": "the rewriting acts on every line of lists with tens of thousands of lines and interacts with the first-host-rule-wins index", "anchors": ["lib/filtering.js:sanitizeABPInput", "lib/filtering.js:mapRule"]}
{"id": "C56", "title": "Several lists made into one text decide like the lists one by one", "statement": "The single text built from several downloaded lists (each prepared, joined by line ends, prepared again) gives a client with the decisions of the lists loaded one after the other followed by the added rules.", "quantifier": "every number of lists, every list text, every request", "why_tests_cant": "depends on joins of arbitrary texts and on repeated preparation", "anchors": ["lib/util.js:getSingleListDataFromSingleURL", "lib/util.js:makeAdBlockClientFromListURL", "lib/filtering.js:sanitizeABPInput"]}
{"id": "C57", "title": "Omitting the page in JavaScript means an unknown page", "statement": "client.matches(url, type) without a page argument decides like the C++ query without a context domain.", "quantifier": "every client, URL and resource type", "why_tests_cant": "the argument is stringified to a made-up domain; whether this matters depends on all loaded rules", "anchors": ["ad_block_client_wrap.cc:AdBlockClientWrap::Matches"]}
{"id": "C58", "title": "The stylesheet lists every selector", "statement": "toStylesheet returns all distinct selectors of the set separated by ', ' and never writes outside its buffer.", "quantifier": "every set of selectors and every placement in buckets", "why_tests_cant": "depends on the hash values of the selectors", "anchors": ["cosmetic_filter.h:CosmeticFilterHashSet::toStylesheet", "cosmetic_filter.h:CosmeticFilterHashSet::fillStylesheetBuffer"]}
{"id": "C59", "title": "Behavioural options do not change decisions", "statement": "Adding important, explicitcancel or redirect=name to any rules of a list changes no decision on any request.", "quantifier": "every list, every choice of rules and options, every history and request", "why_tests_cant": "the options share the bit mask used for matching restrictions", "anchors": ["filter.cc:Filter::parseOption", "filter.cc:Filter::matchesOptions", "filter.h:FilterOption"]}
{"id": "C60", "title": "findMatchingFilters in JavaScript reports the rule that was found", "statement": "The object returned by the binding holds the decision, and the pattern and original text of the blocking and the excepting rule that the C++ query found.", "quantifier": "every client, URL, resource type and page", "why_tests_cant": "memory layout of the reported rule depends on where it was stored", "anchors": ["ad_block_client_wrap.cc:AdBlockClientWrap::FindMatchingFilters"]}
{"id": "C61", "title": "getFilters lists the loaded rules faithfully", "statement": "getFilters(name) returns one object per loaded rule of that collection, in loading order, with its pattern, host, listed and excluded domains, tag and kind of page restriction; an unknown name gives an empty array.", "quantifier": "every history of calls, every collection name", "why_tests_cant": "depends on all rules ever loaded and on the text of their domain lists", "anchors": ["ad_block_client_wrap.cc:AdBlockClientWrap::GetFilters"]}
{"id": "C62", "title": "A list of host names blocks the hosts it names", "statement": "The text made from a host list (four header lines, then one host per line) blocks every non-document web request whose host is a listed host or a subdomain of one.", "quantifier": "every host list without CR, every listed host, every URL, resource type and page", "why_tests_cant": "lists have thousands of hosts; the pipeline prepares the text twice", "anchors": ["lib/util.js:getListFilterFunction", "lib/util.js:makeAdBlockClientFromListURL"]}
{"id": "C63", "title": "Rules that do not mention the page ignore it", "statement": "If no loaded rule has domain= or third-party options and the resource type is known (or no rule has type options), both queries decide the same for every page domain, also unknown.", "quantifier": "every history of calls, URL, resource type and pair of pages", "why_tests_cant": "the page changes the request flags and selects prefilters", "anchors": ["ad_block_client.cc:AdBlockClient::matches", "filter.cc:Filter::matchesOptions"]}
{"id": "C64", "title": "An array of lists is the same as one list", "statement": "makeAdBlockClientFromString with an array of texts gives a client that decides like one made from the texts joined by line ends.", "quantifier": "every non-empty array of texts, every request", "why_tests_cant": "parse() merges into existing arrays and sets on every later call", "anchors": ["lib/util.js:makeAdBlockClientFromString", "ad_block_client.cc:AdBlockClient::parse"]}
{"id": "C65", "title": "Saving and restoring on the way is unobservable", "statement": "A client that was serialized and restored any number of times during its life, into fresh or used client objects with the same tags and with anything after the data in the buffer, gives for every request the verdict and report of a client that went through the same calls without restarts, and serializes to the same bytes if no save left rules out.", "quantifier": "every history of calls with any number of restarts at any points, every request", "why_tests_cant": "restarts can be put at any point of any history and feed into later parses", "anchors": ["ad_block_client.cc:AdBlockClient::serialize", "ad_block_client.cc:AdBlockClient::deserialize", "ad_block_client.cc:AdBlockClient::parse"]}
{"id": "C66", "title": "Parsing statistics count the loaded rules", "statement": "Each number of getParsingStats is the number of loaded lines, since creation or the last clear, whose rule belongs to the collection the number names; saving and restoring keeps the numbers, except that of cosmetic rules if they are left out.", "quantifier": "every history of calls (and restarts)", "why_tests_cant": "counts accumulate over all lists ever parsed, and host rules are counted separately from the set that holds them", "anchors": ["ad_block_client_wrap.cc:AdBlockClientWrap::GetParsingStats", "ad_block_client.cc:AdBlockClient::parse"]}
{"id": "C67", "title": "Matching statistics count the requests", "statement": "numFalsePositives + numBloomFilterSaves is the number of web requests asked with matches() since the last clear, while a list was loaded, to which no block rule applied; numExceptionFalsePositives + numExceptionBloomFilterSaves is the number of requests answered 'block'; numHashSetSaves equals numBloomFilterSaves.", "quantifier": "every history of calls", "why_tests_cant": "the counters are updated on several exits of a query and depend on Bloom filter contents", "anchors": ["ad_block_client.cc:AdBlockClient::matches", "ad_block_client_wrap.cc:AdBlockClientWrap::GetMatchingStats"]}
{"id": "C68", "title": "Bad fingerprint detection only observes", "statement": "Enabling detection changes no answer, no statistics and no definedness of any later call; what it collects is a set without repetition of the built-in bad fingerprints and pieces of URLs that were asked; every false positive leaves a piece of its URL in it.", "quantifier": "every history of calls, every position at which detection is enabled, every hash function", "why_tests_cant": "depends on Bloom filter collisions over arbitrary URLs", "anchors": ["ad_block_client.cc:AdBlockClient::enableBadFingerprintDetection", "ad_block_client.cc:discoverMatchingPrefix", "bad_fingerprint.h:BadFingerprintsHashSet"]}
{"id": "C69", "title": "A data file decides like the lists it was made from", "statement": "A client made from the data file written by the data file script, whatever sites it checked before saving, gives the verdicts, reports and parsing statistics of a client made from the list texts.", "quantifier": "every array of list texts, every site list, every request", "why_tests_cant": "composition of parsing, querying, serializing and restoring over arbitrary lists", "anchors": ["scripts/generateDataFiles.js:generateDataFileFromString", "scripts/generateDataFiles.js:checkSiteList", "lib/util.js:makeAdBlockClientFromDATFile"]}
{"id": "C70", "title": "The generated header defines the collected fingerprints", "statement": "The header written by generateBadFingerprintsHeader is C source whose first array holds exactly the collected bad fingerprints.", "quantifier": "every history of calls", "why_tests_cant": "collected fingerprints are arbitrary pieces of asked URLs", "anchors": ["bad_fingerprint.h:BadFingerprintsHashSet::generateHeader"]}
{"id": "C71", "title": "Data cut short is refused", "statement": "deserialize() given a proper prefix of the bytes written by serialize() (a file cut short by a crash or a full disk) returns without reading past its end.", "quantifier": "every history of calls, every cut point, every target client", "why_tests_cant": "the data can be cut inside any of the twenty header numbers, any rule, Bloom filter or hash set", "anchors": ["ad_block_client.cc:AdBlockClient::deserialize", "ad_block_client.cc:deserializeFilters", "ad_block_client_wrap.cc:AdBlockClientWrap::Deserialize"]}
{"id": "C72", "title": "Checking a list of sites counts each site once", "statement": "Checking a file of sites (check.js --list) reports as matching the number of lines the client blocks and as skipped the number it does not, each decided as if it were the only query; the two add up to the number of lines.", "quantifier": "every client, every file, request type and host", "why_tests_cant": "queries change the client's statistics and collections, so each answer must be shown independent of the queries before it", "anchors": ["scripts/check.js", "lib/util.js:readSiteList", "ad_block_client_wrap.cc:AdBlockClientWrap::Matches"]}
{"id": "C73", "title": "Checking with rule discovery counts the same", "statement": "With --discover (and with or without --cache) the reported counts are the numbers of sites that findMatchingFilters finds blocked and not blocked.", "quantifier": "every history of calls, every list of sites", "why_tests_cant": "ranges over all lists of sites, including repetitions served from the cache", "anchors": ["scripts/check.js", "ad_block_client_wrap.cc:AdBlockClientWrap::FindMatchingFilters"]}
{"id": "C74", "title": "A list UUID or address yields the rules of that list", "statement": "makeAdBlockClientFromListUUID with the UUID of a known list, and makeAdBlockClientFromListURL with one or several addresses, give a client that decides like one loading the downloaded texts and then the two added rules; an unknown UUID or any failed download gives no client at all.", "quantifier": "every UUID, every set of addresses, every download result (body or failure), every request", "why_tests_cant": "the downloaded texts are arbitrary and any of the downloads may fail", "anchors": ["lib/util.js:makeAdBlockClientFromListUUID", "lib/util.js:makeAdBlockClientFromListURL", "lib/util.js:getListFilterFunction", "lists/default.h", "lists/regions.h", "lists/malware.h"]}
{"id": "C75", "title": "FilterOptions constants name the rules' resource types", "statement": "A rule with one resource type option applies to a request declared with the FilterOptions constant of that type exactly where the rule without the option would, and to no request declared with another constant; with the negated option it is the other way round.", "quantifier": "every rule, every pair of resource types, every URL and page", "why_tests_cant": "all pairs of types combined with arbitrary rules, URLs and third-party situations", "anchors": ["ad_block_client_wrap.cc:AdBlockClientWrap::Init", "filter.cc:Filter::parseOption", "filter.cc:Filter::matchesOptions"]}
{"id": "C76", "title": "Writing the bad fingerprint header is always safe", "statement": "generateBadFingerprintsHeader does not crash, whatever was called before.", "quantifier": "every history of calls", "why_tests_cant": "depends on whether detection was enabled and cleared anywhere in the history", "anchors": ["ad_block_client_wrap.cc:AdBlockClientWrap::GenerateBadFingerprintsHeader", "ad_block_client.cc:AdBlockClient::clear"]}
{"id": "C77", "title": "Published data files decide like the lists they are made from", "statement": "The data file made from known lists restores to a client that answers like one made from the prepared lists, which decides like one loading the downloaded lists and the two added rules; a region's data file like the downloaded list, the local list and the two added rules; if a download fails, no file is written.", "quantifier": "every download result, every list of checked sites, every request", "why_tests_cant": "composition of downloading, preparing, parsing, querying, saving and restoring over arbitrary lists", "anchors": ["scripts/generateDataFiles.js:generateDataFilesForList", "scripts/generateDataFiles.js:generateDataFileFromURL", "scripts/generateDataFiles.js:generateDataFileFromString", "lib/util.js:getListBufferFromURL"]}
{"id": "C78", "title": "Requests stay inside their buffers", "statement": "Whatever calls were made before, answering a request with matches() or findMatchingFilters() reads no memory outside the URL, the loaded rules and the client's own tables, and so does every call of the history itself.", "quantifier": "every history of calls over every text, every URL, type and page domain", "why_tests_cant": "over-reads depend on the interplay of pattern, URL end and the copies kept in the host index; most go unnoticed in a test run", "anchors": ["filter.cc:Filter::matches", "filter.cc:indexOfFilter", "ad_block_client.cc:AdBlockClient::matches", "ad_block_client.cc:AdBlockClient::findMatchingFilters", "ad_block_client.cc:isHostAnchoredHashSetMiss"]}
{"id": "C79", "title": "The answer can be read off the text of the list", "statement": "For a client given lists of rules in the usual syntax, comments and cosmetic rules, a web request on a page is blocked exactly if the text of some loaded block rule fits the request (pattern against the URL, resource types, page domains, party, tag) and the text of no loaded exception rule does.", "quantifier": "every history of calls over lists in the usual syntax, every URL, declared resource type and page domain", "why_tests_cant": "composes parsing, classification, fingerprints, Bloom filters, host index, domain gates and matching over unbounded lists", "anchors": ["ad_block_client.cc:parseFilter", "ad_block_client.cc:AdBlockClient::parse", "ad_block_client.cc:AdBlockClient::matches", "filter.cc:Filter::matches", "filter.cc:Filter::parseOptions"]}
{"id": "C80", "title": "The sample program gives the same advice before and after saving", "statement": "The sample program prints one line for each URL that says whether the client blocks it, saves the client, restores it twice and prints the same lines again; the saved data is readable.", "quantifier": "every list text, every list of URLs", "why_tests_cant": "composes parsing, querying, saving, restoring twice into one client and querying again over arbitrary lists", "anchors": ["main.cc:checkForClient", "main.cc:main"]}
{"id": "C81", "title": "Manifest files are readable and complete", "statement": "After the manifest script has run, the default list and every regional list have a manifest file under their own name, which reads as a JSON object with their title and public key; nothing else changes. Any title and key without quotes, backslashes and control characters reads back unchanged.", "quantifier": "every title and key, every former content of the directory", "why_tests_cant": "the text is assembled without escaping; whether it can be read depends on every byte of the title", "anchors": ["ad_block_client_wrap.cc:GenerateManifestFile", "ad_block_client_wrap.cc:AdBlockClientWrap::GenerateRegionalManifestFiles", "scripts/generateManifestFiles.js"]}
{"id": "C82", "title": "Data files do not overwrite each other", "statement": "Generating all data files writes, for the default, malware and every regional list, one file holding exactly the data of its own lists, if all lists can be downloaded; if a download fails, the files before it are new and all others are as before.", "quantifier": "every download result, every former content of the directory, every list of checked sites", "why_tests_cant": "depends on the order of a chain of downloads and on every failure point", "anchors": ["scripts/generateDataFiles.js:generateDataFilesForAllRegions", "scripts/generateDataFiles.js:generateDataFilesForList", "scripts/generateDataFiles.js:generateDataFileFromString"]}
{"id": "C83", "title": "The generated header covers all lists", "statement": "After all data files have been generated, the header of bad fingerprints defines every fingerprint that was recorded while any of them was made.", "quantifier": "every download result, every list of checked sites", "why_tests_cant": "needs the recorded sets of all lists of a run", "anchors": ["scripts/generateDataFiles.js:generateDataFileFromString", "bad_fingerprint.h:BadFingerprintsHashSet::generateHeader"]}
{"id": "C84", "title": "Uploads go where they should", "statement": "Uploading the directory puts every file under its own key; only a production upload writes outside the test location; uploading a single file replaces the objects that uploading the directory would replace.", "quantifier": "every directory listing, date, file and mode", "why_tests_cant": "ranges over all directory contents", "anchors": ["scripts/uploadDataFiles.js:uploadFile"]}
{"id": "C85", "title": "Text arrives character by character", "statement": "Strings given to the JavaScript API are distinguished, searched and cut into lines as JavaScript does it: different strings stay different, one occurs in another exactly if JavaScript says so, lines are lines; a list with one word per line, in any script, blocks exactly the web addresses that contain one of the words.", "quantifier": "every well-formed string, every list of words, every URL, every number of a resource type other than document, every page argument", "why_tests_cant": "ranges over all Unicode texts", "anchors": ["ad_block_client_wrap.cc:AdBlockClientWrap::Parse", "ad_block_client_wrap.cc:AdBlockClientWrap::Matches", "lib/filtering.js:sanitizeABPInput"]}
{"id": "C86", "title": "parse() loads the whole text", "statement": "Every line of the string given to parse() is loaded.", "quantifier": "every well-formed string", "why_tests_cant": "ranges over all strings, including those with U+0000", "anchors": ["ad_block_client_wrap.cc:AdBlockClientWrap::Parse", "ad_block_client.cc:AdBlockClient::parse"]}
{"id": "C87", "title": "A call that throws changes nothing", "statement": "A method called with missing or unsuitable arguments loads nothing, and if it throws, the client is as before.", "quantifier": "every client, method and list of arguments", "why_tests_cant": "ranges over all JavaScript values and all states", "anchors": ["ad_block_client_wrap.cc:AdBlockClientWrap::Matches", "ad_block_client_wrap.cc:AdBlockClientWrap::Deserialize", "ad_block_client_wrap.cc:AdBlockClientWrap::Parse"]}
{"id": "C88", "title": "No JavaScript value crashes the process", "statement": "Whatever values the methods of the JavaScript object are called with, the process does not crash, and the client behaves as after the C++ calls with the converted arguments.", "quantifier": "every sequence of methods and arguments", "why_tests_cant": "ranges over all JavaScript values and histories", "anchors": ["ad_block_client_wrap.cc:AdBlockClientWrap"]}
{"id": "C89", "title": "The JavaScript object releases its memory", "statement": "Using the object, calling cleanup() or leaving it to the garbage collector never touches freed memory, and nothing stays allocated.", "quantifier": "every sequence of calls, with cleanup() at any point or not at all", "why_tests_cant": "ranges over all histories of calls and points of garbage collection", "anchors": ["ad_block_client_wrap.cc:AdBlockClientWrap::Cleanup", "ad_block_client_wrap.cc:AdBlockClientWrap::Deserialize", "ad_block_client.cc:AdBlockClient::~AdBlockClient"]}
{"id": "C90", "title": "The command line tool answers like a client with the lists it is told to load", "statement": "The answer that check.js prints about an address, and the numbers it prints about a file of addresses, are those of a client with the list named by --uuid, --http, --filter or --filter-path, or the default lists. Repeating the check with the data file that it wrote gives the same answer.", "quantifier": "every command line, every content of the files and downloads", "why_tests_cant": "ranges over all lists, addresses and combinations of options", "anchors": ["scripts/check.js", "lib/util.js:makeAdBlockClientFromListUUID", "lib/util.js:makeAdBlockClientFromDATFile", "lib/util.js:makeAdBlockClientFromString"]}
{"id": "C91", "title": "The command line tool reports an error or does what it is told", "statement": "check.js prints how it is used exactly if nothing is asked for, and an error exactly if the lists or the file of addresses cannot be had; otherwise it writes the file named by --output.", "quantifier": "every command line, every set of files and downloads that are there", "why_tests_cant": "ranges over all combinations of options and failures", "anchors": ["scripts/check.js", "lib/util.js:readSiteList"]}
{"id": "C92", "title": "Which lines are regular expressions", "statement": "A line is read as a regular expression exactly when it ends in '/' and, behind its leading blanks and exception marks, begins with '/'. It then becomes a block rule without options, that matches every URL the expression matches except for document requests; for '/m/' the expression is m.", "quantifier": "every line shorter than 2048 bytes, every URL, context and regular expression engine", "why_tests_cant": "a shortcut tests the first and last character at each step of the line scanner; only a statement about all lines says which ones it catches and what expression results", "anchors": ["ad_block_client.cc:parseFilter", "filter.cc:Filter::matches"]}
{"id": "C93", "title": "What a client decides is written in the texts it was given", "statement": "Take texts whose lines are rules in the usual syntax that can be tried safely, regular expressions, comments or cosmetic rules. After any sequence of parse, addTag, removeTag, clear and query calls on such texts, with saves and restarts in between that keep the tags and whose rules survive saving, every request is answered, and it is blocked exactly if it is a web request, some block rule in the texts parsed since the last clear applies to it and is listened to, and no exception rule is. The same holds for a client made from a data file of the texts.", "quantifier": "every history of calls and restarts, every text, URL, resource type and page", "why_tests_cant": "composes parsing, indexes, matching, tags and the data format over unbounded histories", "anchors": ["ad_block_client.cc:AdBlockClient::parse", "ad_block_client.cc:AdBlockClient::matches", "ad_block_client.cc:AdBlockClient::serialize", "ad_block_client.cc:AdBlockClient::deserialize", "scripts/generateDataFiles.js:generateDataFileFromString"]}
{"id": "C94", "title": "The measuring program counts every site and reports what the clients decide", "statement": "perf.cc reads the sites as the words of the site list. Its first report counts the sites the client with the four ad-block lists blocks and does not block after reading its own saved data back (the same as without saving when the rules survive saving); its second report does so for the two malware lists. In each report the two numbers add up to the number of sites; in the second the exception counters add up to the blocked sites and the other counters to the sites no block rule applies to. The header it writes holds the built-in entries and pieces of sites, each once.", "quantifier": "every content of the six lists and the site list", "why_tests_cant": "the program only prints; ranges over all lists and site lists and composes parsing, saving, matching and the statistics", "anchors": ["perf.cc:doSiteList", "perf.cc:main", "bad_fingerprint.h:generateHeader"]}
{"id": "C95", "title": "What the arguments of the JavaScript methods mean", "statement": "matches() and findMatchingFilters() ask the library about the UTF-8 text of the first argument with the lowest 32 bits of the second as resource types and the text of the third as page, return its answer, and throw exactly if the second or third argument cannot be converted; every union of the exported constants arrives unchanged. parse() keeps the texts of rules exactly if its second argument is true in JavaScript's sense. A value given for a text is that text: undefined and null are \"undefined\" and \"null\", truth values their names, a number its decimal notation; and given for a number undefined, null and false count as 0 and true as 1.", "quantifier": "every client, every list of arguments of any JavaScript type", "why_tests_cant": "ranges over all values, negative and huge numbers, and conversions that throw", "anchors": ["ad_block_client_wrap.cc:Matches", "ad_block_client_wrap.cc:FindMatchingFilters", "ad_block_client_wrap.cc:Parse", "ad_block_client_wrap.cc:Init"]}
{"id": "C96", "title": "A refused data file leaves nothing behind", "statement": "deserialize() replaces everything but the tags, whether it succeeds or not; after it has returned false the client has no rules, and makeAdBlockClientFromDATFile() does not deliver such a client.", "quantifier": "every buffer on which deserialize() returns, every client before", "why_tests_cant": "ranges over all damaged files and all earlier states", "anchors": ["ad_block_client.cc:AdBlockClient::deserialize", "lib/util.js:makeAdBlockClientFromDATFile"]}
{"id": "C97", "title": "Saved data grows linearly with the loaded text and its lengths fit an int", "statement": "What serialize() returns is at most 37 bytes for each byte of the lines loaded since the last clear() plus 200000. Hence for lists of up to 58 million bytes the buffer, each array, each counter and each of the stored sets has a size below 2^31, the range of the int variables that hold them, and no printed header is cut off by the local array it is printed into.", "quantifier": "every history of calls, every text, every hash and both flags of serialize()", "why_tests_cant": "ranges over all lists and all distributions over arrays and sets; an overflow shows only with lists of gigabytes", "anchors": ["ad_block_client.cc:AdBlockClient::serialize", "ad_block_client.cc:serializeFilters", "filter.cc:Filter::Serialize", "no_fingerprint_domain.cc:NoFingerprintDomain::Serialize"]}
{"id": "C98", "title": "Every line is read according to one grammar", "statement": "Any line, however odd, has exactly one reading: it is empty, a comment, a regular expression, options without a rule, or a rule made of exception marks, an anchor, a body and an ending (nothing, options, or a cosmetic or HTML selector). If the reading is settled before the 2048th character, as it is for every shorter line and for long lines whose options, comment sign or expression begin earlier, parseFilter() returns and stores exactly what that reading says: kind, anchors, pattern, host, options, domains, tag, selector and kept text. Otherwise it stores neither pattern nor text nor options.", "quantifier": "every line (bytes other than NUL, CR and LF) of any length, with rules kept or not", "why_tests_cant": "ranges over all lines, including marks that are torn apart, bars in the middle, and text behind any mixture of them", "anchors": ["ad_block_client.cc:parseFilter", "ad_block_client.cc:AdBlockClient::parse", "filter.cc:Filter::parseOptions"]}
{"id": "C99", "title": "The answer to any request is written in the list, whatever its lines look like", "statement": "Take any list of lines, in any mixture, of any length and with any oddities. For any request, whenever matches() or findMatchingFilters() returns, it blocks exactly when some rule stated by a line, or some regular expression, is heard and applies to the request, and no stated exception does; a line states its rule only if the rule ends, or its options begin, before the 2048th character. If it does not return, some line states a rule that is faulty on that URL: its search reads behind the URL, or it names only a host and its pattern is empty or ends in a star or a bar. So for lists without such rules every request is answered. The same holds for what matches() of the JavaScript object returns.", "quantifier": "every history of calls, list of lines, URL with a host, context flags and page, or none", "why_tests_cant": "ranges over all lists of all lines and all requests; odd lines combine with indexes by host, fingerprint and page", "anchors": ["ad_block_client.cc:parseFilter", "ad_block_client.cc:AdBlockClient::parse", "ad_block_client.cc:AdBlockClient::matches", "ad_block_client.cc:AdBlockClient::findMatchingFilters", "filter.cc:Filter::matches", "filter.cc:Filter::parseOptions"]}
{"id": "C100", "title": "Objects can be saved and restored from JavaScript", "statement": "serialize() never throws, whatever arguments it gets, returns a buffer and leaves the object as it is. deserialize() of that buffer on any object with the same tags returns true; from then on both objects answer every matches() alike and findMatchingFilters(), where it returns, finds a match on one exactly when on the other, whatever further calls are made on both, provided the format can store all rules (no empty pattern or domain list, no domain list that begins with \"~#\"); for all other rules the second object answers like the first with these rules replaced by what the format makes of them. In general deserialize() returns exactly whether the library accepted the data, and anything but a buffer makes it throw and changes nothing.", "quantifier": "every sequence of JavaScript calls before and after, every object restored into, every further argument", "why_tests_cant": "ranges over all call sequences, texts and later requests", "anchors": ["ad_block_client_wrap.cc:AdBlockClientWrap::Serialize", "ad_block_client_wrap.cc:AdBlockClientWrap::Deserialize", "ad_block_client.cc:AdBlockClient::serialize", "ad_block_client.cc:AdBlockClient::deserialize"]}
{"id": "C101", "title": "A buffer is accepted exactly if it has the data file format", "statement": "deserialize() returns true exactly for memory that begins with a data file: twenty hexadecimal numbers, the rule arrays with as many rules as announced, two Bloom filters and six sets of the announced sizes, every item of a set ending before its set does; blanks, signs and \"0x\" before numbers are allowed and missing numbers count as zero. The client then holds exactly the rules, counters, Bloom filters and sets the file spells out, whatever it held before, and keeps its tags. Whatever serialize() writes has this format.", "quantifier": "every content of the memory from the pointer on, every client restored into, every history of loads before serialize()", "why_tests_cant": "ranges over all byte sequences; tests only restore files the library wrote itself", "anchors": ["ad_block_client.cc:AdBlockClient::deserialize", "ad_block_client.cc:deserializeFilters", "ad_block_client.cc:initHashSet", "ad_block_client.cc:initBloomFilter", "filter.cc:Filter::Deserialize", "no_fingerprint_domain.cc:NoFingerprintDomain::Deserialize"]}
{"id": "C102", "title": "The memory a client keeps is that of the rules it holds", "statement": "After any sequence of calls through the Node binding in which no list is parsed on top of a restored buffer, the memory blocks in use are those the present state accounts for: one for each text (pattern, domain list, host, preserved rule text, tag) of each rule held, one for each rule array, set, Bloom filter and collector, one for the buffer last restored, two for each domain= or tag= option that a line gave again, and on top of these at most the two parsed forms of the domain list and an empty tag per rule held. Rules of a buffer have no texts of their own. Any number of queries, tag changes and saves adds at most those parsed forms, however many calls there are, and clear() leaves only the buffer and what repeated options lost. Each rule held is kept by its own object, whose members are set when the rule has that text.", "quantifier": "every sequence of calls, every list text and buffer, and any choice of the rules that queries try", "why_tests_cant": "the number of calls and rules is unbounded, and growth by one block per query shows only after many queries", "anchors": ["filter.cc:Filter::Filter", "filter.cc:Filter::swapData", "filter.cc:Filter::parseDomains", "ad_block_client.cc:AdBlockClient::parse", "ad_block_client.cc:AdBlockClient::clear", "ad_block_client.cc:AdBlockClient::matches", "ad_block_client_wrap.cc:AdBlockClientWrap::Deserialize"]}
{"id": "C103", "title": "Which of the applicable rules a query reports", "statement": "When several rules apply to a request, the rule that matches() reports is determined by a fixed order: first the rules without fingerprint that list page domains, then those that exclude page domains, then the other rules without fingerprint, then the host rules ('||host^'), then the rules with a fingerprint; within a group the one loaded first, among host rules the one for the shortest host. findMatchingFilters() tries the rules without fingerprint and without page domains first and, for block rules only, the host rules last. Hence the reported rules depend only on the lines loaded since the last clear() and the enabled tags, not on how the lines were split into calls, on earlier queries or on the Bloom filters' hash functions.", "quantifier": "every history of calls, every request and page domain, every hash function and regular expression engine", "why_tests_cant": "the order matters only for lists in which several rules of several groups apply, and must hold for every list and request", "anchors": ["ad_block_client.cc:AdBlockClient::matches", "ad_block_client.cc:AdBlockClient::findMatchingFilters", "ad_block_client.cc:AdBlockClient::hasMatchingFilters", "ad_block_client.cc:isHostAnchoredHashSetMiss"]}
{"id": "C104", "title": "An unrecognized option is announced exactly once", "statement": "Whatever is called on any number of clients in one process: for every option name in the loaded lists that the library does not recognize, negated or not, the console shows one line \"Unrecognized filter option: NAME\", however often and in however many lists and clients it occurs; the lines come in the order of first occurrence, and nothing else is printed. Apart from this record of names clients do not influence each other: each is what the calls made on it alone make of it.", "quantifier": "every number of clients, every interleaving of calls on them, every list", "why_tests_cant": "the names depend on every line of every list loaded by every client of the process", "anchors": ["ad_block_client.cc:unknownOptions", "filter.cc:Filter::parseOption", "filter.cc:Filter::parseOptions", "ad_block_client.cc:AdBlockClient::parse"]}
{"id": "C105", "title": "Lists can be loaded into different clients from different threads", "statement": "Threads that each load lists into clients of their own do not race, whatever the schedule. (The library violates this: the record of unrecognized option names is shared by all clients without a lock. They race exactly if one thread loads a list with an unrecognized option not recorded before and another a list with any unrecognized option.)", "quantifier": "every number of threads, every program of calls per thread, every schedule", "why_tests_cant": "a race shows only under some schedules and only for lists with unrecognized options", "anchors": ["ad_block_client.cc:unknownOptions", "filter.cc:Filter::parseOption"]}
{"id": "C106", "title": "One client can be queried from several threads", "statement": "Threads that only query a client (without bad-fingerprint detection) do not race, whatever the schedule. (The library violates this in two ways: matches() increments counters, and a rule computes the length of its pattern and its list of domains only when they are first needed. The threads race exactly if two of them ask questions that need the same value not yet computed, or whose answers change the same counter. findMatchingFilters() changes no counter; matches() changes one for every web request that it blocks or to which no rule applies; a question needs the values of stored rules whose options admit the request, and a findMatchingFilters() that finds nothing those of all such blocking rules in the lists. Once questions have been asked, asking them again only concerns the counters.) Without a race the answers and the client left behind are those of asking one after the other; and if no two threads need the same uncomputed value, then even with lost increments all answers are right and no counter exceeds its value then.", "quantifier": "every client, every set of values already computed, every number of threads, every program of queries per thread, every schedule", "why_tests_cant": "races and lost updates show only under some schedules", "anchors": ["ad_block_client.cc:AdBlockClient::matches", "ad_block_client.cc:AdBlockClient::findMatchingFilters", "ad_block_client.h:numFalsePositives", "filter.cc:Filter::matches", "filter.cc:Filter::parseDomains"]}
{"id": "C107", "title": "What a rule says about its page domains", "statement": "A rule answers getDomainCount(), isDomainOnlyFilter(), isAntiDomainOnlyFilter(), containsDomain() and matchesOptions() according to the value of its last domain= option, in whatever order it is asked; asking changes no later answer. (The library violates this for containsDomain(): it says no until another of these questions has made the rule look at its list, and again after the rule was copied. And a rule that has looked at its list keeps to it when parseOptions() is called again.)", "quantifier": "every rule line, every sequence of questions, copies and calls of parseOptions(), every domain; whether or not the library's multi-set counts equal entries twice", "why_tests_cant": "the answers depend on the order of all earlier questions", "anchors": ["filter.cc:Filter::containsDomain", "filter.cc:Filter::getDomainCount", "filter.cc:Filter::isDomainOnlyFilter", "filter.cc:Filter::isAntiDomainOnlyFilter", "filter.cc:Filter::parseDomains", "filter.cc:Filter::contextDomainMatchesFilter", "filter.cc:Filter::matchesOptions", "filter.cc:Filter::parseOptions", "filter.cc:Filter::Filter"]}
{"id": "C108", "title": "Clients live side by side", "statement": "Any number of clients can be created, used and destroyed in any order in one process, several of them restored from the same buffer, and none of them disturbs the memory of another: the run has an invalid access or release only if one of the clients, taken alone, has one (C42). In the end only the application's blocks are left and the losses of the single clients (C53). The buffer may go as soon as no client in it is used any more except to be cleared, restored or destroyed. A client may also be copied, like any C++ object. (The library violates the last point: the copy shares the pointers; exactly the copies of clients that hold nothing are harmless.)", "quantifier": "every number of clients, every interleaving of their calls, every list and buffer, every moment of creation, destruction and release of buffers", "why_tests_cant": "ownership mistakes show only for some interleavings of the clients' lives", "anchors": ["ad_block_client.cc:AdBlockClient::AdBlockClient", "ad_block_client.cc:AdBlockClient::~AdBlockClient", "ad_block_client.cc:AdBlockClient::clear", "ad_block_client.cc:AdBlockClient::parse", "ad_block_client.cc:AdBlockClient::serialize", "ad_block_client.cc:AdBlockClient::deserialize", "ad_block_client.h:AdBlockClient"]}
{"id": "C109", "title": "JavaScript objects live side by side", "statement": "A JavaScript program may create any number of AdBlockClient objects and mix the calls on them as it likes; the garbage collector may take an object at any moment after its last use. No object disturbs the memory of another: there is an invalid access or release exactly if there is one in the life of some object taken alone (C89), and what is left in the end is the sum of what the objects would have left alone.", "quantifier": "every number of objects, every interleaving of their calls with cleanup() and garbage collection, every list and data", "why_tests_cant": "the interleavings are unbounded, and the moments of garbage collection are not under a test's control", "anchors": ["ad_block_client_wrap.cc:AdBlockClientWrap::New", "ad_block_client_wrap.cc:AdBlockClientWrap::Cleanup", "ad_block_client_wrap.cc:AdBlockClientWrap::Deserialize", "ad_block_client_wrap.cc:AdBlockClientWrap::Serialize", "ad_block_client_wrap.cc:AdBlockClientWrap::Clear", "ad_block_client.cc:AdBlockClient::~AdBlockClient"]}
{"id": "C110", "title": "Lists arrive in any order", "statement": "makeAdBlockClientFromListURL() with several addresses sends all requests at once. Whatever the answers and whatever the order they arrive in: the promise is fulfilled exactly when every request has been answered with status 200, with a client made from the lists in the order of the addresses (so it decides like loading them one after the other, C56); it is rejected exactly when some request has failed, with the reason of the first one that did; otherwise it waits. Later answers to the same request are ignored. One address is the same as an array of one.", "quantifier": "every number of addresses, every answer or error for each request, every order of arrival, every point in time, every list filter", "why_tests_cant": "the order in which answers arrive is not under a test's control and the number of orders is unbounded", "anchors": ["lib/util.js:makeAdBlockClientFromListURL", "lib/util.js:getSingleListDataFromSingleURL", "lib/util.js:makeAdBlockClientFromString"]}
{"id": "C111", "title": "Generating data files survives a crash", "statement": "Whenever the script that makes the data files (or the one that makes the manifests) is killed, the files in out/ can be loaded if those of the last complete run could: a file is either the old one or the new one. (False: each file is emptied and then written in place, so a killed run can leave one file torn, at any byte; and loading a torn data file reads past its end.) What holds at every moment: the files are made one after the other, those made are complete and new, at most one is torn, all others are untouched, and running the script again to its end makes all of them whole.", "quantifier": "every moment at which the process is killed (before and after every byte written), every content of the lists, every outcome of the downloads, every previous content of the directory", "why_tests_cant": "a test cannot kill the process before every single write for every list", "anchors": ["scripts/generateDataFiles.js:generateDataFileFromString", "scripts/generateManifestFiles.js", "bad_fingerprint.h:BadFingerprintsHashSet::generateHeader", "ad_block_client_wrap.cc:GenerateManifestFile", "lib/util.js:makeAdBlockClientFromDATFile"]}
{"id": "C112", "title": "Publishing is orderly when it fails", "statement": "When uploads fail or the upload script is killed, every published object is the old one or the whole local file, files are published one after the other in the order of the directory, nothing else in the bucket changes, and whatever users are given since this run is also in the backups. (The last part fails for one file: each file is published before it is backed up, so the file the run stopped at can be live without backup.) If no request fails the run ends with everything published and backed up. Files are not checked: one torn by a killed run of the generating script (C111) is published, and its users read past its end.", "quantifier": "every directory, every outcome of every request, every moment at which the process is killed, every previous content of the bucket, test and production", "why_tests_cant": "a test cannot make every single request fail or kill the process at every moment, for every directory", "anchors": ["scripts/uploadDataFiles.js:uploadFile", "scripts/uploadDataFiles.js", "scripts/generateDataFiles.js:generateDataFileFromString"]}
{"id": "C113", "title": "FilterOptions constants that are no types change nothing; party constants decide the party", "statement": "Every name of FilterOptions stands for a resource type, a party (thirdParty, notThirdParty) or neither; no two constants share a bit and only noFilterOption is zero. In a request with a page, adding constants of the last sort (important, popup, csp, unknown, ...) to the request type changes neither the answer, nor the rules reported, nor the statistics. With a party constant the page does not decide the party: a $third-party rule never applies to a request declared notThirdParty, and to one declared thirdParty exactly where the rule without the option does, whatever the page; a $~third-party rule the other way round.", "quantifier": "every client state, URL, request type mask, page and constant; every rule in the usual syntax", "why_tests_cant": "30 constants combined with arbitrary masks, rules, URLs and pages", "anchors": ["ad_block_client_wrap.cc:AdBlockClientWrap::Init", "ad_block_client.cc:AdBlockClient::matches", "ad_block_client.cc:AdBlockClient::findMatchingFilters", "filter.cc:Filter::matchesOptions"]}
