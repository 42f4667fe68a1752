# Formal model of brave/ad-block: design

The subject is the C++ engine in `/repo` (`filter.cc`, `ad_block_client.cc`,
`protocol.cc`, `no_fingerprint_domain.cc`, `cosmetic_filter.h`, the small
headers) and the JavaScript layer on top of it (`ad_block_client_wrap.cc`,
`lib/filtering.js`, `lib/util.js`).  It is modelled
as executable Gallina functions in `/verif/rocq/theories`, one definition per
C++ function, and the properties of `/verif/properties.jsonl` are theorems
about these functions.

## Modelling conventions

* A `char` is an `ascii`, a C string pointer is the list of bytes from the
  pointer to the end of its allocation.  Reading past that list is the
  distinct outcome `UB` of the result type `res A := Ok a | UB`.  A
  NUL-terminated URL `u` is therefore `u ++ [NUL]`.
* Enum bit masks are `N` with `N.land`, `N.lor`, `N.ldiff`.
* Loops are structural recursion on the remaining bytes or on `end - p`.
* Everything the C++ gets from outside the repository (hash functions of the
  Bloom filter and the hash sets, the bad-fingerprint table, the regular
  expression engine) is a field of a record `env` that every theorem
  quantifies over.  No behaviour of these is assumed, except that they are
  functions.
* The Bloom filter (`bloom-filter-cpp`) and hash set (`hashset-cpp`) libraries
  are *not in /repo*.  They are modelled from their interface: a bit vector
  with k hash functions, and an array of buckets of items compared with `==`.
  That "no false negatives" holds is then proved, not assumed.

## Files

| file | contents |
|---|---|
| `Base.v` | bytes, `res` monad, C string functions |
| `Flags.v` | `FilterType`, `FilterOption` constants |
| `Protocol.v` | `isBlockableProtocol` |
| `Url.v` | separators, `getUrlHost`, `isThirdPartyHost` |
| `FilterM.v` | rule record, option parsing, `matchesOptions`, `indexOfFilter`, `Filter::matches` |
| `Sets.v` | Bloom filter and hash set |
| `ParseM.v` | `parseFilter`, `getFingerprint` |
| `ClientM.v` | `parse`, `matches`, `findMatchingFilters`, tags, `clear` |
| `SerialM.v` | `serialize`, `deserialize` and their helpers |
| `ConcM.v` | threads that query one client: answers, loads and stores of the counters and of the lazily computed members of the rules |
| `DomM.v` | questions to one rule: `getDomainCount`, `containsDomain`, `isDomainOnlyFilter`, `matchesOptions`, `parseOptions`, with the members that cache the parsed domain list |
| `ManyM.v` | several clients on one heap: creation, calls (those of OwnM.v), destruction, the implicit copy constructor, blocks of the application |
| `HostM.v` | several JavaScript objects on one heap: creation, calls (those of BindM.v), cleanup(), the garbage collector |
| `NetM.v` | requests for lists answered in any order, the promises they settle, `Promise.all` |
| `DiskM.v` | the writes of the scripts to the disk, byte by byte, so that a run can be cut off anywhere |
| `UploadM.v` | the uploads of the published files, with the answers to the requests so far |
| `ProcM.v` | what the clients of a process share: the record of unknown option names, its console lines, accesses by threads |
| `OwnM.v` | ownership of heap blocks: `swapData`, destructors, `clear`, `deserialize` |
| `OwnT.v` | which blocks a given text or buffer makes the client allocate |
| `JsM.v` | list preparation of `lib/`, queries and `getFilters` of the Node binding |
| `BindM.v` | arguments of calls from JavaScript, UTF-16 and UTF-8, life of the JavaScript object |
| `CosmeticM.v` | `toStylesheet` |
| `DataM.v` | statistics of the Node binding, bad fingerprint header, data file scripts |
| `ListsM.v`, `ToolM.v` | catalogue of lists; exported constants, clients by UUID or address, site lists of `check.js`, `generateDataFiles.js` |
| `CheckM.v` | a whole run of `check.js` |
| `CatalogM.v`, `PublishM.v` | titles and keys of regional lists; sample program, manifest files, data files on disk, uploads |
| `PerfM.v` | the measuring program: words of the site list, reports, the header it writes |
| `Spec.v` | independent specifications: URLs, hosts, patterns, list lines |
| `SpecM.v`, `SpecC.v` | categories of rules; histories of calls, loaded rules, decisions |
| `SpecS.v`, `SpecO.v` | serialized form; memory histories |
| `SpecJ.v`, `SpecK.v` | JavaScript layer; stylesheet |
| `SpecL.v`, `SpecT.v` | lives with restarts; tallies of calls, collected fingerprints, C text |
| `SpecTool.v` | exported constants, list catalogue, blocks found by the check script |
| `SpecLine.v` | grammar of lines and what a reading stands for |
| `SpecAny.v` | the terms a line states and when they meet a request |
| `SpecFile.v` | the format of data files, spelled out byte by byte |
| `SpecMem.v` | how many memory blocks the rules a client holds account for |
| `SpecOrd.v` | the order in which groups of rules are tried, and which rule is reported |
| `SpecConc.v` | what threads that query one client may expect |
| `SpecProc.v` | the unknown option names that lists mention |
| `SpecN.v` | the same for any request, and which rules the entry points listen to |
| `SpecQ.v`, `SpecE.v` | rules that can be tried safely; what a list in the usual syntax says about a request |
| `SpecW.v` | what the data format makes of a rule that does not survive it |
| `SpecA.v` | words of a text, answers the measuring program counts |
| `SpecB.v` | what JavaScript values stand for as types, pages, truth values and numbers |
| `SpecP.v` | output of the sample program, reading of JSON objects, published files |
| `SpecX.v` | lives in which each restart is replaced by the rules as they are read back; statistics without cosmetic rules |
| `SpecY.v` | what a command line of `check.js` names and asks for |
| `SpecZ.v` | lists of host names |
| `SpecV.v` | characters of JavaScript strings, word lists, the C++ call a JavaScript call amounts to |
| `SpecG.v` | lines read as regular expressions, meaning of abbreviated option names |
| `SpecH.v` | lists that also contain regular expressions; texts that load without fault, rules that survive saving |
| `SpecI.v` | which rules a further line shadows; buckets of selectors; the page of an omitted argument |
| `SpecF.v` | which parsed lines make loading leave its buffers |
| `SpecR.v` | when the search for a pattern reads behind the URL |
| `SpecMany.v` | polite use of several clients in one process |
| `SpecDom.v` | what a rule is expected to say about its page domains |
| `P_*.v` | proofs |
| `Props_*.v` | the property theorems, `exact lemma`, `Print Assumptions`, examples |
| `Tests.v` | the repository's own test expectations, evaluated on the model |

## Plan per property

| id | model and proof plan |
|---|---|
| C01 | state machine of `isBlockableProtocol` = prefix test of the lower-cased URL; case analysis on the first bytes |
| C02 | evaluate `matches` on a client with empty lists; parse of rule-less lines keeps lists empty, fold induction |
| C03 | invariant: fingerprints of stored rules are in the Bloom filter; then `matches` = naive scan, by C04/C05 |
| C04 | fingerprint is a window of one star-free piece; the piece occurs literally in the URL |
| C05 | every adjacent pair of a matched piece occurs in the URL, pairs with separators are not tested |
| C06 | both domain walks characterised by the set of label suffixes; invariant: listed domains are in the index |
| C07 | refuted by two rules; partial under "page domain not in the index" |
| C08 | case analysis of `matches` against "some rule hits" |
| C09 | list suffix reasoning |
| C10 | sweep of the 256 bytes lifted with `forallb_forall` |
| C11 | induction on scheme and host |
| C12, C13 | `indexOfFilter` = least occurrence; greedy completeness by induction on pieces |
| C14 | refuted when the piece is longer than the remaining URL; partial otherwise; exact set of URLs for `t^` and `t^u` |
| C15 | `strcmp`/`strncmp` lemmas |
| C16 | consequence of C09 and the structure of `Filter::matches` |
| C17 | refuted (`a^b`); partial: pieces whose `^` is last never over-read; exact condition for every rule, URL and Bloom filter (`SpecR.v`) |
| C18 | refuted (three witnesses); partial: explicit sufficient condition on lines; exact condition for every text (`SpecF.v`) |
| C19 | classification does not depend on the sets and preserveRules; count = number of stores |
| C20-C22 | `parse` = fold of a per-line step; line splitting lemmas |
| C23 | induction over blanks; refuted for regex lines; exact condition (`SpecG.v`) |
| C24 | option list folds to bit unions; refuted for abbreviated names; exact meaning of every name (`SpecG.v`) |
| C25-C27, C29, C49 | mask reasoning on `matchesOptions`; C25-C29 also for the rules that a client answers with after any history (SpecParty.v, SpecAnswer.v, Props_Party.v, Props_Answer.v) |
| C28 | walk over dots = first listed label suffix; refuted for one-label domains |
| C30 | refinement of the tag set; tag tests in `hasMatchingFilters`; what a disabled line shadows, exactly (`P_Cond.v`) |
| C31, C32, C51, C50 | refuted in general, partial through the decision characterisation; C31 also exactly (`P_Cond.v`) |
| C33 | result of queries is a function of the non-statistics part, which queries preserve |
| C34 | refuted, partial under explicit hypotheses; exact condition for a difference (`SpecN.v`) |
| C35 | structure of the scans |
| C36-C40 | byte-level writers and readers, induction over rule lists; first for the rules that survive (`storable`), then for all rules (`Props_Serial2.v`), with the exact condition |
| C41 | specification of the first good window, induction on the pattern |
| C42 | heap-block model, refuted, partial for histories without parse after deserialize; exact condition in `C42_safe_iff` |
| C43 | record equality |
| C44 | suffix walk; refuted for one-label hosts; exact for lists of hosts, from C79 |
| C45, C52 | classification of lines |
| C46 | pointer bookkeeping invariant; refuted for cosmetic and regex rules, whose kept text is described exactly |
| C47, C48 | refuted; partial for the forms that work; exact condition for C48 (`SpecG.v`) |
| C53, C54 | heap-block model; exact set of lost blocks for every history that ends; exact condition for the binding; both read off the texts and buffers given to the calls (`SpecU.v`); refuted, partial |
| C55, C56, C59, C64 | relation between line lists that keeps the decision characterisation of C03 |
| C57, C63 | party flags and domain tests are constant for rules without page options; C57 exactly from C79 on the page `undefined` |
| C58 | exact outcome by induction on buckets; refuted, partial, and an exact condition for returning at all |
| C60 | stored copies of host rules have no NUL, all others do; refuted, partial |
| C61 | domain loop against the list of pieces; arrays against loaded lines |
| C62 | lines of the prepared text, then C44; the converse from C03 and the form of every line |
| C65, C69 | relation "same rules up to where they are stored", kept by every call and by a restart, induction over lives |
| C66 | sum over all parses of the counts of C19; a restart keeps the lengths of the arrays |
| C67 | which exits of `matches` change which counter; inductive tally over histories |
| C68 | relation "same up to counters and collected set", kept by every call in both directions |
| C70 | reader of C string literals; refuted, partial, and an exact condition by comparing lengths |
| C71 | every proper prefix of saved data: reading each section of the format from a cut buffer overruns; refuted, partial |
| C72 | `checkList`; `divided` counts the sites a fixed client blocks; queries do not change answers (C33) |
| C73 | `checkListDiscover`; refuted, exact behaviour proved |
| C74 | catalogue tables, `fetch` as an arbitrary function to bodies or failure; from C55 and C56; the forms of the UUIDs and addresses by a boolean check over the tables |
| C75 | the table of exported constants against the option names, all pairs of types |
| C76 | `generateHeader` is undefined when nothing is collected; refuted, exact condition |
| C77 | composition of C69 and C56; refuted for regions |
| C78 | every scan and lookup of `matches` is defined if each rule tried is; induction over the history; a list prepared by the JavaScript layer is safe if the list itself is (the lines added and rewritten are checked); refuted, partial; that the condition on '^' is needed for each rule: a URL is built from the rule (runs of a character that is not in it, between them its pieces, up to the '^') |
| C79 | `Filter::matches` of a parsed line = text-level reading of the rule; then C03 with the host index and domain gates resolved under explicit conditions; exact version for any request, with the rules that are not listened to described at text level (`SpecN.v`) |
| C80 | `main.cc` as a function to its output; composition of C33 and C38; refuted, partial |
| C81 | text of a manifest read by a small JSON reader; table of titles and keys checked, directory update by induction |
| C82 | chain of promises over a directory; distinct paths; induction over the jobs; that the run is defined: exactly when each data file is, and for safe lists always |
| C83 | which header is left by the chain; refuted, exact description |
| C84 | list of object keys of an upload; refuted for a single file in the test location |
| C85 | UTF-8 and UTF-16 as codes whose first units differ from the others: injectivity and occurrences by induction; then C79 for lists of words |
| C86 | `parse` stops at the first NUL; refuted, partial for texts without U+0000 |
| C87 | case analysis of the methods; queries keep the answers (C33); refuted, partial |
| C88 | translation of JavaScript calls to C++ calls, then C78; refuted by a symbol, partial |
| C89 | object with two states over the heap-block model of C54; exact condition for safety, exact number of blocks left; refuted |
| C90 | client of the tool by C74, then the answer; for the saved file C48/C66; refuted for rules that do not survive saving |
| C91 | case analysis of a run; the two kinds of error by inversion; that a run on safe lists is defined, by C78 for the calls it makes and C60 for --discover; refuted |
| C92 | scan of the front of a line as an automaton; invariant of the character loop; a regex rule has no options, so matching is the engine of the environment |
| C93 | composition: no line of the readable kinds faults (C18's exact condition), C79 for the calls, C65 for the restarts, C69 for the data file; which rules survive read off their text |
| C94 | the loop by induction against the answers of the unchanged client (queries change no answer); C65 for the reread client, C67 for the counters, C68/C70 for the header; the word splitter equals a relational specification |
| C95 | the mask against bits of the two's complement, numbers against a decimal reading, the rest by cases of the conversions |
| C96 | deserialize() of two clients compared field by field; a crafted file that is refused at its third hash set |
| C97 | a weight for the arrays and sets of a client; an invariant of the line scanner bounds the fields of a rule by its line, every stored rule adds at most 36 times the length of its line, and a history adds up |
| C98 | SpecLine.v: a grammar of lines and what each reading stands for; the scanner is run over blanks, marks, anchor and body by induction, and the ending decides the last state; every line has a reading by splitting it, and only one by comparing splits; long lines are cut where the scanner stands at its 2048th character, in each part of the line |
| C99 | SpecAny.v: the terms a line states, read off its reading, and when they meet a request; each term is related to the stored rule by C98, and rules are sorted into collections by their terms, so that the decision theorems about stored rules become statements about text |
| C100 | calls of the binding are reduced to calls of the library (C88), saved and restored clients compared there (C36, C38, C39), and the answers carried back; texts and numbers of values are given by an inductive relation in SpecB.v |
| C101 | the format is an inductive description in SpecFile.v (numbers, texts, rules, buckets, sets, bits, file), which mentions no function of the code; reading is shown to succeed exactly on it, part by part, by induction on arrays, buckets and digits |
| C102 | the heap-block model and the functional model run side by side: each stored object has the members of its rule; preserved by both passes of parse(), queries, clear(), restore, save, by induction over calls; then the blocks of the invariant are counted (`SpecMem.v`) |
| C103 | each scan returns the first matching entry of its list and the walk over the host's suffixes the shortest one; the stages of both queries compose to a sequence; the sequence is translated to loaded lines, and its first element is unique (`SpecOrd.v`) |
| C104 | the names looked up while a line is read are those of the reading's options (`SpecProc.v`); the board keeps the invariant that its lines are the first mentions so far; induction over the calls of all clients |
| C105 | threads are interleaved at the accesses to the shared record; a race is a state in which one thread is about to insert and another about to access; refuted by two threads, and characterised for all programs and schedules |
| C106 | a query is a walk through the rules, followed by its accesses to what queries write: the lazily computed members of the rules it tries (a read, and a store if not yet computed) and the counters (a load and a store each); an invariant over all schedules relates asked questions, made and pending accesses, the shared counters and the values computed; races are characterised by reaching the two accesses, and without them the outcome equals that of asking in turn |
| C107 | a rule with its cached sets and the loops of `parseDomains` and `parseOptions`, asked any sequence of questions; an invariant ties the cached sets to the domain list the rule had when it first looked; the answers are compared with the entries of the list and with the `matchesOptions` of FilterM.v, which recomputes the sets |
| C108 | the calls of OwnM.v made on a common heap; the blocks of the other clients take the role of blocks that are nobody's business, so the invariant of C42 holds for each client; for copies: two clients that hold the same block stay a lost cause (one releases it, the other will), whatever follows |
| C109 | the calls of BindM.v made on a common heap; as in C108, the blocks of the other objects are nobody's business in the invariant of one object; the life of each object alone is decided from its calls (C89), and the induction over the mixed run follows that decision for every object at once |
| C110 | state machine fed with the answers one by one; invariant: every single promise is settled by the first answer, the values collected and the number missing agree with them, and the promise returned is fulfilled, rejected or waiting as the answers so far say; C110_web shows that C74's simpler model is what becomes of it when the network is a function |
| C111 | the run as a list of disk operations (open and empty, add a byte), cut after any number of them; induction over the files to be made: finished ones, at most one torn, the rest as before. Refuted in the full form; C111_every_part shows that every torn state occurs, C111_torn (with C71) what loading it does, C111_rerun that running again repairs it, C111_uncut that the uncut run is C82's |
| C112 | the run fed with the answers to its requests; induction over the files: made ones are live and backed up, at most one is live only, the rest as before. Refuted for the file the run stopped at; C112_torn_published joins it with C111 |
| C113 | party_context and matchesOptions are the only readers of the request type; masks differing in unread bits are shown equivalent for every rule, then congruence up to matches(). Refuted without a page |

## Trusted base

* Coq 8.16.1's kernel and `vm_compute` (used for witnesses and examples).
* `Print Assumptions` is printed under each property theorem in the
  `Props_*.v` files.  Every one of them is `Closed under the global context`:
  no axiom is used, neither of the standard library nor of another one.
  (A whole-environment listing, as opposed to `Print Assumptions` of a theorem,
  shows the module-type fields `Coq.ssr.ssrunder.Under_rel.*`, which belong to
  the standard library's `ssreflect` and are used by no theorem here.)
* The reading of `/repo`: no code is executed, the correspondence of each
  definition with the lines it cites is by inspection (see "Checking the model
  against the repository's tests").
* The contracts of the two external libraries (`bloom-filter-cpp`,
  `hashset-cpp`) stated above and in `Sets.v`.
* The record `env`: bad-fingerprint table, hash functions, regular expression
  engine.  Theorems quantify over it.
* The record `js` of `BindM.v`: what V8 writes for half a surrogate pair and
  which number it reads from a string.  Theorems quantify over it.  The rest of
  `BindM.v` follows the ECMAScript rules for `ToString`, `ToBoolean` and
  `ToInt32`, and `node::ObjectWrap` deleting the object on garbage collection.

## What is modelled

| code | model |
|---|---|
| `protocol.cc` | all |
| `filter.cc`, `filter.h` | all except `toString`-like diagnostics; 32-bit lengths are unbounded |
| `bad_fingerprint.*`, `context_domain.h`, `no_fingerprint_domain.*` | as data of `env` and as hash-set items |
| `ad_block_client.cc` | `parseFilter`, `parse`, `matches`, `findMatchingFilters`, `hasMatchingFilters`, tags, `clear`, `getFingerprint`, `enableBadFingerprintDetection`, `serialize`, `deserialize` |
| `cosmetic_filter.h` | `toStylesheet`; the set that `parse` fills and throws away has no effect |
| process-wide state | `unknownOptions` (ProcM.v) is the only static object of the library that is written after start-up; the other static objects (hash functions, tables of separators, protocols and bad fingerprints) are only read |
| `ad_block_client_wrap.cc` | all methods with their arguments (BindM.v), buffer ownership (OwnM.v), `Matches`, `FindMatchingFilters`, `GetFilters`, `GetParsingStats`, `GetMatchingStats`, `GenerateBadFingerprintsHeader`, `GenerateDefaultManifestFile`, `GenerateRegionalManifestFiles`, the `FilterOptions` constants |
| `lib/filtering.js`, `lib/util.js` | text preparation and client construction; the network as answers arriving in any order (NetM.v); without files and logging |
| `scripts/generateDataFiles.js` | all functions; downloads are an arbitrary function; the writes can be cut off anywhere (DiskM.v) |
| `scripts/check.js` | whole runs: choice of the lists, checks, site lists with and without --discover and --cache, statistics, the file written; not the printing of parameters and times |
| `scripts/generateManifestFiles.js`, `scripts/uploadDataFiles.js` | files written (cut off anywhere, DiskM.v), objects uploaded (with failing requests, UploadM.v); without other errors of the file system |
| `main.cc` | all, except the fixed file names and URLs |
| `lists/*.h` | UUIDs, addresses, titles and public keys |
| `bad_fingerprint.h` | `generateHeader`, in a build with PERF_STATS |

Memory is modelled twice: bytes behind each pointer (reads past the end are
`UB`) in the functional model, and heap blocks with owners (`new`, `delete[]`,
borrowed buffers) in `OwnM.v`.

## Checking the model against the repository's tests

The theorems are only as good as the model.  Two checks of its fidelity, which
are tests and not part of any proof:

* `Tests.v` evaluates on the model the expectations of `test/parser_test.cc`,
  `options_test.cc`, `rule_types_test.cc`, `cosmetic_filter_test.cc`,
  `protocol_test.cc`, `orig_filters_test.cc`, `serialization_test.cc` and of
  `test/js/` (matching, parsing, fingerprints, `getFilters`).  All agree.  One
  JavaScript test performs a call that the model says is undefined although the
  values it looks at are as expected (C60).
* In a scratch directory the model was extracted to OCaml and run on the lists
  of `test/data`.  The counts of blocking, hiding, HTML and exception rules
  equal those in `parser_test.cc:648-653` exactly: easylist
  36342/32667/0/5174, easyprivacy 15144/0/0/1202,
  ublock-unbreak 133/106/0/494, brave-unbreak 79/0/0/32,
  disconnect-simple-malware 2450/0/0/0, spam404-main-blacklist 5629/166/0/0.

## What the log of wrong programs says

Each line of `seeded/LOG.jsonl` is one edit of the model.  Read it with care:

* `extent` says how much was rebuilt.  In 178 attempts everything was.  In the
  others the run stopped at the first broken lemma that theorems of the claim
  depend on, so nothing is known there about other theorems, and
  `theorems_unaffected` is null.
* `theorems_failed` are the theorems that depend on a lemma whose proof no longer
  goes through.  This shows that the edit is noticed, not that each of these
  theorems is false of the edited program: m568 breaks proofs although no claim
  becomes false, and in m584 the theorems that first failed were still true, so
  a stronger one (`C112_stops`) had to be added.  Whether a failed theorem is
  really false was not checked attempt by attempt.

## Not modelled

The other scripts and the tests; the console output of builds with `PERF_STATS`; integer overflow of 32-bit lengths (texts are assumed
shorter than 2^31 bytes; for lists of up to 58 million bytes C97 proves that no
length or printed header of serialize() exceeds its variable; numbers of more
than 32 bits in a data file, for which `sscanf` promises nothing, keep their value
in the model, and where the program would go on with a negative length or with a
sum that wrapped around, the model says undefined); allocation failure; `tolower` on negative `char`
values; files in `lib/util.js`.

## Behaviour found while modelling

Deviations from what a user would expect, each backed by a `_refuted` theorem
or visible in an example:

1. `a^b` against a URL ending in `a` reads behind the URL (C17).
2. A `||host/...` line of 2048 bytes or more, `||a|b`, and a domain longer than
   1024 bytes are undefined behaviour while loading (C18).
3. parse() after deserialize() followed by clear() or destruction frees the
   inside of the caller's buffer (C42, C54).
4. Of several host rules for one host only the first loaded counts, even if it
   is disabled by its tag or has unsupported options (C30, C32, C51).
5. A page excluded by one `domain=~x` rule hides all rules of that kind (C07,
   C31).
6. Without a page domain `matches` skips rules restricted to domains,
   `findMatchingFilters` applies them; the latter ignores the protocol (C34).
7. `||com^` does not block `http://a.com/` (C44).
8. `@@/re/` becomes a blocking regular expression (C48).
9. Options are recognised by prefix; a negated unknown option is ignored (C24).
10. `first-party` and `important` have no effect (C29, C47).
11. `$~script` with an unknown resource type depends on whether the page is
    known (C26, C63).
12. `domain=localhost` never matches (C28).
13. `foo**` does not match a URL ending in `foo` (C13); a lone trailing `^`
    needs a character before the match (C14).
14. `||a.com/x|` ignores the host (C16).
15. An empty domain list and a domain list starting with `~#` change when
    serialized and restored (C36-C38, C40).
16. A repeated `domain=` or `tag=` option leaks the earlier block (C53).
17. `toStylesheet` resets its length for every bucket (C58).
18. A missing page argument in JavaScript becomes the domain `undefined` (C57).
19. Reporting a host rule through the Node binding reads past the end of its
    pattern (C60).
20. Kept rule texts of cosmetic rules lose their last two characters, those of
    regular expressions their slashes (C46).
21. A blank line of a host list becomes the rule `||`, which blocks nothing
    (C62).
22. The header of bad fingerprints is written without escaping double quotes and
    backslashes (C70); `generateBadFingerprintsHeader` without detection enabled
    dereferences a null pointer; `getParsingStats` omits the HTML filters;
    `makeAdBlockClientFromDATFile` ignores the result of `deserialize`.
23. deserialize() is given no length: data cut short at any point makes it read
    past the end (C71).
24. `check.js --list --discover` counts every site as matching, because it tests
    the returned object instead of its `matches` field (C73).
25. The host list UUID for which `getListFilterFunction` has a filter is in no
    catalogue, so that filter is never used (C74).
26. Data files of regions are made from unprepared lists, those of the default
    lists from prepared ones (C77).
27. A rule such as `||ads.*` is taken for a pure host rule and kept in the host
    index as a copy without terminator; `Filter::matches` then reads behind the
    copy when a URL has the host `ads.*` (C78).
28. A rule with empty pattern, such as `@@$script`, applies to everything before
    and to nothing after it has been saved and restored (C36, C38).
29. Every data file that is generated overwrites the header of bad fingerprints:
    what is left is the header of the last region (C83).
30. `uploadDataFiles.js --dat` without `--prod` uploads to `test/`, the directory
    without `--dat` to `test/4/` (C84).
31. A text given to parse() is cut at its first U+0000 (C86); without an argument
    parse() loads the rule `undefined` (C87).
32. A value that cannot be converted to a string, such as a symbol, makes parse,
    matches, findMatchingFilters, addTag, removeTag and getFilters read through a
    null pointer (C88); as page argument of matches it throws, but the query has
    been counted (C87).
33. Every call after cleanup(), also a second cleanup(), uses freed memory; if
    cleanup() is not called, the garbage collector leaves the buffer of the last
    deserialize() allocated (C89).
34. The data files are written without cosmetic and HTML rules (the defaults of
    serialize(), which JavaScript cannot change), so the restored client counts
    no cosmetic rules (C69).
35. `check.js --stats` ignores `--output` (C91); `--discover` with a host rule reads
    past a pattern (C60); `--uuid` with `--dat` and `--discover` loads the list
    without rule texts, and the note about rule discovery and DAT files can never
    be printed.
36. A data file that deserialize() refuses leaves the rules read so far in force,
    and makeAdBlockClientFromDATFile() resolves with that client (C96).
37. The bounds check on the length of a stored host or domain adds 32-bit numbers:
    the length `ffffffff` in a damaged file passes it (`wraps` in SerialM.v, C71).
38. The names of unrecognized options are kept in a `std::set` that all clients of a
    process share without a lock: loading lists into two clients from two threads
    is a data race as soon as one list has an option that is not yet recorded and
    the other any unrecognized option (C105).
39. matches() increments counters of the client without a lock: two threads that
    query one client race (C106). Even findMatchingFilters() is not safe: the
    length of a rule's pattern and its parsed domain list are computed when a
    query first needs them (filter.cc:559-561, 659-690), so that the first queries
    after loading race with each other.
40. containsDomain() does not parse the domain list: asked first (or first of a
    copy), it says no for every domain; and a rule that has looked at its domain
    list does not notice another parseOptions() (C107).
41. AdBlockClient has no copy constructor of its own: a copy shares all pointers,
    and destroying both releases everything twice (C108).
