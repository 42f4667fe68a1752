(** Model of the statistics of the Node binding, of the bad fingerprint header
    and of the data file scripts. *)
From Verif Require Import Base Flags Sets FilterM ParseM ClientM SerialM JsM.

(** ad_block_client_wrap.cc:403-435 [GetParsingStats].  The counts are C++
    ints: unbounded here.  ([numHtmlFilters] is not reported.) *)
Definition getParsingStats (c : client) : list (bytes * nat) :=
  let n k := length (tget (c_lists c) k) in
  [ (B "numFilters", n KFilters);
    (B "numCosmeticFilters", n KCosmetic);
    (B "numExceptionFilters", n KException);
    (B "numNoFingerprintFilters", n KNoFp);
    (B "numNoFingerprintDomainOnlyFilters", n KNoFpDom);
    (B "numNoFingerprintAntiDomainOnlyFilters", n KNoFpAnti);
    (B "numNoFingerprintExceptionFilters", n KNoFpExc);
    (B "numNoFingerprintDomainOnlyExceptionFilters", n KNoFpDomExc);
    (B "numNoFingerprintAntiDomainOnlyExceptionFilters", n KNoFpAntiExc);
    (B "numHostAnchoredFilters", c_numHA c);
    (B "numHostAnchoredExceptionFilters", c_numHAE c) ].

(** ad_block_client_wrap.cc:590-609 [GetMatchingStats] *)
Definition getMatchingStats (c : client) : list (bytes * N) :=
  let s := c_stats c in
  [ (B "numFalsePositives", st_fp s); (B "numExceptionFalsePositives", st_efp s);
    (B "numBloomFilterSaves", st_bloom s); (B "numExceptionBloomFilterSaves", st_ebloom s);
    (B "numHashSetSaves", st_hash s); (B "numExceptionHashSetSaves", st_ehash s) ].

(** bad_fingerprint.h:75-98 [BadFingerprintsHashSet::generateHeader], in a build
    with PERF_STATS (otherwise it does nothing): the text of the file. *)
Definition quote : ascii := """"%char.

Definition header_entry (w : bytes) : bytes := [quote] ++ w ++ [quote] ++ B "," ++ [LF].

Definition headerText (bads : list bytes) : bytes :=
  B "#pragma once" ++ [LF] ++
  B "/**" ++ [LF] ++ B "  *" ++ [LF] ++ B "  * Auto generated bad filters" ++ [LF] ++
  B "  */" ++ [LF] ++
  B "const char *badFingerprints[] = {" ++ [LF] ++
  flat_map header_entry bads ++
  B "};" ++ [LF] ++ [LF] ++
  B "const char *badSubstrings[] = {" ++ [quote] ++ B "http" ++ [quote] ++ B ", " ++
  [quote] ++ B "www" ++ [quote] ++ B " };" ++ [LF].

(** scripts/generateDataFiles.js:88-102 [checkSiteList]: its queries. *)
Definition checkSites (E : env) (c : client) (sites : list bytes) : res client :=
  foldM (fun c s => rmap snd (jsMatches E c s FONoFilterOption (Some (B "slashdot.org")))) c sites.

(** scripts/generateDataFiles.js:17-34 [generateDataFileFromString] with an
    array: the bytes written to the data file.  [parse] without second argument
    does not keep rule texts; [serialize] leaves out the cosmetic and the HTML
    rules, the default of ad_block_client.h:44-46 that the JavaScript method
    uses (ad_block_client_wrap.cc:333).
    (Writing the header of bad fingerprints does not change the client.) *)
Definition dataFile (E : env) (sites : list bytes) (items : list bytes) : res bytes :=
  c <- foldM (fun c t => parse E false (cstr t) c) client0 items ;;
  c <- checkSites E (enableBadFp E c) sites ;;
  serialize c true true.

(** lib/util.js:37-49 [makeAdBlockClientFromDATFile].  The result of
    deserialize() is ignored. *)
Definition clientFromDAT (data : bytes) : res client := rmap fst (deserialize data client0).
