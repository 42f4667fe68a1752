(** Model of the remaining script layer: the exported constants and the tools
    that make clients from known lists and check sites with them
    (/repo/ad_block_client_wrap.cc, lib/util.js, scripts/check.js,
    scripts/generateDataFiles.js). *)
From Verif Require Import Base Flags Sets FilterM ParseM ClientM SerialM JsM DataM ListsM.

(** ad_block_client_wrap.cc:142-203: the exported object [FilterOptions].  The
    values are 32-bit integers; all of them are below 2^30. *)
Definition filterOptions : list (bytes * N) :=
  [ (B "noFilterOption", FONoFilterOption);
    (B "script", FOScript);
    (B "image", FOImage);
    (B "stylesheet", FOStylesheet);
    (B "object", FOObject);
    (B "xmlHttpRequest", FOXmlHttpRequest);
    (B "objectSubrequest", FOObjectSubrequest);
    (B "subdocument", FOSubdocument);
    (B "document", FODocument);
    (B "other", FOOther);
    (B "xbl", FOXBL);
    (B "collapse", FOCollapse);
    (B "doNotTrack", FODoNotTrack);
    (B "elemHide", FOElemHide);
    (B "thirdParty", FOThirdParty);
    (B "notThirdParty", FONotThirdParty);
    (B "ping", FOPing);
    (B "popup", FOPopup);
    (B "redirect", FORedirect);
    (B "csp", FOCSP);
    (B "font", FOFont);
    (B "media", FOMedia);
    (B "webrtc", FOWebRTC);
    (B "genericblock", FOGenericBlock);
    (B "generichide", FOGenericHide);
    (B "empty", FOEmpty);
    (B "websocket", FOWebsocket);
    (B "important", FOImportant);
    (B "explicitcancel", FOExplicitCancel);
    (B "unknown", FOUnknown) ].

(** The value of [FilterOptions[name]] as an argument of a query
    ([args[1]->Int32Value(...).FromMaybe(0)], wrap.cc:270 and 291): a name that
    is not there is undefined, which counts as 0. *)
Definition filterOption (name : bytes) : N :=
  match find (fun e => beq (fst e) name) filterOptions with
  | Some e => snd e
  | None => 0%N
  end.

(** ad_block_client_wrap.cc:618-627 [GenerateBadFingerprintsHeader], in a build
    with PERF_STATS: the text of the file.  The pointer is null unless detection
    was enabled, and is not checked. *)
Definition generateHeader (c : client) : res bytes :=
  match c_badfp c with None => UB | Some l => Ok (headerText l) end.

(** ** Lists by address and by UUID *)

(** [fetch url] is the body of the answer with status 200, or nothing if the
    request fails (lib/util.js:63-70).  A rejected promise is [None]. *)
Definition fetcher := bytes -> option bytes.

(** lib/util.js:61-79 [getSingleListDataFromSingleURL]; lib/util.js:176-194
    [getListBufferFromURL] is the same function. *)
Definition getSingleListData (fetch : fetcher) (filter : option (bytes -> bytes)) (url : bytes)
  : option bytes :=
  option_map (singleListData filter) (fetch url).

(** [Promise.all] *)
Fixpoint all_of {A} (l : list (option A)) : option (list A) :=
  match l with
  | [] => Some []
  | None :: _ => None
  | Some a :: l' => option_map (cons a) (all_of l')
  end.

(** lib/util.js:105-114: [makeAdBlockClientFromListURL] with one URL. *)
Definition makeFromListURL (E : env) (keep : bool) (fetch : fetcher)
    (filter : option (bytes -> bytes)) (url : bytes) : option (res client) :=
  option_map (fun d => clientFromStrings E keep [sanitizeABPInput d])
             (getSingleListData fetch filter url).

(** lib/util.js:94-104: [makeAdBlockClientFromListURL] with an array. *)
Definition makeFromListURLs (E : env) (keep : bool) (fetch : fetcher)
    (filter : option (bytes -> bytes)) (urls : list bytes) : option (res client) :=
  option_map (fun ds => clientFromStrings E keep [sanitizeABPInput (join_lf ds)])
             (all_of (map (getSingleListData fetch filter) urls)).

(** lib/util.js:118-124 [getListFilterFunction] *)
Definition getListFilterFunction (uuid : bytes) : option (bytes -> bytes) :=
  if beq uuid (B "FBB430E8-3910-4761-9373-840FC3B43FF2") then Some hostListFilter else None.

(** [Array.prototype.find((l) => l.uuid === uuid)] *)
Definition find_list (uuid : bytes) (lists : list (bytes * bytes)) : option (bytes * bytes) :=
  find (fun l => beq (fst l) uuid) lists.

(** lib/util.js:138-152 [makeAdBlockClientFromListUUID] *)
Definition makeFromListUUID (E : env) (keep : bool) (fetch : fetcher) (uuid : bytes)
  : option (res client) :=
  let l := find_list uuid default_lists in
  let l := match l with Some _ => l | None => find_list uuid region_lists end in
  let l := match l with Some _ => l | None => find_list uuid malware_lists end in
  match l with
  | None => None
  | Some l => makeFromListURL E keep fetch (getListFilterFunction uuid) (snd l)
  end.

(** ** scripts/generateDataFiles.js *)

(** Lines 71-83 [generateDataFilesForList]: the bytes of the data file. *)
Definition dataFileForList (E : env) (sites : list bytes) (fetch : fetcher)
    (lists : list (bytes * bytes)) : option (res bytes) :=
  option_map (dataFile E sites)
    (all_of (map (fun l => getSingleListData fetch (getListFilterFunction (fst l)) (snd l)) lists)).

(** Lines 36-56 [generateDataFileFromURL] as called for a region (line 61, no
    filter): [unbreak] is the text of test/data/brave-unbreak.txt.  The texts are
    not sanitized here. *)
Definition dataFileForRegion (E : env) (sites : list bytes) (fetch : fetcher) (unbreak url : bytes)
  : option (res bytes) :=
  option_map (fun body => dataFile E sites [body; unbreak]) (fetch url).

(** ** scripts/check.js *)

(** lib/util.js:200-201 [readSiteList] *)
Definition readSiteList (file : bytes) : list bytes := split_on LF file.

(** Lines 114-122: without --discover; the counts matchCount and skipCount. *)
Definition checkList (E : env) (context : N) (host : bytes) (c : client) (sites : list bytes)
  : res (nat * nat * client) :=
  foldM (fun s site =>
           let '(m, k, c) := s in
           r <- jsMatches E c site context (Some host) ;;
           if fst r then Ok (S m, k, snd r) else Ok (m, S k, snd r))
        (0, 0, c) sites.

(** Lines 95-113: with --discover; [cache] tells whether --cache is given.
    [findMatchingFilters] returns an object, and an object is always true, so
    the other branch is never taken and the map only holds [true].  The queries
    do not change the client. *)
Definition checkListDiscover (E : env) (cache : bool) (context : N) (host : bytes) (c : client)
    (sites : list bytes) : res (nat * nat) :=
  rmap fst
    (foldM (fun s site =>
              let '((m, k), seen) := s in
              match (if cache then find (fun e => beq (fst e) site) seen else None) with
              | Some (_, true) => Ok ((S m, k), seen)
              | Some (_, false) => Ok ((m, S k), seen)
              | None =>
                  _ <- jsFind E c site context (Some host) ;;
                  Ok ((S m, k), (site, true) :: seen)
              end)
           ((0, 0), []) sites).
