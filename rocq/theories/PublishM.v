(** Model of the sample program and of the files that are made for publication
    (/repo/main.cc, ad_block_client_wrap.cc, scripts/generateDataFiles.js,
    scripts/uploadDataFiles.js). *)
From Verif Require Import Base Flags Sets FilterM ParseM ClientM SerialM JsM DataM ListsM ToolM CatalogM.

(** ** main.cc *)

(** main.cc:54-57 and 85-88: one line of output. *)
Definition advice (url : bytes) (block : bool) : bytes :=
  url ++ (if block then B ": You should block this URL!" else B ": You should NOT block this URL!")
      ++ [LF].

(** main.cc:50-59 and 81-90: the output for all URLs and the client afterwards. *)
Fixpoint adviseAll (E : env) (c : client) (urls : list bytes) : res (bytes * client) :=
  match urls with
  | [] => Ok ([], c)
  | url :: urls' =>
      r <- matches E c (cstr url) FONoFilterOption (Some (B "slashdot.org")) ;;
      s <- adviseAll E (snd r) urls' ;;
      Ok (advice url (v_block (fst r)) ++ fst s, snd s)
  end.

(** main.cc:40-93 [checkForClient]: the output and the bytes written to the data
    file.  (A data file that cannot be opened ends the program with an exception;
    the lifetime of the buffer is in OwnM.v.) *)
Definition checkForClient (E : env) (c : client) (urls : list bytes) : res (bytes * bytes) :=
  o <- adviseAll E c urls ;;
  buffer <- serialize (snd o) true true ;;
  d <- deserialize buffer client0 ;;
  if negb (snd d) then Ok (fst o ++ B "Could not deserialize", buffer)
  else
    d <- deserialize buffer (fst d) ;;
    if negb (snd d) then Ok (fst o ++ B "Could not deserialize", buffer)
    else
      o2 <- adviseAll E (fst d) urls ;;
      Ok (fst o ++ fst o2, buffer).

(** main.cc:96-140 [main], once for each of the two clients: parse the texts,
    then check. *)
Definition sampleRun (E : env) (texts urls : list bytes) : res (bytes * bytes) :=
  c <- foldM (fun c t => parse E false (cstr t) c) client0 texts ;;
  checkForClient E c urls.

(** ** Manifest files *)

(** ad_block_client_wrap.cc:88-105 [GenerateManifestFile]: the text. *)
Definition manifestText (name key : bytes) : bytes :=
  B "{" ++ [LF] ++
  B "  ""description"": ""Brave Ad Block Updater extension""," ++ [LF] ++
  B "  ""key"": """ ++ key ++ B """," ++ [LF] ++
  B "  ""manifest_version"": 2," ++ [LF] ++
  B "  ""name"": ""Brave Ad Block Updater (" ++ name ++ B ")""," ++ [LF] ++
  B "  ""version"": ""0.0.0""" ++ [LF] ++
  B "}" ++ [LF].

(** Files by path; a later entry hides an earlier one. *)
Definition files := list (bytes * bytes).
Definition look (d : files) (path : bytes) : option bytes :=
  option_map snd (find (fun e => beq (fst e) path) d).
Definition put (path data : bytes) (d : files) : files := (path, data) :: d.

(** ad_block_client_wrap.cc:629-638 [GenerateDefaultManifestFile] *)
Definition generateDefaultManifest (dir : bytes) (d : files) : files :=
  put (dir ++ B "/default-manifest.json") (manifestText (B "Default") default_key) d.

(** ad_block_client_wrap.cc:640-653 [GenerateRegionalManifestFiles] *)
Definition generateRegionalManifests (dir : bytes) (d : files) : files :=
  fold_left (fun d r => let '(uuid, title, key) := r in
               put (dir ++ B "/" ++ uuid ++ B "-manifest.json") (manifestText title key) d)
            region_infos d.

(** scripts/generateManifestFiles.js:13-14 *)
Definition generateManifestFiles (d : files) : files :=
  generateRegionalManifests (B "out") (generateDefaultManifest (B "out") d).

(** ** scripts/generateDataFiles.js *)

(** Lines 17-34 [generateDataFileFromString] with its two files, in a build with
    PERF_STATS (otherwise no header is written). *)
Definition generateFromString (E : env) (sites items : list bytes) (name : bytes) (d : files)
  : res files :=
  c <- foldM (fun c t => parse E false (cstr t) c) client0 items ;;
  c <- checkSites E (enableBadFp E c) sites ;;
  h <- generateHeader c ;;
  s <- serialize c true true ;;
  Ok (put (B "out/" ++ name) s (put (B "bad_fingerprints.h") h d)).

(** One promise of the chain: the file name and the texts, if all downloads
    succeed. *)
Definition job := (bytes * option (list bytes))%type.

(** Lines 71-83, 85-86: [generateDataFilesForList] *)
Definition listsJob (fetch : fetcher) (lists : list (bytes * bytes)) (name : bytes) : job :=
  (name, all_of (map (fun l => getSingleListData fetch (getListFilterFunction (fst l)) (snd l)) lists)).

(** Lines 36-56, 61: [generateDataFileFromURL] for a region *)
Definition regionJob (fetch : fetcher) (unbreak : bytes) (region : bytes * bytes) : job :=
  (fst region ++ B ".dat", option_map (fun body => [body; unbreak]) (fetch (snd region))).

(** A rejected promise ends the chain: the boolean tells whether it was reached. *)
Fixpoint runJobs (E : env) (sites : list bytes) (jobs : list job) (d : files) : res (bool * files) :=
  match jobs with
  | [] => Ok (true, d)
  | (_, None) :: _ => Ok (false, d)
  | (name, Some items) :: jobs' =>
      d <- generateFromString E sites items name d ;; runJobs E sites jobs' d
  end.

(** Lines 58-69 and 107-116: everything. *)
Definition generateDataFiles (E : env) (sites : list bytes) (fetch : fetcher) (unbreak : bytes)
    (d : files) : res (bool * files) :=
  runJobs E sites
    (listsJob fetch default_lists (B "ABPFilterParserData.dat") ::
     listsJob fetch malware_lists (B "SafeBrowsingData.dat") ::
     map (regionJob fetch unbreak) region_lists) d.

(** ** scripts/uploadDataFiles.js *)

(** Line 9 [dataFileVersion] *)
Definition dataFileVersion : bytes := B "4".

(** [path.basename] of a path that does not end in a slash. *)
Definition basename (path : bytes) : bytes := last (split_on "/" path) [].

(** Lines 21-42 [uploadFile]: the key of the object and the local file. *)
Definition uploadFile (key path filename : bytes) : bytes * bytes := (key ++ B "/" ++ filename, path).

(** Lines 49-70: the uploads in order.  [dat] is the option --dat, [listing] the
    content of the directory out, [date] the time of the run.  (A failed upload
    ends the run.) *)
Definition uploads (prod : bool) (date : bytes) (dat : option bytes) (listing : list bytes)
  : list (bytes * bytes) :=
  match dat with
  | Some path =>
      if prod then [uploadFile dataFileVersion path (basename path);
                    uploadFile (B "backups/" ++ date) path (basename path)]
      else [uploadFile (B "test") path (basename path)]
  | None =>
      flat_map (fun filename =>
        if prod then [uploadFile dataFileVersion (B "out/" ++ filename) filename;
                      uploadFile (B "backups/" ++ date) (B "out/" ++ filename) filename]
        else [uploadFile (B "test/" ++ dataFileVersion) (B "out/" ++ filename) filename]) listing
  end.
