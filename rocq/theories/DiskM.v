(** Model of the making of the data files at the level of the single writes, so
    that a run can be cut off anywhere (/repo/scripts/generateDataFiles.js,
    bad_fingerprint.h). *)
From Verif Require Import Base Flags Sets FilterM ParseM ClientM SerialM JsM DataM ListsM ToolM
  CatalogM PublishM.

(** What the process does to the disk: a file is opened for writing, which
    empties or creates it ([fs.writeFileSync] with its default flag 'w',
    generateDataFiles.js:33; [std::ofstream], bad_fingerprint.h:78), and one
    byte is added at the end of a file.  (Bytes reach the disk in the order in
    which they are written; caches of the system that reorder are not
    modelled.  The directory out exists: lines 30-32 make it.) *)
Inductive dop :=
| DOpen (path : bytes)
| DByte (path : bytes) (b : ascii).

(** The effect of one operation. *)
Definition dstep (d : files) (o : dop) : files :=
  match o with
  | DOpen p => put p [] d
  | DByte p b => put p (match look d p with Some s => s | None => [] end ++ [b]) d
  end.

(** A file written as a whole. *)
Definition writing (path data : bytes) : list dop := DOpen path :: map (DByte path) data.

(** How a run ends that nobody cuts off: all files made, a download failed, or
    undefined behaviour in the addon. *)
Inductive ending := EndDone | EndFailed | EndUndefined.

(** generateDataFiles.js:17-34 [generateDataFileFromString]: the header comes
    first, then the data are computed and written. *)
Definition stringOps (E : env) (sites items : list bytes) (name : bytes) : list dop * ending :=
  match (c <- foldM (fun c t => parse E false (cstr t) c) client0 items ;;
         c <- checkSites E (enableBadFp E c) sites ;;
         h <- generateHeader c ;; Ok (c, h)) with
  | UB => ([], EndUndefined)
  | Ok (c, h) =>
      match serialize c true true with
      | UB => (writing (B "bad_fingerprints.h") h, EndUndefined)
      | Ok s => (writing (B "bad_fingerprints.h") h ++ writing (B "out/" ++ name) s, EndDone)
      end
  end.

(** generateDataFiles.js:107-116: the chain of promises. *)
Fixpoint jobsOps (E : env) (sites : list bytes) (jobs : list job) : list dop * ending :=
  match jobs with
  | [] => ([], EndDone)
  | (_, None) :: _ => ([], EndFailed)
  | (name, Some items) :: jobs' =>
      let (o, e) := stringOps E sites items name in
      match e with
      | EndDone => let (o', e') := jobsOps E sites jobs' in (o ++ o', e')
      | _ => (o, e)
      end
  end.

(** generateDataFiles.js:58-69, 107-116: everything. *)
Definition dataOps (E : env) (sites : list bytes) (fetch : fetcher) (unbreak : bytes)
  : list dop * ending :=
  jobsOps E sites
    (listsJob fetch default_lists (B "ABPFilterParserData.dat") ::
     listsJob fetch malware_lists (B "SafeBrowsingData.dat") ::
     map (regionJob fetch unbreak) region_lists).

(** The disk when the process is killed after [k] operations. *)
Definition cutAfter (k : nat) (ops : list dop) (d : files) : files :=
  fold_left dstep (firstn k ops) d.

(** generateManifestFiles.js:13-14, ad_block_client_wrap.cc:88-105
    [GenerateManifestFile]: the manifest files, likewise. *)
Definition manifestOps : list dop :=
  writing (B "out/default-manifest.json") (manifestText (B "Default") default_key) ++
  flat_map (fun r => let '(uuid, title, key) := r in
              writing (B "out" ++ B "/" ++ uuid ++ B "-manifest.json") (manifestText title key))
           region_infos.
