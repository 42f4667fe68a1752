(** Model of the upload of the published files when requests can fail and the
    process can be killed (/repo/scripts/uploadDataFiles.js). *)
From Verif Require Import Base Flags Sets FilterM ParseM ClientM SerialM JsM DataM ListsM ToolM
  CatalogM PublishM.

(** How far a run has come: all files uploaded, an error that ends it, or still
    under way (or killed). *)
Inductive progress := UpDone | UpFailed | UpWaiting.

(** uploadDataFiles.js:21-42 [uploadFile] and 49-70, the chain of promises: the
    uploads one at a time, each after the end of the one before; the first error
    ends the run (lines 71-74).  [net] is what came back for the uploads that
    have been answered.  An object appears under its key as a whole or not at
    all (lines 15-16: for large files by a multipart upload, which ends with the
    object's appearance).  A local file that is not there is an error. *)
Fixpoint uploadRun (disk : files) (us : list (bytes * bytes)) (net : list bool) (b : files)
  : files * progress :=
  match us with
  | [] => (b, UpDone)
  | (key, path) :: us' =>
      match net with
      | [] => (b, UpWaiting)
      | ok :: net' =>
          match (if ok then look disk path else None) with
          | None => (b, UpFailed)
          | Some data => uploadRun disk us' net' (put key data b)
          end
      end
  end.
