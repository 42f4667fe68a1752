(** Specification of the bucket while files are uploaded. *)
From Verif Require Import Base Flags Sets FilterM ParseM ClientM SerialM JsM DataM ListsM ToolM CatalogM
  PublishM UploadM.

(** The uploads in [us], in this order, have been made up to some point: what
    is uploaded is the local file, everything else in the bucket is as before. *)
Definition partly_uploaded (disk : files) (us : list (bytes * bytes)) (b b' : files) (w : progress) : Prop :=
  exists made rest, us = made ++ rest /\ (w = UpDone <-> rest = []) /\
    (forall key path, In (key, path) made -> look disk path <> None /\ look b' key = look disk path) /\
    (forall key, ~ In key (map fst made) -> look b' key = look b key).

(** Where users' copies of the data come from, and where the backups are. *)
Definition live_key (f : bytes) : bytes := B "4/" ++ f.
Definition backup_key (date f : bytes) : bytes := B "backups/" ++ date ++ B "/" ++ f.

(** What users get for [f] is also in the backup of the day. *)
Definition backed_up (date : bytes) (b : files) (f : bytes) : Prop :=
  look b (backup_key date f) = look b (live_key f).
