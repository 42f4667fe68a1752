(** Specification of the disk after a run that was cut off. *)
From Verif Require Import Base Flags Sets FilterM ParseM ClientM SerialM JsM DataM ListsM ToolM CatalogM
  PublishM Spec SpecP.

(** The file holds a proper part, from the beginning, of what it should hold. *)
Definition torn (d : files) (path data : bytes) : Prop :=
  exists q u, look d path = Some q /\ data = q ++ u /\ u <> [].

(** [d'] is the disk [d] after part of the files in [l] have been made, in this
    order: some are finished, at most one is torn and is the next one, and all
    other files, except those in [spoiled], are as before. *)
Definition partly_made (spoiled : list bytes) (l : list (bytes * option (res bytes)))
    (d d' : files) : Prop :=
  exists finished rest, l = finished ++ rest /\
    all_written finished d' /\
    ((forall p, ~ In p spoiled -> ~ In p (map fst finished) -> look d' p = look d p) \/
     (exists path data more, rest = (path, Some (Ok data)) :: more /\ torn d' path data /\
        forall p, ~ In p spoiled -> ~ In p (map fst finished) -> p <> path -> look d' p = look d p)).

(** The manifests, with what they should hold. *)
Definition manifest_contents : list (bytes * option (res bytes)) :=
  (B "out/default-manifest.json", Some (Ok (manifestText (B "Default") default_key))) ::
  map (fun r => let '(uuid, title, key) := r in
         (B "out/" ++ uuid ++ B "-manifest.json", Some (Ok (manifestText title key)))) region_infos.

(** No text has a NUL in it. *)
Definition clean_texts (fetch : fetcher) (unbreak : bytes) (sites : list bytes) : Prop :=
  (forall url b, fetch url = Some b -> nonul b) /\ nonul unbreak /\ Forall nonul sites.
