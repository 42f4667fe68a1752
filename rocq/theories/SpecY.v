(** Specification vocabulary for the command line tool. *)
From Verif Require Import Base Flags Url Sets FilterM ParseM ClientM SerialM ListsM JsM DataM ToolM CheckM
  Spec SpecM SpecC SpecJ SpecTool.

(** The list texts that the tool is told to load, in the order in which it
    looks for them, and whether they are downloaded. *)
Inductive loads (W : world) (a : args) : bool -> list bytes -> Prop :=
| loads_uuid u url b :
    given (a_uuid a) = Some u -> In (u, url) catalogue -> w_fetch W url = Some b ->
    loads W a true [b]
| loads_http u b :
    given (a_uuid a) = None -> given (a_dat a) = None ->
    given (a_http a) = Some u -> w_fetch W u = Some b ->
    loads W a true [b]
| loads_filter t :
    given (a_uuid a) = None -> given (a_dat a) = None -> given (a_http a) = None ->
    given (a_filter a) = Some t ->
    loads W a false [t]
| loads_path p t :
    given (a_uuid a) = None -> given (a_dat a) = None -> given (a_http a) = None ->
    given (a_filter a) = None -> given (a_path a) = Some p -> w_file W p = Some t ->
    loads W a false [t]
| loads_default bs :
    given (a_uuid a) = None -> given (a_dat a) = None -> given (a_http a) = None ->
    given (a_filter a) = None -> given (a_path a) = None ->
    bodies (w_fetch W) (map snd default_lists) bs ->
    loads W a true bs.

(** The lists that decide: downloaded ones have two rules added. *)
Definition with_added (downloaded : bool) (bs : list bytes) : list bytes :=
  bs ++ (if downloaded then [ima_rules] else []).

(** There is nothing to load. *)
Definition nothing_to_load (W : world) (a : args) : Prop :=
  (forall downloaded bs, ~ loads W a downloaded bs) /\
  (given (a_uuid a) = None -> forall f, given (a_dat a) = Some f -> w_file W f = None).

(** What is asked: no byte is NUL. *)
Definition plain_request (W : world) (a : args) : Prop :=
  (forall l, a_location a = Some l -> nonul l) /\
  (forall p t, a_list a = Some p -> w_file W p = Some t -> nonul t).

(** The same check with the client taken from the data file [f]. *)
Definition from_dat (f : bytes) (a : args) : args :=
  mkArgs None (Some f) None None None (a_host a) (a_location a) None (a_list a)
         (a_discover a) (a_stats a) (a_cache a) (a_type a).

(** The command line asks for something. *)
Definition asks_for (a : args) : Prop :=
  a_stats a = true \/
  (exists h, given (a_host a) = Some h) /\
  ((exists l, given (a_location a) = Some l) \/ (exists p, given (a_list a) = Some p)).

(** The file with the addresses to check is needed and is not there. *)
Definition no_sites (W : world) (a : args) : Prop :=
  a_stats a = false /\ given (a_location a) = None /\
  exists p, given (a_list a) = Some p /\ w_file W p = None.
