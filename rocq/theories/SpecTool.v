(** Specification vocabulary for the script layer. *)
From Verif Require Import Base Flags Url Sets FilterM ParseM ClientM SerialM ListsM JsM ToolM
  Spec SpecM SpecC SpecJ.

(** ** C75: request types.  For every resource type: its name in FilterOptions
    and its name as an option of a rule. *)
Definition type_names : list (bytes * bytes) :=
  [ (B "script", B "script"); (B "image", B "image"); (B "stylesheet", B "stylesheet");
    (B "object", B "object"); (B "xmlHttpRequest", B "xmlhttprequest");
    (B "objectSubrequest", B "object-subrequest"); (B "subdocument", B "subdocument");
    (B "document", B "document"); (B "other", B "other"); (B "xbl", B "xbl");
    (B "font", B "font"); (B "media", B "media"); (B "webrtc", B "webrtc");
    (B "websocket", B "websocket"); (B "ping", B "ping") ].

(** ** C72, C73: of the elements of a list, [m] satisfy [P] and [k] do not. *)
Inductive divided {A} (P : A -> Prop) : list A -> nat -> nat -> Prop :=
| div_nil : divided P [] 0 0
| div_yes x l m k : P x -> divided P l m k -> divided P (x :: l) (S m) k
| div_no x l m k : ~ P x -> divided P l m k -> divided P (x :: l) m (S k).

(** The client blocks the request. *)
Definition blocks (E : env) (c : client) (context : N) (page url : bytes) : Prop :=
  exists v c', matches E c (cstr url) context (Some page) = Ok (v, c') /\ v_block v = true.

(** The same for the query that reports rules. *)
Definition finds_block (E : env) (c : client) (context : N) (page url : bytes) : Prop :=
  exists v, findMatchingFilters E c (cstr url) context (Some page) = Ok v /\ v_block v = true.

(** ** C74: all known lists *)
Definition catalogue : list (bytes * bytes) := default_lists ++ region_lists ++ malware_lists.

(** The bodies downloaded from the addresses [urls]. *)
Definition bodies (fetch : fetcher) (urls bs : list bytes) : Prop :=
  Forall2 (fun u b => fetch u = Some b) urls bs.

(** The attempt to make a client from the texts [ts] gave [r]: defined or not
    like loading them, and with the decisions of a client that loads them and
    then the two added rules. *)
Definition client_of (E : env) (keep : bool) (ts : list bytes) (r : res client) : Prop :=
  (r = UB <-> after E (map (Parse keep) ts) = UB) /\
  forall c c', r = Ok c -> after E (map (Parse keep) (ts ++ [ima_rules])) = Ok c' ->
    same_decisions E c c'.
