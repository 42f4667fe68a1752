(** Specification vocabulary for whole clients: histories of API calls, the
    rules loaded by them, and what it means for a rule to apply to a request. *)
From Coq Require Import Permutation.
From Verif Require Import Base Flags Url Sets FilterM ParseM ClientM Spec SpecM.

(** A call of the public interface of [AdBlockClient] that can change it. *)
Inductive call :=
| Parse (preserveRules : bool) (text : bytes)
| Clear
| AddTag (t : bytes)
| RemoveTag (t : bytes)
| Ask (url : bytes) (context : N) (dom : option bytes)     (* matches() *)
| DetectBad.                   (* enableBadFingerprintDetection() *)

(** Its string arguments are C strings. *)
Definition call_ok (k : call) : Prop :=
  match k with
  | Parse _ t => nonul t
  | Ask url _ _ => nonul url
  | _ => True
  end.

Definition perform (E : env) (c : client) (k : call) : res client :=
  match k with
  | Parse pres t => parse E pres (cstr t) c
  | Clear => Ok (clear c)
  | AddTag t => Ok (addTag c t)
  | RemoveTag t => Ok (removeTag c t)
  | Ask url context dom => rmap snd (matches E c (cstr url) context dom)
  | DetectBad => Ok (enableBadFp E c)
  end.

(** The client after a history of calls on a newly constructed one.  [UB] if
    some call had undefined behaviour. *)
Definition after (E : env) (calls : list call) : res client :=
  foldM (perform E) client0 calls.

Definition history (calls : list call) : Prop := Forall call_ok calls.

(** The lines loaded since the last clear(), in order. *)
Fixpoint loaded_from (L : list (bool * bytes)) (calls : list call) : list (bool * bytes) :=
  match calls with
  | [] => L
  | Parse pres t :: r => loaded_from (L ++ map (pair pres) (text_lines t)) r
  | Clear :: r => loaded_from [] r
  | _ :: r => loaded_from L r
  end.
Definition loaded_lines (calls : list call) : list (bool * bytes) := loaded_from [] calls.

(** [f] is the rule of a loaded line, and belongs to the given collection. *)
Definition loaded_in (E : env) (calls : list call) (k : cls) (f : filter) : Prop :=
  exists pres l, In (pres, l) (loaded_lines calls) /\ parses_to pres l f /\
                 classify E f = Ok k.

(** [f] is a loaded rule of the given category. *)
Definition loaded (E : env) (calls : list call) (t : category) (f : filter) : Prop :=
  exists k, loaded_in E calls k f /\ category_of k = t.

(** The tag was added and not removed since. *)
Definition tag_enabled (calls : list call) (t : bytes) : Prop :=
  exists a b, calls = a ++ AddTag t :: b /\ ~ In (RemoveTag t) b.

Definition tag_on (calls : list call) (f : filter) : Prop :=
  f_tag f = [] \/ tag_enabled calls (f_tag f).

(** [Filter::matches] of the rule alone, without Bloom filter, on the request
    as [AdBlockClient::matches] presents it to rules (party flags derived from
    the page domain). *)
Definition matches_alone (E : env) (f : filter) (url : bytes) (context : N)
    (dom : option bytes) : Prop :=
  exists host, getUrlHost (cstr url) = Ok host /\
    filter_matches E f (cstr url) (length url) (party_context context dom host)
                   dom None [] = Ok true.

(** The rule matches the request and is switched on. *)
Definition applies (E : env) (calls : list call) (f : filter) (url : bytes)
    (context : N) (dom : option bytes) : Prop :=
  matches_alone E f url context dom /\ tag_on calls f.

(** ** Host-only rules ('||host^', kept in an index by host) *)
Definition host_rule (exc : bool) (f : filter) : Prop :=
  has (f_type f) FTHostOnly = true /\ has (f_type f) FTException = exc /\
  f_data f <> None.

(** No line of [L] is a host rule of this kind for the host [h]. *)
Definition no_host_rule (exc : bool) (h : bytes) (L : list (bool * bytes)) : Prop :=
  forall pres l f, In (pres, l) L -> parses_to pres l f -> host_rule exc f ->
                   f_host f <> Some h.

(** [f] is the first loaded host rule of its kind for its host. *)
Definition first_host_rule (calls : list call) (exc : bool) (f : filter) : Prop :=
  host_rule exc f /\
  exists a pres l b h, loaded_lines calls = a ++ (pres, l) :: b /\
    parses_to pres l f /\ f_host f = Some h /\ no_host_rule exc h a.

(** The hosts looked up for a request: the URL's host, and those of its label
    suffixes that still contain a dot. *)
Definition looked_up (host h : bytes) : Prop := h = host \/ wide_suffix host h.

(** ** Rules without fingerprint restricted by page domain *)
Definition only_listed (exc : bool) : cls :=
  CList (if exc then KNoFpDomExc else KNoFpDom).
Definition only_excluded (exc : bool) : cls :=
  CList (if exc then KNoFpAntiExc else KNoFpAnti).

(** Some loaded rule of this kind excludes the page domain, or a suffix of it
    that still contains a dot.  (Without a page domain: some rule excludes the
    empty domain, written '~' alone, and that item lies in the first of the 100
    buckets of the index.) *)
Definition page_excluded (E : env) (calls : list call) (exc : bool)
    (dom : option bytes) : Prop :=
  exists g dl s, loaded_in E calls (only_excluded exc) g /\ f_dom g = Some dl /\
    excludes_domain dl s /\
    match dom with
    | Some d => looked_up d s
    | None => s = [] /\ (e_hash E [] mod 100 = 0)%N
    end.

(** ** Which loaded rules matches() takes into account on page domain [dom] *)
Inductive heeded (E : env) (calls : list call) (exc : bool) (url : bytes)
    (dom : option bytes) : filter -> Prop :=
| heeded_fingerprint f :
    loaded_in E calls (CList (if exc then KException else KFilters)) f ->
    heeded E calls exc url dom f
| heeded_plain f :
    loaded_in E calls (CList (if exc then KNoFpExc else KNoFp)) f ->
    heeded E calls exc url dom f
| heeded_listed f :
    loaded_in E calls (only_listed exc) f -> dom <> None ->
    heeded E calls exc url dom f
| heeded_excluded f :
    loaded_in E calls (only_excluded exc) f ->
    ~ page_excluded E calls exc dom ->
    heeded E calls exc url dom f
| heeded_host f host h :
    first_host_rule calls exc f ->
    url_has_host url host -> f_host f = Some h -> looked_up host h ->
    heeded E calls exc url dom f.

(** Block rules and exception rules. *)
Definition blocker (e : bool) : category := if e then ExceptionRule else BlockRule.

(** Everything loaded, as [findMatchingFilters] sees it. *)
Definition visible (E : env) (calls : list call) (e : bool) (url : bytes) (f : filter) : Prop :=
  (exists k, loaded_in E calls (CList k) f /\ category_of (CList k) = blocker e) \/
  (exists host h, first_host_rule calls e f /\ getUrlHost (cstr url) = Ok host /\
     f_host f = Some h /\ looked_up host h).

(** Same rule up to the terminating NUL of its pattern (hash sets keep copies
    without it). *)
Definition same_content (f g : filter) : Prop :=
  f_type f = f_type g /\ f_opt f = f_opt g /\ f_anti f = f_anti g /\
  option_map fst (f_data f) = option_map fst (f_data g) /\
  f_dom f = f_dom g /\ f_tag f = f_tag g /\ f_host f = f_host g /\ f_rule f = f_rule g.

(** What a query reports: [o] is a loaded rule of the given kind that applies,
    up to [same_content], or there is none among the rules [P]. *)
Definition reported (E : env) (calls : list call) (e : bool) url context dom
    (P : filter -> Prop) (o : option filter) : Prop :=
  match o with
  | Some g => exists f, loaded E calls (blocker e) f /\ applies E calls f url context dom /\
                        P f /\ same_content f g
  | None => forall f, P f -> ~ applies E calls f url context dom
  end.

(** Another environment that differs only in the Bloom filter hash functions. *)
Definition with_bloom_hashes (E : env) (h h2 : list (bytes -> N)) : env :=
  mkEnv (e_bads E) h h2 (e_hash E) (e_regex E).

(** ** Lines that hold no network rule: blank and comment lines, element hiding
    rules and exceptions, HTML filtering rules *)
Inductive no_network_line : bytes -> Prop :=
| nn_comment b s :
    (forall c, In c b -> blank c) -> comment_text s ->
    length (b ++ firstn 1 s) < 2048 -> no_network_line (b ++ s)
| nn_cosmetic d m s :
    domain_list_text d -> m = B "##" \/ m = B "#@" \/ m = B "$$" ->
    length (d ++ m ++ s) < 2048 -> no_network_line (d ++ m ++ s).

(** Among the lines [ls] no two are host rules of the same kind for one host. *)
Definition hosts_distinct (p : bool) (ls : list bytes) : Prop :=
  forall l l' rest e f f' h,
    Permutation ls (l :: l' :: rest) -> parses_to p l f -> parses_to p l' f' ->
    host_rule e f -> host_rule e f' -> f_host f = Some h -> f_host f' <> Some h.

(** Calls that only ask. *)
Definition asks (k : call) : Prop :=
  match k with Ask _ _ _ => True | _ => False end.

(** The same calls with another preserveRules argument. *)
Definition preserving (p : bool) (calls : list call) : list call :=
  map (fun k => match k with Parse _ t => Parse p t | k => k end) calls.

(** A host name as it may stand in a '||host^' rule. *)
Definition host_name (h : bytes) : Prop :=
  h <> [] /\ length h < 2040 /\
  forall c, In c h -> ~ In c separators /\ body_char c /\ c <> "*"%char.
