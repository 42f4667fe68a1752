(** Specification vocabulary for the JavaScript layer and for options that do
    not restrict a rule. *)
From Verif Require Import Base Flags Url Sets FilterM ParseM ClientM JsM Spec SpecM SpecC.

(** Both queries decide alike on every request. *)
Definition same_decisions (E : env) (c1 c2 : client) : Prop :=
  forall url context dom, nonul url ->
  (forall v1 v2 c1' c2',
     matches E c1 (cstr url) context dom = Ok (v1, c1') ->
     matches E c2 (cstr url) context dom = Ok (v2, c2') -> v_block v1 = v_block v2) /\
  (forall v1 v2,
     findMatchingFilters E c1 (cstr url) context dom = Ok v1 ->
     findMatchingFilters E c2 (cstr url) context dom = Ok v2 -> v_block v1 = v_block v2).

(** ** C59: options that only say what to do with a match *)
Definition behavioural_option (w : bytes) : Prop :=
  w = B "important" \/ w = B "explicitcancel" \/
  exists name, w = B "redirect=" ++ name /\ ~ In ","%char name.

Definition with_options (r : rule_syntax) (o : option bytes) : rule_syntax :=
  mkRule (x_exception r) (x_anchor r) (x_body r) (x_right r) o.

(** [l'] is [l], or [l] with one more option of that kind. *)
Inductive behavioural_edit : bytes -> bytes -> Prop :=
| be_same l : behavioural_edit l l
| be_first r w :
    good_rule (with_options r None) -> good_rule (with_options r (Some w)) ->
    behavioural_option w ->
    behavioural_edit (rule_line (with_options r None)) (rule_line (with_options r (Some w)))
| be_more r o w :
    good_rule (with_options r (Some o)) -> good_rule (with_options r (Some (o ++ B "," ++ w))) ->
    behavioural_option w ->
    behavioural_edit (rule_line (with_options r (Some o)))
                     (rule_line (with_options r (Some (o ++ B "," ++ w)))).

(** ** C55, C56: preparing downloaded lists *)

(** What becomes of a line: two rules are marked with 'explicitcancel'. *)
Definition marked (l l' : bytes) : Prop :=
  (l = B "||imasdk.googleapis.com^$third-party" /\
   l' = B "||imasdk.googleapis.com^$third-party,explicitcancel") \/
  (l = B "/ima3.js" /\ l' = B "/ima3.js$explicitcancel") \/
  (l <> B "||imasdk.googleapis.com^$third-party" /\ l <> B "/ima3.js" /\ l' = l).

(** The two rules that are added to every list. *)
Definition ima_rules : bytes :=
  B "||imasdk.googleapis.com/$third-party" ++ LF :: B "^ima3.js".

(** ** C63: rules without options about the page *)

(** No domain=, no third-party; and either the caller names a resource type,
    or the rule has no type option. *)
Definition page_free (context : N) (f : filter) : Prop :=
  f_dom f = None /\ has (f_opt f) FOThirdParty = false /\ has (f_anti f) FOThirdParty = false /\
  (context <> 0%N \/
   N.ldiff (f_opt f) BehavioralFilterOnly = 0%N /\ N.ldiff (f_anti f) BehavioralFilterOnly = 0%N).

(** ** C61: the objects returned by getFilters() *)
Definition array_names : list (bytes * kind) :=
  [ (B "filters", KFilters); (B "exceptionFilters", KException);
    (B "cosmeticFilters", KCosmetic); (B "htmlFilters", KHtml);
    (B "noFingerprintFilters", KNoFp); (B "noFingerprintExceptionFilters", KNoFpExc);
    (B "noFingerprintDomainOnlyFilters", KNoFpDom);
    (B "noFingerprintDomainOnlyExceptionFilters", KNoFpDomExc);
    (B "noFingerprintAntiDomainOnlyFilters", KNoFpAnti);
    (B "noFingerprintAntiDomainOnlyExceptionFilters", KNoFpAntiExc) ].

(** The pieces of a domain list, sorted into listed and excluded domains. *)
Inductive sorted_domains : list bytes -> list bytes -> list bytes -> Prop :=
| sd_nil : sorted_domains [] [] []
| sd_blank ps a b : sorted_domains ps a b -> sorted_domains ([] :: ps) a b
| sd_listed d ps a b : d <> [] -> ~ begins (B "~") d ->
    sorted_domains ps a b -> sorted_domains (d :: ps) (d :: a) b
| sd_excluded d ps a b :
    sorted_domains ps a b -> sorted_domains ((B "~" ++ d) :: ps) a (d :: b).

Definition domains_of (f : filter) (listed excluded : list bytes) : Prop :=
  match f_dom f with
  | None => listed = [] /\ excluded = []
  | Some dl => exists parts, cut_at "|" dl parts /\ sorted_domains parts listed excluded
  end.

(** [o] is the text if there is one and it is not empty. *)
Definition shown (t o : option bytes) : Prop :=
  match t with
  | Some (x :: s) => o = Some (x :: s)
  | _ => o = None
  end.

(** Restricted to pages on listed domains; only excluded from some. *)
Definition listed_only (f : filter) : Prop :=
  exists dl, f_dom f = Some dl /\ (exists s, lists_domain dl s) /\ forall s, ~ excludes_domain dl s.
Definition excluded_only (f : filter) : Prop :=
  exists dl, f_dom f = Some dl /\ (exists s, excludes_domain dl s) /\ forall s, ~ lists_domain dl s.
Definition is_exception (f : filter) : Prop := has (f_type f) FTException = true.

(** [en] describes the rule [f]: its pattern and host (left out when empty),
    its domains, its tag, and the kind of its page restriction. *)
Definition described (f : filter) (en : entry) : Prop :=
  shown (option_map fst (f_data f)) (en_data en) /\
  shown (f_host f) (en_host en) /\
  domains_of f (en_domains en) (en_antiDomains en) /\
  en_tag en = f_tag f /\
  (en_domOnly en = true <-> listed_only f /\ ~ is_exception f) /\
  (en_antiOnly en = true <-> excluded_only f /\ ~ is_exception f) /\
  (en_domOnlyExc en = true <-> listed_only f /\ is_exception f) /\
  (en_antiOnlyExc en = true <-> excluded_only f /\ is_exception f).

(** ** C62: a list of host names *)
Definition host_entry (h : bytes) : Prop := h = [] \/ host_name h.

(** ** C60: what is reported about a rule *)
Definition pattern_of (o : option filter) : option bytes :=
  match o with Some f => option_map fst (f_data f) | None => None end.
Definition text_of (o : option filter) : option bytes :=
  match o with Some f => f_rule f | None => None end.
