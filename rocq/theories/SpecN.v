(** What a list of rules in the usual syntax says about any request, with or
    without a page, read off the text of the rules and their order alone, and
    which of the rules the two entry points listen to (C79, C34). *)
From Verif Require Import Base Flags Url Sets FilterM ParseM ClientM Spec SpecM SpecC SpecQ SpecE.

(** The caller said that the request stays with its page, or did not say and the
    hosts do. *)
Definition same_party (context : N) (page : option bytes) (uh : bytes) : Prop :=
  common context FONotThirdParty \/
  (~ common context (N.lor FOThirdParty FONotThirdParty) /\
   exists d, page = Some d /\ first_party d uh).
Definition other_party (context : N) (page : option bytes) (uh : bytes) : Prop :=
  common context FOThirdParty \/
  (~ common context (N.lor FOThirdParty FONotThirdParty) /\
   exists d, page = Some d /\ ~ first_party d uh).

(** Nothing is known about the request: no type, no party and no page. *)
Definition bare_request (context : N) (page : option bytes) : Prop :=
  context = 0%N /\ page = None.

Definition types_fit (parts : list bytes) (context : N) (page : option bytes) : Prop :=
  (bare_request context page ->
   forall n, positive_option parts n \/ negative_option parts n -> ~ In n resource_types) /\
  (~ bare_request context page ->
   ((forall n, positive_option parts n -> untyped_option n) \/
    exists n, positive_option parts n /\ declared context n) /\
   (forall n, negative_option parts n -> ~ declared context n)).

(** The options against any request. *)
Definition options_meet (parts : list bytes) (context : N) (uh : bytes)
    (page : option bytes) : Prop :=
  (forall n, positive_option parts n -> ~ unsupported_option n) /\
  (declared context (B "document") -> positive_option parts (B "document")) /\
  types_fit parts context page /\
  (forall dl d, last_domain parts dl -> page = Some d -> domain_applies dl d) /\
  (positive_option parts (B "third-party") -> ~ same_party context page uh) /\
  (negative_option parts (B "third-party") -> ~ other_party context page uh).

Definition rule_meets (calls : list call) (r : rule_syntax) (url uh : bytes)
    (context : N) (page : option bytes) : Prop :=
  pattern_fits r url uh /\
  exists parts, option_parts r parts /\ options_meet parts context uh page /\
    forall t, last_tag parts t -> t = [] \/ tag_enabled calls t.

(** ** Which rules are listened to *)

(** A line for a rule that names only a host, with no line for another rule of
    its kind for that host before it. *)
Definition first_for_host (calls : list call) (r : rule_syntax) : Prop :=
  exists a pres b, loaded_lines calls = a ++ (pres, rule_line r) :: b /\
    forall pres' r' h, In (pres', rule_line r') a -> usual_rule r' ->
      names_only_host r' -> x_exception r' = x_exception r ->
      body_host (x_body r) h -> ~ body_host (x_body r') h.

Definition supported_rule (r : rule_syntax) : Prop :=
  forall parts n, option_parts r parts -> positive_option parts n -> ~ unsupported_option n.

(** Rules that do not name only a host and whose pattern has no fingerprint, with
    a domain list. *)
Definition short_rule (bads : list bytes) (r : rule_syntax) (dl : bytes) : Prop :=
  ~ names_only_host r /\ no_fp bads (x_body r) /\
  exists parts, option_parts r parts /\ last_domain parts dl.

(** Some loaded short rule of this kind with excluded domains only excludes the
    page (or, without a page, the empty domain, if the index happens to look for
    it). *)
Definition page_barred (E : env) (calls : list call) (e : bool) (page : option bytes) : Prop :=
  exists r dl s, rule_loaded calls r /\ x_exception r = e /\ supported_rule r /\
    short_rule (e_bads E) r dl /\ (forall s', ~ lists_domain dl s') /\ excludes_domain dl s /\
    match page with
    | Some d => looked_up d s
    | None => s = [] /\ (e_hash E [] mod 100 = 0)%N
    end.

(** findMatchingFilters() listens to all rules but hidden host rules. *)
Definition noticed (calls : list call) (r : rule_syntax) (uh : bytes) : Prop :=
  names_only_host r ->
  first_for_host calls r /\ forall h, body_host (x_body r) h -> looked_up uh h.

(** matches() does not listen to some short rules either. *)
Definition listened (E : env) (calls : list call) (r : rule_syntax) (uh : bytes)
    (page : option bytes) : Prop :=
  noticed calls r uh /\
  forall dl, short_rule (e_bads E) r dl ->
    ((forall s, ~ excludes_domain dl s) -> page <> None) /\
    ((forall s, ~ lists_domain dl s) -> ~ page_barred E calls (x_exception r) page).

(** Loaded rules that matches() does not consult for this request: rules for
    listed page domains without a page, rules with excluded page domains on an
    excluded page. *)
Definition overlooked (E : env) (calls : list call) (e : bool) (dom : option bytes)
    (f : filter) : Prop :=
  (loaded_in E calls (only_listed e) f /\ dom = None) \/
  (loaded_in E calls (only_excluded e) f /\ page_excluded E calls e dom).
