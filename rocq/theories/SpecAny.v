(** What a list of any lines says about any request (C99). *)
From Verif Require Import Base Flags Url Sets FilterM ParseM ClientM Spec SpecM SpecC SpecQ
  SpecE SpecN SpecG SpecR SpecLine.

(** The network rule a line states: exception or not, anchor, the text behind the
    front, the pattern, whether a bar in it anchors it on the right, and the text
    of its options. *)
Record terms := mkTerms {
  q_exception : bool;
  q_anchor : anchor;
  q_rest : bytes;
  q_pattern : bytes;
  q_right : bool;
  q_options : option bytes
}.

Definition has_bar (s : bytes) : bool := existsb (Ascii.eqb "|") s.

(** A rule without options must end before the 2048th character; the options of a
    rule must begin there. *)
Inductive states (l : bytes) : terms -> Prop :=
| states_plain exc k a t body x :
    reads l (IsRule exc k a t body AtEnd x) -> length l < 2048 ->
    states l (mkTerms exc a t (k ++ without_bars body) (has_bar body) None)
| states_options exc k a t body o x :
    reads l (IsRule exc k a t body (WithOptions o) x) -> length l < 2048 + length o ->
    states l (mkTerms exc a t (k ++ without_bars body) (has_bar body) (Some o)).

Definition parts_of (q : terms) (parts : list bytes) : Prop :=
  match q_options q with
  | None => parts = []
  | Some o => cut_at "," o parts
  end.

(** The rule names only a host. *)
Definition only_host (q : terms) : Prop :=
  q_anchor q = HostBars /\ exists h, host_behind (q_rest q) h /\ nothing_else (q_rest q) h.

(** ** Options *)
Definition listed (parts : list bytes) (c : N) : Prop :=
  exists n, positive_option parts n /\ denotes n c.
Definition negated (parts : list bytes) (c : N) : Prop :=
  exists n, negative_option parts n /\ denotes n c.

Definition not_supported : list N :=
  [FOPopup; FOCSP; FOElemHide; FOGenericHide; FOGenericBlock; FOEmpty; FOUnknown].
Definition not_about_types : list N :=
  [FORedirect; FOImportant; FOExplicitCancel; FOThirdParty; FONotThirdParty].
Definition type_bit (c : N) : Prop := exists n, In n resource_types /\ In (n, c) option_table.

Definition options_allow (parts : list bytes) (context : N) (uh : bytes)
    (page : option bytes) : Prop :=
  (forall c, listed parts c -> ~ In c not_supported) /\
  (common context FODocument -> listed parts FODocument) /\
  (bare_request context page -> forall c, listed parts c \/ negated parts c -> ~ type_bit c) /\
  (~ bare_request context page ->
   ((forall c, listed parts c -> In c not_about_types) \/
    exists c, listed parts c /\ type_bit c /\ common c context) /\
   forall c, negated parts c -> type_bit c -> ~ common c context) /\
  (forall dl d, last_value (B "domain=") parts dl -> page = Some d -> domain_applies dl d) /\
  (listed parts FOThirdParty -> ~ same_party context page uh) /\
  (negated parts FOThirdParty -> ~ other_party context page uh).

(** The host a request is for: that of the URL, or none if it has no colon. *)
Definition host_asked (url uh : bytes) : Prop :=
  url_has_host url uh \/ (~ In ":"%char url /\ uh = []).

(** ** The pattern *)
Definition pieces_in (p url : bytes) : Prop :=
  exists pieces, pieces_of p pieces /\ pieces_found url 0 pieces.

Definition pattern_meets (q : terms) (url uh : bytes) : Prop :=
  match q_anchor q, q_right q with
  | LeftBar, true => url = q_pattern q
  | LeftBar, false => begins (q_pattern q) url
  | _, true => exists before, url = before ++ q_pattern q
  | NoAnchor, false => pieces_in (q_pattern q) url
  | HostBars, false =>
      exists h, host_behind (q_rest q) h /\ first_party h uh /\ pieces_in (q_pattern q) url
  end.

Definition terms_meet (calls : list call) (q : terms) (url uh : bytes) (context : N)
    (page : option bytes) : Prop :=
  pattern_meets q url uh /\
  exists parts, parts_of q parts /\ options_allow parts context uh page /\
    forall t, last_value (B "tag=") parts t -> t = [] \/ tag_enabled calls t.

(** The search for the pieces of the pattern reads behind the URL. *)
Definition overruns (q : terms) (url : bytes) : Prop :=
  q_anchor q <> LeftBar /\ q_right q = false /\
  exists pieces, pieces_of (q_pattern q) pieces /\ overreads (fun _ => True) url 0 pieces.

Definition terms_apply (calls : list call) (q : terms) (url uh : bytes) (context : N)
    (page : option bytes) : Prop :=
  terms_meet calls q url uh context page /\ ~ overruns q url.

(** ** Lists *)

Definition stated (calls : list call) (q : terms) : Prop :=
  exists pres l, In (pres, l) (loaded_lines calls) /\ states l q.

(** Trying the rule stays inside its pattern and the URL. *)
Definition safe_terms (q : terms) : Prop :=
  (q_anchor q = LeftBar \/ q_right q = true \/ carets_outside (q_pattern q)) /\
  (only_host q ->
   q_pattern q <> [] /\ last (q_pattern q) NUL <> "*"%char /\ q_right q = false).

(** Trying the rule on this URL can leave the URL or the copy of the pattern. *)
Definition faulty_terms (q : terms) (url : bytes) : Prop :=
  overruns q url \/
  (only_host q /\
   (q_pattern q = [] \/ last (q_pattern q) NUL = "*"%char \/ q_right q = true)).

(** All network rules are safe to try. *)
Definition any_list (calls : list call) : Prop :=
  forall q, stated calls q -> safe_terms q.

(** ** Which rules are listened to *)

(** No rule of its kind for its host before it. *)
Definition first_stated (calls : list call) (q : terms) : Prop :=
  exists a pres l b, loaded_lines calls = a ++ (pres, l) :: b /\ states l q /\
    forall pres' l' q' h, In (pres', l') a -> states l' q' ->
      only_host q' -> q_exception q' = q_exception q ->
      host_behind (q_rest q) h -> ~ host_behind (q_rest q') h.

Definition supported_terms (q : terms) : Prop :=
  forall parts c, parts_of q parts -> listed parts c -> ~ In c not_supported.

(** Not for a host, without a fingerprint, and with a domain list. *)
Definition short_terms (bads : list bytes) (q : terms) (dl : bytes) : Prop :=
  ~ only_host q /\ no_fp bads (q_pattern q) /\
  exists parts, parts_of q parts /\ last_value (B "domain=") parts dl.

Definition page_shut (E : env) (calls : list call) (e : bool) (page : option bytes) : Prop :=
  exists q dl s, stated calls q /\ q_exception q = e /\ supported_terms q /\
    short_terms (e_bads E) q dl /\ (forall s', ~ lists_domain dl s') /\ excludes_domain dl s /\
    match page with
    | Some d => looked_up d s
    | None => s = [] /\ (e_hash E [] mod 100 = 0)%N
    end.

(** Heard by findMatchingFilters(). *)
Definition terms_noticed (calls : list call) (q : terms) (uh : bytes) : Prop :=
  only_host q ->
  first_stated calls q /\ forall h, host_behind (q_rest q) h -> looked_up uh h.

(** Heard by matches(). *)
Definition terms_heard (E : env) (calls : list call) (q : terms) (uh : bytes)
    (page : option bytes) : Prop :=
  terms_noticed calls q uh /\
  forall dl, short_terms (e_bads E) q dl ->
    ((forall s, ~ excludes_domain dl s) -> page <> None) /\
    ((forall s, ~ lists_domain dl s) -> ~ page_shut E calls (q_exception q) page).

(** Some loaded regular expression, which begins before the 2048th character of its
    line, matches, and the request is not for a document. *)
Definition expression_fits (E : env) (calls : list call) (url : bytes) (context : N) : Prop :=
  ~ common context FODocument /\
  exists pres l p, In (pres, l) (loaded_lines calls) /\ reads l (IsExpression p) /\
    within l (IsExpression p) /\ e_regex E p url = true.
