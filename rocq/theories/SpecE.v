(** What a list of rules in the usual syntax says about a request, read off the
    text of the rules alone (C79). *)
From Verif Require Import Base Flags Url Sets FilterM ParseM ClientM Spec SpecM SpecC SpecQ.

(** The options of a rule, one by one. *)
Definition option_parts (r : rule_syntax) (parts : list bytes) : Prop :=
  match x_options r with
  | None => parts = []
  | Some o => cut_at "," o parts
  end.

(** Option names are written out; domain= and tag= are not negated. *)
Definition usual_options (parts : list bytes) : Prop :=
  written_out parts /\
  forall s, In s parts -> ~ begins (B "~domain=") s /\ ~ begins (B "~tag=") s.

(** The value of the last tag= option counts. *)
Definition last_tag (parts : list bytes) (t : bytes) : Prop :=
  exists a b, parts = a ++ (B "tag=" ++ t) :: b /\
    forall s, In s b -> ~ begins (B "tag=") s.

(** The pattern against the URL [url] with host [uh].  A right bar makes the
    pattern literal text at the end of the URL, whatever is on the left except
    a single bar. *)
Definition pattern_fits (r : rule_syntax) (url uh : bytes) : Prop :=
  match x_anchor r, x_right r with
  | LeftBar, true => url = x_body r
  | LeftBar, false => exists rest, url = x_body r ++ rest
  | _, true => exists before, url = before ++ x_body r
  | NoAnchor, false =>
      exists pieces, pieces_of (x_body r) pieces /\ pieces_found url 0 pieces
  | HostBars, false =>
      exists h pieces, body_host (x_body r) h /\ first_party h uh /\
        pieces_of (x_body r) pieces /\ pieces_found url 0 pieces
  end.

(** The request declares this resource type. *)
Definition declared (context : N) (n : bytes) : Prop :=
  In n resource_types /\ exists c, In (n, c) option_table /\ common c context.

(** Options the engine does not implement. *)
Definition unsupported_option (n : bytes) : Prop :=
  exists c, name_bit n c /\
    In c [FOPopup; FOCSP; FOElemHide; FOGenericHide; FOGenericBlock; FOEmpty; FOUnknown].

(** Options that say nothing about resource types. *)
Definition untyped_option (n : bytes) : Prop :=
  In n (map (fun s => B s) ["third-party"; "first-party"; "important"; "explicitcancel"]%string) \/
  begins (B "redirect=") n \/ begins (B "domain=") n \/ begins (B "tag=") n.

(** The options against a request for a resource of the types in [context], from
    host [uh], on a page of domain [d]. *)
Definition options_fit (parts : list bytes) (context : N) (uh d : bytes) : Prop :=
  (forall n, positive_option parts n -> ~ unsupported_option n) /\
  (declared context (B "document") -> positive_option parts (B "document")) /\
  ((forall n, positive_option parts n -> untyped_option n) \/
   exists n, positive_option parts n /\ declared context n) /\
  (forall n, negative_option parts n -> ~ declared context n) /\
  (forall dl, last_domain parts dl -> domain_applies dl d) /\
  (positive_option parts (B "third-party") -> ~ first_party d uh) /\
  (negative_option parts (B "third-party") -> first_party d uh).

(** The rule says that the request is concerned. *)
Definition rule_fits (calls : list call) (r : rule_syntax) (url uh : bytes)
    (context : N) (d : bytes) : Prop :=
  pattern_fits r url uh /\
  exists parts, option_parts r parts /\ options_fit parts context uh d /\
    forall t, last_tag parts t -> t = [] \/ tag_enabled calls t.

(** A rule in the usual syntax, with options written out, that can be tried
    safely. *)
Definition usual_rule (r : rule_syntax) : Prop :=
  good_rule r /\ safe_syntax r /\ exists parts, option_parts r parts /\ usual_options parts.

(** Every loaded line is such a rule, a comment or a cosmetic rule. *)
Definition usual_list (calls : list call) : Prop :=
  forall pres l, In (pres, l) (loaded_lines calls) ->
    no_network_line l \/ exists r, l = rule_line r /\ usual_rule r.

(** [r] is the rule of a loaded line. *)
Definition rule_loaded (calls : list call) (r : rule_syntax) : Prop :=
  usual_rule r /\ exists pres, In (pres, rule_line r) (loaded_lines calls).

(** Rules that name only a host: one rule for each host, and hosts have at least
    two labels (or are the host of the request). *)
Definition usual_hosts (calls : list call) (uh : bytes) : Prop :=
  (forall r h, rule_loaded calls r -> names_only_host r -> body_host (x_body r) h ->
     In "."%char h \/ h = uh) /\
  (forall r r' h, rule_loaded calls r -> rule_loaded calls r' ->
     names_only_host r -> names_only_host r' ->
     x_exception r = x_exception r' ->
     body_host (x_body r) h -> body_host (x_body r') h -> r' = r).

(** The rule is restricted by excluded page domains only, and no six bytes of its
    pattern can serve as fingerprint. *)
Definition short_exclusion (bads : list bytes) (r : rule_syntax) (dl : bytes) : Prop :=
  no_fp bads (x_body r) /\
  exists parts, option_parts r parts /\ last_domain parts dl /\
    forall s, ~ lists_domain dl s.

Definition excludes_page (dl d : bytes) : Prop :=
  exists s, wide_suffix d s /\ excludes_domain dl s.

(** Such rules of one kind agree about the page: none excludes it, or all do. *)
Definition agree_on_page (bads : list bytes) (calls : list call) (d : bytes) : Prop :=
  forall r r' dl dl', rule_loaded calls r -> rule_loaded calls r' ->
    x_exception r = x_exception r' ->
    short_exclusion bads r dl -> short_exclusion bads r' dl' ->
    excludes_page dl d -> excludes_page dl' d.
