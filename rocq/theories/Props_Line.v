(** C18, C23, C46, C48, C52: single lines. *)
From Verif Require Import Base Flags Url Sets FilterM ParseM ClientM Spec SpecM
  P_Base P_Parse P_List P_Line P_Props3 P_Line2 P_Line3 P_Line4 P_Line5 Props_List.

(** C18: parsing a text whose lines are shorter than 2048 bytes, have no '|'
    inside the host of a '||' rule and no domain of more than 1024 bytes never
    leaves its buffers, in any client state and environment. *)
Theorem C18_safe_lines_partial : forall E pres t c,
  nonul t -> (forall l, In l (text_lines t) -> safe_line l) ->
  exists c', parse E pres (cstr t) c = Ok c'.
Proof. exact parse_safe. Qed.
Print Assumptions C18_safe_lines_partial.

(** Any fault is the fault of a single line alone, in a fresh client. *)
Theorem C18_fault_is_one_line : forall E pres t c,
  nonul t ->
  (parse E pres (cstr t) c = UB <->
   exists l, In l (text_lines t) /\ parse E pres (cstr l) client0 = UB).
Proof. exact parse_UB_line. Qed.
Print Assumptions C18_fault_is_one_line.

(** Each of the three restrictions is needed: out of bounds accesses with a bar
    in the host, with a long '||' line, and with a long domain. *)
Theorem C18_refuted_bar : forall E pres c, parse E pres (cstr (B "||a|b")) c = UB.
Proof. exact unsafe_bars. Qed.
Print Assumptions C18_refuted_bar.

Theorem C18_refuted_long : exists l, line_text l /\ bars_fine l /\ domains_fit l /\
  2048 <= length l /\
  forall E pres c, parse E pres (cstr l) c = UB.
Proof. exact unsafe_long_line. Qed.
Print Assumptions C18_refuted_long.

Theorem C18_refuted_domain : exists l, line_text l /\ length l < 2048 /\ bars_fine l /\
  forall E pres c, parse E pres (cstr l) c = UB.
Proof. exact unsafe_domain_line. Qed.
Print Assumptions C18_refuted_domain.

Example C18_example :
  forall l, In l (text_lines (B "||ads.com|" ++ [LF] ++ B "||a.b/c|d$domain=x.y|~z.x.y"))
            -> safe_line l.
Proof. exact safe_example. Qed.

(** C23: blanks in front of a line do not change the parsed rule, unless the
    line ends in '/' and begins with '/', '@' or a blank. *)
Theorem C23_leading_blanks_partial : forall pres b l,
  line_text l -> (forall c, In c b -> blank c) -> length b + length l < 2048 ->
  last l NUL <> "/"%char \/ ~ In (hd NUL l) (TAB :: B " @/") ->
  parse_filter pres (cstr (b ++ l)) (length (b ++ l)) =
  parse_filter pres (cstr l) (length l).
Proof. exact blanks_parse_filter. Qed.
Print Assumptions C23_leading_blanks_partial.

(** The restriction is needed: a regular expression keeps its slash. *)
Theorem C23_refuted :
  rmap (fun x => f_data (fst x)) (parse_filter false (cstr (B "/ad/")) 4) =
    Ok (Some (B "ad", [NUL])) /\
  rmap (fun x => f_data (fst x)) (parse_filter false (cstr (B " /ad/")) 5) =
    Ok (Some (B "/ad", [NUL])).
Proof. vm_compute. auto. Qed.
Print Assumptions C23_refuted.

Example C23_example :
  parse_filter true (cstr (B "  ||ads.com^")) 12 =
  parse_filter true (cstr (B "||ads.com^")) 10 /\
  (last (B "||ads.com^") NUL <> "/"%char \/
   ~ In (hd NUL (B "||ads.com^")) (TAB :: B " @/")).
Proof. split; [vm_compute; reflexivity|]. left. discriminate. Qed.

(** C46: a stored network rule that is not a regular expression carries exactly
    the text of its line without the leading blanks.  (That nothing else
    changes is C46_same_decisions and C19_line_class_agrees.) *)
Theorem C46_text_partial : forall E l f r k,
  line_text l -> length l < 2048 ->
  parse_filter true (cstr l) (length l) = Ok (f, r) ->
  classify E f = Ok k ->
  category_of k = BlockRule \/ category_of k = ExceptionRule ->
  has (f_type f) FTRegex = false ->
  exists t, unblanked l t /\ f_rule f = Some t.
Proof. exact network_text. Qed.
Print Assumptions C46_text_partial.

(** Regular expressions lose their slashes, cosmetic rules their last two
    characters. *)
Theorem C46_refuted :
  rmap (fun x => f_rule (fst x)) (parse_filter true (cstr (B "/ad/")) 4) =
    Ok (Some (B "ad")) /\
  rmap (fun x => f_rule (fst x)) (parse_filter true (cstr (B "a.com##.foo")) 11) =
    Ok (Some (B "a.com##.f")).
Proof. vm_compute. auto. Qed.
Print Assumptions C46_refuted.

Example C46_example :
  rmap (fun x => f_rule (fst x))
       (parse_filter true (cstr (B "  @@||ads.com^$script,domain=a")) 30) =
    Ok (Some (B "@@||ads.com^$script,domain=a")).
Proof. vm_compute. reflexivity. Qed.

(** C48: a line whose text starts with '@@' never becomes a block rule, unless
    the rest ends in '/' and begins with a character that lets a regular
    expression follow. *)
Theorem C48_exceptions_partial : forall E pres b r f x k,
  line_text (b ++ B "@@" ++ r) -> (forall c, In c b -> blank c) ->
  length b < 2046 -> ~ slash_risk r ->
  parse_filter pres (cstr (b ++ B "@@" ++ r)) (length (b ++ B "@@" ++ r)) = Ok (f, x) ->
  classify E f = Ok k -> category_of k <> BlockRule.
Proof. exact exception_class. Qed.
Print Assumptions C48_exceptions_partial.

(** '@@/re/' is stored as a block rule. *)
Theorem C48_refuted : forall E,
  bind (parse_filter false (cstr (B "@@/re/")) 6)
       (fun x => rmap category_of (classify E (fst x))) = Ok BlockRule.
Proof. intros E. vm_compute. reflexivity. Qed.
Print Assumptions C48_refuted.

Example C48_example :
  line_text (B " @@||a.com/x/") /\ ~ slash_risk (B "||a.com/x/") /\
  bind (parse_filter false (cstr (B " @@||a.com/x/")) 13)
       (fun x => classify E0 (fst x)) = Ok (CList KException).
Proof.
  split; [|split].
  - intros c I. vm_compute in I.
    repeat (destruct I as [<-|I]; [repeat split; discriminate|]). destruct I.
  - intros [_ H]. vm_compute in H.
    repeat (destruct H as [H|H]; [discriminate H|]). destruct H.
  - vm_compute. reflexivity.
Qed.

(** C52: what each line becomes.  Network rules: *)
Theorem C52_network_rules : forall E pres r f b,
  good_rule r ->
  parse_filter pres (cstr (rule_line r)) (length (rule_line r)) = Ok (f, b) ->
  exists k, classify E f = Ok k /\
    category_of k =
      if hasUnsupportedOptions f then Nothing
      else if x_exception r then ExceptionRule else BlockRule.
Proof. exact rule_category. Qed.
Print Assumptions C52_network_rules.

(** and their collections: *)
Theorem C52_collections : forall E pres r f b k,
  good_rule r ->
  parse_filter pres (cstr (rule_line r)) (length (rule_line r)) = Ok (f, b) ->
  classify E f = Ok k -> k <> CSkip ->
  ((exists e, k = CHost e) <-> names_only_host r) /\
  (forall j, k = CList j ->
     exists g, getFingerprint E f = Ok g /\
     (g <> None <-> j = KFilters \/ j = KException) /\
     (j = KNoFpDom \/ j = KNoFpDomExc <->
        g = None /\ f_domains f <> [] /\ f_antiDomains f = []) /\
     (j = KNoFpAnti \/ j = KNoFpAntiExc <->
        g = None /\ f_domains f = [] /\ f_antiDomains f <> [])).
Proof. exact rule_collection. Qed.
Print Assumptions C52_collections.

(** Cosmetic and HTML rules, with the selector and the domains: *)
Theorem C52_cosmetic_rules : forall E pres d m s,
  domain_list_text d -> line_text s -> length (d ++ m ++ s) < 2048 ->
  m = B "##" \/ m = B "#@" \/ m = B "$$" ->
  exists f, parse_filter pres (cstr (d ++ m ++ s)) (length (d ++ m ++ s)) = Ok (f, true) /\
    classify E f = Ok (CList (if beq m (B "$$") then KHtml else KCosmetic)) /\
    f_type f = (if beq m (B "##") then FTElementHiding
                else if beq m (B "#@") then FTElementHidingException
                else FTHTMLFiltering) /\
    f_data f = Some (s, [NUL]) /\
    f_dom f = match d with [] => None | _ => Some d end.
Proof. exact cosmetic_rule. Qed.
Print Assumptions C52_cosmetic_rules.

(** Every line whatsoever: the collection agrees with the type bits. *)
Theorem C52_every_line : forall E pres l f b k,
  line_text l ->
  parse_filter pres (cstr l) (length l) = Ok (f, b) ->
  classify E f = Ok k -> category_of k = type_category f.
Proof. exact any_category. Qed.
Print Assumptions C52_every_line.

Definition ex_rule : rule_syntax :=
  mkRule true HostBars (B "ads.com^") false (Some (B "script,domain=a.com|b.com")).

Example C52_example_rule : good_rule ex_rule /\ names_only_host ex_rule /\
  rule_line ex_rule = B "@@||ads.com^$script,domain=a.com|b.com".
Proof. exact ex_rule_good. Qed.

Example C52_example_cosmetic :
  domain_list_text (B "a.com,~b.a.com") /\
  rmap (fun x => f_dom (fst x))
    (parse_filter false (cstr (B "a.com,~b.a.com##.ad")) 19) =
  Ok (Some (B "a.com,~b.a.com")).
Proof. split; [exact ex_domains|vm_compute; reflexivity]. Qed.
