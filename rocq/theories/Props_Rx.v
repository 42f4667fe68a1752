(** C23, C24, C25, C46, C48 without exceptions, and C92: lines read as regular
    expressions and abbreviated options. *)
From Verif Require Import Base Flags Url Sets FilterM ParseM ClientM Spec SpecM SpecC SpecQ SpecE SpecG
  P_Base P_Parse P_List P_Line P_Line5 P_Opt  P_Opt P_Opt2 P_Rx P_Abb P_Abb2 Props_List.

(** C23: blanks in front of a line change the parsed rule exactly when the line
    ends in '/' and has a '/' behind its blanks and exception marks. *)
Theorem C23_exactly : forall pres bl l,
  line_text l -> bl <> [] -> (forall c, In c bl -> blank c) ->
  length bl + length l < 2048 ->
  (parse_filter pres (cstr (bl ++ l)) (length (bl ++ l)) =
   parse_filter pres (cstr l) (length l) <->
   ~ exists a, slashed l a).
Proof. exact blanks_exact. Qed.
Print Assumptions C23_exactly.

Example C23_exact_example :
  slashed (B "@@/re/") (B "@@") /\ ~ (exists a, slashed (B "||a.com/") a).
Proof.
  split.
  - split; [reflexivity|]. exists [], (B "re/"). split; [easy|]. split; [|reflexivity].
    apply (marks_more [] [] []); try easy. constructor.
  - intros (a & S). pose proof (slashed_scan _ _ S) as K. vm_compute in K. discriminate K.
Qed.

(** C24: the option bits of a rule, whatever names it has. *)
Theorem C24_exactly : forall pres r f o parts,
  good_rule r -> x_options r = Some o -> cut_at "," o parts ->
  parses_to pres (rule_line r) f ->
  (forall i, N.testbit (f_opt f) i = true <->
     exists n c, positive_option parts n /\ denotes n c /\ N.testbit c i = true) /\
  (forall i, N.testbit (f_anti f) i = true <->
     exists n c, negative_option parts n /\ denotes n c /\ N.testbit c i = true).
Proof. intros pres r f o parts G O C [b HP]. eapply options_denote; eauto. Qed.
Print Assumptions C24_exactly.

(** Every name without a value stands for exactly one option. *)
Theorem C24_one_meaning : forall n,
  ~ begins (B "domain=") n -> ~ begins (B "tag=") n ->
  exists c, denotes n c /\ forall d, denotes n d -> d = c.
Proof. exact denotes_total. Qed.
Print Assumptions C24_one_meaning.

(** A name that is not abbreviated stands for what it says. *)
Theorem C24_own_meaning : forall n c,
  ~ abbreviation n -> (denotes n c <-> name_bit n c).
Proof. exact denotes_name. Qed.
Print Assumptions C24_own_meaning.

(** "s" and the empty name are "script", "st" is "stylesheet", "x" is
    "xmlhttprequest". *)
Example C24_exact_example :
  denotes (B "s") FOScript /\ denotes [] FOScript /\ denotes (B "st") FOStylesheet /\
  denotes (B "x") FOXmlHttpRequest /\ denotes (B "foo") FOUnknown.
Proof.
  repeat split; (apply denotes_spec;
    [apply not_begins; reflexivity|apply not_begins; reflexivity|vm_compute; reflexivity]).
Qed.

(** C25: exactly the rules with an option that stands for an unsupported one are
    not stored, and they match nothing. *)
Theorem C25_exactly : forall E pres r f parts,
  good_rule r -> option_parts r parts -> parses_to pres (rule_line r) f ->
  let off := exists n c, positive_option parts n /\ denotes n c /\
     In c [FOPopup; FOCSP; FOElemHide; FOGenericHide; FOGenericBlock; FOEmpty; FOUnknown] in
  (classify E f = Ok CSkip <-> off) /\
  (off -> forall input len context dom bf host,
     filter_matches E f input len context dom bf host = Ok false).
Proof. intros E pres r f parts G O [b HP]. eapply skip_exactly; eauto. Qed.
Print Assumptions C25_exactly.

Example C25_exact_example :
  denotes (B "po") FOPopup /\ positive_option [B "po"; B "~image"] (B "po") /\
  rmap (fun x => classify E0 (fst x)) (parse_filter false (cstr (B "ad$po,~image")) 12) =
    Ok (Ok CSkip).
Proof.
  split; [|split].
  - apply denotes_spec; [apply not_begins; reflexivity|apply not_begins; reflexivity|].
    vm_compute; reflexivity.
  - split; [now left|]. apply not_begins. reflexivity.
  - vm_compute. reflexivity.
Qed.

(** C46: the kept text of any stored network rule: the line without its blanks,
    or the regular expression. *)
Theorem C46_text_exactly : forall E l f r k,
  line_text l -> length l < 2048 ->
  parse_filter true (cstr l) (length l) = Ok (f, r) ->
  classify E f = Ok k ->
  category_of k = BlockRule \/ category_of k = ExceptionRule ->
  (~ regex_line l /\ exists t, unblanked l t /\ f_rule f = Some t) \/
  (exists a, slashed l a /\ 1 < length l /\ f_rule f = Some (regex_pattern l a) /\
     f_data f = Some (regex_pattern l a, [NUL])).
Proof. exact network_text2. Qed.
Print Assumptions C46_text_exactly.

(** Element hiding rules lose their last two characters; HTML rules keep their
    text. *)
Theorem C46_cosmetic_text : forall E l f r k,
  line_text l -> length l < 2048 ->
  parse_filter true (cstr l) (length l) = Ok (f, r) ->
  classify E f = Ok k ->
  (category_of k = Cosmetic ->
   exists t y z, unblanked l (t ++ [y; z]) /\ f_rule f = Some t) /\
  (category_of k = HtmlRule -> exists t, unblanked l t /\ f_rule f = Some t).
Proof. exact cosmetic_text. Qed.
Print Assumptions C46_cosmetic_text.

(** C48: a line whose text starts with '@@' becomes a block rule exactly when it
    is read as a regular expression. *)
Theorem C48_exactly : forall E pres b r f x k,
  line_text (b ++ B "@@" ++ r) -> (forall c, In c b -> blank c) ->
  length (b ++ B "@@" ++ r) < 2048 ->
  parse_filter pres (cstr (b ++ B "@@" ++ r)) (length (b ++ B "@@" ++ r)) = Ok (f, x) ->
  classify E f = Ok k ->
  (category_of k = BlockRule <-> regex_line (b ++ B "@@" ++ r)).
Proof. exact exception_exact. Qed.
Print Assumptions C48_exactly.

(** C92: exactly these lines are read as regular expressions, *)
Theorem C92_regex_lines : forall pres l f x,
  line_text l -> length l < 2048 ->
  parse_filter pres (cstr l) (length l) = Ok (f, x) ->
  (has (f_type f) FTRegex = true <-> regex_line l).
Proof. exact regex_exact. Qed.
Print Assumptions C92_regex_lines.

(** they become block rules with that expression and no options, *)
Theorem C92_regex_rule : forall E pres l a,
  line_text l -> 1 < length l < 2048 -> slashed l a ->
  exists f, parse_filter pres (cstr l) (length l) = Ok (f, false) /\
    f = mkF FTRegex 0 0 (Some (regex_pattern l a, [NUL])) None [] None
          (if pres then Some (regex_pattern l a) else None) /\
    exists k, classify E f = Ok k /\ category_of k = BlockRule.
Proof.
  intros E pres l a Hl Ln S. eexists. split; [now apply (regex_result pres l a)|]. split; [reflexivity|].
  exists (CList KNoFp). split; [|reflexivity].
  apply (regex_rule_class E pres l a _ false Hl Ln S). now apply (regex_result pres l a).
Qed.
Print Assumptions C92_regex_rule.

(** and match the URLs the expression matches, except for documents. *)
Theorem C92_regex_matches : forall E pres l a f x u len context dom bf host,
  line_text l -> 1 < length l < 2048 -> slashed l a -> nonul u ->
  parse_filter pres (cstr l) (length l) = Ok (f, x) ->
  filter_matches E f (cstr u) len context dom bf host =
  Ok (negb (has context FODocument) && e_regex E (regex_pattern l a) u).
Proof. exact regex_rule_matches. Qed.
Print Assumptions C92_regex_matches.

(** Written in the usual way the expression is what is between the slashes. *)
Theorem C92_usual_form : forall m,
  slashed (B "/" ++ m ++ B "/") [] /\ regex_pattern (B "/" ++ m ++ B "/") [] = m.
Proof. exact slashed_plain. Qed.
Print Assumptions C92_usual_form.

(** With blanks or exception marks in front it is not. *)
Example C92_example :
  regex_line (B "/ad[0-9]/") /\ regex_pattern (B "/ad[0-9]/") [] = B "ad[0-9]" /\
  regex_line (B " /ad/") /\ regex_pattern (B " /ad/") [] = B "/ad" /\
  regex_line (B "@@/ad/") /\ regex_pattern (B "@@/ad/") (B "@@") = B "@/ad" /\
  ~ regex_line (B "/ad") /\ ~ regex_line (B "ad/") /\ ~ regex_line (B "/").
Proof.
  assert (forall l a b r, 1 < length l -> last l NUL = "/"%char ->
    forallb blankb b = true -> marks a -> l = b ++ a ++ "/"%char :: r -> regex_line l) as K.
  { intros l a b r L Q Hb M ->. split; auto. exists a. split; auto. exists b, r.
    split; auto. intros c I. rewrite forallb_forall in Hb. apply blankb_ok. auto. }
  split; [apply (K _ [] [] (B "ad[0-9]/")); try reflexivity; [cbn; lia|constructor]|].
  split; [reflexivity|].
  split; [apply (K _ [] (B " ") (B "ad/")); try reflexivity; [cbn; lia|constructor]|].
  split; [reflexivity|].
  split; [apply (K _ (B "@@") [] (B "ad/")); try reflexivity; [cbn; lia|]|].
  { apply (marks_more [] [] []); try easy. constructor. }
  split; [reflexivity|].
  split; [intros (_ & a & Q & _); discriminate Q|].
  split; [|intros (L & _); cbn in L; lia].
  intros (_ & a & S). pose proof (slashed_scan _ _ S) as X. vm_compute in X. discriminate X.
Qed.
