(** C25-C28, asked of a client: whatever it was told before, the rule that matches()
    or findMatchingFilters() answers a request with has options that admit the
    request. *)
From Verif Require Import Base Flags Protocol Url Sets FilterM ParseM ClientM Spec SpecM SpecC SpecAnswer
  P_Base P_Opt2 P_Match2 P_Ex P_Answer Props_List Props_Opt.

(** C25: it has no unsupported option. *)
Theorem C25_answers : forall E calls url context dom g pres r f o parts n c,
  history calls -> nonul url -> answers E calls url context dom g ->
  good_rule r -> parses_to pres (rule_line r) f -> same_content g f ->
  x_options r = Some o -> cut_at "," o parts ->
  positive_option parts n -> ~ abbreviation n -> name_bit n c ->
  ~ In c [FOPopup; FOCSP; FOElemHide; FOGenericHide; FOGenericBlock; FOEmpty; FOUnknown].
Proof. intros; eapply answer_supported; eauto. Qed.
Print Assumptions C25_answers.

(** C26: if it names types, the caller has declared one of them, and the caller has
    declared none of the types it excludes. *)
Theorem C26_answers_partial : forall E calls url context dom g pres r f o parts,
  history calls -> nonul url -> answers E calls url context dom g ->
  good_rule r -> parses_to pres (rule_line r) f -> same_content g f ->
  x_options r = Some o -> cut_at "," o parts -> written_out parts ->
  (forall n, In n resource_types -> positive_option parts n ->
     exists m c, In m resource_types /\ positive_option parts m /\
                 In (m, c) option_table /\ common context c) /\
  (forall n c, In n resource_types -> negative_option parts n ->
     In (n, c) option_table -> ~ common context c).
Proof. intros; eapply answer_types; eauto. Qed.
Print Assumptions C26_answers_partial.

(** C27: for a document it has the option "document". *)
Theorem C27_answers : forall E calls url context dom g pres r f,
  history calls -> nonul url -> answers E calls url context dom g ->
  good_rule r -> parses_to pres (rule_line r) f -> same_content g f ->
  common context FODocument ->
  exists o parts, x_options r = Some o /\ cut_at "," o parts /\
    (written_out parts -> positive_option parts (B "document")).
Proof. intros; eapply answer_document; eauto. Qed.
Print Assumptions C27_answers.

(** C28: its "domain=" admits the page. *)
Theorem C28_answers_partial : forall E calls url context g pres r f o parts dl d,
  history calls -> nonul url -> answers E calls url context (Some d) g ->
  good_rule r -> parses_to pres (rule_line r) f -> same_content g f ->
  x_options r = Some o -> cut_at "," o parts -> last_domain parts dl ->
  domain_applies dl d.
Proof. intros; eapply answer_domain; eauto. Qed.
Print Assumptions C28_answers_partial.

(** A client that answers with such a rule, and only when its options admit it. *)
Example C28_answers_example :
  let r := mkRule false NoAnchor (B "/ad/banner") false (Some (B "script,domain=a.com|~b.a.com")) in
  let calls := [Parse false (rule_line r)] in
  let go context d := rmap v_filter (asked E0 calls (B "http://x.com/ad/banner") context (Some d)) in
  good_rule r /\
  go FOScript (B "x.a.com") = Ok (Some (rule_at false (rule_line r))) /\
  go FOScript (B "b.a.com") = Ok None /\ go FOImage (B "a.com") = Ok None /\
  go (N.lor FOScript FODocument) (B "a.com") = Ok None.
Proof.
  cbv zeta. split; [now apply good_ruleb_ok|].
  repeat (split; [vm_compute; reflexivity|]). vm_compute; reflexivity.
Qed.
