(** C29, asked of a client: the rules that a request is answered with. *)
From Verif Require Import Base Flags Protocol Url Sets FilterM ParseM ClientM Spec SpecM SpecC SpecParty
  P_Base P_Match2 P_Ex P_Party Props_List.

(** Whatever the client was told before: when matches() answers with a rule, as the
    rule that blocks or as the exception, and this rule is that of a line with
    "third-party" (or "~third-party") among its options, then the request is not
    first-party (or not third-party). *)
Theorem C29_matches : forall E calls c url context dom v c' pres r f g o parts uh,
  history calls -> after E calls = Ok c -> nonul url -> web_url url -> url_has_host url uh ->
  matches E c (cstr url) context dom = Ok (v, c') ->
  (v_filter v = Some g \/ (v_filter v <> None /\ v_exc v = Some g)) ->
  good_rule r -> x_options r = Some o -> cut_at "," o parts ->
  parses_to pres (rule_line r) f -> same_content g f ->
  (positive_option parts (B "third-party") -> ~ asked_first_party context dom uh) /\
  (negative_option parts (B "third-party") -> ~ asked_third_party context dom uh).
Proof. intros; eapply matches_party; eauto. Qed.
Print Assumptions C29_matches.

(** The same for findMatchingFilters(). *)
Theorem C29_find : forall E calls c url context dom v pres r f g o parts uh,
  history calls -> after E calls = Ok c -> nonul url -> url_has_host url uh ->
  findMatchingFilters E c (cstr url) context dom = Ok v ->
  (v_filter v = Some g \/ (v_filter v <> None /\ v_exc v = Some g)) ->
  good_rule r -> x_options r = Some o -> cut_at "," o parts ->
  parses_to pres (rule_line r) f -> same_content g f ->
  (positive_option parts (B "third-party") -> ~ asked_first_party context dom uh) /\
  (negative_option parts (B "third-party") -> ~ asked_third_party context dom uh).
Proof. intros; eapply find_party; eauto. Qed.
Print Assumptions C29_find.

(** A rule with the option that answers a third-party request and no first-party one. *)
Example C29_client_example :
  let r := mkRule false NoAnchor (B "/ad/banner") false (Some (B "third-party")) in
  let calls := [Parse false (rule_line r)] in
  good_rule r /\
  rmap v_block (asked E0 calls (B "http://x.a.com/ad/banner") 0 (Some (B "b.com"))) = Ok true /\
  rmap v_block (asked E0 calls (B "http://x.a.com/ad/banner") 0 (Some (B "a.com"))) = Ok false /\
  asked_first_party 0 (Some (B "a.com")) (B "x.a.com").
Proof.
  cbv zeta. split; [now apply good_ruleb_ok|].
  split; [vm_compute; reflexivity|]. split; [vm_compute; reflexivity|].
  right. split.
  - intros (i & H & _). rewrite N.bits_0 in H. discriminate.
  - exists (B "a.com"). split; auto. right. now exists (B "x").
Qed.
