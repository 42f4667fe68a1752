(** The constants of FilterOptions: C113. *)
From Verif Require Import Base Flags Protocol Url Sets FilterM ParseM ClientM SerialM JsM DataM ListsM ToolM
  Spec SpecM SpecC SpecS SpecJ SpecX SpecT SpecTool SpecConst
  P_Base P_Ex P_Opt P_Match2 P_Tool OwnM OwnT P_Const Props_List Props_Client Props_Tool.

(** Every name stands for a resource type, for a party or for neither. *)
Theorem C113_kinds : forall name v, In (name, v) filterOptions ->
  (exists t, In (name, t) type_names) \/ In name other_names \/
  name = B "thirdParty" \/ name = B "notThirdParty".
Proof. exact kinds. Qed.
Print Assumptions C113_kinds.

(** No two constants share a bit, so that their unions say which were meant; only
    noFilterOption is zero. *)
Theorem C113_apart : forall n1 v1 n2 v2,
  In (n1, v1) filterOptions -> In (n2, v2) filterOptions ->
  (n1 <> n2 -> bits_apart v1 v2) /\ (v1 = 0%N <-> n1 = B "noFilterOption") /\ filterOption n1 = v1.
Proof. exact values_apart. Qed.
Print Assumptions C113_apart.

(** Adding a constant that is neither a type nor a party to a request with a page
    changes nothing: not the answer, not the rules reported, not the statistics,
    not what is undefined. *)
Theorem C113_inert : forall E c input mask page name, In name other_names ->
  matches E c input (N.lor mask (filterOption name)) (Some page) =
  matches E c input mask (Some page) /\
  findMatchingFilters E c input (N.lor mask (filterOption name)) (Some page) =
  findMatchingFilters E c input mask (Some page).
Proof. exact inert. Qed.
Print Assumptions C113_inert.

(** The full claim, also without a page: a mere "important" makes the request one
    of known type. *)
Theorem C113_no_page_refuted : ~ (forall E calls c url mask page name v c1 v' c1',
  history calls -> after E calls = Ok c -> In name other_names ->
  matches E c (cstr url) (N.lor mask (filterOption name)) page = Ok (v, c1) ->
  matches E c (cstr url) mask page = Ok (v', c1') -> v_block v = v_block v').
Proof.
  intros H.
  set (calls := [Parse false (B "banner$~script")]). set (url := B "http://a.com/banner").
  assert (rmap (fun r => v_block (fst r)) (c <- after E0 calls ;;
     matches E0 c (cstr url) (N.lor 0 (filterOption (B "important"))) None) = Ok true) as X
    by (vm_compute; reflexivity).
  assert (rmap (fun r => v_block (fst r)) (c <- after E0 calls ;;
     matches E0 c (cstr url) 0 None) = Ok false) as Y
    by (vm_compute; reflexivity).
  assert (history calls) as Hi by hist.
  assert (In (B "important") other_names) as I by (cbn; tauto).
  generalize dependent calls. generalize dependent url. intros url calls X Y Hi.
  destruct (after E0 calls) as [c|] eqn:A; cbn [bind] in X, Y; [|discriminate].
  destruct (matches E0 c (cstr url) (N.lor 0 (filterOption (B "important"))) None) as [[v c1]|] eqn:M1;
    [|discriminate].
  destruct (matches E0 c (cstr url) 0 None) as [[v' c1']|] eqn:M2; [|discriminate].
  pose proof (H E0 _ c _ _ _ _ _ _ _ _ Hi A I M1 M2) as Q. cbn in X, Y. congruence.
Qed.
Print Assumptions C113_no_page_refuted.

(** A rule for third parties, and one for the first party only: with a party
    constant the page does not matter; the one never applies to a request of the
    other kind, and to one of its kind like the rule without the option. *)
Theorem C113_third_party : forall E pres r f f0 url mask page page',
  good_rule (with_options r None) -> parses_to pres (rule_line (with_options r None)) f0 ->
  good_rule (with_options r (Some (B "third-party"))) ->
  parses_to pres (rule_line (with_options r (Some (B "third-party")))) f ->
  ~ matches_alone E f url (N.lor mask (filterOption (B "notThirdParty"))) page /\
  (bits_apart mask (filterOption (B "notThirdParty")) ->
   (matches_alone E f url (N.lor mask (filterOption (B "thirdParty"))) page <->
    matches_alone E f0 url (N.lor mask (filterOption (B "thirdParty"))) page')).
Proof. intros; eapply third_rule; eauto. Qed.
Print Assumptions C113_third_party.

Theorem C113_first_party : forall E pres r f f0 url mask page page',
  good_rule (with_options r None) -> parses_to pres (rule_line (with_options r None)) f0 ->
  good_rule (with_options r (Some (B "~third-party"))) ->
  parses_to pres (rule_line (with_options r (Some (B "~third-party")))) f ->
  ~ matches_alone E f url (N.lor mask (filterOption (B "thirdParty"))) page /\
  (bits_apart mask (filterOption (B "thirdParty")) ->
   (matches_alone E f url (N.lor mask (filterOption (B "notThirdParty"))) page <->
    matches_alone E f0 url (N.lor mask (filterOption (B "notThirdParty"))) page')).
Proof. intros; eapply first_rule; eauto. Qed.
Print Assumptions C113_first_party.

Example C113_example :
  good_rule (with_options typed_rule (Some (B "third-party"))) /\
  good_rule (with_options typed_rule (Some (B "~third-party"))) /\
  bits_apart (filterOption (B "image")) (filterOption (B "notThirdParty")) /\
  map (fun o => map (fun n => rmap v_block (asked E0 [Parse false (rule_line (with_options typed_rule o))]
         (B "http://ads.com/x/y") (N.lor (filterOption (B "image")) (filterOption n)) (Some (B "ads.com"))))
       [B "thirdParty"; B "notThirdParty"; B "important"])
      [None; Some (B "third-party"); Some (B "~third-party")] =
  [[Ok true; Ok true; Ok true]; [Ok true; Ok false; Ok false]; [Ok false; Ok true; Ok true]].
Proof.
  split; [now apply good_ruleb_ok|]. split; [now apply good_ruleb_ok|].
  split; [apply land_apart; reflexivity|vm_compute; reflexivity].
Qed.

(** ** C102: the domain list of a rule is taken apart while the list is loaded
    exactly if the rule is kept in an array without fingerprints. *)
Theorem C102_asks : forall E f k, classify E f = Ok k ->
  (asks_domains k = true <->
   (exists a, k = CList a /\ a <> KCosmetic /\ a <> KHtml) /\ getFingerprint E f = Ok None).
Proof. exact asks_iff. Qed.
Print Assumptions C102_asks.

Example C102_asks_example :
  map (fun l => rmap asks_domains (r <- parse_filter false (cstr l) (length l) ;; classify E0 (fst r)))
    [B "@@adv$domain=~a.com"; B "@@adverts$domain=~a.com"; B "adv"; B "||adv.com"; B "a.com##adv"] =
  [Ok true; Ok false; Ok true; Ok false; Ok false].
Proof. vm_compute. reflexivity. Qed.

(** ** C74: every list of the catalogue has a UUID of the usual form and a
    secure address with a host and a path. *)
Theorem C74_catalogue : forall uuid url, In (uuid, url) catalogue ->
  uuid_form uuid /\ secure_address url.
Proof. exact catalogue_forms. Qed.
Print Assumptions C74_catalogue.

Example C74_catalogue_example :
  In (B "67F880F5-7602-4042-8A3D-01481FD7437A", B "https://easylist.to/easylist/easylist.txt") catalogue.
Proof. vm_compute. tauto. Qed.
