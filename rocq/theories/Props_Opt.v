(** C24-C29, C49: options. *)
From Verif Require Import Base Flags Url Sets FilterM ParseM ClientM Spec SpecM
  P_Base P_Url P_Shape P_Match P_Rule P_Line5 P_Match2 P_Opt P_Opt2 Props_List.

(** C24: for options that are written out, the option bits are exactly those of
    the listed names. *)
Theorem C24_options_partial : forall pres r f o parts,
  good_rule r -> x_options r = Some o -> cut_at "," o parts -> written_out parts ->
  parses_to pres (rule_line r) f ->
  (forall i, N.testbit (f_opt f) i = true <->
     exists n c, positive_option parts n /\ name_bit n c /\ N.testbit c i = true) /\
  (forall i, N.testbit (f_anti f) i = true <->
     exists n c, negative_option parts n /\ name_bit n c /\ N.testbit c i = true).
Proof. intros pres r f o parts G O C W [b HP]. eapply options_exact; eauto. Qed.
Print Assumptions C24_options_partial.

(** Neither order nor repetition matters. *)
Theorem C24_order : forall pres r1 r2 f1 f2 o1 o2 p1 p2,
  good_rule r1 -> good_rule r2 -> x_options r1 = Some o1 -> x_options r2 = Some o2 ->
  cut_at "," o1 p1 -> cut_at "," o2 p2 -> (forall s, In s p1 <-> In s p2) ->
  parses_to pres (rule_line r1) f1 -> parses_to pres (rule_line r2) f2 ->
  f_opt f1 = f_opt f2 /\ f_anti f1 = f_anti f2.
Proof.
  intros pres r1 r2 f1 f2 o1 o2 p1 p2 G1 G2 O1 O2 C1 C2 S [b1 H1] [b2 H2].
  eapply (options_order pres r1 r2); eauto.
Qed.
Print Assumptions C24_order.

(** A name that is unknown and no abbreviation makes the rule inert. *)
Theorem C24_unknown_inert : forall E pres r f o parts n input len context dom bf host,
  good_rule r -> x_options r = Some o -> cut_at "," o parts ->
  parses_to pres (rule_line r) f ->
  positive_option parts n -> ~ abbreviation n -> name_bit n FOUnknown ->
  filter_matches E f input len context dom bf host = Ok false.
Proof.
  intros E pres r f o parts n input len context dom bf host G O C [b HP] P Na Hn.
  apply unsupported_never. eapply unsupported_rule; eauto.
  exists 29%N. split; reflexivity.
Qed.
Print Assumptions C24_unknown_inert.

(** Abbreviations are accepted: "$s" means script, and so does an empty name. *)
Theorem C24_refuted_abbreviation : exists r parts,
  good_rule r /\ x_options r = Some (B "s") /\ cut_at "," (B "s") parts /\
  (forall n b, In (n, b) option_table -> ~ In n parts) /\
  rmap (fun x => f_opt (fst x))
    (parse_filter false (cstr (rule_line r)) (length (rule_line r))) = Ok FOScript /\
  rmap (fun x => f_opt (fst x)) (parse_filter false (cstr (B "ad$")) 3) = Ok FOScript.
Proof.
  exists (mkRule false NoAnchor (B "ad") false (Some (B "s"))), [B "s"].
  split; [now apply good_ruleb_ok|]. split; auto. split.
  { split; [easy|]. split; auto. intros p [<-|[]]. now apply notin_ok. }
  split; [|vm_compute; auto].
  intros n b I [<-|[]].
  assert (existsb (fun e => beq (fst e) (B "s")) option_table = true) as K.
  { apply existsb_exists. exists (B "s", b). split; auto. }
  discriminate K.
Qed.
Print Assumptions C24_refuted_abbreviation.

(** A negated unknown name does not make the rule inert. *)
Theorem C24_refuted_negated : exists r parts,
  good_rule r /\ x_options r = Some (B "~foo") /\ cut_at "," (B "~foo") parts /\
  written_out parts /\ negative_option parts (B "foo") /\ name_bit (B "foo") FOUnknown /\
  bind (parse_filter false (cstr (rule_line r)) (length (rule_line r))) (fun fb =>
    filter_matches E0 (fst fb) (cstr (B "http://a.com/ad")) 15 0 None None []) = Ok true.
Proof.
  exists (mkRule false NoAnchor (B "ad") false (Some (B "~foo"))), [B "~foo"].
  split; [now apply good_ruleb_ok|]. split; auto. split.
  { split; [easy|]. split; auto. intros p [<-|[]]. now apply notin_ok. }
  assert (forall n, ~ abbreviation n <-> (exists b, In (n, b) option_table) \/
     forall m b, In (m, b) option_table -> prefixb n m = false) as KA.
  { intros n. split.
    - intros Na. destruct (name_known_dec n); auto. right. intros m b.
      now apply not_known_prefix.
    - intros [[b I]|H] (m & c & x & J & -> & K).
      + eapply K; eauto.
      + apply H in J. assert (prefixb n (n ++ x) = true) by (apply prefixb_spec; eauto).
        congruence. }
  split.
  { intros n [[[<-|[]] N]|[E|[]]].
    - exfalso. apply N. now exists (B "foo").
    - assert (n = B "foo") as -> by (now injection E as <-).
      apply KA. right. intros m b I.
      assert (forallb (fun e => negb (prefixb (B "foo") (fst e))) option_table = true) as K
        by reflexivity.
      rewrite forallb_forall in K. apply K in I. now apply negb_true_iff in I. }
  split; [cbn; auto|]. split.
  { apply nb_unknown; try (apply not_begins; reflexivity).
    intros b I. assert (forallb (fun e => negb (beq (B "foo") (fst e))) option_table = true) as K
      by reflexivity.
    rewrite forallb_forall in K. apply K in I. discriminate I. }
  vm_compute. reflexivity.
Qed.
Print Assumptions C24_refuted_negated.

Definition ex_opts :=
  mkRule false NoAnchor (B "banner") false
         (Some (B "script,~image,third-party,domain=a.com|~b.a.com")).
Definition ex_parts :=
  [B "script"; B "~image"; B "third-party"; B "domain=a.com|~b.a.com"].

Example C24_example : good_rule ex_opts /\
  x_options ex_opts = Some (joined "," ex_parts) /\
  cut_at "," (joined "," ex_parts) ex_parts /\ last_domain ex_parts (B "a.com|~b.a.com") /\
  rmap (fun x => (f_opt (fst x), f_anti (fst x)))
    (parse_filter false (cstr (rule_line ex_opts)) (length (rule_line ex_opts))) =
  Ok (N.lor FOScript FOThirdParty, FOImage).
Proof.
  split; [now apply good_ruleb_ok|]. split; [reflexivity|]. split.
  { split; [easy|]. split; auto.
    intros p [<-|[<-|[<-|[<-|[]]]]]; now apply notin_ok. }
  split; [|vm_compute; reflexivity].
  exists [B "script"; B "~image"; B "third-party"], []. split; [reflexivity|easy].
Qed.

(** C25: rules with an unsupported option match nothing and are not loaded. *)
Theorem C25_unsupported_inert :
  forall E pres r f o parts n c input len context dom bf host,
  good_rule r -> x_options r = Some o -> cut_at "," o parts ->
  parses_to pres (rule_line r) f ->
  positive_option parts n -> ~ abbreviation n -> name_bit n c ->
  In c [FOPopup; FOCSP; FOElemHide; FOGenericHide; FOGenericBlock; FOEmpty; FOUnknown] ->
  filter_matches E f input len context dom bf host = Ok false /\
  classify E f = Ok CSkip.
Proof.
  intros E pres r f o parts n c input len context dom bf host G O C [b HP] P Na Hn I.
  assert (hasUnsupportedOptions f = true) as U.
  { eapply unsupported_rule; eauto. apply has_common.
    repeat (destruct I as [<-|I]; [reflexivity|]). destruct I. }
  split; [now apply unsupported_never|]. unfold classify. now rewrite U.
Qed.
Print Assumptions C25_unsupported_inert.

Example C25_example : name_bit (B "csp=script-src 'none'") FOCSP /\
  positive_option [B "script"; B "popup"] (B "popup") /\ name_bit (B "popup") FOPopup.
Proof.
  split; [apply nb_csp; now exists (B "script-src 'none'")|]. split.
  - split; [cbn; auto|]. apply not_begins. reflexivity.
  - apply nb_known. cbn; tauto.
Qed.

(** C26: what every match tells about the declared types ([context]). *)
Theorem C26_types_partial : forall E pres r f o parts input len context dom bf host,
  good_rule r -> x_options r = Some o -> cut_at "," o parts -> written_out parts ->
  parses_to pres (rule_line r) f ->
  filter_matches E f input len context dom bf host = Ok true ->
  (forall n, In n resource_types -> positive_option parts n ->
     exists m c, In m resource_types /\ positive_option parts m /\
                 In (m, c) option_table /\ common context c) /\
  (forall n c, In n resource_types -> negative_option parts n ->
     In (n, c) option_table -> ~ common context c).
Proof.
  intros E pres r f o parts input len context dom bf host G O C W [b HP] M.
  eapply resource_needs; eauto. eapply match_options; eauto.
Qed.
Print Assumptions C26_types_partial.

(** The exact role of the options in [Filter::matches], for any rule: the answer
    is false unless the following holds, in which case only the pattern decides. *)
Theorem C26_options_exact : forall f context dom,
  matchesOptions f context dom = true <->
  ~ common (f_opt f) FOUnsupportedSoSkipCheck /\
  (common context FODocument -> common (f_opt f) FODocument) /\
  (if (context =? 0)%N
   then ~ common (f_opt f) FOResourcesOnly /\ ~ common (f_anti f) FOResourcesOnly
   else (N.ldiff (f_opt f) BehavioralFilterOnly = 0%N \/
         common (N.land (f_opt f) FOResourcesOnly) context) /\
        ~ common (N.land (f_anti f) FOResourcesOnly) context) /\
  (forall dl d, f_dom f = Some dl -> dom = Some d -> domain_applies dl d) /\
  ~ (common (f_opt f) FOThirdParty /\ common context FONotThirdParty) /\
  ~ (common (f_anti f) FOThirdParty /\ common context FOThirdParty).
Proof.
  intros f context dom. rewrite matchesOptions_exact.
  assert (domain_ok f dom <->
    forall dl d, f_dom f = Some dl -> dom = Some d -> domain_applies dl d) as K.
  { unfold domain_ok. destruct (f_dom f) as [dl|] eqn:D.
    - destruct dom as [d|].
      + rewrite (contextDomain_spec f dl d D). split; [congruence|].
        intros H. now apply H.
      + split; [discriminate|auto].
    - split; [discriminate|auto]. }
  now rewrite K.
Qed.
Print Assumptions C26_options_exact.

(** A rule with only negated types applies to a request without a declared type
    as soon as a party flag is set. *)
Theorem C26_refuted : exists r,
  good_rule r /\ x_options r = Some (B "~script") /\
  ~ common FOThirdParty FOResourcesOnly /\
  bind (parse_filter false (cstr (rule_line r)) (length (rule_line r))) (fun fb =>
  bind (filter_matches E0 (fst fb) (cstr (B "http://a.com/ad")) 15 FOThirdParty None None [])
    (fun x =>
  bind (filter_matches E0 (fst fb) (cstr (B "http://a.com/ad")) 15 0 None None []) (fun y =>
  Ok (x, y)))) = Ok (true, false).
Proof.
  exists (mkRule false NoAnchor (B "ad") false (Some (B "~script"))).
  split; [now apply good_ruleb_ok|]. split; auto. split; [|vm_compute; reflexivity].
  rewrite <- has_common. vm_compute. discriminate.
Qed.
Print Assumptions C26_refuted.

Example C26_example :
  bind (parse_filter false (cstr (rule_line ex_opts)) (length (rule_line ex_opts))) (fun fb =>
  let go ctx := filter_matches E0 (fst fb) (cstr (B "http://a.com/banner")) 19 ctx None None [] in
  bind (go FOScript) (fun x => bind (go (N.lor FOScript FOImage)) (fun y =>
  bind (go FOFont) (fun z => Ok (x, y, z))))) = Ok (true, false, false).
Proof. vm_compute. reflexivity. Qed.

(** C27 *)
Theorem C27_documents : forall E pres r f input len context dom bf host,
  good_rule r -> parses_to pres (rule_line r) f -> common context FODocument ->
  filter_matches E f input len context dom bf host = Ok true ->
  exists o parts, x_options r = Some o /\ cut_at "," o parts /\
    (written_out parts -> positive_option parts (B "document")).
Proof.
  intros E pres r f input len context dom bf host G [b HP] D M.
  eapply document_needs; eauto. eapply match_options; eauto.
Qed.
Print Assumptions C27_documents.

(** For every rule, whatever its origin, the option bit is necessary. *)
Theorem C27_document_bit : forall E f input len context dom bf host,
  common context FODocument ->
  filter_matches E f input len context dom bf host = Ok true ->
  common (f_opt f) FODocument.
Proof.
  intros E f input len context dom bf host D M. apply match_options in M.
  apply matchesOptions_exact in M as (_ & M & _). auto.
Qed.
Print Assumptions C27_document_bit.

Example C27_example :
  bind (parse_filter false (cstr (B "ad$document,script")) 18) (fun fb =>
  filter_matches E0 (fst fb) (cstr (B "http://a.com/ad")) 15 FODocument None None []) = Ok true.
Proof. vm_compute. reflexivity. Qed.

(** C28: on a page whose domain the option selects, the option has no effect;
    elsewhere the rule does not match. *)
Theorem C28_domain_option_partial :
  forall E pres r f o parts dl d url context bf host,
  good_rule r -> x_options r = Some o -> cut_at "," o parts -> last_domain parts dl ->
  parses_to pres (rule_line r) f ->
  (domain_applies dl d ->
   filter_matches E f (cstr url) (length url) context (Some d) bf host =
   filter_matches E f (cstr url) (length url) context None bf host) /\
  (~ domain_applies dl d ->
   filter_matches E f (cstr url) (length url) context (Some d) bf host = Ok false).
Proof.
  intros E pres r f o parts dl d url context bf host G O C L [b HP].
  eapply domain_rule; eauto.
Qed.
Print Assumptions C28_domain_option_partial.

(** Single-label page domains are never found in the list. *)
Theorem C28_refuted : exists r,
  good_rule r /\ x_options r = Some (B "domain=localhost") /\
  bind (parse_filter false (cstr (rule_line r)) (length (rule_line r))) (fun fb =>
  filter_matches E0 (fst fb) (cstr (B "http://a.com/ad")) 15 0 (Some (B "localhost")) None [])
  = Ok false.
Proof.
  exists (mkRule false NoAnchor (B "ad") false (Some (B "domain=localhost"))).
  split; [now apply good_ruleb_ok|]. split; auto; vm_compute; reflexivity.
Qed.
Print Assumptions C28_refuted.

Example C28_example :
  domain_applies (B "a.com|~b.a.com") (B "x.a.com") /\
  ~ domain_applies (B "a.com|~b.a.com") (B "x.b.a.com").
Proof.
  pose (f := mkF 0 0 0 None (Some (B "a.com|~b.a.com")) [] None None).
  split.
  - now apply (contextDomain_spec f).
  - intros H. apply (contextDomain_spec f) in H; auto. vm_compute in H. discriminate.
Qed.

(** C29: with the flags as derived by [AdBlockClient::matches] *)
Theorem C29_third_party : forall E pres r f o parts input len context dom bf host d uh,
  good_rule r -> x_options r = Some o -> cut_at "," o parts ->
  parses_to pres (rule_line r) f ->
  positive_option parts (B "third-party") ->
  common context FONotThirdParty \/
  (~ common context (N.lor FOThirdParty FONotThirdParty) /\ dom = Some d /\ first_party d uh) ->
  filter_matches E f input len (party_context context dom uh) dom bf host = Ok false.
Proof.
  intros E pres r f o parts input len context dom bf host d uh G O C [b HP] P H.
  apply no_options_false.
  destruct (matchesOptions f (party_context context dom uh) dom) eqn:M; auto. exfalso.
  destruct (party_rules pres r f b o parts _ _ G O C HP M) as [K _]. apply (K P).
  destruct (party_derived context dom uh) as (D1 & D2 & _).
  destruct H as [H|(H1 & H2 & H3)].
  - rewrite D1; auto. apply has_common. rewrite has_lor. apply has_common in H. now rewrite H, orb_true_r.
  - destruct (D2 H1 d H2) as [-> _]; auto. apply has_common. rewrite has_lor_l.
    apply orb_true_r.
Qed.
Print Assumptions C29_third_party.

Theorem C29_first_party_partial :
  forall E pres r f o parts input len context dom bf host d uh,
  good_rule r -> x_options r = Some o -> cut_at "," o parts ->
  parses_to pres (rule_line r) f ->
  negative_option parts (B "third-party") ->
  common context FOThirdParty \/
  (~ common context (N.lor FOThirdParty FONotThirdParty) /\ dom = Some d /\ ~ first_party d uh) ->
  filter_matches E f input len (party_context context dom uh) dom bf host = Ok false.
Proof.
  intros E pres r f o parts input len context dom bf host d uh G O C [b HP] P H.
  apply no_options_false.
  destruct (matchesOptions f (party_context context dom uh) dom) eqn:M; auto. exfalso.
  destruct (party_rules pres r f b o parts _ _ G O C HP M) as [_ K]. apply (K P).
  destruct (party_derived context dom uh) as (D1 & D2 & _).
  destruct H as [H|(H1 & H2 & H3)].
  - rewrite D1; auto. apply has_common. rewrite has_lor. apply has_common in H. now rewrite H.
  - destruct (D2 H1 d H2) as [_ ->]; auto. apply has_common. rewrite has_lor_l.
    apply orb_true_r.
Qed.
Print Assumptions C29_first_party_partial.

(** "$first-party" sets a bit that is never looked at. *)
Theorem C29_refuted : exists r,
  good_rule r /\ x_options r = Some (B "first-party") /\
  bind (parse_filter false (cstr (rule_line r)) (length (rule_line r))) (fun fb =>
  filter_matches E0 (fst fb) (cstr (B "http://a.com/ad")) 15 FOThirdParty None None []) = Ok true.
Proof.
  exists (mkRule false NoAnchor (B "ad") false (Some (B "first-party"))).
  split; [now apply good_ruleb_ok|]. split; auto; vm_compute; reflexivity.
Qed.
Print Assumptions C29_refuted.

Example C29_example : positive_option ex_parts (B "third-party") /\
  first_party (B "a.com") (B "x.a.com").
Proof.
  split; [split; [cbn; auto|apply not_begins; reflexivity]|].
  right. now exists (B "x").
Qed.

(** C49: the context with which every rule is evaluated for a request. *)
Theorem C49_party_flags : forall url context dom q uh,
  nonul url -> url_has_host url uh ->
  mkQuery (cstr url) (length url) context dom = Ok q ->
  (common context (N.lor FOThirdParty FONotThirdParty) -> q_context q = context) /\
  (~ common context (N.lor FOThirdParty FONotThirdParty) ->
   match dom with
   | None => q_context q = context
   | Some d =>
       (first_party d uh -> q_context q = N.lor context FONotThirdParty) /\
       (~ first_party d uh -> q_context q = N.lor context FOThirdParty)
   end).
Proof.
  intros url context dom q uh Hu Hh H. unfold mkQuery in H.
  rewrite (getUrlHost_cstr url Hu), (hostOf_spec _ _ Hh) in H. cbn [bind] in H.
  destruct (party_derived context dom uh) as (D1 & D2 & D3).
  assert (q_context q = party_context context dom uh) as -> by (now injection H as <-).
  split; auto. intros N. destruct dom as [d|]; auto.
Qed.
Print Assumptions C49_party_flags.

Example C49_example :
  rmap q_context (mkQuery (cstr (B "http://x.a.com/")) 15 FOScript (Some (B "a.com"))) =
  Ok (N.lor FOScript FONotThirdParty).
Proof. vm_compute. reflexivity. Qed.
