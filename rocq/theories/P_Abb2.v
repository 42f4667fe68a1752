(** C25: exactly which options switch a rule off; C92: what a regular expression
    rule does. *)
From Verif Require Import Base Flags Url Sets FilterM ParseM ClientM Spec SpecM SpecC SpecQ SpecE SpecG
  P_Base P_Parse P_List P_Shape P_Line P_Line4 P_Line5 P_Opt P_Opt2 P_Rx P_Abb.

Lemma denotes_unsupported n c : denotes n c ->
  (common c FOUnsupportedSoSkipCheck <->
   In c [FOPopup; FOCSP; FOElemHide; FOGenericHide; FOGenericBlock; FOEmpty; FOUnknown]).
Proof.
  set (bad := [FOPopup; FOCSP; FOElemHide; FOGenericHide; FOGenericBlock; FOEmpty; FOUnknown]).
  assert (forall c, In c bad -> common c FOUnsupportedSoSkipCheck) as K.
  { intros x I. apply has_common. vm_compute in I.
    repeat (destruct I as [<-|I]; [reflexivity|]). destruct I. }
  assert (forallb (fun e => implb (has (snd e) FOUnsupportedSoSkipCheck)
            (existsb (N.eqb (snd e)) bad)) option_table = true) as T by reflexivity.
  intros D. split; auto. intros H. destruct D as [n before m c after Et _ _|n _|n _|n _ _ _ _ _].
  - rewrite forallb_forall in T. specialize (T (m, c)).
    rewrite Et in T. specialize (T ltac:(apply in_or_app; right; now left)).
    cbn [snd] in T. apply has_common in H. rewrite H in T. cbn [implb] in T.
    apply existsb_exists in T as (x & I & Q). apply N.eqb_eq in Q. now subst x.
  - cbn; tauto.
  - apply has_common in H. discriminate H.
  - cbn; tauto.
Qed.

Lemma unsupported_exactly pres r f b parts :
  good_rule r -> option_parts r parts ->
  parse_filter pres (cstr (rule_line r)) (length (rule_line r)) = Ok (f, b) ->
  (hasUnsupportedOptions f = true <->
   exists n c, positive_option parts n /\ denotes n c /\
     In c [FOPopup; FOCSP; FOElemHide; FOGenericHide; FOGenericBlock; FOEmpty; FOUnknown]).
Proof.
  intros G O HP. unfold option_parts in O. destruct (x_options r) as [o|] eqn:Ho.
  - destruct (options_denote pres r f b o parts G Ho O HP) as [D _].
    unfold hasUnsupportedOptions. rewrite has_common. split.
    + intros (i & T1 & T2). apply D in T1 as (n & c & P & N & T). exists n, c.
      split; auto. split; auto. apply (denotes_unsupported n c N). exists i. auto.
    + intros (n & c & P & N & I). apply (denotes_unsupported n c N) in I as (i & T1 & T2).
      exists i. split; auto. apply D. eauto.
  - subst parts. rewrite parse_filter_cstr, parse_rule_line in HP by (auto using good_rule_line).
    assert (f = shape pres r) as -> by congruence.
    assert (f_opt (shape pres r) = 0%N) as Z.
    { unfold shape, shape_base. rewrite Ho. now destruct pres, (x_anchor r), (x_exception r), (x_right r). }
    unfold hasUnsupportedOptions. rewrite Z. split; [discriminate|].
    intros (n & c & [[] _] & _).
Qed.

Lemma skip_exactly E pres r f b parts :
  good_rule r -> option_parts r parts ->
  parse_filter pres (cstr (rule_line r)) (length (rule_line r)) = Ok (f, b) ->
  let off := exists n c, positive_option parts n /\ denotes n c /\
     In c [FOPopup; FOCSP; FOElemHide; FOGenericHide; FOGenericBlock; FOEmpty; FOUnknown] in
  (classify E f = Ok CSkip <-> off) /\
  (off -> forall input len context dom bf host,
     filter_matches E f input len context dom bf host = Ok false).
Proof.
  intros G O HP off. pose proof (unsupported_exactly pres r f b parts G O HP) as U. fold off in U.
  split.
  - rewrite <- U. split.
    + intros K. destruct (rule_category E pres r f b G HP) as (k & K' & C).
      assert (k = CSkip) as -> by congruence. destruct (hasUnsupportedOptions f); auto.
      destruct (x_exception r); discriminate C.
    + intros H. unfold classify. now rewrite H.
  - intros H input len context dom bf host. apply unsupported_never. now apply U.
Qed.

Lemma regex_rule_matches E pres l a f x u len context dom bf host :
  line_text l -> 1 < length l < 2048 -> slashed l a -> nonul u ->
  parse_filter pres (cstr l) (length l) = Ok (f, x) ->
  filter_matches E f (cstr u) len context dom bf host =
  Ok (negb (has context FODocument) && e_regex E (regex_pattern l a) u).
Proof.
  intros Hl Ln S Hu HP. rewrite (regex_result pres l a Hl Ln S) in HP.
  injection HP as <- _. unfold filter_matches, matchesOptions, hasUnsupportedOptions.
  cbn [f_opt f_anti f_dom f_data f_type].
  change (has 0 FOUnsupportedSoSkipCheck) with false.
  change (has 0 FODocument) with false. cbn [negb andb].
  destruct (has context FODocument) eqn:Hd; [reflexivity|]. cbn [negb andb].
  change (N.ldiff 0 BehavioralFilterOnly =? 0)%N with true.
  change (has 0 FOResourcesOnly) with false. change (has 0 FOThirdParty) with false.
  cbn [negb andb]. change (has FTRegex FTRegex) with true.
  replace (if negb (context =? 0)%N then true else true) with true by now destruct (negb (context =? 0)%N).
  replace (if has context (N.lor FOThirdParty FONotThirdParty) then true else true) with true
    by now destruct (has context (N.lor FOThirdParty FONotThirdParty)).
  cbn [negb]. rewrite strlen_cstr by auto. cbn [bind].
  unfold cstr. now rewrite firstn_app_exact.
Qed.

Lemma regex_rule_class E pres l a f x :
  line_text l -> 1 < length l < 2048 -> slashed l a ->
  parse_filter pres (cstr l) (length l) = Ok (f, x) ->
  classify E f = Ok (CList KNoFp).
Proof.
  intros Hl Ln S HP. rewrite (regex_result pres l a Hl Ln S) in HP.
  injection HP as <- _. destruct pres; reflexivity.
Qed.
