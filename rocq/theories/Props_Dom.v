(** C107: what a rule says about its page domains. *)
From Verif Require Import Base Flags Url Sets FilterM ParseM ClientM Spec SpecM DomM SpecDom
  P_Base P_Rule P_Parse P_Line P_Opt P_Opt2 P_Line5 P_Dom P_Dom2.

(** The property: a rule answers questions about its domains according to its
    domain= option, whatever it was asked before.  It fails: containsDomain() says
    no as long as the rule has not looked at its list for another reason. *)
Theorem C107_refuted :
  ~ (forall multi pres l f dl d, line_text l -> parses_to pres l f ->
     f_dom f = Some dl -> lists_domain dl d ->
     exists o, rrun multi (newObj f) [Contains d false] = Ok ([Said true], o)).
Proof.
  intros H. destruct (parse_filter false (cstr (B "ad$domain=a.com")) 15) as [[f b]|] eqn:E;
    [|vm_compute in E; discriminate].
  assert (D : f_dom f = Some (B "a.com")) by (vm_compute in E; injection E as <- _; reflexivity).
  destruct (H true false (B "ad$domain=a.com") f (B "a.com") (B "a.com")) as (o & R); auto.
  - apply line_text_dec; vm_compute; reflexivity.
  - now exists b.
  - exists [B "a.com"]. split; [exact (split_cut "|" (B "a.com"))|]. split; [now left|].
    intros (v & X). discriminate.
  - cbn [rrun rstep bind] in R. discriminate.
Qed.
Print Assumptions C107_refuted.

(** All other answers are right, and so are those of containsDomain() once the
    rule (or since it was copied, the copy) has looked at its list. *)
Theorem C107_answers_partial : forall multi pres l f qs,
  line_text l -> parses_to pres l f -> (forall t, ~ In (SetOptions t) qs) ->
  exists replies o, rrun multi (newObj f) qs = Ok (replies, o) /\ length replies = length qs /\
  forall before q after, qs = before ++ q :: after ->
    (forall d anti, q = Contains d anti ->
       exists b k r, before = b ++ k :: r /\ looks f k = true /\ ~ In Copied r) ->
    exists a, nth_error replies (length before) = Some a /\ answers_as multi f (f_dom f) q a.
Proof.
  intros multi pres l f qs L P N. apply plain_answers; auto. eapply parsed_domains; eauto.
Qed.
Print Assumptions C107_answers_partial.

(** Exactly when containsDomain() says yes. *)
Theorem C107_contains_exactly : forall multi pres l f before d anti,
  line_text l -> parses_to pres l f -> (forall t, ~ In (SetOptions t) before) ->
  exists replies o b, rrun multi (newObj f) (before ++ [Contains d anti]) = Ok (replies ++ [Said b], o) /\
  (b = true <->
   (exists dl, f_dom f = Some dl /\ if anti then excludes_domain dl d else lists_domain dl d) /\
   exists x k r, before = x ++ k :: r /\ looks f k = true /\ ~ In Copied r).
Proof.
  intros multi pres l f before d anti L P N. apply plain_contains; auto. eapply parsed_domains; eauto.
Qed.
Print Assumptions C107_contains_exactly.

(** The domain list of a rule is the value of its last domain= option. *)
Theorem C107_written : forall pres r f o parts dl,
  good_rule r -> x_options r = Some o -> cut_at "," o parts -> last_domain parts dl ->
  parses_to pres (rule_line r) f -> f_dom f = Some dl.
Proof. intros pres r f o parts dl G O C D [b HP]. eapply rule_domain_list; eauto. Qed.
Print Assumptions C107_written.

(** Whatever was asked before, matchesOptions() says the same. *)
Theorem C107_admits : forall multi pres l f qs context dom,
  line_text l -> parses_to pres l f -> (forall t, ~ In (SetOptions t) qs) ->
  exists replies o, rrun multi (newObj f) (qs ++ [Admits context dom]) =
    Ok (replies ++ [Said (matchesOptions f context dom)], o).
Proof.
  intros multi pres l f qs context dom L P N. apply plain_admits; auto. eapply parsed_domains; eauto.
Qed.
Print Assumptions C107_admits.

(** parseOptions() can be called again, with other options.  A rule that has
    looked at its domain list before does not notice. *)
Theorem C107_options_refuted :
  ~ (forall multi f text g context d, good_domains f -> nonul text ->
     parseOptions f (cstr text) = Ok g ->
     exists o, rrun multi (newObj f) [Count false; SetOptions text; Admits context (Some d)] =
       Ok ([Number (length (f_domains f)); Silent; Said (matchesOptions g context (Some d))], o)).
Proof.
  intros H. destruct (parse_filter false (cstr (B "ad$domain=a.com")) 15) as [[f b]|] eqn:E;
    [|vm_compute in E; discriminate].
  destruct (parseOptions f (cstr (B "domain=b.com"))) as [g|] eqn:G; [|vm_compute in E; injection E as <- _; discriminate].
  destruct (H true f (B "domain=b.com") g 0%N (B "b.com")) as (o & R); auto.
  - intros dl D. vm_compute in E. injection E as <- _. injection D as <-. now apply nonulb_ok.
  - now apply nonulb_ok.
  - vm_compute in E. injection E as <- _. vm_compute in G. injection G as <-. vm_compute in R. discriminate.
Qed.
Print Assumptions C107_options_refuted.

(** What every answer is, with calls of parseOptions() in between: that of the
    list the rule had when it first looked. *)
Theorem C107_exactly : forall multi f qs, good_domains f -> Forall good_rop qs ->
  exists replies o, rrun multi (newObj f) qs = Ok (replies, o) /\ length replies = length qs /\
  forall before q after, qs = before ++ q :: after ->
    exists a, nth_error replies (length before) = Some a /\
      let '(g, m) := stands f before in answers_as multi g (consulted g m q) q a.
Proof. exact answers_all. Qed.
Print Assumptions C107_exactly.

(** A rule is asked before and after it has looked at its list, and its copy. *)
Example C107_example :
  bind (parse_filter false (cstr (B "ad$domain=a.com|~x.a.com|a.com")) 30) (fun fb =>
  bind (rrun false (newObj (fst fb))
          [Contains (B "a.com") false; Only false; Contains (B "a.com") false; Contains (B "x.a.com") true;
           Count false; Count true; Admits 0 (Some (B "x.a.com")); Copied; Contains (B "a.com") false;
           Admits 0 (Some (B "b.a.com")); Contains (B "a.com") false]) (fun r => Ok (fst r)))
  = Ok [Said false; Said false; Said true; Said true; Number 1; Number 1; Said false; Silent; Said false;
        Said true; Said true].
Proof. vm_compute. reflexivity. Qed.
