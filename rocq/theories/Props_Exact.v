(** C34, C79: exact statements for every request. *)
From Verif Require Import Base Flags Protocol Url Sets FilterM ParseM ClientM Spec SpecM SpecC SpecQ
  SpecE SpecN SpecG SpecH P_Base P_Protocol P_Parse P_List P_Line P_Line2 P_Hist P_Ex P_Opt P_Rx P_End P_Exact P_Rx3
  Props_List Props_End.
From Verif Require Import SpecC.

(** ** C34 *)

(** findMatchingFilters() blocks exactly if some loaded block rule applies and no
    loaded exception does; of the rules for one host only the first counts. *)
Theorem C34_found_decision : forall E calls c url context dom v,
  history calls -> after E calls = Ok c -> nonul url ->
  findMatchingFilters E c (cstr url) context dom = Ok v ->
  v_block v = true <->
  (exists f, visible E calls false url f /\ applies E calls f url context dom) /\
  ~ (exists f, visible E calls true url f /\ applies E calls f url context dom).
Proof. exact find_decision. Qed.
Print Assumptions C34_found_decision.

(** Exactly when the two entry points differ on a web URL: matches() overlooks an
    exception, or it overlooks every block rule that applies. *)
Theorem C34_differ_iff : forall E calls c url context dom v c' w,
  history calls -> after E calls = Ok c -> nonul url -> web_url url ->
  matches E c (cstr url) context dom = Ok (v, c') ->
  findMatchingFilters E c (cstr url) context dom = Ok w ->
  let on P e := exists f, P e f /\ applies E calls f url context dom in
  let heard e := heeded E calls e url dom in
  let missed e := overlooked E calls e dom in
  (v_block v = true /\ v_block w = false <->
     on heard false /\ ~ on heard true /\ on missed true) /\
  (v_block v = false /\ v_block w = true <->
     ~ on heard false /\ on missed false /\ ~ on heard true /\ ~ on missed true).
Proof. exact differ_iff. Qed.
Print Assumptions C34_differ_iff.

(** ** C79 *)

(** The answer to any request, read off the text of the list and the order of
    its lines, with nothing assumed about hosts, pages or the request. *)
Theorem C79_any_request : forall E calls c url uh context page,
  history calls -> after E calls = Ok c -> nonul url -> url_has_host url uh ->
  usual_list calls ->
  exists v c', matches E c (cstr url) context page = Ok (v, c') /\
  (v_block v = true <->
   web_url url /\
   (exists r, rule_loaded calls r /\ x_exception r = false /\ listened E calls r uh page /\
      rule_meets calls r url uh context page) /\
   ~ (exists r, rule_loaded calls r /\ x_exception r = true /\ listened E calls r uh page /\
      rule_meets calls r url uh context page)).
Proof. exact text_decides. Qed.
Print Assumptions C79_any_request.

(** The same for findMatchingFilters(). *)
Theorem C79_any_request_found : forall E calls c url uh context page,
  history calls -> after E calls = Ok c -> nonul url -> url_has_host url uh ->
  usual_list calls ->
  exists v, findMatchingFilters E c (cstr url) context page = Ok v /\
  (v_block v = true <->
   (exists r, rule_loaded calls r /\ x_exception r = false /\ noticed calls r uh /\
      rule_meets calls r url uh context page) /\
   ~ (exists r, rule_loaded calls r /\ x_exception r = true /\ noticed calls r uh /\
      rule_meets calls r url uh context page)).
Proof. exact text_finds. Qed.
Print Assumptions C79_any_request_found.

(** On a page, and without party flags from the caller, rules are read as in
    C79_end_to_end_partial. *)
Theorem C79_same_reading : forall calls r url uh context d,
  ~ common context (N.lor FOThirdParty FONotThirdParty) ->
  (rule_meets calls r url uh context (Some d) <-> rule_fits calls r url uh context d).
Proof. exact meets_fits. Qed.
Print Assumptions C79_same_reading.

(** A list with two rules for one host, asked without a page: the second rule is
    not listened to. *)
Definition twice_rules : list rule_syntax :=
  [mkRule false HostBars (B "ads.com^") false (Some (B "script"));
   mkRule false HostBars (B "ads.com^") false (Some (B "image"))].
Definition twice_calls : list call :=
  [Parse false (rule_line (nth 0 twice_rules (mkRule false NoAnchor [] false None)) ++ [LF] ++
                rule_line (nth 1 twice_rules (mkRule false NoAnchor [] false None)))].

Example C79_any_example :
  history twice_calls /\ usual_list twice_calls /\
  url_has_host (B "http://ads.com/x") (B "ads.com") /\
  rmap v_block (asked E0 twice_calls (B "http://ads.com/x") FOImage None) = Ok false /\
  rmap v_block (asked E0 twice_calls (B "http://ads.com/x") FOScript None) = Ok true /\
  (exists r, rule_loaded twice_calls r /\
     rule_meets twice_calls r (B "http://ads.com/x") (B "ads.com") FOScript None /\
     listened E0 twice_calls r (B "ads.com") None).
Proof.
  assert (history twice_calls) as Hi by (repeat constructor; now apply nonulb_ok).
  assert (Forall usual_rule twice_rules) as U.
  { assert (forallb usual_ruleb twice_rules = true) as K by (vm_compute; reflexivity).
    apply Forall_forall. rewrite forallb_forall in K. intros r I. apply usual_ruleb_ok. auto. }
  assert (usual_list twice_calls) as UL.
  { intros pres l I. rewrite Forall_forall in U. right.
    vm_compute in I. destruct I as [I|[I|[]]]; apply (f_equal snd) in I; cbn [snd] in I; subst l.
    - exists (nth 0 twice_rules (mkRule false NoAnchor [] false None)).
      split; [reflexivity|]. apply U. left. reflexivity.
    - exists (nth 1 twice_rules (mkRule false NoAnchor [] false None)).
      split; [reflexivity|]. apply U. right. left. reflexivity. }
  assert (url_has_host (B "http://ads.com/x") (B "ads.com")) as Hh.
  { exists (B "http"), (B "//"), (B "/x"). split; [reflexivity|].
    split; [now apply notin_ok|]. split; [intros x [<-|[<-|[]]]; reflexivity|].
    split; [|split; [discriminate|right; exists "/"%char, (B "x"); split; [reflexivity|cbn; auto]]].
    intros x I J. vm_compute in I, J.
    repeat (destruct I as [<-|I]; [repeat (destruct J as [J|J]; [discriminate|]); easy|]). easy. }
  assert (rmap v_block (asked E0 twice_calls (B "http://ads.com/x") FOScript None) = Ok true) as Q
    by (vm_compute; reflexivity).
  split; auto. split; auto. split; auto. split; [vm_compute; reflexivity|]. split; auto.
  unfold asked in Q. destruct (after E0 twice_calls) as [c|] eqn:A; [|discriminate].
  destruct (C79_any_request E0 twice_calls c (B "http://ads.com/x") (B "ads.com") FOScript None Hi A
    ltac:(now apply nonulb_ok) Hh UL) as (v & c' & M & D).
  cbn [bind] in Q. rewrite M in Q. cbn [rmap bind fst] in Q. injection Q as Q.
  apply D in Q as (_ & (r & R1 & _ & R2 & R3) & _). exists r. auto.
Qed.

(** The same for lists that also contain regular expressions: these are always
    listened to, except for documents. *)
Theorem C79_with_expressions : forall E calls c url uh context page,
  history calls -> after E calls = Ok c -> nonul url -> url_has_host url uh ->
  mixed_list calls ->
  exists v c', matches E c (cstr url) context page = Ok (v, c') /\
  (v_block v = true <->
   web_url url /\
   ((exists r, rule_loaded calls r /\ x_exception r = false /\ listened E calls r uh page /\
      rule_meets calls r url uh context page) \/
    expression_meets E calls url context) /\
   ~ (exists r, rule_loaded calls r /\ x_exception r = true /\ listened E calls r uh page /\
      rule_meets calls r url uh context page)).
Proof. exact mixed_decides. Qed.
Print Assumptions C79_with_expressions.

Theorem C79_with_expressions_found : forall E calls c url uh context page,
  history calls -> after E calls = Ok c -> nonul url -> url_has_host url uh ->
  mixed_list calls ->
  exists v, findMatchingFilters E c (cstr url) context page = Ok v /\
  (v_block v = true <->
   ((exists r, rule_loaded calls r /\ x_exception r = false /\ noticed calls r uh /\
      rule_meets calls r url uh context page) \/
    expression_meets E calls url context) /\
   ~ (exists r, rule_loaded calls r /\ x_exception r = true /\ noticed calls r uh /\
      rule_meets calls r url uh context page)).
Proof. exact mixed_finds. Qed.
Print Assumptions C79_with_expressions_found.

(** An expression and a rule; "@@" in front of an expression is of no use. *)
Definition mixed_rule : rule_syntax := mkRule true HostBars (B "ads.com^") false (Some (B "image")).
Definition mixed_calls : list call :=
  [Parse false (B "@@/ad[0-9]/" ++ [LF] ++ rule_line mixed_rule)].

(** An engine that finds the expression of the first line in one address. *)
Definition E1 : env :=
  mkEnv [] [fun s => N.of_nat (length s)] [fun s => N_of_ascii (hd NUL s)]
        (fun s => N.of_nat (length s))
        (fun p u => beq p (B "@/ad[0-9]") && prefixb (B "http://ads.com/@/ad7") u).

Example C79_expressions_example :
  history mixed_calls /\ mixed_list mixed_calls /\
  expression_meets E1 mixed_calls (B "http://ads.com/@/ad7") FOScript /\
  rmap v_block (asked E1 mixed_calls (B "http://ads.com/@/ad7") FOScript None) = Ok true /\
  rmap v_block (asked E1 mixed_calls (B "http://ads.com/@/ad7") FOImage None) = Ok false /\
  rmap v_block (asked E1 mixed_calls (B "http://ads.com/@/ad7") FODocument None) = Ok false.
Proof.
  assert (slashed (B "@@/ad[0-9]/") (B "@@")) as S.
  { split; [reflexivity|]. exists [], (B "ad[0-9]/"). split; [easy|]. split; [|reflexivity].
    apply (marks_more [] [] []); try easy. constructor. }
  split; [repeat constructor; now apply nonulb_ok|]. split.
  { intros pres l I. right. vm_compute in I.
    destruct I as [I|[I|[]]]; apply (f_equal snd) in I; cbn [snd] in I; subst l.
    - left. split; [|cbn; lia]. split; [cbn; lia|]. exists (B "@@"). exact S.
    - right. exists mixed_rule. split; [reflexivity|]. apply usual_ruleb_ok. vm_compute. reflexivity. }
  split; [|split; [vm_compute; reflexivity|split; vm_compute; reflexivity]].
  split; [rewrite <- has_common; vm_compute; discriminate|].
  exists (regex_pattern (B "@@/ad[0-9]/") (B "@@")). split; [|vm_compute; reflexivity].
  exists false, (B "@@/ad[0-9]/"), (B "@@").
  split; [left; reflexivity|]. split; [cbn; lia|]. split; [exact S|reflexivity].
Qed.
