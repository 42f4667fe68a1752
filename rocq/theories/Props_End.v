(** C78, C79: lists in the usual syntax from the text to the answer. *)
From Verif Require Import Base Flags Protocol Url Sets FilterM ParseM ClientM Spec SpecM SpecC SpecQ
  SpecR SpecE P_Base P_Parse P_List P_Line4 P_Line5 P_Fp2 P_Match2 P_Opt P_Dec2 P_Ex P_Safe P_End Props_List Props_Client SpecC.

(** ** C78 *)

(** A client that was only given texts that parse safely, with network rules that
    can be tried safely, answers every request without leaving its buffers,
    whatever calls (queries included) were made before. *)
Theorem C78_requests_safe_partial : forall E calls,
  history calls -> safe_calls E calls ->
  exists c, after E calls = Ok c /\
    forall url context dom, nonul url ->
      (exists v c', matches E c (cstr url) context dom = Ok (v, c')) /\
      (exists v, findMatchingFilters E c (cstr url) context dom = Ok v).
Proof. exact safe_history. Qed.
Print Assumptions C78_requests_safe_partial.

(** The same read off the lines: every line is a comment, a cosmetic rule, or a
    rule in the usual syntax whose '^' end pieces. *)
Theorem C78_usual_list_safe : forall E calls,
  history calls ->
  (forall pres t l, In (Parse pres t) calls -> In l (text_lines t) ->
     (no_network_line l /\ safe_line l) \/
     exists r, l = rule_line r /\ good_rule r /\ safe_syntax r /\ domains_fit (rule_line r)) ->
  exists c, after E calls = Ok c /\
    forall url context dom, nonul url ->
      (exists v c', matches E c (cstr url) context dom = Ok (v, c')) /\
      (exists v, findMatchingFilters E c (cstr url) context dom = Ok v).
Proof. exact usual_safe_history. Qed.
Print Assumptions C78_usual_list_safe.

(** Whether rules are safe to try is all that matters once the texts are loaded. *)
Theorem C78_loaded_safe : forall E calls c url context dom,
  history calls -> after E calls = Ok c -> nonul url ->
  (forall x f, x = BlockRule \/ x = ExceptionRule -> loaded E calls x f -> safe_pattern f) ->
  (exists v c', matches E c (cstr url) context dom = Ok (v, c')) /\
  (exists v, findMatchingFilters E c (cstr url) context dom = Ok v).
Proof. exact asks_safe. Qed.
Print Assumptions C78_loaded_safe.

(** Not for all lists: a rule that names a host ending in a star is read beyond
    its end when a URL has that very host. *)
Theorem C78_refuted_star :
  ~ (forall E calls c url context dom,
       history calls -> after E calls = Ok c ->
       (forall pres t l, In (Parse pres t) calls -> In l (text_lines t) -> safe_line l) ->
       nonul url -> web_url url ->
       exists v c', matches E c (cstr url) context dom = Ok (v, c')).
Proof.
  intros H.
  destruct (after E0 [Parse false (B "||ads.*")]) as [c|] eqn:A; [|vm_compute in A; discriminate].
  destruct (H E0 [Parse false (B "||ads.*")] c (B "http://ads.*/") 0%N None) as (v & c' & M); auto.
  - hist.
  - intros pres t l [[= <- <-]|[]] I. vm_compute in I. destruct I as [<-|[]].
    apply safe_short; [cbn; lia|reflexivity].
  - plain_bytes.
  - web.
  - assert (bind (after E0 [Parse false (B "||ads.*")])
      (fun c => matches E0 c (cstr (B "http://ads.*/")) 0%N None) = UB) as U by (vm_compute; reflexivity).
    rewrite A in U. cbn [bind] in U. rewrite M in U. discriminate.
Qed.
Print Assumptions C78_refuted_star.

(** Nor for a '^' inside a piece. *)
Theorem C78_refuted_caret :
  ~ (forall E calls c url context dom,
       history calls -> after E calls = Ok c ->
       (forall pres t l, In (Parse pres t) calls -> In l (text_lines t) -> safe_line l) ->
       nonul url -> web_url url ->
       exists v c', matches E c (cstr url) context dom = Ok (v, c')).
Proof.
  intros H.
  destruct (after E0 [Parse false (B "a^b")]) as [c|] eqn:A; [|vm_compute in A; discriminate].
  destruct (H E0 [Parse false (B "a^b")] c (B "http://x.com/a") 0%N None) as (v & c' & M); auto.
  - hist.
  - intros pres t l [[= <- <-]|[]] I. vm_compute in I. destruct I as [<-|[]].
    apply safe_short; [cbn; lia|reflexivity].
  - plain_bytes.
  - web.
  - assert (bind (after E0 [Parse false (B "a^b")])
      (fun c => matches E0 c (cstr (B "http://x.com/a")) 0%N None) = UB) as U by (vm_compute; reflexivity).
    rewrite A in U. cbn [bind] in U. rewrite M in U. discriminate.
Qed.
Print Assumptions C78_refuted_caret.

(** Whenever a request leaves its buffers, a loaded network rule is at fault on
    that very URL (SpecQ.v): its search overreads, or it names only a host and
    its pattern is empty or ends in a star or a bar. *)
Theorem C78_fault_cause : forall E calls c url context dom,
  history calls -> after E calls = Ok c -> nonul url ->
  matches E c (cstr url) context dom = UB \/
  findMatchingFilters E c (cstr url) context dom = UB ->
  exists x f, (x = BlockRule \/ x = ExceptionRule) /\ loaded E calls x f /\ faulty_on E url f.
Proof. exact fault_cause. Qed.
Print Assumptions C78_fault_cause.

Example C78_fault_example :
  bind (after E0 [Parse false (B "ads^" ++ [LF] ++ B "a^b")]) (fun c =>
    bind (matches E0 c (cstr (B "http://x.com/b")) 0%N None) (fun v =>
    Ok (v_block (fst v), match matches E0 c (cstr (B "http://x.com/a")) 0%N None with
                         | UB => true | Ok _ => false end))) = Ok (false, true).
Proof. vm_compute. reflexivity. Qed.

(** A list of all kinds. *)
Definition end_rules : list rule_syntax :=
  [ mkRule false HostBars (B "ads.example.com^") false (Some (B "third-party"));
    mkRule false NoAnchor (B "/banner/*/img^") false (Some (B "image,~object,domain=~shop.example.org"));
    mkRule false NoAnchor (B "-ad/") false (Some (B "domain=~shop.example.org|~news.example.org"));
    mkRule false LeftBar (B "http://x.com/") false None;
    mkRule true HostBars (B "ads.example.com/ok/") false (Some (B "script,tag=soft")) ].

Definition end_text : bytes :=
  concat (map (fun l => l ++ [LF]) (B "! ads" :: map rule_line end_rules)) ++ B "a.com##.ad".
Definition end_calls : list call :=
  [Parse true end_text; AddTag (B "soft"); Ask (B "http://q.com/") 0 None].

Lemma end_lines l :
  In l (text_lines end_text) ->
  (no_network_line l /\ safe_line l /\ ~ In "$"%char l) \/
  exists r, In r end_rules /\ l = rule_line r.
Proof.
  intros I. vm_compute in I.
  destruct I as [<-|[<-|[<-|[<-|[<-|[<-|[<-|[]]]]]]]].
  - left. split; [|split; [apply safe_short; [cbn; lia|reflexivity]|now apply notin_ok]].
    apply (nn_comment [] (B "! ads")); [easy|right; left; now exists (B " ads")|cbn; lia].
  - right. exists (nth 0 end_rules (hd (mkRule false NoAnchor [] false None) [])). split; [cbn; auto|reflexivity].
  - right. exists (nth 1 end_rules (hd (mkRule false NoAnchor [] false None) [])). split; [cbn; auto|reflexivity].
  - right. exists (nth 2 end_rules (hd (mkRule false NoAnchor [] false None) [])). split; [cbn; auto|reflexivity].
  - right. exists (nth 3 end_rules (hd (mkRule false NoAnchor [] false None) [])). split; [cbn; auto|reflexivity].
  - right. exists (nth 4 end_rules (hd (mkRule false NoAnchor [] false None) [])). split; [cbn; auto 6|reflexivity].
  - left. split; [|split; [apply safe_short; [cbn; lia|reflexivity]|now apply notin_ok]].
    apply (nn_cosmetic (B "a.com") (B "##") (B ".ad")); [|auto|cbn; lia].
    intros c J. vm_compute in J. split.
    + repeat (destruct J as [<-|J]; [unfold body_char; repeat split; discriminate|]). destruct J.
    + intros K. vm_compute in K.
      repeat (destruct J as [<-|J]; [repeat (destruct K as [K|K]; [discriminate K|]); destruct K|]).
      destruct J.
Qed.

Lemma end_rules_usual : Forall usual_rule end_rules.
Proof.
  assert (forallb usual_ruleb end_rules = true) as K by (vm_compute; reflexivity).
  apply Forall_forall. rewrite forallb_forall in K. intros r I. apply usual_ruleb_ok. auto.
Qed.

Example C78_example :
  history end_calls /\
  (forall pres t l, In (Parse pres t) end_calls -> In l (text_lines t) ->
     (no_network_line l /\ safe_line l) \/
     exists r, l = rule_line r /\ good_rule r /\ safe_syntax r /\ domains_fit (rule_line r)) /\
  length (loaded_lines end_calls) = 7.
Proof.
  split; [hist|]. split; [|vm_compute; reflexivity].
  intros pres t l I J. destruct I as [[= <- <-]|[I|[I|[]]]]; try discriminate.
  apply end_lines in J as [(J1 & J2 & _)|(r & J & ->)]; auto. right. exists r. split; auto.
  pose proof end_rules_usual as U. rewrite Forall_forall in U. destruct (U r J) as (G & S & _).
  split; auto. split; auto. apply short_domains. clear U G S.
  unfold end_rules in J. repeat (destruct J as [<-|J]; [vm_compute; lia|]). easy.
Qed.

(** ** C79 *)

(** The answer read off the text: a list of rules in the usual syntax blocks a
    request exactly if one of its block rules fits and none of its exceptions
    does.  [rule_fits] (SpecE.v) looks at the text of the rule only. *)
Theorem C79_end_to_end_partial : forall E calls c url uh d context,
  history calls -> after E calls = Ok c ->
  nonul url -> web_url url -> url_has_host url uh ->
  ~ common context (N.lor FOThirdParty FONotThirdParty) -> In "."%char d ->
  usual_list calls -> usual_hosts calls uh -> agree_on_page (e_bads E) calls d ->
  exists v c', matches E c (cstr url) context (Some d) = Ok (v, c') /\
  (v_block v = true <->
   (exists r, rule_loaded calls r /\ x_exception r = false /\ rule_fits calls r url uh context d) /\
   ~ (exists r, rule_loaded calls r /\ x_exception r = true /\ rule_fits calls r url uh context d)).
Proof. exact end_to_end. Qed.
Print Assumptions C79_end_to_end_partial.

(** The rule of a line is determined by the line. *)
Theorem C79_rule_of_line : forall r r',
  good_rule r -> good_rule r' -> rule_line r = rule_line r' -> r = r'.
Proof. exact rule_line_inj. Qed.
Print Assumptions C79_rule_of_line.

Lemma end_loaded r : rule_loaded end_calls r -> In r end_rules.
Proof.
  apply (loaded_cases end_calls end_rules); [|apply end_rules_usual].
  intros pres l I. change (loaded_lines end_calls) with (map (pair true) (text_lines end_text)) in I.
  apply in_map_iff in I as (l' & [= <- <-] & I).
  apply end_lines in I as [(J1 & J2 & J3)|(q & J & ->)]; [left|right; eauto].
  intros q U. now apply quiet_not_rule.
Qed.

Example C79_example : forall uh,
  history end_calls /\ usual_list end_calls /\ usual_hosts end_calls uh /\
  agree_on_page (e_bads E0) end_calls (B "page.example.org") /\
  web_url (B "http://ads.example.com/x") /\
  url_has_host (B "http://ads.example.com/x") (B "ads.example.com") /\
  bind (after E0 end_calls) (fun c =>
    Ok (map (fun u => rmap (fun x => v_block (fst x))
               (matches E0 c (cstr u) FOImage (Some (B "page.example.org"))))
      [B "http://ads.example.com/x"; B "http://ads.example.com/ok/"; B "http://y.org/banner/1/img?";
       B "http://y.org/-ad/"; B "http://y.org/"])) =
    Ok [Ok true; Ok true; Ok true; Ok true; Ok false].
Proof.
  intros uh. pose proof end_rules_usual as U. rewrite Forall_forall in U.
  split; [hist|]. split; [|split; [|split; [|split; [|split]]]].
  - intros pres l I. change (loaded_lines end_calls) with (map (pair true) (text_lines end_text)) in I.
    apply in_map_iff in I as (l' & [= <- <-] & I).
    apply end_lines in I as [(J1 & J2 & J3)|(q & J & ->)]; [now left|]. right. exists q. auto.
  - assert (forall r, rule_loaded end_calls r -> names_only_host r ->
      r = mkRule false HostBars (B "ads.example.com^") false (Some (B "third-party"))) as K.
    { intros r L N. apply end_loaded in L. apply host_only_spec in N.
      unfold end_rules in L.
      repeat (destruct L as [<-|L]; [first [reflexivity|vm_compute in N; discriminate]|]). easy. }
    split.
    + intros r h L N B. rewrite (K r L N) in B. apply body_host_prefix in B as <-. left. vm_compute. auto 10.
    + intros r r' h L L' N N' _ _ _. rewrite (K r L N), (K r' L' N'). reflexivity.
  - assert (forall r dl, rule_loaded end_calls r -> short_exclusion (e_bads E0) r dl ->
      dl = B "~shop.example.org|~news.example.org") as K.
    { intros r dl L (NF & parts & O & LD & _). pose proof (end_loaded r L) as I.
      unfold end_rules in I. destruct I as [<-|[<-|[<-|[<-|[<-|[]]]]]].
      - exfalso. unfold option_parts in O. cbn [x_options] in O. apply cut_unique in O as ->.
        destruct LD as (a & b & Q & _).
        assert (In (B "domain=" ++ dl) (split_on "," (B "third-party"))) as I by (rewrite Q; apply in_or_app; cbn; auto).
        vm_compute in I. destruct I as [I|[]]. discriminate.
      - exfalso. set (r := mkRule false NoAnchor (B "/banner/*/img^") false
          (Some (B "image,~object,domain=~shop.example.org"))) in *.
        destruct (rule_at_parses false (rule_line r)) as [b HP]; [line|].
        assert (getFingerprint E0 (rule_at false (rule_line r)) = Ok (Some (B "banner"))) as HG
          by (vm_compute; reflexivity).
        destruct (rule_fp E0 false r _ b (proj1 (U r (or_intror (or_introl eq_refl)))) HP)
          as (o & Ho & R).
        assert (o = Some (B "banner")) as -> by congruence. destruct R as [R (i & (x & y & R' & _) & _)].
        apply (NF (B "banner")); auto. exists x, y. exact R'.
      - unfold option_parts in O. cbn [x_options] in O. apply cut_unique in O as ->.
        apply (last_domain_unique _ _ _ LD). exists [], []. split; [reflexivity|easy].
      - exfalso. unfold option_parts in O. cbn [x_options] in O. subst parts.
        destruct LD as (a & b & Q & _). now destruct a.
      - exfalso. unfold option_parts in O. cbn [x_options] in O. apply cut_unique in O as ->.
        destruct LD as (a & b & Q & _).
        assert (In (B "domain=" ++ dl) (split_on "," (B "script,tag=soft"))) as I by (rewrite Q; apply in_or_app; cbn; auto).
        vm_compute in I. destruct I as [I|[I|[]]]; discriminate. }
    intros r r' dl dl' L L' _ X X' P. rewrite (K r' dl' L' X'). now rewrite <- (K r dl L X).
  - web.
  - apply web_host; [web|vm_compute; reflexivity].
  - vm_compute. reflexivity.
Qed.

(** Without [usual_hosts]: of two rules for one host only the first counts. *)
Theorem C79_refuted_hosts :
  ~ (forall E calls c url uh d context v c',
  history calls -> after E calls = Ok c ->
  nonul url -> web_url url -> url_has_host url uh ->
  ~ common context (N.lor FOThirdParty FONotThirdParty) -> In "."%char d ->
  usual_list calls -> agree_on_page (e_bads E) calls d ->
  matches E c (cstr url) context (Some d) = Ok (v, c') ->
  (v_block v = true <->
   (exists r, rule_loaded calls r /\ x_exception r = false /\ rule_fits calls r url uh context d) /\
   ~ (exists r, rule_loaded calls r /\ x_exception r = true /\ rule_fits calls r url uh context d))).
Proof.
  intros H.
  set (r1 := mkRule false HostBars (B "ads.com^") false (Some (B "image"))).
  set (r2 := mkRule false HostBars (B "ads.com^") false (Some (B "script"))).
  set (calls := [Parse false (rule_line r1 ++ [LF] ++ rule_line r2)]).
  assert (asked E0 calls (B "http://ads.com/") FOScript (Some (B "b.org")) = Ok (mkV false None None)) as Q
    by (vm_compute; reflexivity).
  apply asked_ok in Q as (c & c' & A & M).
  assert (usual_rule r1) as U1 by (apply usual_ruleb_ok; vm_compute; reflexivity).
  assert (usual_rule r2) as U2 by (apply usual_ruleb_ok; vm_compute; reflexivity).
  assert (forall pres l, In (pres, l) (loaded_lines calls) ->
    exists q, In q [r1; r2] /\ l = rule_line q) as LL.
  { intros pres l I. vm_compute in I. destruct I as [[= <- <-]|[[= <- <-]|[]]].
    - exists r1. split; [now left|reflexivity].
    - exists r2. split; [right; now left|reflexivity]. }
  assert (usual_list calls) as UL.
  { intros pres l I. destruct (LL pres l I) as (q & [<-|[<-|[]]] & ->); right; [exists r1|exists r2]; (split; [reflexivity|assumption]). }
  assert (forall r, rule_loaded calls r -> r = r1 \/ r = r2) as RL.
  { intros r L. assert (In r [r1; r2]) as J.
    { apply (loaded_cases calls [r1; r2]); [|constructor; [exact U1|constructor; [exact U2|constructor]]|exact L].
      intros pres l I. right. exact (LL pres l I). }
    destruct J as [<-|[<-|[]]]; auto. }
  assert (history calls) as HH by hist.
  assert (nonul (B "http://ads.com/")) as Nu by plain_bytes.
  assert (web_url (B "http://ads.com/")) as W by web.
  assert (url_has_host (B "http://ads.com/") (B "ads.com")) as UHH
    by (apply web_host; [exact W|vm_compute; reflexivity]).
  assert (~ common FOScript (N.lor FOThirdParty FONotThirdParty)) as NP
    by (apply has_false; reflexivity).
  assert (rule_loaded calls r2) as L2.
  { split; [exact U2|]. exists false. right; left. reflexivity. }
  assert (agree_on_page (e_bads E0) calls (B "b.org")) as AG.
  { intros r r' dl dl' L _ _ (_ & parts & O & (a & b & Q & _) & _). exfalso.
    unfold option_parts in O.
    destruct (RL r L) as [-> | ->]; cbn [r1 r2 x_options] in O; apply cut_unique in O;
      assert (In (B "domain=" ++ dl) parts) as I by (rewrite Q; apply in_or_app; cbn; auto);
      rewrite O in I; vm_compute in I; destruct I as [I|[]]; discriminate. }
  pose proof (H E0 calls c (B "http://ads.com/") (B "ads.com") (B "b.org") FOScript (mkV false None None) c'
    HH A Nu W UHH NP (or_intror (or_introl eq_refl)) UL AG M) as [_ K].
  cbn [v_block] in K. discriminate K. split.
  - exists r2. split; [exact L2|]. split; [reflexivity|].
    apply (usual_fits E0 calls (B "http://ads.com/") (B "ads.com") (B "b.org") FOScript Nu UHH NP
      false r2 (rule_at false (rule_line r2)) U2).
    + apply rule_at_parses. line.
    + apply applies_at with (host := B "ads.com").
      * vm_compute. reflexivity.
      * vm_compute. reflexivity.
      * vm_compute. reflexivity.
  - intros (r & L & X & _). destruct (RL r L) as [-> | ->]; discriminate X.
Qed.
Print Assumptions C79_refuted_hosts.

(** Without [agree_on_page]: a rule that excludes the page switches off short rules
    that do not. *)
Theorem C79_refuted_page :
  ~ (forall E calls c url uh d context v c',
  history calls -> after E calls = Ok c ->
  nonul url -> web_url url -> url_has_host url uh ->
  ~ common context (N.lor FOThirdParty FONotThirdParty) -> In "."%char d ->
  usual_list calls -> usual_hosts calls uh ->
  matches E c (cstr url) context (Some d) = Ok (v, c') ->
  (v_block v = true <->
   (exists r, rule_loaded calls r /\ x_exception r = false /\ rule_fits calls r url uh context d) /\
   ~ (exists r, rule_loaded calls r /\ x_exception r = true /\ rule_fits calls r url uh context d))).
Proof.
  intros H.
  set (r1 := mkRule false NoAnchor (B "-xx/") false (Some (B "domain=~b.org"))).
  set (r2 := mkRule false NoAnchor (B "-ad/") false (Some (B "domain=~a.org"))).
  set (calls := [Parse false (rule_line r1 ++ [LF] ++ rule_line r2)]).
  assert (asked E0 calls (B "http://ads.com/-ad/") FOScript (Some (B "b.org")) = Ok (mkV false None None)) as Q
    by (vm_compute; reflexivity).
  apply asked_ok in Q as (c & c' & A & M).
  assert (usual_rule r1) as U1 by (apply usual_ruleb_ok; vm_compute; reflexivity).
  assert (usual_rule r2) as U2 by (apply usual_ruleb_ok; vm_compute; reflexivity).
  assert (forall pres l, In (pres, l) (loaded_lines calls) ->
    exists q, In q [r1; r2] /\ l = rule_line q) as LL.
  { intros pres l I. vm_compute in I. destruct I as [[= <- <-]|[[= <- <-]|[]]].
    - exists r1. split; [now left|reflexivity].
    - exists r2. split; [right; now left|reflexivity]. }
  assert (usual_list calls) as UL.
  { intros pres l I. destruct (LL pres l I) as (q & [<-|[<-|[]]] & ->); right; [exists r1|exists r2]; (split; [reflexivity|assumption]). }
  assert (forall r, rule_loaded calls r -> r = r1 \/ r = r2) as RL.
  { intros r L. assert (In r [r1; r2]) as J.
    { apply (loaded_cases calls [r1; r2]); [|constructor; [exact U1|constructor; [exact U2|constructor]]|exact L].
      intros pres l I. right. exact (LL pres l I). }
    destruct J as [<-|[<-|[]]]; auto. }
  assert (history calls) as HH by hist.
  assert (nonul (B "http://ads.com/-ad/")) as Nu by plain_bytes.
  assert (web_url (B "http://ads.com/-ad/")) as W by web.
  assert (url_has_host (B "http://ads.com/-ad/") (B "ads.com")) as UHH
    by (apply web_host; [exact W|vm_compute; reflexivity]).
  assert (~ common FOScript (N.lor FOThirdParty FONotThirdParty)) as NP
    by (apply has_false; reflexivity).
  assert (rule_loaded calls r2) as L2.
  { split; [exact U2|]. exists false. right; left. reflexivity. }
  assert (usual_hosts calls (B "ads.com")) as AG.
  { split.
    - intros r h L (X & _). destruct (RL r L) as [-> | ->]; discriminate X.
    - intros r r' h L _ (X & _). destruct (RL r L) as [-> | ->]; discriminate X. }
  pose proof (H E0 calls c (B "http://ads.com/-ad/") (B "ads.com") (B "b.org") FOScript (mkV false None None) c'
    HH A Nu W UHH NP (or_intror (or_introl eq_refl)) UL AG M) as [_ K].
  cbn [v_block] in K. discriminate K. split.
  - exists r2. split; [exact L2|]. split; [reflexivity|].
    apply (usual_fits E0 calls (B "http://ads.com/-ad/") (B "ads.com") (B "b.org") FOScript Nu UHH NP
      false r2 (rule_at false (rule_line r2)) U2).
    + apply rule_at_parses. line.
    + apply applies_at with (host := B "ads.com").
      * vm_compute. reflexivity.
      * vm_compute. reflexivity.
      * vm_compute. reflexivity.
  - intros (r & L & X & _). destruct (RL r L) as [-> | ->]; discriminate X.
Qed.
Print Assumptions C79_refuted_page.
