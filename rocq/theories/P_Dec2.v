(** The decision in terms of loaded lines. *)
From Verif Require Import Base Flags Protocol Url Sets FilterM ParseM ClientM Spec SpecM
  SpecC P_Base P_Protocol P_Url P_Match P_Rule P_Parse P_List P_Shape P_Fp P_Line P_Line2
  P_Fp2 P_Props1 P_Props2 P_Props3 P_Opt P_Opt2 P_Set P_Client P_Decide P_Hist.

Lemma tail_class E f h fp dom anti nofp k :
  classify_tail E f h fp dom anti nofp = Ok k ->
  (k = h /\ has (f_type f) FTHostOnly = true) \/
  k = CList fp \/ (k = CList dom /\ isDomainOnlyFilter f = true) \/
  (k = CList anti /\ isAntiDomainOnlyFilter f = true) \/ k = CList nofp.
Proof.
  unfold classify_tail. destruct (has (f_type f) FTHostOnly); [intros [= <-]; auto|].
  intros H. apply bind_ok in H as (o & _ & H). destruct o; [injection H as <-; auto|].
  destruct (isDomainOnlyFilter f); [injection H as <-; auto|].
  destruct (isAntiDomainOnlyFilter f); injection H as <-; auto 6.
Qed.

Lemma class_dom E f e : classify E f = Ok (CList (kDom e)) -> isDomainOnlyFilter f = true.
Proof.
  unfold classify. destruct (hasUnsupportedOptions f); [now destruct e|].
  repeat match goal with |- context [if (N.eqb ?a ?b) then _ else _] =>
    destruct (N.eqb a b) end; try (destruct e; discriminate).
  - intros H. apply tail_class in H as [[H _]|[H|[[H X]|[[H _]|H]]]]; auto; destruct e; discriminate.
  - intros H. apply tail_class in H as [[H _]|[H|[[H X]|[[H _]|H]]]]; auto; destruct e; discriminate.
Qed.

Lemma class_anti E f e : classify E f = Ok (CList (kAnti e)) -> isAntiDomainOnlyFilter f = true.
Proof.
  unfold classify. destruct (hasUnsupportedOptions f); [now destruct e|].
  repeat match goal with |- context [if (N.eqb ?a ?b) then _ else _] =>
    destruct (N.eqb a b) end; try (destruct e; discriminate).
  - intros H. apply tail_class in H as [[H _]|[H|[[H _]|[[H X]|H]]]]; auto; destruct e; discriminate.
  - intros H. apply tail_class in H as [[H _]|[H|[[H _]|[[H X]|H]]]]; auto; destruct e; discriminate.
Qed.

Lemma dom_items f s :
  isDomainOnlyFilter f = true ->
  In s (gate_items f) <-> exists dl, f_dom f = Some dl /\ lists_domain dl s /\ s <> [].
Proof.
  unfold isDomainOnlyFilter, f_domains, f_antiDomains, gate_items.
  destruct (f_dom f) as [dl|]; [|discriminate]. intros H.
  apply andb_prop in H as [_ H]. apply negb_true_iff in H.
  assert (forall d, In d (split_on "|" dl) -> is_anti d = false) as NA.
  { intros d I. destruct (is_anti d) eqn:A; auto. exfalso.
    assert (In (skipn 1 d) (antiDomainsOf dl)) as J.
    { apply in_map. apply filter_In. auto. }
    destruct (antiDomainsOf dl); [easy|discriminate]. }
  rewrite in_flat_map. split.
  - intros (d & I & J). exists dl. split; auto. pose proof (NA d I) as A.
    destruct d as [|c d]; [easy|]. cbn [gate_item is_anti] in *. rewrite A in J.
    destruct J as [<-|[]]. split; [|easy]. apply lists_domainsOf. apply filter_In.
    split; auto. cbn [is_anti]. now rewrite A.
  - intros (dl' & [= <-] & L & N). apply lists_domainsOf in L. apply filter_In in L as [I A].
    exists s. split; auto. destruct s as [|c s]; [easy|].
    cbn [is_anti] in A. apply negb_true_iff in A. cbn [gate_item]. rewrite A. cbn; auto.
Qed.

Lemma anti_items f s :
  isAntiDomainOnlyFilter f = true ->
  In s (gate_items f) <-> exists dl, f_dom f = Some dl /\ excludes_domain dl s.
Proof.
  unfold isAntiDomainOnlyFilter, f_domains, f_antiDomains, gate_items.
  destruct (f_dom f) as [dl|]; [|discriminate]. intros H.
  apply andb_prop in H as [_ H]. apply negb_true_iff in H.
  assert (forall d, In d (split_on "|" dl) -> is_anti d = true) as NA.
  { intros d I. destruct (is_anti d) eqn:A; auto. exfalso.
    assert (In d (domainsOf dl)) as J.
    { apply filter_In. now rewrite A. }
    destruct (domainsOf dl); [easy|discriminate]. }
  rewrite in_flat_map. split.
  - intros (d & I & J). exists dl. split; auto. pose proof (NA d I) as A.
    destruct d as [|c d]; [easy|]. cbn [gate_item is_anti] in *. rewrite A in J.
    destruct J as [<-|[]]. apply excludes_antiDomainsOf. apply in_map_iff.
    exists (c :: d). split; auto. apply filter_In. auto.
  - intros (dl' & [= <-] & L). apply excludes_antiDomainsOf in L.
    apply in_map_iff in L as (x & <- & I). apply filter_In in I as [I A].
    exists x. split; auto. destruct x as [|c x]; [easy|]. cbn [is_anti] in A.
    cbn [gate_item]. rewrite A. cbn; auto.
Qed.

Lemma in_items k rs s : In s (items k rs) <-> exists f, In f (rules_in k rs) /\ In s (gate_items f).
Proof. unfold items. now rewrite in_flat_map. Qed.

Lemma dom_rule_hit E rs e f d :
  Forall (prule_ok E) rs -> In f (rules_in (kDom e) rs) ->
  contextDomainMatchesFilter f d = true -> gate_hit E 1000 (items (kDom e) rs) (Some d).
Proof.
  intros PO I C. pose proof I as I'. apply in_rules_in in I' as (b & I').
  rewrite Forall_forall in PO. destruct (PO _ I') as [_ K]. apply class_dom in K.
  assert (exists dl, f_dom f = Some dl /\ exists s, lists_domain dl s) as (dl & Hd & s0 & L0).
  { unfold isDomainOnlyFilter, f_domains in K. destruct (f_dom f) as [dl|]; [|discriminate].
    exists dl. split; auto. destruct (domainsOf dl) as [|s l] eqn:X; [discriminate|].
    exists s. apply lists_domainsOf. rewrite X. cbn; auto. }
  apply (contextDomain_spec f dl d Hd) in C. destruct C as [(s & W & L & _)|[_ C]].
  - exists s. split; [now right|]. apply in_items. exists f. split; auto.
    apply dom_items; auto. exists dl. split; auto. split; auto.
    destruct W as [_ W]. now destruct s.
  - now apply C in L0.
Qed.

Lemma dom_rule_null E rs e :
  Forall (prule_ok E) rs -> ~ gate_hit E 1000 (items (kDom e) rs) None.
Proof.
  intros PO [I _]. apply in_items in I as (f & I & J). apply in_rules_in in I as (b & I).
  rewrite Forall_forall in PO. destruct (PO _ I) as [_ K]. apply class_dom in K.
  apply dom_items in J; auto. destruct J as (dl & _ & _ & N). easy.
Qed.

Lemma anti_hit E calls rs e dom :
  Forall2 (line_rule E) (loaded_lines calls) rs -> Forall (prule_ok E) rs ->
  gate_hit E 100 (items (kAnti e) rs) dom <-> page_excluded E calls e dom.
Proof.
  intros F PO.
  assert (forall s, In s (items (kAnti e) rs) <->
    exists g dl, loaded_in E calls (only_excluded e) g /\ f_dom g = Some dl /\
                 excludes_domain dl s) as K.
  { intros s. rewrite in_items. split.
    - intros (f & I & J). pose proof I as I'. apply in_rules_in in I' as (b & I').
      rewrite Forall_forall in PO. destruct (PO _ I') as [_ K]. apply class_anti in K.
      apply anti_items in J; auto. destruct J as (dl & Hd & X). exists f, dl. split; auto.
      unfold only_excluded. fold (kAnti e). now apply (loaded_rules_in E calls rs).
    - intros (f & dl & I & Hd & X). unfold only_excluded in I. fold (kAnti e) in I.
      apply (loaded_rules_in E calls rs) in I; auto. exists f. split; auto.
      apply in_rules_in in I as (b & I).
      rewrite Forall_forall in PO. destruct (PO _ I) as [_ K]. apply class_anti in K.
      apply anti_items; eauto. }
  unfold page_excluded. destruct dom as [d|]; cbn [gate_hit].
  - split.
    + intros (s & P & I). apply K in I as (g & dl & I1 & I2 & I3). exists g, dl, s. auto.
    + intros (g & dl & s & I1 & I2 & I3 & I4). exists s. split; auto. apply K. eauto.
  - split.
    + intros (I & Z). apply K in I as (g & dl & I1 & I2 & I3). exists g, dl, []. auto.
    + intros (g & dl & s & I1 & I2 & I3 & -> & Z). split; auto. apply K. eauto.
Qed.

(** ** A reachable client *)
Record view (E : env) (calls : list call) (c : client) (rs : list prule) : Prop := mkView {
  w_rep : rep E c rs;
  w_lines : Forall2 (line_rule E) (loaded_lines calls) rs;
  w_tags : forall t, tagExists c t = true <-> tag_enabled calls t
}.

Lemma hist_view E calls c :
  history calls -> after E calls = Ok c -> exists rs, view E calls c rs.
Proof.
  intros H A. destruct (hist E calls c H A) as (rs & R & F & T). exists rs. now constructor.
Qed.

Lemma fires_applies E calls c rs url context dom f :
  view E calls c rs -> nonul url ->
  fires E c url context dom f <-> applies E calls f url context dom.
Proof.
  intros V Hu. unfold fires, applies, matches_alone, fm, ctx_of.
  assert (tag_ok c f = true <-> tag_on calls f) as T.
  { unfold tag_ok, tag_on. destruct (f_tag f) as [|a t] eqn:X; [split; auto|].
    rewrite (w_tags _ _ _ _ V). split; auto. intros [[=]|]; auto. }
  rewrite T. split; intros [A1 A2]; split; auto.
  - exists (hostOf url). split; auto. now apply getUrlHost_cstr.
  - destruct A1 as (host & H1 & H2). rewrite getUrlHost_cstr in H1 by auto.
    assert (host = hostOf url) as -> by congruence. auto.
Qed.

Lemma web_colon url : web_url url -> In ":"%char url.
Proof.
  intros (_ & pre & scheme & rest & -> & _). apply in_or_app. right. apply in_or_app. right.
  cbn. auto.
Qed.

Lemma web_host url host :
  web_url url -> url_has_host url host <-> host = hostOf url.
Proof.
  intros W. split.
  - intros H. now rewrite (hostOf_spec _ _ H).
  - intros ->. apply hostOf_exists. now apply web_colon.
Qed.

Lemma fires_domain E c url context d f :
  fires E c url context (Some d) f -> f_dom f = None \/ contextDomainMatchesFilter f d = true.
Proof.
  intros [H _]. apply match_options, matchesOptions_exact in H.
  destruct H as (_ & _ & _ & H & _). apply domain_parts in H. unfold domain_okb in H.
  destruct (f_dom f); auto.
Qed.

Lemma heeded_consulted E calls c rs e url context dom f :
  view E calls c rs -> nonul url -> web_url url ->
  (consulted E rs e dom (hostOf url) f /\ fires E c url context dom f) <->
  (heeded E calls e url dom f /\ applies E calls f url context dom).
Proof.
  intros V Hu Hw. rewrite (fires_applies E calls c rs) by auto.
  pose proof (w_rep _ _ _ _ V) as R. pose proof R as (PO & _).
  pose proof (w_lines _ _ _ _ V) as F.
  assert (forall k g, loaded_in E calls (CList k) g <-> In g (rules_in k rs)) as LR
    by (intros; now apply loaded_rules_in).
  pose proof (anti_hit E calls rs e dom F PO) as AH.
  split; intros [X A]; (split; [|exact A]).
  - destruct X as [X|[X|[[X G]|[[X G]|(s & P & X)]]]].
    + apply heeded_fingerprint, LR, X.
    + apply heeded_plain, LR, X.
    + apply heeded_listed; [apply LR, X|]. intros ->. now apply dom_rule_null in G.
    + apply heeded_excluded; [apply LR, X|]. now rewrite <- AH.
    + apply (first_host_pick E calls) in X as [X1 X2]; auto.
      apply (heeded_host E calls e url dom f (hostOf url) s); auto. now apply web_host.
  - destruct X as [f X|f X|f X N|f X N|f host h X1 X2 X3 X4].
    + left. now apply LR.
    + right; left. now apply LR.
    + do 2 right; left. apply LR in X. fold (kDom e) in X. split; auto.
      destruct dom as [d|]; [|easy].
      apply (fires_applies E calls c rs) in A; auto.
      apply fires_domain in A as [A|A].
      * apply in_rules_in in X as (b & X). rewrite Forall_forall in PO.
        destruct (PO _ X) as [_ K]. apply class_dom in K.
        unfold isDomainOnlyFilter, f_domains in K. rewrite A in K. discriminate.
      * eapply dom_rule_hit; eauto.
    + do 3 right; left. apply LR in X. fold (kAnti e) in X. split; auto. now rewrite AH.
    + do 4 right. apply web_host in X2 as ->; auto. exists h. split; auto.
      apply (first_host_pick E calls); auto.
Qed.

(** Rules heeded and applying are loaded rules of the category. *)
Lemma heeded_loaded E calls c rs e url context dom f :
  view E calls c rs -> heeded E calls e url dom f -> applies E calls f url context dom ->
  loaded E calls (blocker e) f.
Proof.
  intros V X A. pose proof (w_lines _ _ _ _ V) as F.
  destruct X as [f X|f X|f X N|f X N|f host h X1 X2 X3 X4].
  - eexists; split; [exact X|now destruct e].
  - eexists; split; [exact X|now destruct e].
  - eexists; split; [exact X|now destruct e].
  - eexists; split; [exact X|now destruct e].
  - destruct X1 as [HR (a & pres & l & b & h' & L & P & _)].
    assert (In (pres, l) (loaded_lines calls)) as I.
    { rewrite L. apply in_or_app. cbn; auto. }
    destruct (F2_in_l _ _ _ _ F I) as ([[g bb] k] & J & LR).
    assert (f = g) as <- by (now apply (line_rule_parses E (pres, l) (g, bb, k))).
    pose proof (line_rule_ok _ _ _ LR) as PO.
    destruct (host_rule_class E e f bb k PO HR) as [->|U].
    + exists (CHost e). split; [|now destruct e].
      apply (loaded_rule E calls rs); eauto.
    + exfalso. destruct A as ((host' & _ & A) & _). now rewrite unsupported_never in A.
Qed.

Theorem decision E calls c url context dom v c' :
  history calls -> after E calls = Ok c -> nonul url -> web_url url ->
  matches E c (cstr url) context dom = Ok (v, c') ->
  v_block v = true <->
  (exists f, heeded E calls false url dom f /\ applies E calls f url context dom) /\
  ~ (exists f, heeded E calls true url dom f /\ applies E calls f url context dom).
Proof.
  intros H A Hu Hw M. destruct (hist_view E calls c H A) as (rs & V).
  rewrite (decide E c rs url context dom v c' (w_rep _ _ _ _ V) Hu Hw M).
  assert (forall e, (exists f, consulted E rs e dom (hostOf url) f /\ fires E c url context dom f)
    <-> (exists f, heeded E calls e url dom f /\ applies E calls f url context dom)) as K.
  { intros e. split; intros (f & X); exists f; now apply (heeded_consulted E calls c rs). }
  now rewrite !K.
Qed.

(** Reported rules. *)
Lemma same_copy f : same_content f (copyFilter f).
Proof. unfold same_content, copyFilter. cbn. destruct (f_data f) as [[d t]|]; auto 10. Qed.

Lemma same_self f : same_content f f.
Proof. unfold same_content. auto 10. Qed.

Lemma matches_reports E calls c url context dom v c' :
  history calls -> after E calls = Ok c -> nonul url -> web_url url ->
  matches E c (cstr url) context dom = Ok (v, c') ->
  reported E calls false url context dom (heeded E calls false url dom) (v_filter v) /\
  (v_filter v <> None ->
   reported E calls true url context dom (heeded E calls true url dom) (v_exc v)) /\
  v_block v = match v_filter v, v_exc v with Some _, None => true | _, _ => false end.
Proof.
  intros H A Hu Hw M. destruct (hist_view E calls c H A) as (rs & V).
  destruct (matches_spec E c rs url context dom v c' (w_rep _ _ _ _ V) Hu Hw M)
    as (_ & F1 & F2 & ->).
  assert (forall e o, found E c url context dom (consulted E rs e dom (hostOf url)) o ->
    reported E calls e url context dom (heeded E calls e url dom) o) as K.
  { intros e o X. destruct o as [g|].
    - destruct X as (f & X1 & X2 & X3).
      destruct (proj1 (heeded_consulted E calls c rs e url context dom f V Hu Hw)) as [Y1 Y2]; auto.
      exists f. split; [eapply heeded_loaded; eauto|]. split; auto. split; auto.
      destruct X3 as [->| ->]; [apply same_self|apply same_copy].
    - intros f X1 X2. apply (X f); now apply (heeded_consulted E calls c rs e url context dom f V Hu Hw). }
  split; auto.
Qed.

Lemma visible_present E calls c rs e url f :
  view E calls c rs -> nonul url ->
  present E rs e (hostOf url) f <-> visible E calls e url f.
Proof.
  intros V Hu. pose proof (w_lines _ _ _ _ V) as F.
  assert (forall k g, loaded_in E calls (CList k) g <-> In g (rules_in k rs)) as LR
    by (intros; now apply loaded_rules_in).
  unfold present, visible. rewrite <- !LR. split.
  - intros [X|[X|[X|[X|(s & P & X)]]]].
    1-4: left; eexists; split; [exact X|now destruct e].
    right. apply (first_host_pick E calls) in X as [X1 X2]; auto.
    exists (hostOf url), s. split; auto. split; auto. now apply getUrlHost_cstr.
  - intros [(k & X & C)|(host & h & X1 & X2 & X3 & X4)].
    + destruct k, e; cbn in C; try discriminate; auto.
    + rewrite getUrlHost_cstr in X2 by auto. assert (host = hostOf url) as -> by congruence.
      do 4 right. exists h. split; auto. apply (first_host_pick E calls); auto.
Qed.

Lemma visible_loaded E calls c rs e url context dom f :
  view E calls c rs -> visible E calls e url f -> applies E calls f url context dom ->
  loaded E calls (blocker e) f.
Proof.
  intros V X A. destruct X as [(k & X & C)|(host & h & X1 & _)].
  - exists (CList k). auto.
  - pose proof (w_lines _ _ _ _ V) as F.
    destruct X1 as [HR (a & pres & l & b & h' & L & P & _)].
    assert (In (pres, l) (loaded_lines calls)) as I.
    { rewrite L. apply in_or_app. cbn; auto. }
    destruct (F2_in_l _ _ _ _ F I) as ([[g bb] k] & J & LR).
    assert (f = g) as <- by (now apply (line_rule_parses E (pres, l) (g, bb, k))).
    pose proof (line_rule_ok _ _ _ LR) as PO.
    destruct (host_rule_class E e f bb k PO HR) as [->|U].
    + exists (CHost e). split; [|now destruct e].
      apply (loaded_rule E calls rs); eauto.
    + exfalso. destruct A as ((host' & _ & A) & _). now rewrite unsupported_never in A.
Qed.

Lemma find_reports E calls c url context dom v :
  history calls -> after E calls = Ok c -> nonul url ->
  findMatchingFilters E c (cstr url) context dom = Ok v ->
  reported E calls false url context dom (visible E calls false url) (v_filter v) /\
  (v_filter v <> None ->
   reported E calls true url context dom (visible E calls true url) (v_exc v)) /\
  v_block v = match v_filter v, v_exc v with Some _, None => true | _, _ => false end.
Proof.
  intros H A Hu M. destruct (hist_view E calls c H A) as (rs & V).
  destruct (find_spec E c rs url context dom v (w_rep _ _ _ _ V) Hu M)
    as (F1 & F2 & _ & ->).
  assert (forall e o, found E c url context dom (present E rs e (hostOf url)) o ->
    reported E calls e url context dom (visible E calls e url) o) as K.
  { intros e o X. destruct o as [g|].
    - destruct X as (f & X1 & X2 & X3).
      apply (fires_applies E calls c rs) in X2; auto.
      apply (visible_present E calls c rs) in X1; auto.
      exists f. split; [eapply visible_loaded; eauto|]. split; auto. split; auto.
      destruct X3 as [->| ->]; [apply same_self|apply same_copy].
    - intros f X1 X2. apply (X f).
      + now apply (visible_present E calls c rs).
      + now apply (fires_applies E calls c rs). }
  split; auto.
Qed.
