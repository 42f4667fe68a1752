(** Proofs: the scripts do not fail on safe lists. *)
From Verif Require Import Base Flags Protocol Url Sets FilterM ParseM ClientM SerialM JsM DataM ListsM ToolM
  CatalogM PublishM CheckM Spec SpecM SpecC SpecS SpecJ SpecL SpecX SpecT SpecTool SpecP SpecQ SpecY SpecDef
  P_Base P_Protocol P_Url P_Match P_Rule P_Props1 P_Props2 P_Set P_Parse P_List P_Line P_Line2 P_Line4
  P_Line5 P_Fp2 P_Opt P_Opt2 P_Shape P_Match2 P_Client P_Hist P_Decide P_Dec2 P_Dec3
  P_Dec4 P_Dec5 P_Dec6 P_Dec7 P_Dec8 P_Like P_Js P_Js2 P_Ex P_Data P_Tool P_Pub P_Safe P_Check SpecC SpecJ.
From Verif Require P_Stat P_Ser3 P_Ser4 P_Ser6 P_Ser7 P_Life2.

(** ** Safe texts *)
Lemma safe_texts_calls E p ts : Forall (safe_text E p) ts -> safe_calls E (map (Parse p) ts).
Proof.
  intros H pres t l I. apply in_map_iff in I as (u & Q & I). injection Q as <- <-.
  rewrite Forall_forall in H. apply (H u I).
Qed.

Lemma safe_texts_nonul E p ts : Forall (safe_text E p) ts -> Forall nonul ts.
Proof. apply Forall_impl. now intros t []. Qed.

(** The pieces of a concrete pattern. *)
Definition safe_patternb (f : filter) : bool :=
  match f_data f with
  | None => true
  | Some (d, _) =>
      (has (f_type f) FTRegex || has (f_type f) FTLeftAnchored || has (f_type f) FTRightAnchored ||
       forallb (fun p => caret_safe (tl p)) (split_on "*" d)) &&
      (negb (has (f_type f) FTHostOnly) ||
       (match d with [] => false | _ => true end && negb (ceq (last d NUL) "*") &&
        negb (has (f_type f) FTRightAnchored)))
  end.

Lemma safe_patternb_ok f : safe_patternb f = true -> safe_pattern f.
Proof.
  unfold safe_patternb. intros H d t Hd. rewrite Hd in H. apply andb_true_iff in H as [H1 H2]. split.
  - rewrite !orb_true_iff in H1. destruct H1 as [[[H1|H1]|H1]|H1]; auto.
    right; right; right. intros pieces p a b Hp I Q. apply pieces_of_unique in Hp as ->.
    rewrite forallb_forall in H1. apply H1 in I. apply caret_safe_spec in I.
    destruct a as [|x a]; auto. destruct b as [|y b]; auto. exfalso. apply I.
    exists a, (y :: b). split; [now rewrite Q|easy].
  - intros HO. rewrite HO in H2. cbn [negb orb] in H2. rewrite !andb_true_iff, !negb_true_iff in H2.
    destruct H2 as [[H2 H3] H4]. split; [now destruct d|]. split; auto.
    intros Q. rewrite Q in H3. discriminate.
Qed.

Lemma safe_textb E p t :
  nonul t -> forallb (fun l => Nat.leb (length l) 1024 && bars_fineb l && safe_patternb (rule_at p l)) (text_lines t) = true ->
  safe_text E p t.
Proof.
  intros H B. split; auto. intros l I. rewrite forallb_forall in B. pose proof (B l I) as Q.
  rewrite !andb_true_iff in Q. destruct Q as [[Q1 Q2] Q3]. apply Nat.leb_le in Q1.
  split; [now apply safe_short|]. intros f k P _ _. apply parses_rule_at in P as ->.
  - now apply safe_patternb_ok.
  - eapply text_lines_line; eauto.
Qed.

(** ** Prepared lists *)
Definition prepared_lines : bytes :=
  join_lf (mapRule ima_host :: mapRule ima_file :: extraConcatRules).

Lemma prepared_lines_safe E p : safe_text E p prepared_lines.
Proof.
  apply safe_textb; [apply nonulb_ok; vm_compute; reflexivity|].
  destruct p; vm_compute; reflexivity.
Qed.

Lemma sanitizedWith_line pred t l :
  In l (text_lines (sanitizeWith pred t)) -> In l (text_lines t) \/ In l (text_lines prepared_lines).
Proof.
  unfold sanitizeWith. rewrite text_lines_join by now destruct (map mapRule _).
  rewrite flat_map_app. intros I. apply in_app_or in I as [I|I].
  2:{ right. vm_compute in I. vm_compute. tauto. }
  apply in_flat_map in I as (w & J & I). apply in_map_iff in J as (u & <- & J).
  apply filter_In in J as [J _].
  destruct (mapRule_marked u) as [[X Y]|[[X Y]|(_ & _ & Y)]].
  - right. rewrite Y in I. vm_compute in I. vm_compute. tauto.
  - right. rewrite Y in I. vm_compute in I. vm_compute. tauto.
  - left. rewrite Y in I. rewrite text_lines_split. apply in_flat_map. eauto.
Qed.

Lemma prepared_safe E p pred t : safe_text E p t -> safe_text E p (sanitizeWith pred t).
Proof.
  intros [N S]. split; [now apply sanitize_nonul|].
  intros l I. apply sanitizedWith_line in I as [I|I]; [now apply S|now apply prepared_lines_safe].
Qed.

Lemma joined_safe E p ts : ts <> [] -> Forall (safe_text E p) ts -> safe_text E p (join_lf ts).
Proof.
  intros NE H. split; [apply nonul_join; eapply safe_texts_nonul; eauto|].
  intros l I. rewrite text_lines_join in I by auto. apply in_flat_map in I as (t & J & I).
  rewrite Forall_forall in H. now apply (H t J).
Qed.

(** ** C69 *)
Lemma checkSites_list E sites : forall c,
  (forall s, In s sites -> exists v c', matches E c (cstr s) FONoFilterOption (Some (B "slashdot.org")) = Ok (v, c')) <->
  (exists c', checkSites E c sites = Ok c').
Proof.
  unfold checkSites. induction sites as [|s sites IH]; intros c; cbn [foldM].
  - split; [eauto|intros _ s []].
  - split.
    + intros H. destruct (H s) as (v & d & M); [now left|].
      unfold jsMatches at 1, js_string at 1. rewrite M. cbn [bind rmap snd fst].
      apply (IH d). intros t I. destruct (H t) as (w & d' & N); [now right|].
      apply asked_alike in M. destruct (answers_alike E c d (cstr t) FONoFilterOption (Some (B "slashdot.org")) M) as [X _].
      rewrite N in X. cbn [rmap] in X.
      destruct (matches E d (cstr t) FONoFilterOption (Some (B "slashdot.org"))) as [[w' e]|]; [eauto|discriminate].
    + intros (c' & H) t I. apply bind_ok in H as (d & M & H).
      apply rmap_ok in M as ([b d'] & M & Q). cbn [snd] in Q. subst d'.
      unfold jsMatches, js_string in M. apply bind_ok in M as ([v d'] & M & Q). injection Q as _ Q.
      cbn [snd] in Q. subst d'.
      destruct I as [<-|I]; [eauto|].
      destruct (proj2 (IH d) (ex_intro _ c' H) t I) as (w & e & N).
      apply asked_alike in M. destruct (answers_alike E c d (cstr t) FONoFilterOption (Some (B "slashdot.org")) M) as [X _].
      rewrite N in X. cbn [rmap] in X.
      destruct (matches E c (cstr t) FONoFilterOption (Some (B "slashdot.org"))) as [[w' e']|]; [eauto|discriminate].
Qed.

Lemma detecting_same E items c :
  Forall nonul items -> clientFromStrings E false items = Ok c ->
  forall s, matches E (enableBadFp E c) (cstr s) FONoFilterOption (Some (B "slashdot.org")) = UB <->
            matches E c (cstr s) FONoFilterOption (Some (B "slashdot.org")) = UB.
Proof.
  intros H A s. rewrite strings_after0 in A.
  pose proof (P_Stat.hist_settled E _ c (history_parses false items H) A) as ST.
  destruct (twin_answers E False c _ ST (twin_bad E c)) as [X _].
  destruct (matches E c _ _ _) as [[v d]|] eqn:M1, (matches E (enableBadFp E c) _ _ _) as [[w e]|] eqn:M2;
    split; try easy; intros _; exfalso.
  - destruct (proj1 (X _ _ _ _) (ex_intro _ d M1)) as (e & Y). congruence.
  - destruct (proj2 (X _ _ _ _) (ex_intro _ e M2)) as (d & Y). congruence.
Qed.

Lemma made_client E sites items c d :
  Forall nonul items -> Forall nonul sites ->
  clientFromStrings E false items = Ok c -> checkSites E (enableBadFp E c) sites = Ok d ->
  let calls := map (Parse false) items ++ DetectBad :: asks_of sites in
  history calls /\ after E calls = Ok d.
Proof.
  intros H1 H2 A C calls. split.
  - apply Forall_app. split; [now apply history_parses|]. constructor; [exact I|].
    apply Forall_forall. intros k J. apply in_map_iff in J as (s & <- & J).
    rewrite Forall_forall in H2. now apply H2.
  - rewrite strings_after0 in A. unfold calls, after in *. rewrite foldM_app, A. cbn [bind foldM perform].
    now rewrite <- checkSites_perform.
Qed.

Lemma data_defined E sites items :
  Forall nonul items -> Forall nonul sites ->
  (dataFile E sites items = UB <-> unreadable E items \/ unanswerable E items sites).
Proof.
  intros H1 H2. unfold dataFile, unreadable, unanswerable.
  change (foldM (fun c t => parse E false (cstr t) c) client0 items) with (clientFromStrings E false items).
  rewrite <- strings_after0.
  destruct (clientFromStrings E false items) as [c|] eqn:A; cbn [bind].
  2:{ split; auto. }
  assert (forall s, matches E (enableBadFp E c) (cstr s) FONoFilterOption (Some (B "slashdot.org")) = UB <->
                    matches E c (cstr s) FONoFilterOption (Some (B "slashdot.org")) = UB) as K.
  { now apply (detecting_same E items). }
  split.
  - intros U. right. destruct (checkSites E (enableBadFp E c) sites) as [d|] eqn:C.
    { exfalso. destruct (made_client E sites items c d H1 H2 A C) as [H A'].
      cbn [bind] in U.
      rewrite (P_Ser4.serialize_ok _ d true true (P_Ser6.hist_shaped E _ d H A')) in U. discriminate. }
    clear U. assert (~ (forall s, In s sites -> exists v c', matches E (enableBadFp E c) (cstr s) FONoFilterOption (Some (B "slashdot.org")) = Ok (v, c'))) as N.
    { intros X. apply checkSites_list in X as (d & X). congruence. }
    exists c. clear C. induction sites as [|s sites IH]; [destruct N; intros s []|].
    destruct (matches E (enableBadFp E c) (cstr s) FONoFilterOption (Some (B "slashdot.org"))) as [[v d]|] eqn:M.
    + inversion H2; subst. destruct IH as (t & _ & I & Q); auto.
      { intros X. apply N. intros t [<-|I]; eauto. }
      exists t. split; auto. split; [now right|auto].
    + exists s. split; auto. split; [now left|]. now apply K.
  - intros [X|(c' & s & Q & I & X)]; [discriminate|]. injection Q as <-.
    destruct (checkSites E (enableBadFp E c) sites) as [d|] eqn:C; auto. exfalso.
    destruct (proj2 (checkSites_list E sites _) (ex_intro _ d C) s I) as (v & e & M).
    apply K in X. congruence.
Qed.

Lemma data_safe E sites items :
  Forall (safe_text E false) items -> Forall nonul sites ->
  exists data, dataFile E sites items = Ok data.
Proof.
  intros H1 H2. pose proof (safe_texts_nonul _ _ _ H1) as N.
  destruct (safe_history E (map (Parse false) items)) as (c & A & Q).
  { now apply history_parses. } { now apply safe_texts_calls. }
  destruct (dataFile E sites items) as [data|] eqn:D; [eauto|]. exfalso.
  apply data_defined in D as [D|(c' & s & A' & I & D)]; auto.
  - unfold unreadable in D. congruence.
  - assert (c' = c) as -> by congruence. rewrite Forall_forall in H2.
    destruct (Q s FONoFilterOption (Some (B "slashdot.org")) (H2 s I)) as [(v & e & M) _]. congruence.
Qed.

(** ** C82 *)
Lemma from_string_defined E sites items name d :
  Forall nonul items -> Forall nonul sites ->
  (generateFromString E sites items name d = UB <-> dataFile E sites items = UB).
Proof.
  intros H1 H2. unfold generateFromString, dataFile.
  change (foldM (fun c t => parse E false (cstr t) c) client0 items) with (clientFromStrings E false items).
  destruct (clientFromStrings E false items) as [c|] eqn:A; cbn [bind]; [|tauto].
  destruct (checkSites E (enableBadFp E c) sites) as [e|] eqn:C; cbn [bind]; [|tauto].
  destruct (made_client E sites items c e H1 H2 A C) as [H A'].
  rewrite (P_Ser4.serialize_ok _ e true true (P_Ser6.hist_shaped E _ e H A')).
  destruct (proj2 (header_defined E _ e H A')) as (t & ->).
  { exists (map (Parse false) items), (asks_of sites). split; auto. intros J.
    apply in_map_iff in J as (s & Q & _). discriminate. }
  cbn [bind]. split; discriminate.
Qed.

Lemma jobs_defined E sites jobs : forall d,
  (forall n items, In (n, Some items) jobs -> Forall (safe_text E false) items) -> Forall nonul sites ->
  exists ok d', runJobs E sites jobs d = Ok (ok, d').
Proof.
  induction jobs as [|[n [items|]] jobs IH]; intros d S H; cbn [runJobs]; eauto.
  pose proof (S n items (or_introl eq_refl)) as Si.
  destruct (data_safe E sites items Si H) as (data & D).
  pose proof (from_string_defined E sites items n d (safe_texts_nonul _ _ _ Si) H) as F.
  destruct (generateFromString E sites items n d) as [d1|]; cbn [bind].
  - apply IH; auto. intros m it I. apply (S m). now right.
  - exfalso. rewrite (proj1 F eq_refl) in D. discriminate.
Qed.

Lemma all_of_in {A} (l : list (option A)) r x : all_of l = Some r -> In x r -> In (Some x) l.
Proof.
  revert r. induction l as [|[a|] l IH]; intros r H I; cbn [all_of] in H; [|..|discriminate].
  - injection H as <-. destruct I.
  - destruct (all_of l) as [r'|] eqn:Q; [|discriminate]. injection H as <-.
    destruct I as [->|I]; [now left|right]. eapply IH; eauto.
Qed.

Lemma host_filter_off l : In l default_lists \/ In l malware_lists -> getListFilterFunction (fst l) = None.
Proof.
  intros H. assert (forallb (fun l => match getListFilterFunction (fst l) with None => true | _ => false end)
    (default_lists ++ malware_lists) = true) as K by (vm_compute; reflexivity).
  rewrite forallb_forall in K. apply in_or_app in H. apply K in H. now destruct (getListFilterFunction (fst l)).
Qed.

Lemma generate_defined E sites fetch unbreak d :
  (forall url body, fetch url = Some body -> safe_text E false body) -> safe_text E false unbreak ->
  Forall nonul sites ->
  exists ok d', generateDataFiles E sites fetch unbreak d = Ok (ok, d').
Proof.
  intros F U H. apply jobs_defined; auto. intros n items I.
  assert (forall lists, (forall l, In l lists -> In l default_lists \/ In l malware_lists) ->
    forall m, listsJob fetch lists m = (n, Some items) -> Forall (safe_text E false) items) as K.
  { intros lists L m Q. unfold listsJob in Q. injection Q as _ Q. apply Forall_forall. intros x J.
    eapply all_of_in in J; [|exact Q]. apply in_map_iff in J as (l & J & Il).
    rewrite host_filter_off in J by auto. unfold getSingleListData in J.
    destruct (fetch (snd l)) as [body|] eqn:Fe; [|discriminate]. injection J as <-.
    apply prepared_safe. eauto. }
  destruct I as [I|[I|I]]; [eapply K; [|exact I]; auto..|].
  apply in_map_iff in I as (r & I & _). unfold regionJob in I. injection I as _ I.
  destruct (fetch (snd r)) as [body|] eqn:Fe; [|discriminate]. injection I as <-.
  constructor; eauto.
Qed.

(** ** When the making of the files fails *)
Lemma jobs_ub E sites jobs : forall d,
  (forall n items, In (n, Some items) jobs -> Forall nonul items) -> Forall nonul sites ->
  (runJobs E sites jobs d = UB <->
   exists done p rest, map (job_file E sites) jobs = done ++ (p, Some UB) :: rest /\
     Forall (fun e => exists data, snd e = Some (Ok data)) done).
Proof.
  induction jobs as [|[n [items|]] jobs IH]; intros d S H; cbn [runJobs map].
  - split; [discriminate|]. intros ([|? ?] & pp & rest & Q & _); discriminate.
  - pose proof (S n items (or_introl eq_refl)) as Si.
    pose proof (from_string_defined E sites items n d Si H) as F.
    unfold job_file at 1. cbn [fst snd option_map].
    destruct (generateFromString E sites items n d) as [d1|]; cbn [bind].
    + destruct (dataFile E sites items) as [data|] eqn:D.
      2:{ exfalso. pose proof (proj2 F eq_refl). discriminate. }
      rewrite IH; auto. 2:{ intros m it I. apply (S m). now right. }
      split.
      * intros (done & p & rest & -> & R). exists ((B "out/" ++ n, Some (Ok data)) :: done), p, rest.
        split; [reflexivity|]. constructor; [exists data; reflexivity|exact R].
      * intros ([|x done] & p & rest & Q & R).
        { cbn [app] in Q. assert (Some (Ok data) = Some (@UB bytes)) by congruence. discriminate. }
        inversion R; subst. exists done, p, rest. split; auto. cbn [app] in Q. congruence.
    + rewrite (proj1 F eq_refl). split; auto. intros _.
      exists [], (B "out/" ++ n), (map (job_file E sites) jobs). auto.
  - split; [discriminate|]. intros ([|x done] & p & rest & Q & R).
    + assert (None = Some (@UB bytes)) by (unfold job_file in Q; cbn [fst snd option_map app] in Q; congruence).
      discriminate.
    + inversion R as [|? ? (data & X) R']; subst. cbn [app] in Q. unfold job_file at 1 in Q.
      cbn [fst snd option_map] in Q. assert (x = (B "out/" ++ n, None)) as -> by congruence.
      discriminate.
Qed.

Lemma generate_ub E sites fetch unbreak d :
  (forall url body, fetch url = Some body -> nonul body) -> nonul unbreak -> Forall nonul sites ->
  (generateDataFiles E sites fetch unbreak d = UB <->
   exists done p rest, data_files E sites fetch unbreak = done ++ (p, Some UB) :: rest /\
     Forall (fun e => exists data, snd e = Some (Ok data)) done).
Proof.
  intros F U H. rewrite <- jobs_files. apply jobs_ub; auto. intros n items I.
  assert (forall lists, (forall l, In l lists -> In l default_lists \/ In l malware_lists) ->
    forall m, listsJob fetch lists m = (n, Some items) -> Forall nonul items) as K.
  { intros lists L m Q. unfold listsJob in Q. injection Q as _ Q. apply Forall_forall. intros x J.
    eapply all_of_in in J; [|exact Q]. apply in_map_iff in J as (l & J & Il).
    rewrite host_filter_off in J by auto. unfold getSingleListData in J.
    destruct (fetch (snd l)) as [body|] eqn:Fe; [|discriminate]. injection J as <-.
    apply sanitize_nonul. eauto. }
  destruct I as [I|[I|I]]; [eapply K; [|exact I]; auto..|].
  apply in_map_iff in I as (r & I & _). unfold regionJob in I. injection I as _ I.
  destruct (fetch (snd r)) as [body|] eqn:Fe; [|discriminate]. injection I as <-.
  constructor; eauto.
Qed.

Lemma generate_complete E sites fetch unbreak d :
  (forall url body, fetch url = Some body -> safe_text E false body) -> safe_text E false unbreak ->
  Forall nonul sites -> all_fetched fetch ->
  exists d', generateDataFiles E sites fetch unbreak d = Ok (true, d') /\
    all_written (data_files E sites fetch unbreak) d'.
Proof.
  intros F U H A. destruct (generate_defined E sites fetch unbreak d F U H) as (ok & d' & R).
  assert (ok = true) as -> by now apply (complete_iff _ _ _ _ _ _ _ R).
  exists d'. split; auto. now apply complete_run in R as [R _].
Qed.

(** ** --discover *)
Lemma lookup_host_line E calls c (e : bool) url context dom g :
  history calls -> after E calls = Ok c ->
  lookup_filter E c (if e then c_ehost c else c_host c) (the_query url context dom) = Ok (Some g) ->
  exists pres l f, In (pres, l) (loaded_lines calls) /\ parses_to pres l f /\ has (f_type f) FTHostOnly = true.
Proof.
  intros H A L. destruct (hist_view E calls c H A) as (rs & V).
  pose proof (w_rep _ _ _ _ V) as R.
  unfold lookup_filter in L. apply bind_ok in L as (h & L & X).
  destruct h as [| |g']; try discriminate. injection X as ->.
  unfold lookup in L. cbn [the_query q_input q_len q_context q_dom q_host] in L.
  destruct (c_host c) as [hs|] eqn:N.
  - destruct (rep_sets E c rs R) as (s & G & S1 & S2 & S3 & S4 & _); [congruence|].
    assert (hostLookup E c (Some (if e then x_ehost s else x_host s)) (hostOf url) (cstr url)
        (length url) (ctx_of url context dom) dom = Ok (HHit g)) as L'.
    { destruct e; congruence. }
    apply (hostLookup_spec E c _ (hosts_in e rs)) in L'.
    2:{ destruct e; [apply (g_ehost _ _ _ G)|apply (g_host _ _ _ G)]. }
    destruct L' as (x & f & _ & P & _ & ->).
    apply find_some in P as [P _]. apply in_hosts_in in P as (k & I & IH).
    destruct (F2_in _ _ _ _ (w_lines _ _ _ _ V) I) as ([pres l] & IL & LR).
    exists pres, l, f. split; auto. split.
    + apply (line_rule_parses E (pres, l) (f, true, k) f LR). reflexivity.
    + unfold in_hosts in IH. apply andb_prop in IH as [IH _]. now apply andb_prop in IH as [_ IH].
  - exfalso. destruct (rep_fresh E c rs R N) as [-> F].
    destruct F as (_ & _ & _ & _ & F & _). destruct e; [rewrite F in L|]; cbn in L; discriminate.
Qed.

Lemma find_host_line E calls c url context dom v g :
  history calls -> after E calls = Ok c -> nonul url ->
  findMatchingFilters E c (cstr url) context dom = Ok v ->
  v_filter v = Some g \/ v_exc v = Some g -> has (f_type g) FTHostOnly = true ->
  exists pres l f, In (pres, l) (loaded_lines calls) /\ parses_to pres l f /\ has (f_type f) FTHostOnly = true.
Proof.
  intros H A Hu M X HO. unfold findMatchingFilters in M. rewrite strlen_cstr in M by auto.
  cbn [bind] in M. rewrite mkQuery_cstr in M by auto. cbn [bind] in M.
  apply bind_ok in M as (m & M & K).
  assert (forall k, In k [KFilters; KNoFp; KNoFpDom; KNoFpAnti; KException; KNoFpExc; KNoFpDomExc; KNoFpAntiExc] ->
    scan E c k (the_query url context dom) None = Ok (Some g) -> False) as SC.
  { intros k Ik S. apply scan_in in S as [S N].
    assert (has (f_type g) FTHostOnly = false) by (eapply list_not_host; eauto). congruence. }
  destruct m as [f|].
  - apply bind_ok in K as (x & Y & K). injection K as <-. cbn [v_filter v_exc] in X.
    destruct X as [[= ->]| ->].
    + repeat (apply orelse_some in M as [M|M]; [apply SC in M; [destruct M|cbn; tauto]|]).
      exact (lookup_host_line E calls c false url context dom g H A M).
    + repeat (apply orelse_some in Y as [Y|Y]; [first [apply SC in Y; [destruct Y|cbn; tauto]|
        exact (lookup_host_line E calls c true url context dom g H A Y)]|]).
      apply SC in Y; [destruct Y|cbn; tauto].
  - injection K as <-. cbn [v_filter v_exc] in X. destruct X; discriminate.
Qed.

Lemma discover_list_defined E (cache : bool) context host sites c : forall s0,
  (forall s, In s sites -> exists r, jsFind E c s context (Some host) = Ok r) ->
  exists r, foldM (fun (s : nat * nat * list (bytes * bool)) site =>
              let '((m, k), seen) := s in
              match (if cache then find (fun e => beq (fst e) site) seen else None) with
              | Some (_, true) => Ok ((S m, k), seen)
              | Some (_, false) => Ok ((m, S k), seen)
              | None =>
                  _ <- jsFind E c site context (Some host) ;;
                  Ok ((S m, k), (site, true) :: seen)
              end) s0 sites = Ok r.
Proof.
  induction sites as [|s sites IH]; intros [[m k] seen] H; cbn [foldM]; [eauto|].
  destruct (if cache then find (fun e => beq (fst e) s) seen else None) as [[x [|]]|]; cbn [bind];
    try (apply IH; intros t I; apply H; now right).
  destruct (H s (or_introl eq_refl)) as (r & ->). cbn [bind].
  apply IH. intros t I. apply H. now right.
Qed.

Lemma prepared_no_host keep pred t : nonul t -> names_no_host keep t -> names_no_host keep (sanitizeWith pred t).
Proof.
  intros Nt N l f I P.
  assert (f = rule_at keep l) as ->.
  { apply parses_rule_at; auto. eapply text_lines_line; [|exact I]. now apply sanitize_nonul. }
  unfold sanitizeWith in I. rewrite text_lines_join in I by now destruct (map mapRule _).
  rewrite flat_map_app in I. apply in_app_or in I as [I|I].
  2:{ vm_compute in I. destruct I as [<-|[<-|[]]]; destruct keep; vm_compute; reflexivity. }
  apply in_flat_map in I as (w & J & I). apply in_map_iff in J as (u & <- & J).
  apply filter_In in J as [J _].
  assert (forall m, In m (text_lines u) -> In m (text_lines t)) as K.
  { intros m Im. rewrite text_lines_split. apply in_flat_map. eauto. }
  destruct (mapRule_marked u) as [[X Y]|[[X Y]|(_ & _ & Y)]].
  - exfalso. assert (In u (text_lines u)) as Iu by (rewrite X; vm_compute; auto).
    apply K in Iu. assert (line_text u) as Lu by (eapply text_lines_line; eauto).
    assert (has (f_type (rule_at keep u)) FTHostOnly = false) as Z.
    { apply (N u); auto. now apply (parsed_rl (keep, u)). }
    rewrite X in Z. destruct keep; vm_compute in Z; discriminate.
  - rewrite Y in I. vm_compute in I. destruct I as [<-|[]]. destruct keep; vm_compute; reflexivity.
  - rewrite Y in I. now apply (N l); auto.
Qed.

Lemma joined_no_host keep ts : ts <> [] -> Forall (names_no_host keep) ts -> names_no_host keep (join_lf ts).
Proof.
  intros NE H l f I P. rewrite text_lines_join in I by auto. apply in_flat_map in I as (t & J & I).
  rewrite Forall_forall in H. now apply (H t J l).
Qed.

(** ** C91 *)
Lemma source_any (P0 : bytes -> Prop) E W a downloaded bs :
  (forall t, P0 t -> P0 (sanitizeABPInput t)) ->
  (forall ts, ts <> [] -> Forall P0 ts -> P0 (join_lf ts)) ->
  loads W a downloaded bs -> Forall P0 bs ->
  exists ts, source E W a = Some (clientFromStrings E (keepText a) ts) /\ Forall P0 ts.
Proof.
  intros Pp Pj L H. unfold source.
  destruct L as [u url b U I F|u b U D X F|t U D X F|p t U D X F P Q|bs U D X F P Q].
  - rewrite U, (proj1 (uuid_lookup E (keepText a) (w_fetch W) u) url I), (catalogue_plain _ _ I).
    unfold makeFromListURL, getSingleListData. rewrite F. cbn [option_map].
    eexists. split; [reflexivity|]. inversion H; subst. constructor; auto.
  - rewrite U, D, X. unfold makeFromListURL, getSingleListData. rewrite F. cbn [option_map].
    eexists. split; [reflexivity|]. inversion H; subst. constructor; auto.
  - rewrite U, D, X, F. exists [t]. auto.
  - rewrite U, D, X, F, P, Q. exists [t]. auto.
  - rewrite U, D, X, F, P. unfold makeFromListURLs.
    destruct (all_of_bodies (w_fetch W) None (map snd default_lists)) as [(bs0 & F0 & ->)|((v & I & N) & ->)].
    2:{ exfalso. clear - Q I N. revert I. induction Q as [|x b urls bs Z G IH]; [intros []|].
        intros [->|I]; [congruence|auto]. }
    rewrite (bodies_fun _ _ _ _ F0 Q). cbn [option_map].
    eexists. split; [reflexivity|]. constructor; [|constructor]. apply Pp.
    assert (bs <> []) as NE by (intros ->; inversion Q).
    apply Pj; [now destruct bs|]. apply Forall_forall. intros x I.
    apply in_map_iff in I as (t & <- & I). apply Pp. rewrite Forall_forall in H. auto.
Qed.

Lemma run_defined E W a downloaded bs :
  loads W a downloaded bs -> Forall (safe_text E (keepText a)) bs -> plain_request W a ->
  (a_discover a = true -> Forall (names_no_host (keepText a)) bs) -> exists o, checkRun E W a = Ok o.
Proof.
  intros L H [R1 R2] D.
  destruct (source_any (fun t => safe_text E (keepText a) t /\ (a_discover a = true -> names_no_host (keepText a) t))
    E W a downloaded bs) as (ts & S & HS'); auto.
  { intros t [X Y]. split; [now apply prepared_safe|]. intros Z. apply prepared_no_host; [apply X|auto]. }
  { intros us NE F. split.
    - apply joined_safe; auto. revert F. apply Forall_impl. now intros t [].
    - intros Z. apply joined_no_host; auto. revert F. apply Forall_impl. intros t []. auto. }
  { apply Forall_forall. intros t I. rewrite Forall_forall in H. split; [now apply H|]. intros Z.
    pose proof (D Z) as F. rewrite Forall_forall in F. now apply F. }
  assert (Forall (safe_text E (keepText a)) ts) as HS by (revert HS'; apply Forall_impl; now intros t []).
  unfold checkRun. rewrite S. destruct (negb _) eqn:Neg; [eauto|].
  pose proof (safe_texts_nonul _ _ _ HS) as N. rewrite strings_after0.
  destruct (safe_history E (map (Parse (keepText a)) ts)) as (c & A & Q).
  { now apply history_parses. } { now apply safe_texts_calls. }
  rewrite A. cbn [bind]. destruct (a_stats a); [eauto|]. apply negb_false_iff in Neg. rewrite orb_false_r in Neg.
  apply andb_true_iff in Neg as [_ Neg].
  set (host := match a_host a with Some h => h | None => [] end).
  assert (exists x, answerFor E W a host c = Ok x /\
    forall ans c', x = Some (ans, c') -> exists calls, history calls /\ after E calls = Ok c') as (x & X & K).
  { assert (a_discover a = true -> forall u, nonul u -> exists r, jsFind E c u (typeOf a) (Some host) = Ok r) as DF.
    { intros Z u Nu. destruct (Q u (typeOf a) (Some (js_string (Some host))) Nu) as [_ (v & M)].
      destruct (jsFind_exact E (map (Parse (keepText a)) ts) c u (typeOf a) (Some host) v) as [_ J]; auto.
      { now apply history_parses. }
      eexists. apply J. intros f X. destruct (has (f_type f) FTHostOnly) eqn:HO; auto. exfalso.
      destruct (find_host_line E (map (Parse (keepText a)) ts) c u (typeOf a) _ v f
        (history_parses _ _ N) A Nu M X HO) as (pres & l & g & I & P & HG).
      unfold loaded_lines in I. rewrite loaded_parses in I. cbn [app] in I.
      apply in_flat_map in I as (t & J1 & I). apply in_map_iff in I as (l' & X1 & I). injection X1 as X1 X2. subst pres l'.
      rewrite Forall_forall in HS'. destruct (HS' t J1) as [_ F]. rewrite (F Z l g I P) in HG. discriminate. }
    assert (answer -> exists calls, history calls /\ after E calls = Ok c) as Same.
    { intros _. exists (map (Parse (keepText a)) ts). split; [now apply history_parses|auto]. }
    unfold answerFor. destruct (given (a_location a)) as [l|] eqn:G.
    - assert (nonul l) as Nl.
      { apply R1. unfold given in G. destruct (a_location a) as [[|? ?]|]; congruence. }
      destruct (a_discover a).
      { destruct (DF eq_refl l Nl) as (r & ->). cbn [bind]. eexists. split; [reflexivity|].
        intros ans c1 E1. assert (c1 = c) as -> by congruence. now apply Same. }
      destruct (Q l (typeOf a) (Some host) Nl) as [(v & c' & M) _].
      unfold jsMatches, js_string. rewrite M. cbn [bind fst snd]. eexists. split; [reflexivity|].
      intros ans c1 E1. assert (c1 = c') as -> by congruence.
      exists (map (Parse (keepText a)) ts ++ [Ask l (typeOf a) (Some host)]). split.
      + apply Forall_app. split; [now apply history_parses|]. constructor; auto.
      + rewrite after_snoc, A. cbn [bind perform]. now rewrite M.
    - destruct (w_file W (match a_list a with Some p => p | None => [] end)) as [text|] eqn:Fi.
      2:{ eexists. split; [reflexivity|]. discriminate. }
      assert (Forall nonul (readSiteList text)) as Ns.
      { unfold isGiven in Neg. rewrite G in Neg. cbn [orb] in Neg.
        destruct (a_list a) as [p|]; [|discriminate].
        pose proof (R2 p text eq_refl Fi) as Nt. apply Forall_forall. intros s I.
        exact (split_on_nonul LF text s Nt I). }
      destruct (a_discover a).
      { unfold checkListDiscover.
        destruct (discover_list_defined E (a_cache a) (typeOf a) host (readSiteList text) c ((0, 0), [])) as (r & ->).
        { intros s I. rewrite Forall_forall in Ns. apply DF; auto. }
        cbn [rmap bind]. eexists. split; [reflexivity|].
        intros ans c1 E1. assert (c1 = c) as -> by congruence. now apply Same. }
      destruct (checkList_defined E (typeOf a) host (readSiteList text) c 0 0) as ([[m k] c'] & M).
      { intros s I. rewrite Forall_forall in Ns. apply (Q s (typeOf a) (Some host) (Ns s I)). }
      unfold checkList. rewrite M. cbn [bind fst snd]. eexists. split; [reflexivity|].
      intros ans c1 E1. assert (c1 = c') as -> by congruence.
      exists (map (Parse (keepText a)) ts ++ map (fun s => Ask s (typeOf a) (Some host)) (readSiteList text)).
      split.
      + apply Forall_app. split; [now apply history_parses|]. apply Forall_forall. intros k' J.
        apply in_map_iff in J as (s & <- & J). rewrite Forall_forall in Ns. now apply Ns.
      + unfold after in *. rewrite foldM_app, A. cbn [bind]. eapply checkList_asks. exact M. }
  rewrite X. cbn [bind]. destruct x as [[ans c']|]; [|eauto].
  destruct (K ans c' eq_refl) as (calls & Hc & A').
  destruct (given (a_output a)) as [f|]; [|eauto].
  rewrite (P_Ser4.serialize_ok _ c' true true (P_Ser6.hist_shaped E _ c' Hc A')). cbn [bind]. eauto.
Qed.
