(** Requests on a client never leave their buffers (C78). *)
From Verif Require Import Base Flags Protocol Url Sets FilterM ParseM ClientM Spec SpecM
  SpecC SpecQ SpecR P_Base P_Protocol P_Url P_Match P_Rule P_Parse P_List P_Shape P_Fp P_Line P_Line2
  P_Line3 P_Line4 P_Line5 P_Fp2 P_Props1 P_Props2 P_Props3 P_Opt P_Opt2 P_Match2 P_Over P_Set P_Client P_Decide P_Hist
  P_Dec2.
From Verif Require Import SpecC.

Definition defined {A} (r : res A) : Prop := exists a, r = Ok a.

Lemma defined_ok {A} (a : A) : defined (Ok a).
Proof. now exists a. Qed.

Lemma defined_bind {A C} (r : res A) (k : A -> res C) :
  defined r -> (forall a, r = Ok a -> defined (k a)) -> defined (bind r k).
Proof. intros [a ->] H. cbn [bind]. now apply H. Qed.

Lemma unsupported_options f context dom :
  hasUnsupportedOptions f = true -> matchesOptions f context dom = false.
Proof.
  unfold matchesOptions. intros ->. reflexivity.
Qed.

Lemma last_ends_star d : ends_star (split_on "*" d) -> d = [] \/ last d NUL = "*"%char.
Proof.
  intros [pre E]. destruct (split_pieces_of d) as (_ & J & _). rewrite E in J.
  clear E. revert d J. induction pre as [|p pre IH]; intros d J; cbn [app] in J.
  - left. exact J.
  - right. destruct (pre ++ [[]]) as [|q more] eqn:X; [now destruct pre|].
    change (star_join (p :: q :: more)) with (p ++ B "*" ++ star_join (q :: more)) in J.
    destruct (IH _ eq_refl) as [E|E].
    + rewrite E, app_nil_r in J. rewrite J. apply last_last.
    + rewrite J. destruct (star_join (q :: more)) as [|x y]; [discriminate|].
      rewrite app_assoc. clear J. revert E. generalize (p ++ B "*"). intros w E.
      induction w as [|z w IHw]; auto. cbn [app]. destruct (w ++ x :: y) eqn:Y; [now destruct w|].
      exact IHw.
Qed.

Section Try.
  Context (E : env) (url : bytes) (Hu : nonul url).

  (** The rule and its copy in the host index can be tried on the URL. *)
  Definition safe_here (f : filter) : Prop :=
    (forall context dom bf host, pairs_held E bf url -> host = [] \/ host = hostOf url ->
       defined (filter_matches E f (cstr url) (length url) context dom bf host)) /\
    (has (f_type f) FTHostOnly = true -> forall context dom,
       defined (filter_matches E (copyFilter f) (cstr url) (length url) context dom None [])).

  Lemma here_copy f context dom :
    wf_rule f -> has (f_type f) FTHostOnly = true ->
    hasUnsupportedOptions f = true \/ safe_here f ->
    defined (filter_matches E (copyFilter f) (cstr url) (length url) context dom None []).
  Proof.
    intros W HO [U|[_ S]]; auto. exists false. unfold filter_matches.
    change (matchesOptions (copyFilter f) context dom) with (matchesOptions f context dom).
    now rewrite unsupported_options.
  Qed.

  Context (c : client) (rs : list prule) (R : rep E c rs)
    (SR : forall f b k, In (f, b, k) rs ->
       category_of k = BlockRule \/ category_of k = ExceptionRule -> safe_here f).

  Lemma scan_defined k context dom bf :
    category_of (CList k) = BlockRule \/ category_of (CList k) = ExceptionRule ->
    pairs_held E bf url ->
    defined (scan E c k (the_query url context dom) bf).
  Proof.
    intros K Hb. unfold scan. cbn [the_query q_input q_len q_context q_dom q_host].
    rewrite (rep_lists E c rs) by auto.
    assert (forall f, In f (rules_in k rs) -> wf_rule f /\ safe_here f) as G.
    { intros f I. apply in_rules_in in I as (b & I). split; [apply (rep_wf E c rs _ R I)|].
      eapply SR; eauto. }
    revert G. generalize (rules_in k rs). intros fs.
    induction fs as [|f fs IH]; intros G; cbn [hasMatchingFilters].
    - apply defined_ok.
    - apply defined_bind.
      + destruct (G f) as [G1 G2]; [now left|]. apply G2; auto.
      + intros m _. destruct (m && tag_ok c f); [apply defined_ok|].
        apply IH. intros g I. apply G. now right.
  Qed.

  Lemma host_set_defined (e : bool) s h context dom :
    hs_rep hkey (e_hash E) s (map copyFilter (hosts_in e rs)) ->
    defined (hostLookup E c (Some s) h (cstr url) (length url) context dom).
  Proof.
    intros HR. unfold hostLookup. apply defined_bind; [|intros; apply defined_ok].
    assert (forall h, defined (host_probe E c s h (cstr url) (length url) context dom)) as P.
    { intros x. unfold host_probe. destruct HR as (_ & F & _). rewrite F, pick_copy.
      destruct (pick x (hosts_in e rs)) as [f|] eqn:Q; cbn [option_map]; [|apply defined_ok].
      apply defined_bind; [|intros; apply defined_ok].
      unfold pick in Q. apply find_some in Q as [I _]. apply in_hosts_in in I as (k & I & H).
      destruct R as (PO & _). rewrite Forall_forall in PO. pose proof (PO _ I) as PI.
      pose proof (proj1 (in_hosts_rule E e f true k PI) H) as HRl.
      apply here_copy.
      - apply (rep_wf E c rs _ R I).
      - apply HRl.
      - destruct (host_rule_class E e f true k PI HRl) as [->|U]; auto.
        right. eapply SR; eauto. destruct e; cbn; auto. }
    generalize (skip_tld h (length h)). intros k.
    induction k as [|k IH]; cbn [host_walk]; [apply P|].
    apply defined_bind.
    - destruct (ceq _ _); [apply P|apply defined_ok].
    - intros [f|] _; [apply defined_ok|apply IH].
  Qed.

  Lemma orelse_defined a b : defined a -> defined b -> defined (orelse a b).
  Proof. intros A B. apply defined_bind; auto. intros [f|] _; auto. apply defined_ok. Qed.

  Lemma when_defined (b : bool) r : defined r -> defined (when b r).
  Proof. intros H. destruct b; auto. apply defined_ok. Qed.

  Lemma lookup_defined (e : bool) context dom :
    defined (lookup E c (if e then c_ehost c else c_host c) (the_query url context dom)).
  Proof.
    unfold lookup. cbn [the_query q_input q_len q_context q_dom q_host].
    destruct (c_host c) as [hs|] eqn:N.
    - destruct (rep_sets E c rs R) as (s & G & S1 & S2 & S3 & S4 & _); [congruence|].
      destruct e.
      + rewrite S4. apply (host_set_defined true). apply (g_ehost _ _ _ G).
      + assert (hs = x_host s) as -> by congruence.
        apply (host_set_defined false). apply (g_host _ _ _ G).
    - destruct (rep_fresh E c rs R N) as [-> F].
      destruct F as (_ & _ & _ & _ & F & _).
      destruct e; [rewrite F|]; apply defined_ok.
  Qed.

  Lemma discover_defined (e : bool) bad :
    c_host c <> None ->
    defined (discover E bad url (if e then c_ebloom c else c_bloom c)).
  Proof.
    intros N. destruct (rep_sets E c rs R N) as (s & _ & S1 & S2 & _).
    unfold discover. destruct bad; [|apply defined_ok].
    destruct e; [rewrite S2|rewrite S1]; apply defined_ok.
  Qed.
End Try.

Lemma lookup_not_none E c rs (e : bool) q h :
  rep E c rs -> lookup E c (if e then c_ehost c else c_host c) q = Ok h -> h <> HNoSet ->
  c_host c <> None.
Proof.
  intros R L N X. destruct (rep_fresh E c rs R X) as [_ F].
  destruct F as (_ & _ & _ & _ & F & _). unfold lookup in L. apply N.
  destruct e; [rewrite F in L|rewrite X in L]; cbn in L; congruence.
Qed.

Section Ask.
  Context (E : env) (url : bytes) (Hu : nonul url) (rs : list prule)
    (SR : forall f b k, In (f, b, k) rs ->
       category_of k = BlockRule \/ category_of k = ExceptionRule -> safe_here E url f).

  Lemma block_phase_defined c context dom bf :
    rep E c rs -> pairs_held E bf url ->
    defined (block_phase E c (the_query url context dom) bf).
  Proof.
    intros R Hb. unfold block_phase.
    assert (forall k, In k [KNoFpDom; KNoFpAnti; KNoFp; KFilters] ->
              defined (scan E c k (the_query url context dom) bf)) as S.
    { intros k I. apply (scan_defined E url c rs R SR); auto. left.
      cbn in I. intuition (subst; reflexivity). }
    apply defined_bind.
    { apply orelse_defined; [apply when_defined, S; cbn; auto|].
      apply orelse_defined; [apply when_defined, S; cbn; auto|]. apply S; cbn; auto. }
    intros [m|] _; [apply defined_ok|]. cbv zeta. apply defined_bind.
    { exact (lookup_defined E url c rs R SR false context dom). }
    intros h L. destruct h as [| |g]; try apply defined_ok.
    destruct (bloomMiss _ _ _); [apply defined_ok|].
    apply defined_bind; [apply S; cbn; auto|]. intros [f|] _; [apply defined_ok|].
    apply defined_bind; [|intros; apply defined_ok].
    apply (discover_defined E url c rs R false).
    eapply (lookup_not_none E c rs false); eauto. discriminate.
  Qed.

  Lemma exc_phase_defined c context dom bf :
    rep E c rs -> pairs_held E bf url ->
    defined (exc_phase E c (the_query url context dom) bf).
  Proof.
    intros R Hb. unfold exc_phase.
    assert (forall k, In k [KNoFpDomExc; KNoFpAntiExc; KNoFpExc; KException] ->
              defined (scan E c k (the_query url context dom) bf)) as S.
    { intros k I. apply (scan_defined E url c rs R SR); auto. right.
      cbn in I. intuition (subst; reflexivity). }
    apply defined_bind.
    { apply orelse_defined; [apply when_defined, S; cbn; auto|].
      apply orelse_defined; [apply when_defined, S; cbn; auto|]. apply S; cbn; auto. }
    intros [m|] _; [apply defined_ok|]. cbv zeta. apply defined_bind.
    { exact (lookup_defined E url c rs R SR true context dom). }
    intros h L. destruct h as [| |g]; try apply defined_ok.
    destruct (bloomMiss _ _ _); [apply defined_ok|].
    apply defined_bind; [apply S; cbn; auto|]. intros [f|] _; [apply defined_ok|].
    apply defined_bind; [|intros; apply defined_ok].
    apply (discover_defined E url c rs R true).
    eapply (lookup_not_none E c rs true); eauto. discriminate.
  Qed.

  Lemma matches_defined c context dom :
    rep E c rs -> defined (matches E c (cstr url) context dom).
  Proof.
    intros R. unfold matches. rewrite strlen_cstr by auto. cbn [bind].
    destruct (isBlockableProtocol_spec url Hu) as (b & E1 & _). rewrite E1. cbn [bind].
    destruct b; cbn [negb]; [|apply defined_ok].
    rewrite mkQuery_cstr by auto. cbn [bind]. cbv zeta.
    change (q_url (the_query url context dom)) with url.
    apply defined_bind.
    { apply block_phase_defined; auto. apply inputBloom_held. }
    intros [[hit mf] c1] HB. apply block_phase_quiet in HB as [HB _].
    destruct (negb hit); [apply defined_ok|].
    apply defined_bind; [|intros [[block me] c2] _; apply defined_ok].
    apply exc_phase_defined; [|apply inputBloom_held]. eapply rep_same; eauto.
  Qed.

  Lemma find_defined c context dom :
    rep E c rs -> defined (findMatchingFilters E c (cstr url) context dom).
  Proof.
    intros R. unfold findMatchingFilters. rewrite strlen_cstr by auto. cbn [bind].
    rewrite mkQuery_cstr by auto. cbn [bind].
    assert (pairs_held E None url) as Hb by (intros b p [=]).
    assert (forall k, category_of (CList k) = BlockRule \/ category_of (CList k) = ExceptionRule ->
              defined (scan E c k (the_query url context dom) None)) as S.
    { intros k I. now apply (scan_defined E url c rs R SR). }
    assert (forall e : bool, defined (lookup_filter E c (if e then c_ehost c else c_host c)
              (the_query url context dom))) as L.
    { intros e. apply defined_bind; [|intros; apply defined_ok].
      now apply (lookup_defined E url c rs R SR). }
    apply defined_bind.
    { repeat (apply orelse_defined; [apply S; cbn; auto|]). exact (L false). }
    intros [f|] _; [|apply defined_ok].
    apply defined_bind; [|intros; apply defined_ok].
    do 3 (apply orelse_defined; [apply S; cbn; auto|]).
    apply orelse_defined; [exact (L true)|apply S; cbn; auto].
  Qed.
End Ask.

(** ** Who is at fault when a request is undefined *)
Lemma overreads_mono (s1 s2 : bytes -> Prop) url from pieces :
  (forall p, s1 p -> s2 p) -> overreads s1 url from pieces -> overreads s2 url from pieces.
Proof.
  intros S H. induction H; [apply or_here|eapply or_next]; eauto.
Qed.

Lemma searched_none E p : searched E None p.
Proof. intros b [=]. Qed.

Lemma overreads_dec E url from pieces :
  nonul url -> (forall p, In p pieces -> nonul p) ->
  {overreads (searched E None) url from pieces} + {~ overreads (searched E None) url from pieces}.
Proof.
  intros Hu Hp. assert (pairs_held E None url) as Hb by discriminate.
  pose proof (wild_ub E None url pieces from Hu Hp Hb) as W.
  destruct (wild _ _ _ _ _ _ _) as [v|].
  - right. intros O. apply W in O. discriminate.
  - left. now apply W.
Qed.

Lemma faulty_dec E url f :
  nonul url -> wf_rule f -> {faulty_on E url f} + {~ faulty_on E url f}.
Proof.
  intros Hu W. unfold faulty_on. destruct (f_data f) as [[d t]|] eqn:Hd.
  2:{ right. now intros (d & t & [=] & _). }
  destruct (wf_nonul f d t W Hd) as [Td ->].
  assert ({(has (f_type f) FTRegex = false /\ has (f_type f) FTLeftAnchored = false /\
    has (f_type f) FTRightAnchored = false) /\
    overreads (searched E None) url 0 (split_on "*" d)} +
    {~ ((has (f_type f) FTRegex = false /\ has (f_type f) FTLeftAnchored = false /\
    has (f_type f) FTRightAnchored = false) /\
    overreads (searched E None) url 0 (split_on "*" d))}) as [A|A].
  { destruct (overreads_dec E url 0 (split_on "*" d)) as [O|O]; auto.
    - intros p. apply split_on_nonul. now apply line_text_nonul.
    - destruct (has (f_type f) FTRegex), (has (f_type f) FTLeftAnchored),
        (has (f_type f) FTRightAnchored); first [left; now repeat split|right; intuition discriminate].
    - right. tauto. }
  { left. exists d, [NUL]. split; auto. left. destruct A as [(A1 & A2 & A3) A4].
    repeat split; auto. exists (split_on "*" d). split; auto. apply split_pieces_of. }
  assert ({has (f_type f) FTHostOnly = true /\
    (d = [] \/ last d NUL = "*"%char \/ has (f_type f) FTRightAnchored = true)} +
    {~ (has (f_type f) FTHostOnly = true /\
    (d = [] \/ last d NUL = "*"%char \/ has (f_type f) FTRightAnchored = true))}) as [Bb|Bb].
  { destruct (has (f_type f) FTHostOnly); [|right; intuition discriminate].
    destruct d as [|x d]; [left; auto|].
    destruct (ascii_dec (last (x :: d) NUL) "*"); [left; auto|].
    destruct (has (f_type f) FTRightAnchored); [left; auto|].
    right. intros [_ [H|[H|H]]]; try discriminate; easy. }
  { left. exists d, [NUL]. auto. }
  right. intros (d' & t' & Q & [(H1 & H2 & H3 & pieces & P & O)|H]).
  - assert (d' = d) as -> by congruence. apply pieces_of_unique in P as ->. apply A. auto.
  - assert (d' = d) as -> by congruence. auto.
Qed.

Lemma wild_tail hs bf parts t1 t2 input n from :
  ~ ends_star parts -> wild hs bf parts t1 input n from = wild hs bf parts t2 input n from.
Proof.
  revert from. induction parts as [|p more IH]; intros from N; auto. cbn [wild].
  assert (forall from, wild hs bf more t1 input n from = wild hs bf more t2 input n from) as K.
  { intros k. apply IH. intros X. apply N. now apply ends_star_cons. }
  assert (match p, more with [], [] => c <- deref t1;; Ok (ceq c "*") | _, _ => Ok true end =
          match p, more with [], [] => c <- deref t2;; Ok (ceq c "*") | _, _ => Ok true end) as ->.
  { destruct p; auto. destruct more; auto. exfalso. apply N. now exists []. }
  destruct (match p, more with [], [] => _ | _, _ => Ok true end) as [e|]; auto. cbn [bind].
  destruct (negb e); auto. destruct (negb _); auto.
  destruct (indexOfFilter _ _ _ _) as [[k|]|]; auto. cbn [bind]. cbv zeta.
  destruct more; auto. destruct (rd _ _) as [x|]; auto. cbn [bind].
  destruct (ceq x NUL); auto.
Qed.

Lemma copy_same E f url n context dom bf host d :
  nonul url -> f_data f = Some (d, [NUL]) -> nonul d ->
  has (f_type f) FTRightAnchored = false -> ~ ends_star (split_on "*" d) ->
  filter_matches E (copyFilter f) (cstr url) n context dom bf host =
  filter_matches E f (cstr url) n context dom bf host.
Proof.
  intros Hu Hd Nd R N. unfold filter_matches.
  change (matchesOptions (copyFilter f) context dom) with (matchesOptions f context dom).
  destruct (negb _); auto. cbn [copyFilter f_data f_type f_host]. rewrite Hd, R, andb_false_r.
  destruct (has (f_type f) FTRegex); auto.
  destruct (has (f_type f) FTLeftAnchored).
  { unfold cstr. now rewrite !strncmp_eq_app by auto. }
  cbv zeta. destruct (if has (f_type f) FTHostAnchored then _ else _) as [go|]; auto.
  cbn [bind]. destruct (negb go); auto. now apply wild_tail.
Qed.

Lemma faultless_here E url f :
  nonul url -> wf_rule f -> ~ faulty_on E url f -> safe_here E url f.
Proof.
  intros Hu W N. destruct (f_data f) as [[d t]|] eqn:Hd.
  2:{ split.
      - intros. rewrite filter_matches_null by auto. apply defined_ok.
      - intros. rewrite filter_matches_null; [apply defined_ok|].
        unfold copyFilter. cbn [f_data]. now rewrite Hd. }
  destruct (wf_nonul f d t W Hd) as [Td ->].
  pose proof (line_text_nonul _ Td) as Nd.
  assert (unanchored f -> ~ overreads (searched E None) url 0 (split_on "*" d)) as N1.
  { intros (U1 & U2 & U3) O. apply N. exists d, [NUL]. split; auto. left.
    repeat split; auto. exists (split_on "*" d). split; auto. apply split_pieces_of. }
  split.
  - intros context dom bf host Hb Hh. rewrite filter_matches_host by auto.
    assert (host_arg url []) as Ha by now left.
    pose proof (matches_ub E f url context dom bf [] d Hu Hd Nd Ha Hb) as U.
    destruct (filter_matches _ _ _ _ _ _ _ _) as [v|]; [apply defined_ok|]. exfalso.
    destruct (proj1 U eq_refl) as (_ & U1 & _ & U2). apply (N1 U1).
    eapply overreads_mono; [|exact U2]. intros; apply searched_none.
  - intros HO context dom.
    assert (d <> [] /\ last d NUL <> "*"%char /\ has (f_type f) FTRightAnchored = false)
      as (D1 & D2 & D3).
    { repeat split.
      - intros X. apply N. exists d, [NUL]. auto 10.
      - intros X. apply N. exists d, [NUL]. auto 10.
      - apply not_true_is_false. intros X. apply N. exists d, [NUL]. auto 10. }
    assert (filter_matches E (copyFilter f) (cstr url) (length url) context dom None [] =
            filter_matches E f (cstr url) (length url) context dom None []) as ->.
    { apply (copy_same E f url (length url) context dom None [] d); auto.
      intros X. apply last_ends_star in X as [X|X]; auto. }
    assert (host_arg url []) as Ha by now left.
    assert (pairs_held E None url) as Hb by discriminate.
    pose proof (matches_ub E f url context dom None [] d Hu Hd Nd Ha Hb) as U.
    destruct (filter_matches _ _ _ _ _ _ _ _) as [v|]; [apply defined_ok|]. exfalso.
    destruct (proj1 U eq_refl) as (_ & U1 & _ & U2). now apply (N1 U1).
Qed.

Lemma carets_end_outside pat : carets_end pat -> carets_outside pat.
Proof.
  intros C pieces p a b P I Q. destruct b as [|y b]; auto.
  destruct (C pieces p P I). exists a, (y :: b). split; [exact Q|easy].
Qed.

Lemma safe_faultless E url f : safe_pattern f -> ~ faulty_on E url f.
Proof.
  intros S (d & t & Hd & F). destruct (S d t Hd) as [S1 S2].
  destruct F as [(F1 & F2 & F3 & pieces & P & O)|[HO F]].
  - destruct S1 as [X|[X|[X|X]]]; try congruence.
    apply overreads_ends in O as (p & a & b & i & I & Q & Na & Nb & _).
    destruct (X pieces p a b P I Q); auto.
  - destruct (S2 HO) as (S3 & S4 & S5). destruct F as [F|[F|F]]; congruence.
Qed.

Lemma view_safe E calls c rs :
  view E calls c rs ->
  (forall pres l f k, In (pres, l) (loaded_lines calls) -> parses_to pres l f ->
     classify E f = Ok k -> category_of k = BlockRule \/ category_of k = ExceptionRule ->
     safe_pattern f) ->
  forall f b k, In (f, b, k) rs ->
    category_of k = BlockRule \/ category_of k = ExceptionRule -> safe_pattern f.
Proof.
  intros V H f b k I K. pose proof (w_lines _ _ _ _ V) as F.
  destruct (F2_in _ _ _ _ F I) as ([pres l] & IL & LR).
  pose proof (line_rule_ok E _ _ LR) as [_ C].
  eapply H; eauto. apply (line_rule_parses E (pres, l) (f, b, k) f LR). reflexivity.
Qed.

Lemma loaded_from_in L calls p :
  In p (loaded_from L calls) ->
  In p L \/ exists t, In (Parse (fst p) t) calls /\ In (snd p) (text_lines t).
Proof.
  revert L. induction calls as [|k calls IH]; intros L I; cbn [loaded_from] in I; auto.
  assert (forall L', In p (loaded_from L' calls) ->
    In p L' \/ exists t, In (Parse (fst p) t) (k :: calls) /\ In (snd p) (text_lines t)) as K.
  { intros L' J. apply IH in J as [J|(t & J & J')]; auto. right. exists t. split; auto. now right. }
  destruct k as [pres t| | | | |]; apply K in I as [I|I]; auto.
  - apply in_app_or in I as [I|I]; auto. apply in_map_iff in I as (l & <- & I).
    right. exists t. split; auto. now left.
  - destruct I.
Qed.

Lemma loaded_safe E calls :
  safe_calls E calls ->
  forall pres l f k, In (pres, l) (loaded_lines calls) -> parses_to pres l f ->
    classify E f = Ok k -> category_of k = BlockRule \/ category_of k = ExceptionRule ->
    safe_pattern f.
Proof.
  intros S pres l f k I P C K. apply loaded_from_in in I as [[]|(t & I1 & I2)].
  destruct (S pres t l I1 I2) as [_ X]. eapply X; eauto.
Qed.

(** Asking a client that exists *)
Lemma asks_safe E calls c url context dom :
  history calls -> after E calls = Ok c -> nonul url ->
  (forall t f, t = BlockRule \/ t = ExceptionRule -> loaded E calls t f -> safe_pattern f) ->
  (exists v c', matches E c (cstr url) context dom = Ok (v, c')) /\
  (exists v, findMatchingFilters E c (cstr url) context dom = Ok v).
Proof.
  intros H A Hu S. destruct (hist_view E calls c H A) as (rs & V).
  assert (forall f b k, In (f, b, k) rs ->
    category_of k = BlockRule \/ category_of k = ExceptionRule -> safe_pattern f) as SR.
  { apply (view_safe E calls c rs V). intros pres l f k I P C K.
    apply (S (category_of k)); auto. exists k. split; auto. exists pres, l. auto. }
  pose proof (w_rep _ _ _ _ V) as R.
  assert (forall f b k, In (f, b, k) rs ->
    category_of k = BlockRule \/ category_of k = ExceptionRule -> safe_here E url f) as SR'.
  { intros f b k I K. apply faultless_here; auto; [apply (rep_wf E c rs _ R I)|].
    apply safe_faultless. eapply SR; eauto. }
  split.
  - destruct (matches_defined E url Hu rs SR' c context dom R) as [[v c'] M]. eauto.
  - apply (find_defined E url Hu rs SR' c context dom R).
Qed.

Lemma safe_calls_snoc E calls k : safe_calls E (calls ++ [k]) -> safe_calls E calls.
Proof. intros S pres t l I. apply (S pres t l). apply in_or_app. now left. Qed.

Lemma safe_after E calls : history calls -> safe_calls E calls -> defined (after E calls).
Proof.
  induction calls as [|k calls IH] using rev_ind; intros H S.
  { apply defined_ok. }
  apply Forall_app in H as [H Hk]. inversion Hk as [|? ? Ok _]; subst.
  rewrite after_snoc. apply defined_bind; [apply IH; auto; now apply safe_calls_snoc in S|].
  intros c A. destruct k as [pres t| | | |url context dom|]; cbn [perform]; try apply defined_ok.
  - apply parse_safe; [exact Ok|]. intros l I.
    apply (S pres t l); auto. apply in_or_app. right. now left.
  - destruct (asks_safe E calls c url context dom) as [(v & c' & M) _]; auto.
    { intros x f Hx (k & (pres & l & L1 & L2 & L3) & L4).
      eapply (loaded_safe E calls); eauto; [now apply safe_calls_snoc in S|].
      rewrite L4. exact Hx. }
    rewrite M. apply defined_ok.
Qed.

Lemma safe_history E calls :
  history calls -> safe_calls E calls ->
  exists c, after E calls = Ok c /\
    forall url context dom, nonul url ->
      (exists v c', matches E c (cstr url) context dom = Ok (v, c')) /\
      (exists v, findMatchingFilters E c (cstr url) context dom = Ok v).
Proof.
  intros H S. destruct (safe_after E calls H S) as [c A]. exists c. split; auto.
  intros url context dom Hu. apply (asks_safe E calls); auto.
  intros x f Hx (k & (pres & l & L1 & L2 & L3) & L4).
  eapply (loaded_safe E calls); eauto. rewrite L4. exact Hx.
Qed.

(** Rules in the usual syntax *)
Lemma syntax_safe pres r f :
  good_rule r -> safe_syntax r -> parses_to pres (rule_line r) f -> safe_pattern f.
Proof.
  intros G [S1 S2] [b HP] d t Hd.
  pose proof (rule_shape pres r f b G HP) as ->.
  destruct (shape_fields pres r) as (F1 & F2 & F3 & _).
  destruct (shape_bits r) as (B1 & B2 & B3 & _).
  destruct (shape_anchor_bits r) as (A1 & A2 & A3).
  rewrite F1, A1, A2, B3. rewrite F2 in Hd. assert (d = x_body r) as -> by congruence.
  split.
  - destruct S1 as [S1|[S1|S1]]; auto. rewrite S1. auto.
  - intros HO. apply host_only_spec in HO. split; [apply G|].
    split; [now apply S2|]. apply HO.
Qed.

Lemma safe_rule_eval E pres r f b url context dom :
  good_rule r -> safe_syntax r ->
  parse_filter pres (cstr (rule_line r)) (length (rule_line r)) = Ok (f, b) -> nonul url ->
  filter_matches E f (cstr url) (length url) context dom None [] =
  Ok (matchesOptions f context dom && tmatch E f url).
Proof.
  intros G S HP Hu.
  assert (wf_rule f) as W by (eapply rule_wf; eauto).
  assert (safe_pattern f) as SP by (eapply syntax_safe; [exact G|exact S|exists b; exact HP]).
  destruct (faultless_here E url f Hu W (safe_faultless E url f SP)) as [K _].
  destruct (K context dom None []) as [v V]; [easy|now left|]. rewrite V. f_equal.
  apply (wf_eval_some E f url context dom None [] v W Hu (or_introl eq_refl)); [easy|exact V].
Qed.

(** ** Lines in the usual syntax are parsed safely *)
Lemma first_bar (a b u v : bytes) :
  ~ In "|"%char a -> ~ In "|"%char u -> a ++ "|"%char :: b = u ++ "|"%char :: v -> a = u /\ b = v.
Proof.
  revert u. induction a as [|x a IH]; intros [|y u] Ha Hu H; cbn in *.
  - injection H as <-. auto.
  - injection H as <- _. tauto.
  - injection H as -> _. tauto.
  - injection H as <- H. apply IH in H as [-> ->]; auto.
Qed.

Lemma app_meet (a b u v : bytes) :
  a ++ b = u ++ v -> (exists m, a = u ++ m /\ v = m ++ b) \/ (exists m, u = a ++ m /\ b = m ++ v).
Proof.
  revert u. induction a as [|x a IH]; intros u H.
  - right. exists u. auto.
  - destruct u as [|y u].
    + left. exists (x :: a). auto.
    + cbn in H. injection H as <- H. apply IH in H as [(m & -> & ->)|(m & -> & ->)].
      * left. exists m. auto.
      * right. exists m. auto.
Qed.

Lemma good_rule_bars r : good_rule r -> bars_fine (rule_line r).
Proof.
  intros (G1 & G2 & G3 & G4 & _) p h x q Hp H.
  assert (forall c, In c p -> c <> "|"%char /\ c <> "$"%char) as Np.
  { intros c I. apply Hp in I. split; intros ->; cbn in I; intuition discriminate. }
  assert (~ In "|"%char p) as Np1 by (intros I; now apply Np in I as [I _]).
  assert (~ In "|"%char (x_body r)) as Nb by (intros I; now apply G2 in I as [I _]).
  unfold rule_line in H. set (tail := match x_options r with None => [] | Some o => B "$" ++ o end) in H.
  assert (tail = [] \/ exists o, tail = "$"%char :: o) as T.
  { unfold tail. destruct (x_options r) as [o|]; [right; exists o; reflexivity|now left]. }
  clearbody tail. clear G3 G4.
  assert (exists u2, pattern_line r = p ++ B "||" ++ u2 /\ u2 ++ tail = h ++ B "|" ++ x :: q) as (u2 & U & V).
  { apply app_meet in H as [(m & U & V)|(m & U & V)].
    - destruct T as [->|(o & ->)].
      + rewrite app_nil_r in V. exists (h ++ B "|" ++ x :: q). rewrite app_nil_r. rewrite U, <- V. split; reflexivity.
      + destruct m as [|c1 [|c2 m]]; [discriminate|discriminate|].
        cbn [app B list_ascii_of_string] in V. injection V as <- <- V.
        exists m. split; auto.
    - destruct T as [->|(o & ->)].
      + symmetry in V. apply app_eq_nil in V as [_ V]. discriminate.
      + destruct m as [|c m].
        { discriminate. }
        cbn [app] in V. injection V as <- V.
        assert (In "$"%char p) as I. { rewrite U. apply in_or_app. right. now left. }
        now apply Np in I as [_ I]. }
  unfold pattern_line in U.
  assert (~ In "|"%char (if x_exception r then B "@@" else [])) as Ne.
  { destruct (x_exception r); cbn; intuition discriminate. }
  assert (p ++ B "||" ++ u2 = p ++ "|"%char :: ("|"%char :: u2)) as E0 by reflexivity.
  destruct (x_anchor r).
  - exfalso. cbn [app] in U. destruct (x_right r).
    + rewrite app_assoc in U. rewrite E0 in U. cbn [B list_ascii_of_string] in U.
      symmetry in U. apply first_bar in U as [_ U]; auto; [discriminate|].
      intros I. apply in_app_or in I. tauto.
    + rewrite app_nil_r in U.
      assert (In "|"%char ((if x_exception r then B "@@" else []) ++ x_body r)) as I.
      { rewrite U. apply in_or_app. right. cbn. auto. }
      apply in_app_or in I. tauto.
  - exfalso. change (B "|" ++ x_body r ++ (if x_right r then B "|" else []))
      with ("|"%char :: (x_body r ++ (if x_right r then B "|" else []))) in U.
    rewrite E0 in U. apply first_bar in U as [_ U]; auto.
    destruct (x_body r) as [|c body]; [easy|]. cbn in U. injection U as -> _. apply Nb. now left.
  - change (B "||" ++ x_body r ++ (if x_right r then B "|" else []))
      with ("|"%char :: ("|"%char :: x_body r ++ (if x_right r then B "|" else []))) in U.
    rewrite E0 in U. apply first_bar in U as [_ U]; auto. injection U as <-.
    rewrite <- app_assoc in V.
    assert (In "$"%char separators) as D by (cbn; auto).
    destruct (x_right r).
    + apply app_meet in V as [(m & V1 & V2)|(m & V1 & V2)].
      * destruct m as [|c m].
        -- cbn in V2. injection V2 as V2. destruct T as [->|(o & ->)]; [discriminate|].
           injection V2 as -> _. right. exact D.
        -- cbn in V2. injection V2 as <- _. exfalso. apply Nb. rewrite V1. apply in_or_app. right. now left.
      * destruct m as [|c m].
        -- cbn in V2. injection V2 as V2. destruct T as [->|(o & ->)]; [discriminate|].
           injection V2 as <- _. right. exact D.
        -- cbn [app B list_ascii_of_string] in V2. injection V2 as <- V2.
           destruct T as [->|(o & ->)]; [now destruct m|].
           destruct m as [|c m]; [discriminate|]. cbn in V2. injection V2 as <- _.
           left. exists "$"%char. split; auto. rewrite V1. apply in_or_app. right. cbn. auto.
    + cbn [app] in V. apply app_meet in V as [(m & V1 & V2)|(m & V1 & V2)].
      * destruct m as [|c m].
        -- destruct T as [->|(o & ->)]; discriminate.
        -- cbn in V2. injection V2 as <- _. exfalso. apply Nb. rewrite V1. apply in_or_app. right. now left.
      * destruct T as [->|(o & ->)]; [now destruct m|].
        destruct m as [|c m]; [discriminate|]. cbn in V2. injection V2 as <- _.
        left. exists "$"%char. split; auto. rewrite V1. apply in_or_app. right. cbn. auto.
Qed.

Lemma good_rule_safe r : good_rule r -> domains_fit (rule_line r) -> safe_line (rule_line r).
Proof. intros G D. split; [apply G|]. split; [now apply good_rule_bars|exact D]. Qed.

(** If a request leaves its buffers, a loaded network rule is faulty on its URL. *)
Lemma fault_cause E calls c url context dom :
  history calls -> after E calls = Ok c -> nonul url ->
  matches E c (cstr url) context dom = UB \/
  findMatchingFilters E c (cstr url) context dom = UB ->
  exists x f, (x = BlockRule \/ x = ExceptionRule) /\ loaded E calls x f /\ faulty_on E url f.
Proof.
  intros H A Hu U. destruct (hist_view E calls c H A) as (rs & V).
  pose proof (w_rep _ _ _ _ V) as R.
  set (bad := fun p : prule => match p with (f, b, k) =>
    (category_of k = BlockRule \/ category_of k = ExceptionRule) /\ faulty_on E url f end).
  assert (forall p, In p rs -> {bad p} + {~ bad p}) as D.
  { intros [[f b] k] I. unfold bad. pose proof (rep_wf E c rs _ R I) as W. cbn in W.
    destruct (faulty_dec E url f Hu W) as [F|F]; [|right; tauto].
    destruct (category_of k); try (left; split; auto; fail);
      right; intros [[X|X] _]; discriminate. }
  assert ((exists p, In p rs /\ bad p) \/ (forall p, In p rs -> ~ bad p)) as [(p & I & Bp)|N].
  { clear -D. induction rs as [|p rs IH]; [right; intros p []|].
    destruct (D p (or_introl eq_refl)) as [Bp|Bp].
    - left. exists p. split; [now left|auto].
    - destruct IH as [(q & I & Q)|N].
      + intros q I. apply D. now right.
      + left. exists q. split; [now right|auto].
      + right. intros q [<-|I]; auto. }
  - destruct p as [[f b] k]. destruct Bp as [K F]. exists (category_of k), f.
    split; auto. split; auto. exists k. split; auto.
    destruct (F2_in _ _ _ _ (w_lines _ _ _ _ V) I) as ([pres l] & IL & LR).
    pose proof (line_rule_ok E _ _ LR) as [_ C]. exists pres, l. repeat split; auto.
    apply (line_rule_parses E (pres, l) (f, b, k) f LR). reflexivity.
  - exfalso.
    assert (forall f b k, In (f, b, k) rs ->
      category_of k = BlockRule \/ category_of k = ExceptionRule -> safe_here E url f) as SR.
    { intros f b k I K. apply faultless_here; auto.
      - apply (rep_wf E c rs _ R I).
      - intros F. apply (N _ I). split; auto. }
    destruct U as [U|U].
    + destruct (matches_defined E url Hu rs SR c context dom R) as [v M]. congruence.
    + destruct (find_defined E url Hu rs SR c context dom R) as [v M]. congruence.
Qed.
