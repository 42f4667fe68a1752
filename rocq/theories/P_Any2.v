(** What a list of any lines says about any request. *)
From Verif Require Import Base Flags Protocol Url Sets FilterM ParseM ClientM Spec SpecM
  SpecC SpecQ SpecE SpecN SpecG SpecH P_Base P_Protocol P_Url P_Match P_Rule P_Parse P_List P_Shape P_Fp P_Line P_Line2
  P_Line3 P_Line4 P_Line5 P_Fp2 P_Props1 P_Props2 P_Props3 P_Opt P_Opt2 P_Rx P_Abb P_Abb2 P_Match2 P_Set P_Client P_Decide P_Hist
  P_Dec2 P_Dec5 P_Safe P_End P_Exact P_Rx3 SpecR P_Over SpecLine P_Read3 P_Read4 P_Read5 SpecAny P_Any.
From Verif Require Import SpecC.

(** ** The class of a rule *)
Lemma type_list pres l f b :
  line_text l -> parse_filter pres (cstr l) (length l) = Ok (f, b) ->
  In (f_type f) (FTRegex :: FTComment :: FTEmpty :: net_types ++ only_types).
Proof.
  intros Hl HP. rewrite parse_filter_cstr in HP by auto.
  pose proof (pline_ok pres l Hl) as RO.
  assert (pline pres l = (f, b)) as Ef by congruence. rewrite Ef in RO.
  destruct RO as (_ & _ & _ & _ & R5). destruct b.
  - destruct R5 as (_ & R5). do 3 right. auto.
  - cbn [fst snd] in R5. destruct R5 as [[_ R5]|(_ & _ & _ & R5)]; [right; auto|left; auto].
Qed.

Lemma network_class E q f :
  facts q f -> In (f_type f) (FTRegex :: FTComment :: FTEmpty :: net_types ++ only_types) ->
  classify E f =
  if hasUnsupportedOptions f then Ok CSkip
  else if q_exception q
  then classify_tail E f (CHost true) KException KNoFpDomExc KNoFpAntiExc KNoFpExc
  else classify_tail E f (CHost false) KFilters KNoFpDom KNoFpAnti KNoFp.
Proof.
  intros F I. unfold classify. destruct (hasUnsupportedOptions f); auto.
  pose proof (fa_none q f F) as N. rewrite <- (fa_exc q f F).
  assert (forallb (fun t =>
    existsb (fun m => has t m) [FTRegex; FTElementHiding; FTElementHidingException; FTHTMLFiltering;
                       FTEmpty; FTComment] ||
    (if has t FTException then N.eqb (N.land t FTListTypesMask) FTException
     else negb (existsb (N.eqb (N.land t FTListTypesMask))
            [FTException; FTElementHiding; FTElementHidingException; FTHTMLFiltering; FTEmpty; FTComment])))
    (FTRegex :: FTComment :: FTEmpty :: net_types ++ only_types) = true) as K by (vm_compute; reflexivity).
  rewrite forallb_forall in K. apply K in I. clear K.
  apply orb_prop in I as [I|I].
  { apply existsb_exists in I as (m & Im & Hm). rewrite (N m Im) in Hm. discriminate. }
  cbv zeta. destruct (has (f_type f) FTException).
  - now rewrite I.
  - apply negb_true_iff in I. cbn [existsb] in I. rewrite !orb_false_iff in I.
    destruct I as (I1 & I2 & I3 & I4 & I5 & I6 & _). now rewrite I1, I2, I3, I4, I5, I6.
Qed.

Lemma fp_any E q f :
  facts q f -> nonul (q_pattern q) ->
  forall o, getFingerprint E f = Ok o -> (o = None <-> no_fp (e_bads E) (q_pattern q)).
Proof.
  intros F Np o Ho.
  assert (has (f_type f) FTHostAnchored = true ->
     exists h, f_host f = Some h /\ length h <= length (q_pattern q)) as LH.
  { intros HA. pose proof Ho as K. unfold getFingerprint in K.
    rewrite (fa_none q f F FTRegex) in K by (cbn; auto). rewrite HA, (fa_data q f F) in K.
    destruct (f_host f) as [h|]; [|discriminate]. exists h. split; auto.
    destruct (Nat.le_gt_cases (length h) (length (q_pattern q))); auto.
    rewrite skipn_all2 in K by (rewrite app_length; cbn [length]; lia). discriminate. }
  destruct (getFingerprint_spec E f (q_pattern q)) as (o' & Ho' & R); auto.
  { apply (fa_none q f F). cbn; auto. }
  { apply (fa_data q f F). }
  assert (o' = o) as -> by congruence. clear Ho' Ho.
  assert (forall s w, first_fp (e_bads E) s w -> no_fp (e_bads E) s -> False) as X.
  { intros s w (G1 & i & (x & y & Q & _) & _) N. apply (N w); auto. exists x, y. exact Q. }
  assert (fp_result (e_bads E) (q_pattern q) o -> (o = None <-> no_fp (e_bads E) (q_pattern q))) as Y.
  { unfold fp_result. destruct o as [w|]; [|tauto]. intros Ff. split; [discriminate|].
    intros N. now apply X in Ff. }
  destruct (has (f_type f) FTHostAnchored); auto.
  destruct R as [(w & -> & Ff)|[_ R]]; auto.
  split; [discriminate|]. intros N. exfalso. eapply X; eauto.
  intros w' (x & y & Q). apply N. exists (firstn (length (hkey f)) (q_pattern q) ++ x), y.
  rewrite <- app_assoc, <- Q. symmetry. apply firstn_skipn.
Qed.

Lemma host_any q f e h :
  facts q f -> (host_rule e f /\ f_host f = Some h <->
                only_host q /\ q_exception q = e /\ host_behind (q_rest q) h).
Proof.
  intros F. unfold host_rule. rewrite (fa_only q f F), (fa_exc q f F), (fa_data q f F).
  pose proof (fa_name q f F) as Nm. split.
  - intros ((X1 & X2 & _) & X3). split; auto. split; auto. destruct X1 as [X1 _].
    rewrite X1 in Nm. destruct Nm as (h' & B & Eh). congruence.
  - intros (X1 & X2 & X3). split; [split; auto; split; auto; discriminate|].
    destruct X1 as [X1 _]. rewrite X1 in Nm. destruct Nm as (h' & B & ->).
    apply behind_unique in B, X3. congruence.
Qed.

Lemma supported_any q f :
  facts q f -> (hasUnsupportedOptions f = false <-> supported_terms q).
Proof.
  intros F. destruct (fa_opts q f F) as (parts & PO & HO). unfold hasUnsupportedOptions.
  rewrite has_false, (unsupported_iff parts f HO). split.
  - intros X parts' c P L I. rewrite (parts_unique q parts parts' PO P) in L. apply X. eauto.
  - intros X (c & L & I). now apply (X parts c).
Qed.

Lemma class_any E q f k :
  facts q f -> nonul (q_pattern q) ->
  In (f_type f) (FTRegex :: FTComment :: FTEmpty :: net_types ++ only_types) ->
  classify E f = Ok k -> k <> CSkip ->
  (only_host q /\ k = CHost (q_exception q)) \/
  (~ only_host q /\ exists j, k = CList j /\
     category_of k = blocker (q_exception q) /\
     (j = KNoFpDom \/ j = KNoFpDomExc <->
        exists dl, short_terms (e_bads E) q dl /\ forall s, ~ excludes_domain dl s) /\
     (j = KNoFpAnti \/ j = KNoFpAntiExc <->
        exists dl, short_terms (e_bads E) q dl /\ forall s, ~ lists_domain dl s)).
Proof.
  intros F Np I K NK. rewrite (network_class E q f F I) in K.
  destruct (hasUnsupportedOptions f); [congruence|].
  pose proof (fa_only q f F) as HO. unfold classify_tail in K.
  destruct (has (f_type f) FTHostOnly).
  { left. split; [now apply HO|]. destruct (q_exception q); congruence. }
  assert (~ only_host q) as NH by (intros X; apply HO in X; discriminate). clear HO.
  right. split; auto. destruct (fa_opts q f F) as (parts & PO & OP).
  pose proof (fp_any E q f F Np) as FP.
  destruct (getFingerprint E f) as [g|]; [|destruct (q_exception q); discriminate].
  specialize (FP g eq_refl). cbn [bind] in K.
  assert (forall dl, short_terms (e_bads E) q dl <-> g = None /\ f_dom f = Some dl) as SR.
  { intros dl. unfold short_terms. rewrite (domain_value parts f OP). split.
    - intros (_ & N & p & P & L). rewrite (parts_unique q parts p PO P) in L. tauto.
    - intros [Q1 Q2]. split; auto. split; [tauto|]. eauto. }
  assert (forall dl, antiDomainsOf dl = [] <-> forall s, ~ excludes_domain dl s) as AD.
  { intros dl. split.
    - intros Q s X. apply excludes_antiDomainsOf in X. rewrite Q in X. easy.
    - intros X. destruct (antiDomainsOf dl) as [|s l] eqn:Q; auto. exfalso. apply (X s).
      apply excludes_antiDomainsOf. rewrite Q. cbn; auto. }
  assert (forall dl, domainsOf dl = [] <-> forall s, ~ lists_domain dl s) as LD.
  { intros dl. split.
    - intros Q s X. apply lists_domainsOf in X. rewrite Q in X. easy.
    - intros X. destruct (domainsOf dl) as [|s l] eqn:Q; auto. exfalso. apply (X s).
      apply lists_domainsOf. rewrite Q. cbn; auto. }
  assert ((exists dl, short_terms (e_bads E) q dl /\ forall s, ~ excludes_domain dl s) <->
          g = None /\ isDomainOnlyFilter f = true) as E1.
  { unfold isDomainOnlyFilter, f_domains, f_antiDomains. split.
    - intros (dl & X1 & X2). apply SR in X1 as [X1 X3]. rewrite X3. split; auto.
      apply AD in X2. destruct (some_domain dl) as [Y|Y]; [|easy].
      rewrite X2. destruct (domainsOf dl); [easy|reflexivity].
    - intros [Q1 Q2]. destruct (f_dom f) as [dl|]; [|discriminate]. exists dl.
      split; [apply SR; auto|]. apply AD. destruct (domainsOf dl), (antiDomainsOf dl); easy. }
  assert ((exists dl, short_terms (e_bads E) q dl /\ forall s, ~ lists_domain dl s) <->
          g = None /\ isAntiDomainOnlyFilter f = true) as E2.
  { unfold isAntiDomainOnlyFilter, f_domains, f_antiDomains. split.
    - intros (dl & X1 & X2). apply SR in X1 as [X1 X3]. rewrite X3. split; auto.
      apply LD in X2. destruct (some_domain dl) as [Y|Y]; [easy|].
      rewrite X2. destruct (antiDomainsOf dl); [easy|reflexivity].
    - intros [Q1 Q2]. destruct (f_dom f) as [dl|]; [|discriminate]. exists dl.
      split; [apply SR; auto|]. apply LD. destruct (domainsOf dl), (antiDomainsOf dl); easy. }
  setoid_rewrite E1. setoid_rewrite E2. clear E1 E2 SR AD LD FP.
  assert (isDomainOnlyFilter f = true -> isAntiDomainOnlyFilter f = true -> False) as Ex.
  { unfold isDomainOnlyFilter, isAntiDomainOnlyFilter. destruct (f_domains f), (f_antiDomains f); easy. }
  destruct (q_exception q), g as [w|], (isDomainOnlyFilter f), (isAntiDomainOnlyFilter f);
    try (now elim Ex); injection K as <-; eexists; (split; [reflexivity|]); cbn [category_of];
    intuition congruence.
Qed.

(** ** Lines *)
Lemma selector_kind t body kind s :
  contents t body (WithSelector kind s) -> In kind [FTHTMLFiltering; FTElementHiding; FTElementHidingException].
Proof. intros (w & F & _). inversion F; subst; cbn; auto. Qed.

Lemma regex_kept_matches E p r u len context dom bf host :
  nonul u ->
  filter_matches E (mkF FTRegex 0 0 (Some (p, [NUL])) None [] None r) (cstr u) len context dom bf host =
  Ok (negb (has context FODocument) && e_regex E p u).
Proof.
  intros Hu. unfold filter_matches, matchesOptions, hasUnsupportedOptions.
  cbn [f_opt f_anti f_dom f_data f_type].
  change (has 0 FOUnsupportedSoSkipCheck) with false.
  change (has 0 FODocument) with false. cbn [negb andb].
  destruct (has context FODocument) eqn:Hd; [reflexivity|]. cbn [negb andb].
  change (N.ldiff 0 BehavioralFilterOnly =? 0)%N with true.
  change (has 0 FOResourcesOnly) with false. change (has 0 FOThirdParty) with false.
  cbn [negb andb]. change (has FTRegex FTRegex) with true.
  replace (if negb (context =? 0)%N then true else true) with true by now destruct (negb (context =? 0)%N).
  replace (if has context (N.lor FOThirdParty FONotThirdParty) then true else true) with true
    by now destruct (has context (N.lor FOThirdParty FONotThirdParty)).
  cbn [negb]. rewrite strlen_cstr by auto. cbn [bind].
  unfold cstr. now rewrite firstn_app_exact.
Qed.

Lemma no_data_applies E calls f url context page :
  f_data f = None -> ~ applies E calls f url context page.
Proof.
  intros G [(host & _ & M) _]. unfold filter_matches in M. rewrite G in M.
  destruct (negb _); discriminate M.
Qed.

Section Any.
  Context (E : env) (calls : list call) (c : client) (url uh : bytes) (context : N)
    (page : option bytes)
    (H : history calls) (A : after E calls = Ok c)
    (Hu : nonul url) (Huh : host_asked url uh).

  (** Every loaded line was parsed and classified. *)
  Lemma line_done pres l : In (pres, l) (loaded_lines calls) ->
    exists f k, parses_to pres l f /\ classify E f = Ok k.
  Proof.
    intros I. destruct (hist_view E calls c H A) as (rs & V).
    destruct (F2_in_l _ _ _ _ (w_lines _ _ _ _ V) I) as ([[g bb] k] & J & LR).
    exists g, k. split; [now apply (line_rule_parses E (pres, l) (g, bb, k))|].
    apply line_rule_ok in LR as [_ K]. exact K.
  Qed.

  Lemma states_parsed pres l q f :
    In (pres, l) (loaded_lines calls) -> states l q -> parses_to pres l f ->
    facts q f /\ nonul (q_pattern q) /\ wf_rule f /\
    In (f_type f) (FTRegex :: FTComment :: FTEmpty :: net_types ++ only_types).
  Proof.
    intros I S [b HP]. pose proof (loaded_line_text calls pres l H I) as T.
    pose proof (states_facts pres l f b q T HP S) as F.
    assert (wf_rule f) as W by (eapply line_wf; eauto).
    split; auto. split; [|split; auto; eapply type_list; eauto].
    destruct (wf_nonul f _ _ W (fa_data q f F)) as [Tp _]. now apply line_text_nonul.
  Qed.

  Lemma parsed_unique pres l f g : parses_to pres l f -> parses_to pres l g -> f = g.
  Proof. intros [b P] [b' P']. congruence. Qed.

  Lemma expression_facts pres l p f :
    In (pres, l) (loaded_lines calls) -> reads l (IsExpression p) -> within l (IsExpression p) ->
    parses_to pres l f ->
    classify E f = Ok (CList KNoFp) /\ has (f_type f) FTRegex = true /\
    has (f_type f) FTHostOnly = false /\
    (applies E calls f url context page <-> ~ common context FODocument /\ e_regex E p url = true).
  Proof.
    intros I R Wi [b HP]. pose proof (loaded_line_text calls pres l H I) as T.
    destruct (reading_any pres l _ T R) as (f' & b' & HP' & AG & _).
    rewrite HP in HP'. injection HP' as <- <-. specialize (AG Wi). cbn [agrees] in AG. subst f.
    split; [destruct pres; reflexivity|].
    assert (forall ctx dom bf host, filter_matches E (mkF FTRegex 0 0 (Some (p, [NUL])) None [] None
        (if pres then Some p else None)) (cstr url) (length url) ctx dom bf host =
      Ok (negb (has ctx FODocument) && e_regex E p url)) as M by (intros; now apply regex_kept_matches).
    split; [reflexivity|]. split; [reflexivity|]. split.
    - intros [(host & _ & X) _]. rewrite M, party_document in X.
      destruct (has context FODocument) eqn:Q; [discriminate|].
      split; [now rewrite <- has_false|]. now injection X.
    - intros [N X]. split; [|left; reflexivity].
      exists (hostOf url). split; [now apply getUrlHost_cstr|].
      rewrite M, party_document, X. apply has_false in N. now rewrite N.
  Qed.

  (** A line whose rule is tried or kept by host states one, or is an expression, or
      the reader gave up on it. *)
  Lemma line_cases pres l f k :
    In (pres, l) (loaded_lines calls) -> parses_to pres l f -> classify E f = Ok k ->
    (exists q, states l q) \/
    (exists p, reads l (IsExpression p) /\ within l (IsExpression p)) \/
    (category_of k <> BlockRule /\ category_of k <> ExceptionRule /\
     forall e, ~ host_rule e f) \/
    (f_data f = None /\ f_dom f = None).
  Proof.
    intros I P K. pose proof (loaded_line_text calls pres l H I) as T. pose proof P as [b HP].
    destruct (reading_exists l) as (m & R).
    destruct (reading_any pres l m T R) as (f' & b' & HP' & AG & GU).
    rewrite HP in HP'. injection HP' as <- <-.
    assert (In (f_type f) [FTEmpty; FTComment; FTHTMLFiltering; FTElementHiding; FTElementHidingException] ->
      category_of k <> BlockRule /\ category_of k <> ExceptionRule /\ forall e, ~ host_rule e f) as No.
    { intros J. rewrite (any_category E pres l f b k T HP K). unfold type_category, host_rule.
      assert (has (f_type f) FTHostOnly = false) as Q
        by (repeat (destruct J as [<-|J]; [reflexivity|]); destruct J).
      rewrite Q. split; [|split; [|intros e (X & _); discriminate X]];
        destruct (hasUnsupportedOptions f); try discriminate;
        repeat (destruct J as [<-|J]; [discriminate|]); destruct J. }
    destruct (within_dec l m R) as [Wi|Wi].
    2:{ destruct (GU Wi) as (_ & G1 & _ & _ & [G2|G2]); [auto 6|].
        right. right. left. apply No. cbn [In] in G2 |- *. tauto. }
    pose proof (AG Wi) as AG'. clear AG GU. rename AG' into AG.
    destruct m as [| |p|o|exc fr a t body e x]; cbn [agrees] in AG.
    - right. right. left. apply No. rewrite AG. cbn; auto.
    - right. right. left. apply No. rewrite AG. cbn; auto.
    - right. left. eauto.
    - right. right. left. apply No. destruct AG as (-> & _). cbn; auto.
    - destruct e as [|o|kind s].
      + left. eexists. eapply states_plain; [exact R|exact Wi].
      + left. eexists. eapply states_options; [exact R|exact Wi].
      + right. right. left. apply No. destruct AG as (-> & _).
        inversion R as [| | | |b0 x0 exc0 k0 a0 t0 body0 e0 Hb El Nr O C]; subst.
        apply selector_kind in C. cbn [In] in C |- *. tauto.
  Qed.

  Lemma loaded_any pres l f k e :
    In (pres, l) (loaded_lines calls) -> parses_to pres l f -> classify E f = Ok k ->
    category_of k = blocker e ->
    (exists q, states l q /\ q_exception q = e) \/
    (exists p, reads l (IsExpression p) /\ within l (IsExpression p) /\ e = false /\ k = CList KNoFp) \/
    (f_data f = None /\ f_dom f = None).
  Proof.
    intros I P K C. destruct (line_cases pres l f k I P K) as [(q & S)|[(p & R & Wi)|[(N1 & N2 & _)|G]]].
    - left. exists q. split; auto. destruct (states_parsed pres l q f I S P) as (F & Np & W & J).
      destruct (class_any E q f k F Np J K) as [[_ ->]|(_ & j & -> & C' & _)].
      + intros ->. destruct e; discriminate.
      + destruct (q_exception q), e; try discriminate; auto.
      + rewrite C' in C. destruct (q_exception q), e; try discriminate; auto.
    - right. left. exists p. split; auto. split; auto. destruct (expression_facts pres l p f I R Wi P) as (K' & _).
      assert (k = CList KNoFp) as -> by congruence. destruct e; [discriminate|auto].
    - exfalso. destruct e; auto.
    - auto.
  Qed.

  Lemma host_stated pres l f e :
    In (pres, l) (loaded_lines calls) -> parses_to pres l f -> host_rule e f ->
    exists q, states l q.
  Proof.
    intros I P HR. destruct (line_done pres l I) as (g & k & P' & K).
    rewrite <- (parsed_unique pres l f g P P') in K.
    destruct (line_cases pres l f k I P K) as [S|[(p & R & Wi)|[(_ & _ & N)|[G _]]]]; auto; exfalso.
    - destruct (expression_facts pres l p f I R Wi P) as (_ & _ & X & _). destruct HR as [HR _]. congruence.
    - now apply (N e).
    - now destruct HR as (_ & _ & HR).
  Qed.

  Lemma first_any q :
    only_host q -> first_stated calls q ->
    exists pres l f h, In (pres, l) (loaded_lines calls) /\ states l q /\ parses_to pres l f /\
      first_host_rule calls (q_exception q) f /\ f_host f = Some h /\ host_behind (q_rest q) h.
  Proof.
    intros NH (a & pres & l & b & L & S & N).
    assert (In (pres, l) (loaded_lines calls)) as I.
    { rewrite L. apply in_or_app. cbn; auto. }
    destruct (line_done pres l I) as (f & k & P & K).
    destruct (states_parsed pres l q f I S P) as (F & _).
    destruct NH as [Na (h & Bh & Ne)].
    assert (only_host q) as NH by (split; eauto).
    destruct (proj2 (host_any q f (q_exception q) h F)) as [HR Hh]; auto.
    exists pres, l, f, h. do 3 (split; auto). split; [|auto]. split; auto.
    exists a, pres, l, b, h. do 3 (split; auto).
    intros p1 l1 f1 I1 P1 HR1 Hh1.
    assert (In (p1, l1) (loaded_lines calls)) as I1'.
    { rewrite L. apply in_or_app. auto. }
    destruct (host_stated p1 l1 f1 _ I1' P1 HR1) as (q1 & S1).
    destruct (states_parsed p1 l1 q1 f1 I1' S1 P1) as (F1 & _).
    destruct (proj1 (host_any q1 f1 (q_exception q) h F1)) as (N1 & X1 & B1); auto.
    now apply (N p1 l1 q1 h I1 S1).
  Qed.

  Lemma any_first e f h :
    first_host_rule calls e f -> f_host f = Some h ->
    exists pres l q, In (pres, l) (loaded_lines calls) /\ states l q /\ parses_to pres l f /\
      only_host q /\ q_exception q = e /\ host_behind (q_rest q) h /\ first_stated calls q.
  Proof.
    intros [HR (a & pres & l & b & h' & L & P & Hh & N)] Hh'.
    assert (h' = h) as -> by congruence.
    assert (In (pres, l) (loaded_lines calls)) as I.
    { rewrite L. apply in_or_app. cbn; auto. }
    destruct (host_stated pres l f e I P HR) as (q & S).
    destruct (states_parsed pres l q f I S P) as (F & _).
    destruct (proj1 (host_any q f e h F)) as (N1 & X1 & B1); auto.
    exists pres, l, q. do 6 (split; auto).
    exists a, pres, l, b. do 2 (split; auto).
    intros p1 l1 q1 h1 I1 S1 N2 X2 B2 B3.
    assert (h1 = h) as -> by (apply behind_unique in B1, B2; congruence).
    assert (In (p1, l1) (loaded_lines calls)) as I1'.
    { rewrite L. apply in_or_app. auto. }
    destruct (line_done p1 l1 I1') as (f1 & k1 & P1 & K1).
    destruct (states_parsed p1 l1 q1 f1 I1' S1 P1) as (F1 & _).
    destruct (proj2 (host_any q1 f1 e h F1)) as [HR1 Hh1]; [split; auto; split; auto; congruence|].
    now apply (N p1 _ _ I1 P1 HR1).
  Qed.

  Lemma shut_iff e : page_shut E calls e page <-> page_excluded E calls e page.
  Proof.
    split.
    - intros (q & dl & s & (pres & l & I & S) & X & SU & SR & NL & XD & PG).
      destruct (line_done pres l I) as (f & k & P & K).
      destruct (states_parsed pres l q f I S P) as (F & Np & _ & J).
      apply (supported_any q f F) in SU.
      assert (k <> CSkip) as NK.
      { intros ->. rewrite (network_class E q f F J), SU in K. unfold classify_tail in K.
        destruct (q_exception q), (has (f_type f) FTHostOnly); try discriminate;
          destruct (getFingerprint E f) as [[w|]|]; cbn [bind] in K; try discriminate;
          destruct (isDomainOnlyFilter f); try discriminate;
          destruct (isAntiDomainOnlyFilter f); discriminate. }
      destruct (class_any E q f k F Np J K NK) as [[N _]|(_ & j & -> & C & _ & L3)].
      { now destruct SR as (SR & _). }
      exists f, dl, s. split; [|split; [|split; auto]].
      + exists pres, l. split; auto. split; auto. rewrite K.
        assert (j = KNoFpAnti \/ j = KNoFpAntiExc) as Jj by (apply L3; eauto).
        rewrite X in C. f_equal. destruct Jj as [-> | ->], e; try discriminate; reflexivity.
      + destruct (fa_opts q f F) as (parts & PO & HO).
        destruct SR as (_ & _ & p & P' & LD). rewrite (parts_unique q parts p PO P') in LD.
        now apply (domain_value parts f HO).
    - intros (g & dl & s & (pres & l & I & P & K) & Q & XD & PG).
      assert (category_of (only_excluded e) = blocker e) as CB by now destruct e.
      destruct (loaded_any pres l g _ e I P K CB) as [(q & S & X)|[(p & _ & _ & -> & Q')|[_ G]]];
        [|discriminate Q'|congruence].
      destruct (states_parsed pres l q g I S P) as (F & Np & _ & J).
      exists q, dl, s. split; [exists pres, l; auto|]. split; auto.
      assert (only_excluded e <> CSkip) as NK by now destruct e.
      split.
      { apply (supported_any q g F). destruct (hasUnsupportedOptions g) eqn:U; auto. exfalso.
        unfold classify in K. rewrite U in K. apply NK. congruence. }
      destruct (class_any E q g _ F Np J K NK) as [[_ N]|(_ & j & Jj & C & _ & L3)].
      { destruct e; discriminate. }
      destruct (proj1 L3) as (dl' & S1 & S2).
      { destruct e; injection Jj as <-; auto. }
      assert (dl' = dl) as ->.
      { destruct (fa_opts q g F) as (parts & PO & HO). destruct S1 as (_ & _ & p & P' & LD).
        rewrite (parts_unique q parts p PO P') in LD. apply (domain_value parts g HO) in LD. congruence. }
      auto.
  Qed.

  Lemma meets_any pres l q f :
    In (pres, l) (loaded_lines calls) -> states l q -> parses_to pres l f ->
    (applies E calls f url context page <-> terms_apply calls q url uh context page).
  Proof.
    intros I S P. destruct (states_parsed pres l q f I S P) as (F & _ & W & _).
    now apply terms_iff.
  Qed.

  (** The class of a rule that applies. *)
  Lemma applies_any pres l q f :
    In (pres, l) (loaded_lines calls) -> states l q -> parses_to pres l f ->
    applies E calls f url context page -> exists k, classify E f = Ok k /\ k <> CSkip.
  Proof.
    intros I S P Ap. destruct (line_done pres l I) as (g & k & P' & K).
    rewrite <- (parsed_unique pres l f g P P') in K. exists k. split; auto. intros ->.
    destruct (states_parsed pres l q f I S P) as (F & _ & _ & J).
    assert (hasUnsupportedOptions f = false) as U.
    { destruct (hasUnsupportedOptions f) eqn:Q; auto. exfalso.
      destruct Ap as [(host & _ & M) _]. rewrite unsupported_never in M; auto. discriminate. }
    rewrite (network_class E q f F J), U in K. unfold classify_tail in K.
    destruct (q_exception q), (has (f_type f) FTHostOnly); try discriminate;
      destruct (getFingerprint E f) as [[w|]|]; cbn [bind] in K; try discriminate;
      destruct (isDomainOnlyFilter f); try discriminate;
      destruct (isAntiDomainOnlyFilter f); discriminate.
  Qed.

  Lemma host_heard e f h :
    first_host_rule calls e f -> f_host f = Some h -> looked_up uh h ->
    applies E calls f url context page ->
    exists q, stated calls q /\ q_exception q = e /\ only_host q /\
      terms_noticed calls q uh /\ terms_apply calls q url uh context page.
  Proof.
    intros FH Hh LU Ap.
    destruct (any_first e f h FH Hh) as (p & l & q & I & S & P & NH & X & BH & FF).
    exists q. split; [exists p, l; auto|]. split; auto. split; auto.
    split; [|now apply (meets_any p l q f)].
    intros _. split; auto. intros h' BH'. apply behind_unique in BH, BH'. congruence.
  Qed.

  Lemma heard_host q :
    only_host q -> terms_noticed calls q uh -> terms_apply calls q url uh context page ->
    exists f h, first_host_rule calls (q_exception q) f /\ f_host f = Some h /\
      looked_up uh h /\ applies E calls f url context page.
  Proof.
    intros NH NT M. destruct (NT NH) as [FF LU].
    destruct (first_any q NH FF) as (p & l & f & h & I & S & P & FH & Hh & BH).
    exists f, h. split; auto. split; auto. split; [now apply LU|].
    now apply (meets_any p l q f).
  Qed.

  Lemma visible_any e :
    (exists f, visible E calls e url f /\ applies E calls f url context page) <->
    (exists q, stated calls q /\ q_exception q = e /\ terms_noticed calls q uh /\
      terms_apply calls q url uh context page) \/
    (e = false /\ expression_fits E calls url context).
  Proof.
    split.
    - intros (f & [(k & (pres & l & I & P & K) & C)|(host & h & X1 & X2 & X3 & X4)] & Ap).
      + destruct (loaded_any pres l f _ e I P K C) as [(q & S & X)|[(p & R & Wi & -> & _)|[G _]]].
        * left. exists q. split; [exists pres, l; auto|]. split; auto.
          split; [|now apply (meets_any pres l q f)].
          destruct (states_parsed pres l q f I S P) as (F & Np & _ & J).
          destruct (class_any E q f _ F Np J K) as [[_ N]|[N _]]; [discriminate|discriminate|].
          now intros NH.
        * right. split; auto. destruct (expression_facts pres l p f I R Wi P) as (_ & _ & _ & Q).
          destruct (proj1 Q Ap) as [Q1 Q2]. split; auto. exists pres, l, p. auto.
        * now apply no_data_applies in Ap.
      + rewrite getUrlHost_cstr in X2 by auto. injection X2 as X2.
        rewrite (asked_hostOf _ _ Huh) in X2. subst host.
        destruct (host_heard e f h X1 X3 X4 Ap) as (q & R1 & R2 & _ & R3 & R4). left. exists q. auto.
    - intros [(q & (pres & l & I & S) & X & NT & M)|[-> (ND & pres & l & p & I & R & Wi & Q)]].
      + destruct (line_done pres l I) as (f & k0 & P & _).
        assert (applies E calls f url context page) as Ap by (now apply (meets_any pres l q f)).
        destruct (applies_any pres l q f I S P Ap) as (k & K & NK).
        destruct (states_parsed pres l q f I S P) as (F & Np & _ & J).
        destruct (class_any E q f k F Np J K NK) as [[NH _]|(_ & j & -> & C & _)].
        * destruct (heard_host q NH NT M) as (g & h & F1 & F2 & F3 & F4). exists g. split; auto.
          right. exists uh, h. rewrite X in F1. split; auto. split; auto.
          rewrite getUrlHost_cstr by auto. now rewrite (asked_hostOf _ _ Huh).
        * exists f. split; auto. left. exists j. split; [|congruence]. exists pres, l. auto.
      + destruct (line_done pres l I) as (f & k0 & P & _).
        destruct (expression_facts pres l p f I R Wi P) as (K & _ & _ & Z).
        exists f. split; [|now apply Z]. left. exists KNoFp. split; [|reflexivity]. exists pres, l. auto.
  Qed.

  Lemma heeded_any e : web_url url ->
    (exists f, heeded E calls e url page f /\ applies E calls f url context page) <->
    (exists q, stated calls q /\ q_exception q = e /\ terms_heard E calls q uh page /\
      terms_apply calls q url uh context page) \/
    (e = false /\ expression_fits E calls url context).
  Proof.
    intros Hw. assert (url_has_host url uh) as Hwh.
    { destruct Huh as [X|[X _]]; auto. exfalso. apply X. now apply web_colon. }
    assert (forall j f, loaded_in E calls (CList j) f -> category_of (CList j) = blocker e ->
      applies E calls f url context page ->
      (j = KNoFpDom \/ j = KNoFpDomExc -> page <> None) ->
      (j = KNoFpAnti \/ j = KNoFpAntiExc -> ~ page_excluded E calls e page) ->
      (exists q, stated calls q /\ q_exception q = e /\ terms_heard E calls q uh page /\
        terms_apply calls q url uh context page) \/
      (e = false /\ expression_fits E calls url context)) as Ls.
    { intros j f (pres & l & I & P & K) C Ap L1 L2.
      destruct (loaded_any pres l f _ e I P K C) as [(q & S & X)|[(p & R & Wi & -> & _)|[G _]]].
      3:{ now apply no_data_applies in Ap. }
      2:{ right. split; auto. destruct (expression_facts pres l p f I R Wi P) as (_ & _ & _ & Q).
          destruct (proj1 Q Ap) as [Q1 Q2]. split; auto. exists pres, l, p. auto. }
      left. exists q. split; [exists pres, l; auto|]. split; auto.
      split; [|now apply (meets_any pres l q f)].
      destruct (states_parsed pres l q f I S P) as (F & Np & _ & J).
      destruct (class_any E q f _ F Np J K) as [[_ N]|(N & j' & Jj & _ & C2 & C3)];
        [discriminate|discriminate|]. injection Jj as <-.
      split; [now intros NH|]. intros dl SR. split.
      - intros NX. apply L1, C2. eauto.
      - intros NX. rewrite X, shut_iff. apply L2, C3. eauto. }
    split.
    - intros (f & [g X|g X|g X Y|g X Y|g host h X1 X2 X3 X4] & Ap).
      + eapply Ls; eauto; destruct e; cbn; auto; intros [|]; discriminate.
      + eapply Ls; eauto; destruct e; cbn; auto; intros [|]; discriminate.
      + eapply Ls; eauto; destruct e; cbn; auto; intros [|]; discriminate.
      + eapply Ls; eauto; destruct e; cbn; auto; intros [|]; discriminate.
      + assert (host = uh) as ->.
        { rewrite <- (asked_hostOf _ _ Huh). symmetry. now apply hostOf_spec. }
        destruct (host_heard e g h X1 X3 X4 Ap) as (q & R1 & R2 & NH & R3 & R4).
        left. exists q. split; auto. split; auto. split; auto. split; auto.
        intros dl (N & _). easy.
    - intros [(q & (pres & l & I & S) & X & [NT LS] & M)|[-> (ND & pres & l & p & I & R & Wi & Q)]].
      2:{ destruct (line_done pres l I) as (f & k0 & P & _).
          destruct (expression_facts pres l p f I R Wi P) as (K & _ & _ & Z).
          exists f. split; [|now apply Z]. apply heeded_plain. exists pres, l. auto. }
      destruct (line_done pres l I) as (f & k0 & P & _).
      assert (applies E calls f url context page) as Ap by (now apply (meets_any pres l q f)).
      destruct (applies_any pres l q f I S P Ap) as (k & K & NK).
      destruct (states_parsed pres l q f I S P) as (F & Np & _ & J).
      destruct (class_any E q f k F Np J K NK) as [[NH _]|(_ & j & -> & C & C2 & C3)].
      + destruct (heard_host q NH NT M) as (g & h & F1 & F2 & F3 & F4). exists g. split; auto.
        rewrite X in F1. now apply (heeded_host E calls e url page g uh h).
      + exists f. split; auto. rewrite X in *.
        assert (loaded_in E calls (CList j) f) as LI by (exists pres, l; auto).
        assert (j = KNoFpDom \/ j = KNoFpDomExc -> page <> None) as L1.
        { intros Jj. apply C2 in Jj as (dl & S1 & S2). now apply (LS dl S1). }
        assert (j = KNoFpAnti \/ j = KNoFpAntiExc -> ~ page_excluded E calls e page) as L2.
        { intros Jj. apply C3 in Jj as (dl & S1 & S2). rewrite <- shut_iff. now apply (LS dl S1). }
        clear C2 C3 LS.
        destruct e; destruct j; try discriminate;
        first [ apply heeded_fingerprint; exact LI | apply heeded_plain; exact LI
              | apply heeded_listed; [exact LI|auto]
              | apply heeded_excluded; [exact LI|auto] ].
  Qed.

  Theorem any_request v c' :
    matches E c (cstr url) context page = Ok (v, c') ->
    (v_block v = true <->
     web_url url /\
     ((exists q, stated calls q /\ q_exception q = false /\ terms_heard E calls q uh page /\
        terms_apply calls q url uh context page) \/ expression_fits E calls url context) /\
     ~ (exists q, stated calls q /\ q_exception q = true /\ terms_heard E calls q uh page /\
        terms_apply calls q url uh context page)).
  Proof.
    intros M. destruct (web_dec url Hu) as [Hw|Hw].
    - rewrite (decision E calls c url context page v c') by auto.
      rewrite !heeded_any by auto. intuition discriminate.
    - rewrite matches_nonweb in M by auto. injection M as <- _. cbn [v_block].
      split; [discriminate|tauto].
  Qed.

  Theorem any_request_found v :
    findMatchingFilters E c (cstr url) context page = Ok v ->
    (v_block v = true <->
     ((exists q, stated calls q /\ q_exception q = false /\ terms_noticed calls q uh /\
        terms_apply calls q url uh context page) \/ expression_fits E calls url context) /\
     ~ (exists q, stated calls q /\ q_exception q = true /\ terms_noticed calls q uh /\
        terms_apply calls q url uh context page)).
  Proof.
    intros M. rewrite (find_decision E calls c url context page v) by auto.
    rewrite !visible_any. intuition discriminate.
  Qed.

  Theorem any_fault :
    matches E c (cstr url) context page = UB \/ findMatchingFilters E c (cstr url) context page = UB ->
    exists q, stated calls q /\ faulty_terms q url.
  Proof.
    intros U. destruct (fault_cause E calls c url context page H A Hu U)
      as (x & f & Hx & (k & (pres & l & I & P & K) & C) & FO).
    assert (exists e, x = blocker e) as (e & ->).
    { destruct Hx as [-> | ->]; [now exists false|now exists true]. }
    destruct FO as (d & t & Hd & FO).
    destruct (loaded_any pres l f k e I P K C) as [(q & S & _)|[(p & R & Wi & _)|[G _]]].
    - destruct (states_parsed pres l q f I S P) as (F & _ & W & _).
      exists q. split; [exists pres, l; auto|]. rewrite (fa_data q f F) in Hd. injection Hd as <- <-.
      destruct FO as [(N1 & N2 & N3 & pieces & N4 & N5)|(N1 & N2)].
      + left. apply (overruns_iff E q f F url). split; [split; auto|].
        now apply pieces_of_unique in N4 as ->.
      + right. rewrite (fa_right q f F) in N2. split; auto. now apply (fa_only q f F).
    - exfalso. destruct (expression_facts pres l p f I R Wi P) as (_ & X & Y & _).
      destruct FO as [(N1 & _)|(N1 & _)]; congruence.
    - congruence.
  Qed.
End Any.

(** ** Rules that are safe to try *)
Lemma safe_faultless q url : safe_terms q -> ~ faulty_terms q url.
Proof.
  intros [S1 S2] [(N1 & N2 & pieces & N3 & N4)|[N1 N2]].
  - destruct S1 as [S1|[S1|S1]]; [easy|congruence|].
    apply overreads_ends in N4 as (p & x & y & i & I & Ep & Nx & Ny & _).
    destruct (S1 pieces p x y N3 I Ep); auto.
  - destruct (S2 N1) as (X1 & X2 & X3). destruct N2 as [N2|[N2|N2]]; congruence.
Qed.

Theorem any_decides E calls c url uh context page :
  history calls -> after E calls = Ok c -> nonul url -> host_asked url uh -> any_list calls ->
  exists v c', matches E c (cstr url) context page = Ok (v, c') /\
  (v_block v = true <->
   web_url url /\
   ((exists q, stated calls q /\ q_exception q = false /\ terms_heard E calls q uh page /\
      terms_meet calls q url uh context page) \/ expression_fits E calls url context) /\
   ~ (exists q, stated calls q /\ q_exception q = true /\ terms_heard E calls q uh page /\
      terms_meet calls q url uh context page)).
Proof.
  intros H A Hu Huh Sf.
  assert (forall q, stated calls q -> ~ faulty_terms q url) as NF by (intros; now apply safe_faultless, Sf).
  destruct (matches E c (cstr url) context page) as [[v c']|] eqn:M.
  2:{ exfalso. destruct (any_fault E calls c url context page H A Hu (or_introl M)) as (q & Q1 & Q2).
      now apply (NF q). }
  exists v, c'. split; auto. rewrite (any_request E calls c url uh context page H A Hu Huh v c' M).
  assert (forall e, (exists q, stated calls q /\ q_exception q = e /\ terms_heard E calls q uh page /\
      terms_apply calls q url uh context page) <->
    (exists q, stated calls q /\ q_exception q = e /\ terms_heard E calls q uh page /\
      terms_meet calls q url uh context page)) as Q.
  { intros e. split; intros (q & Q1 & Q2 & Q3 & Q4); exists q; do 3 (split; auto).
    - now destruct Q4.
    - split; auto. intros O. apply (NF q Q1). now left. }
  now rewrite !Q.
Qed.

Theorem any_finds E calls c url uh context page :
  history calls -> after E calls = Ok c -> nonul url -> host_asked url uh -> any_list calls ->
  exists v, findMatchingFilters E c (cstr url) context page = Ok v /\
  (v_block v = true <->
   ((exists q, stated calls q /\ q_exception q = false /\ terms_noticed calls q uh /\
      terms_meet calls q url uh context page) \/ expression_fits E calls url context) /\
   ~ (exists q, stated calls q /\ q_exception q = true /\ terms_noticed calls q uh /\
      terms_meet calls q url uh context page)).
Proof.
  intros H A Hu Huh Sf.
  assert (forall q, stated calls q -> ~ faulty_terms q url) as NF by (intros; now apply safe_faultless, Sf).
  destruct (findMatchingFilters E c (cstr url) context page) as [v|] eqn:M.
  2:{ exfalso. destruct (any_fault E calls c url context page H A Hu (or_intror M)) as (q & Q1 & Q2).
      now apply (NF q). }
  exists v. split; auto. rewrite (any_request_found E calls c url uh context page H A Hu Huh v M).
  assert (forall e, (exists q, stated calls q /\ q_exception q = e /\ terms_noticed calls q uh /\
      terms_apply calls q url uh context page) <->
    (exists q, stated calls q /\ q_exception q = e /\ terms_noticed calls q uh /\
      terms_meet calls q url uh context page)) as Q.
  { intros e. split; intros (q & Q1 & Q2 & Q3 & Q4); exists q; do 3 (split; auto).
    - now destruct Q4.
    - split; auto. intros O. apply (NF q Q1). now left. }
  now rewrite !Q.
Qed.
