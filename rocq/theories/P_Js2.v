(** Proofs for the JavaScript layer, second part: C57, C60-C63. *)
From Verif Require Import Base Flags Protocol Url Sets FilterM ParseM ClientM JsM Spec SpecM SpecC SpecJ
  P_Base P_Protocol P_Url P_Match P_Rule P_Props1 P_Props2 P_Set P_Parse P_List P_Line P_Line2 P_Line4 P_Line5 P_Fp2 P_Opt P_Opt2 P_Shape P_Match2 P_Client P_Hist P_Decide P_Dec2 P_Dec3
  P_Dec4 P_Dec5 P_Dec6 P_Dec7 P_Dec8 P_Like P_Js P_Ex SpecC.

(** ** C63, C57: which rules look at the page *)
Lemma or_party_res m context b :
  N.land b m = 0%N -> has m (N.lor context b) = has m context.
Proof.
  intros H. unfold has. rewrite N.land_lor_distr_r, (N.land_comm m b), H, N.lor_0_r. reflexivity.
Qed.

Lemma party_cases context dom host :
  party_context context dom host = context \/
  has context (N.lor FOThirdParty FONotThirdParty) = false /\
  (party_context context dom host = N.lor context FOThirdParty \/
   party_context context dom host = N.lor context FONotThirdParty).
Proof.
  unfold party_context. destruct dom as [d|]; auto.
  destruct (has context _); auto. right. split; auto.
  destruct (isThirdPartyHost d host); auto.
Qed.

Lemma resources_no_party x b :
  b = FOThirdParty \/ b = FONotThirdParty -> N.land b (N.land x FOResourcesOnly) = 0%N.
Proof.
  intros H. rewrite (N.land_comm x), N.land_assoc.
  assert (N.land b FOResourcesOnly = 0%N) as -> by (destruct H as [->| ->]; reflexivity).
  apply N.land_0_l.
Qed.

Lemma page_free_options f context dom host :
  page_free context f ->
  matchesOptions f (party_context context dom host) dom = matchesOptions f context None.
Proof.
  intros (D & T1 & T2 & C).
  assert (forall b, b = FOThirdParty \/ b = FONotThirdParty ->
    matchesOptions f (N.lor context b) dom = matchesOptions f context None) as K.
  { intros b Hb. unfold matchesOptions. destruct (hasUnsupportedOptions f); auto.
    assert (has (N.lor context b) FODocument = has context FODocument) as ->.
    { unfold has. rewrite N.land_lor_distr_l.
      assert (N.land b FODocument = 0%N) as -> by (destruct Hb as [->| ->]; reflexivity).
      now rewrite N.lor_0_r. }
    destruct (negb (has (f_opt f) FODocument) && has context FODocument); auto.
    rewrite !or_party_res by now apply resources_no_party.
    assert ((N.lor context b =? 0)%N = false) as ->.
    { apply N.eqb_neq. intros X. apply N.lor_eq_0_iff in X as [_ X]. destruct Hb as [->| ->]; discriminate. }
    cbn [negb]. rewrite D, T1, T2. cbn [andb].
    assert (forall x : N, (if has x (N.lor FOThirdParty FONotThirdParty) then true else true) = true) as TT.
    { intros x. now destruct (has x _). }
    rewrite !TT.
    destruct (N.eqb_spec context 0) as [->|NZ]; cbn [negb]; auto.
    destruct C as [C|[C1 C2]]; [easy|]. rewrite C1, C2, N.eqb_refl. cbn [negb andb].
    assert (forall x, N.ldiff x BehavioralFilterOnly = 0%N -> has x FOResourcesOnly = false) as R.
    { intros x X. unfold has. apply negb_false_iff, N.eqb_eq. apply N.bits_inj_0. intros n.
      rewrite N.land_spec. destruct (N.testbit x n) eqn:Y; auto. cbn [andb].
      assert (N.testbit (N.ldiff x BehavioralFilterOnly) n = false) as Z by (rewrite X; apply N.bits_0).
      rewrite N.ldiff_spec, Y in Z. cbn [andb] in Z. apply negb_false_iff in Z.
      destruct (N.testbit FOResourcesOnly n) eqn:W; auto. exfalso.
      assert (N.testbit (N.land BehavioralFilterOnly FOResourcesOnly) n = true) as V
        by now rewrite N.land_spec, Z, W.
      change (N.land BehavioralFilterOnly FOResourcesOnly) with 0%N in V. now rewrite N.bits_0 in V. }
    now rewrite !R. }
  destruct (party_cases context dom host) as [->|(_ & [->| ->])]; auto.
  unfold matchesOptions. rewrite D. reflexivity.
Qed.

Lemma page_free_matches E f url context d1 d2 :
  page_free context f -> matches_alone E f url context d1 -> matches_alone E f url context d2.
Proof.
  intros P (host & H & M). exists host. split; auto. rewrite <- M.
  unfold filter_matches. now rewrite !(page_free_options f) by auto.
Qed.

Lemma page_free_heeded E calls e url d1 d2 f :
  (forall g, loaded E calls (blocker e) g -> f_dom g = None) ->
  heeded E calls e url d1 f -> heeded E calls e url d2 f.
Proof.
  intros P H. destruct H as [f H|f H|f H N|f H N|f host h H1 H2 H3 H4].
  - now apply heeded_fingerprint.
  - now apply heeded_plain.
  - exfalso. assert (f_dom f = None) as X.
    { apply P. exists (only_listed e). split; auto. now destruct e. }
    destruct H as (p & l & _ & _ & K).
    apply (class_dom E f e) in K. unfold isDomainOnlyFilter, f_domains in K. now rewrite X in K.
  - exfalso. assert (f_dom f = None) as X.
    { apply P. exists (only_excluded e). split; auto. now destruct e. }
    destruct H as (p & l & _ & _ & K).
    apply (class_anti E f e) in K. unfold isAntiDomainOnlyFilter, f_antiDomains in K. now rewrite X in K.
  - eapply heeded_host; eauto.
Qed.

Lemma bool_iff (a b : bool) : (a = true <-> b = true) -> a = b.
Proof. destruct a, b; intuition congruence. Qed.

Lemma page_free_effect E calls c e url context d1 d2 :
  history calls -> after E calls = Ok c -> nonul url ->
  (forall g, loaded E calls (blocker e) g -> page_free context g) ->
  (exists f, heeded E calls e url d1 f /\ applies E calls f url context d1) ->
  (exists f, heeded E calls e url d2 f /\ applies E calls f url context d2).
Proof.
  intros H A Hu P (f & HE & AP). exists f.
  destruct (hist_view E calls c H A) as (rs & V).
  pose proof (heeded_loaded E calls c rs e url context d1 f V HE AP) as L.
  destruct AP as [M T]. split; [|split; auto].
  - apply (page_free_heeded E calls e url d1); auto. intros g G. now apply P in G as (X & _).
  - apply (page_free_matches E f url context d1); auto.
Qed.

Lemma page_free_visible E calls c e url context d1 d2 :
  history calls -> after E calls = Ok c -> nonul url ->
  (forall g, loaded E calls (blocker e) g -> page_free context g) ->
  effectV E calls e url context d1 -> effectV E calls e url context d2.
Proof.
  intros H A Hu P (f & VI & AP). exists f. split; auto.
  destruct (hist_view E calls c H A) as (rs & V).
  pose proof (visible_loaded E calls c rs e url context d1 f V VI AP) as L.
  destruct AP as [M T]. split; auto.
  apply (page_free_matches E f url context d1); auto.
Qed.

Lemma page_free_decide E calls c url context d1 d2 :
  history calls -> after E calls = Ok c -> nonul url ->
  (forall t f, t = BlockRule \/ t = ExceptionRule -> loaded E calls t f -> page_free context f) ->
  (forall v1 v2 c1 c2, matches E c (cstr url) context d1 = Ok (v1, c1) ->
     matches E c (cstr url) context d2 = Ok (v2, c2) -> v_block v1 = v_block v2) /\
  (forall v1 v2, findMatchingFilters E c (cstr url) context d1 = Ok v1 ->
     findMatchingFilters E c (cstr url) context d2 = Ok v2 -> v_block v1 = v_block v2).
Proof.
  intros H A Hu P.
  assert (forall e g, loaded E calls (blocker e) g -> page_free context g) as P'.
  { intros e g L. apply (P (blocker e)); auto. destruct e; cbn; auto. }
  split.
  - intros v1 v2 c1 c2 M1 M2.
    destruct (isBlockableProtocol_spec url Hu) as (b & W & Wb). destruct b.
    + assert (web_url url) as Hw by now apply Wb.
      apply bool_iff.
      rewrite (decision E calls c url context d1 v1 c1), (decision E calls c url context d2 v2 c2) by auto.
      assert (forall e x y, (exists f, heeded E calls e url x f /\ applies E calls f url context x) ->
        (exists f, heeded E calls e url y f /\ applies E calls f url context y)) as K.
      { intros e x y. exact (page_free_effect E calls c e url context x y H A Hu (P' e)). }
      split; intros [X Y]; (split; [eapply K; eauto|intros Z; apply Y; eapply K; eauto]).
    + unfold matches in M1, M2. rewrite strlen_cstr in M1, M2 by auto. cbn [bind] in M1, M2.
      rewrite W in M1, M2. cbn [bind negb] in M1, M2. congruence.
  - intros v1 v2 M1 M2. apply bool_iff.
    rewrite (find_decision E calls c url context d1 v1), (find_decision E calls c url context d2 v2) by auto.
    assert (forall e x y, effectV E calls e url context x -> effectV E calls e url context y) as K.
    { intros e x y. exact (page_free_visible E calls c e url context x y H A Hu (P' e)). }
    split; intros [X Y]; (split; [eapply K; eauto|intros Z; apply Y; eapply K; eauto]).
Qed.

(** ** C60 *)
Lemma scan_in E c k q bf g :
  scan E c k q bf = Ok (Some g) -> In g (tget (c_lists c) k) /\ f_data g <> None.
Proof.
  unfold scan. induction (tget (c_lists c) k) as [|f fs IH]; cbn [hasMatchingFilters]; [discriminate|].
  intros H. apply bind_ok in H as (m & M & H).
  destruct (m && tag_ok c f) eqn:T.
  - injection H as <-. split; [cbn; auto|]. apply andb_prop in T as [-> _].
    unfold filter_matches in M. destruct (negb (matchesOptions f _ _)); [discriminate|].
    destruct (f_data f); [discriminate|]. discriminate.
  - destruct (IH H) as [I N]. split; auto. cbn; auto.
Qed.

Definition reportable (f : filter) : Prop := exists d, f_data f = Some (d, [NUL]) /\ nonul d.
Definition unreportable (f : filter) : Prop :=
  has (f_type f) FTHostOnly = true /\ exists d, f_data f = Some (d, []) /\ nonul d.

Lemma list_reportable E calls c g k :
  history calls -> after E calls = Ok c -> In g (tget (c_lists c) k) -> f_data g <> None ->
  reportable g.
Proof.
  intros H A I N. destruct (hist_view E calls c H A) as (rs & V).
  pose proof (w_rep _ _ _ _ V) as R. rewrite (rep_lists E c rs k R) in I.
  apply in_rules_in in I as (b & I). pose proof (rep_wf E c rs _ R I) as W. cbn [fst] in W.
  destruct (f_data g) as [[d t]|] eqn:X; [|easy].
  destruct (wf_nonul g d t W X) as [L ->]. exists d. split; auto. now apply line_text_nonul.
Qed.

Lemma list_not_host E calls c g k :
  history calls -> after E calls = Ok c -> In g (tget (c_lists c) k) ->
  In k [KFilters; KNoFp; KNoFpDom; KNoFpAnti; KException; KNoFpExc; KNoFpDomExc; KNoFpAntiExc] ->
  has (f_type g) FTHostOnly = false.
Proof.
  intros H A I N. destruct (hist_view E calls c H A) as (rs & V).
  pose proof (w_rep _ _ _ _ V) as R. rewrite (rep_lists E c rs k R) in I.
  apply in_rules_in in I as (b & I).
  pose proof R as (PO & _). rewrite Forall_forall in PO.
  destruct (PO _ I) as [_ K]. unfold classify in K.
  destruct (hasUnsupportedOptions g); [discriminate|]. 
  unfold classify_tail in K.
  destruct (has (f_type g) FTHostOnly); auto. exfalso.
  repeat match type of K with context [if (N.eqb ?a ?b) then _ else _] => destruct (N.eqb a b) end;
    try discriminate; injection K as <-; cbn in N; intuition discriminate.
Qed.

Lemma lookup_unreportable E calls c (e : bool) url context dom g :
  history calls -> after E calls = Ok c ->
  lookup_filter E c (if e then c_ehost c else c_host c) (the_query url context dom) = Ok (Some g) ->
  unreportable g.
Proof.
  intros H A L. destruct (hist_view E calls c H A) as (rs & V).
  pose proof (w_rep _ _ _ _ V) as R.
  unfold lookup_filter in L. apply bind_ok in L as (h & L & X).
  destruct h as [| |g']; try discriminate. injection X as ->.
  unfold lookup in L. cbn [the_query q_input q_len q_context q_dom q_host] in L.
  destruct (c_host c) as [hs|] eqn:N.
  - destruct (rep_sets E c rs R) as (s & G & S1 & S2 & S3 & S4 & _); [congruence|].
    assert (hostLookup E c (Some (if e then x_ehost s else x_host s)) (hostOf url) (cstr url)
        (length url) (ctx_of url context dom) dom = Ok (HHit g)) as L'.
    { destruct e; congruence. }
    apply (hostLookup_spec E c _ (hosts_in e rs)) in L'.
    2:{ destruct e; [apply (g_ehost _ _ _ G)|apply (g_host _ _ _ G)]. }
    destruct L' as (x & f & _ & P & _ & ->).
    apply find_some in P as [P _]. apply in_hosts_in in P as (k & I & IH).
    pose proof (rep_wf E c rs _ R I) as W. cbn [fst] in W.
    unfold in_hosts in IH. split.
    + cbn [copyFilter f_type]. apply andb_prop in IH as [IH _]. now apply andb_prop in IH as [_ IH].
    + destruct R as (PO & _). rewrite Forall_forall in PO. destruct (PO _ I) as [(_ & _ & _ & _ & D & _) _].
      destruct D as (d & D & T). exists d. cbn [copyFilter f_data]. rewrite D. split; auto.
      now apply line_text_nonul.
  - exfalso. destruct (rep_fresh E c rs R N) as [-> F].
    destruct F as (_ & _ & _ & _ & F & _). destruct e; [rewrite F in L|]; cbn in L; discriminate.
Qed.

Lemma orelse_some a b g : orelse a b = Ok (Some g) -> a = Ok (Some g) \/ b = Ok (Some g).
Proof.
  unfold orelse. intros H. apply bind_ok in H as (x & H1 & H). destruct x; [|auto].
  left. congruence.
Qed.

Lemma find_parts E calls c url context dom v g :
  history calls -> after E calls = Ok c -> nonul url ->
  findMatchingFilters E c (cstr url) context dom = Ok v ->
  v_filter v = Some g \/ v_exc v = Some g ->
  (has (f_type g) FTHostOnly = false /\ reportable g) \/ unreportable g.
Proof.
  intros H A Hu M X. unfold findMatchingFilters in M. rewrite strlen_cstr in M by auto.
  cbn [bind] in M. rewrite mkQuery_cstr in M by auto. cbn [bind] in M.
  apply bind_ok in M as (m & M & K).
  assert (forall k, In k [KFilters; KNoFp; KNoFpDom; KNoFpAnti; KException; KNoFpExc; KNoFpDomExc; KNoFpAntiExc] ->
    scan E c k (the_query url context dom) None = Ok (Some g) ->
    (has (f_type g) FTHostOnly = false /\ reportable g) \/ unreportable g) as SC.
  { intros k Ik S. apply scan_in in S as [S N]. left. split.
    - eapply list_not_host; eauto.
    - eapply list_reportable; eauto. }
  destruct m as [f|].
  - apply bind_ok in K as (x & Y & K). injection K as <-. cbn [v_filter v_exc] in X.
    destruct X as [[= ->]| ->].
    + repeat (apply orelse_some in M as [M|M]; [apply SC in M; [exact M|cbn; tauto]|]).
      right. exact (lookup_unreportable E calls c false url context dom g H A M).
    + repeat (apply orelse_some in Y as [Y|Y]; [first [apply SC in Y; [exact Y|cbn; tauto]|
        right; exact (lookup_unreportable E calls c true url context dom g H A Y)]|]).
      apply SC in Y; [exact Y|cbn; tauto].
  - injection K as <-. cbn [v_filter v_exc] in X. destruct X; discriminate.
Qed.

Lemma strlen_open d : nonul d -> strlen d = UB.
Proof.
  induction d as [|x d IH]; intros H; [reflexivity|]. cbn [strlen].
  apply nonul_cons in H as [H1 H2]. rewrite IH by auto.
  destruct (ceq x NUL) eqn:C; [apply ceq_eq in C; congruence|reflexivity].
Qed.

Lemma report_ok o :
  (forall g, o = Some g -> reportable g) -> report_filter o = Ok (pattern_of o, text_of o).
Proof.
  destruct o as [f|]; intros H; [|reflexivity]. destruct (H f eq_refl) as (d & D & N).
  cbn [report_filter pattern_of text_of]. rewrite D. cbn [option_map fst].
  unfold js_from_c. change (d ++ [NUL]) with (cstr d). rewrite strlen_cstr by auto.
  cbn [bind]. now rewrite firstn_cstr.
Qed.

Lemma report_UB g : unreportable g -> report_filter (Some g) = UB.
Proof.
  intros (_ & d & D & N). cbn [report_filter]. rewrite D. unfold js_from_c.
  now rewrite app_nil_r, strlen_open.
Qed.

Lemma jsFind_exact E calls c url context page v :
  history calls -> after E calls = Ok c -> nonul url ->
  findMatchingFilters E c (cstr url) context (Some (js_string page)) = Ok v ->
  ((exists f, (v_filter v = Some f \/ v_exc v = Some f) /\ has (f_type f) FTHostOnly = true) ->
   jsFind E c url context page = UB) /\
  ((forall f, v_filter v = Some f \/ v_exc v = Some f -> has (f_type f) FTHostOnly = false) ->
   jsFind E c url context page =
     Ok (mkFound (v_block v) (pattern_of (v_filter v)) (text_of (v_filter v))
                 (pattern_of (v_exc v)) (text_of (v_exc v)))).
Proof.
  intros H A Hu M. pose proof (fun g => find_parts E calls c url context _ v g H A Hu M) as P.
  unfold jsFind. rewrite (bind_Ok_eq _ _ _ M).
  assert (forall o g, (o = v_filter v \/ o = v_exc v) -> o = Some g ->
    has (f_type g) FTHostOnly = false -> reportable g) as RP.
  { intros o g X Y Z. destruct (P g) as [[_ K]|[K _]]; auto; [|congruence].
    destruct X as [->| ->]; auto. }
  assert (forall o, o = v_filter v \/ o = v_exc v ->
    report_filter o = UB \/ exists r, report_filter o = Ok r) as TOT.
  { intros o _. destruct (report_filter o); eauto. }
  split.
  - intros (f & X & Z).
    assert (report_filter (Some f) = UB) as R.
    { destruct (P f X) as [[K _]|K]; [congruence|]. now apply report_UB. }
    destruct X as [X|X]; rewrite X in *.
    + now rewrite R.
    + destruct (TOT (v_filter v)) as [->|(r & ->)]; auto. cbn [bind]. now rewrite R.
  - intros X.
    assert (report_filter (v_filter v) = Ok (pattern_of (v_filter v), text_of (v_filter v))) as ->.
    { apply report_ok. intros g G. apply (RP (v_filter v)); auto. }
    assert (report_filter (v_exc v) = Ok (pattern_of (v_exc v), text_of (v_exc v))) as ->.
    { apply report_ok. intros g G. apply (RP (v_exc v)); auto. }
    reflexivity.
Qed.

(** ** C61 *)
Lemma split_on_cons c x s :
  split_on c (x :: s) =
  if ceq x c then [] :: split_on c s
  else match split_on c s with [] => [[x]] | w :: ws => (x :: w) :: ws end.
Proof. reflexivity. Qed.

Fixpoint sort_domains (ps : list bytes) : list bytes * list bytes :=
  match ps with
  | [] => ([], [])
  | d :: ps' =>
      let '(a, b) := sort_domains ps' in
      match d with
      | [] => (a, b)
      | c :: d' => if ceq c "~" then (a, d' :: b) else (d :: a, b)
      end
  end.

Lemma sort_domains_spec ps : sorted_domains ps (fst (sort_domains ps)) (snd (sort_domains ps)).
Proof.
  induction ps as [|d ps IH]; [constructor|]. cbn [sort_domains].
  destruct (sort_domains ps) as [a b]. cbn [fst snd] in IH. destruct d as [|c d].
  - now constructor.
  - destruct (ceq c "~") eqn:C.
    + apply ceq_eq in C. subst c. cbn [fst snd]. now apply (sd_excluded d).
    + cbn [fst snd]. apply sd_listed; auto; [discriminate|].
      intros (r & X). injection X as -> _. now rewrite ceq_refl in C.
Qed.

Lemma sort_domains_cons (w : bytes) ps :
  sort_domains (w :: ps) =
  (fst (sort_domains [w]) ++ fst (sort_domains ps), snd (sort_domains [w]) ++ snd (sort_domains ps)).
Proof.
  cbn [sort_domains]. destruct (sort_domains ps) as [a b]. destruct w as [|c w]; auto.
  now destruct (ceq c "~").
Qed.

Lemma take_domain_spec pre w r cap acc :
  r <> [] -> length w <= cap ->
  take_domain (pre ++ w ++ r) cap (length pre) (length w) acc =
  Ok (fst acc ++ fst (sort_domains [w]), snd acc ++ snd (sort_domains [w])).
Proof.
  intros R C. unfold take_domain.
  assert (skipn (length pre) (pre ++ w ++ r) = w ++ r) as ->.
  { rewrite skipn_app, skipn_all, Nat.sub_diag. reflexivity. }
  destruct w as [|c w].
  - destruct r as [|y r]; [easy|]. cbn. rewrite !app_nil_r. now destruct acc.
  - cbn [app length sort_domains]. change (0 <? S (length w)) with true. cbn [andb].
    destruct (ceq c "~") eqn:X; cbn [negb andb orb fst snd].
    + assert ((cap <? S (length w) - 1) = false) as -> by (apply Nat.ltb_ge; cbn in *; lia).
      assert ((S (length (w ++ r)) <? S (length w)) = false) as ->
        by (apply Nat.ltb_ge; rewrite app_length; lia).
      cbn [orb skipn]. replace (S (length w) - 1) with (length w) by lia.
      rewrite firstn_app, firstn_all, Nat.sub_diag. cbn [firstn]. now rewrite !app_nil_r.
    + assert ((cap <? S (length w)) = false) as -> by (apply Nat.ltb_ge; cbn in *; lia).
      assert ((S (length (w ++ r)) <? S (length w)) = false) as ->
        by (apply Nat.ltb_ge; rewrite app_length; lia).
      cbn [orb firstn]. rewrite firstn_app, firstn_all, Nat.sub_diag. cbn [firstn].
      now rewrite !app_nil_r.
Qed.

Lemma split_on_first c (w s : bytes) : ~ In c w -> split_on c (w ++ c :: s) = w :: split_on c s.
Proof.
  induction w as [|x w IH]; intros N; cbn [app]; rewrite split_on_cons.
  - now rewrite ceq_refl.
  - destruct (ceq x c) eqn:X; [apply ceq_eq in X; subst; exfalso; apply N; cbn; auto|].
    rewrite IH; auto. intros I. apply N. cbn; auto.
Qed.

(** What has been passed is [pre], the current piece so far is [w]. *)
Lemma domain_loop_spec (p : bytes) : forall (pre w : bytes) acc cap,
  nonul p -> ~ In "|"%char w -> length (w ++ p) <= cap ->
  domain_loop (pre ++ w ++ cstr p) (cstr p) cap (length pre) (length w) acc =
  Ok (fst acc ++ fst (sort_domains (split_on "|" (w ++ p))),
      snd acc ++ snd (sort_domains (split_on "|" (w ++ p)))).
Proof.
  induction p as [|x p IH]; intros pre w acc cap Hp Nw C.
  - change (cstr []) with [NUL]. cbn [domain_loop]. rewrite ceq_refl.
    rewrite take_domain_spec; [|discriminate|rewrite app_nil_r in C; lia].
    now rewrite app_nil_r, split_on_none.
  - apply nonul_cons in Hp as [Hx Hp].
    change (cstr (x :: p)) with (x :: cstr p). cbn [domain_loop].
    destruct (ceq x NUL) eqn:X0; [apply ceq_eq in X0; congruence|].
    destruct (ceq x "|") eqn:X1.
    + apply ceq_eq in X1. subst x. rewrite app_length in C. cbn [length] in C.
      rewrite take_domain_spec; [|discriminate|lia]. cbn [bind].
      replace (pre ++ w ++ "|"%char :: cstr p) with ((pre ++ w ++ B "|") ++ [] ++ cstr p)
        by (rewrite <- !app_assoc; reflexivity).
      replace (length pre + length w + 1) with (length (pre ++ w ++ B "|"))
        by (rewrite !app_length; cbn; lia).
      change 0 with (length (@nil ascii)).
      rewrite IH; auto; [|cbn [app]; lia]. cbn [app fst snd].
      rewrite split_on_first by auto. rewrite (sort_domains_cons w (split_on "|" p)). cbn [fst snd].
      now rewrite <- !app_assoc.
    + replace (pre ++ w ++ x :: cstr p) with (pre ++ (w ++ [x]) ++ cstr p)
        by (rewrite <- !app_assoc; reflexivity).
      replace (S (length w)) with (length (w ++ [x])) by (rewrite app_length; cbn; lia).
      replace (w ++ x :: p) with ((w ++ [x]) ++ p) in * by (rewrite <- app_assoc; reflexivity).
      apply IH; auto. intros I. apply in_app_or in I as [I|[->|[]]]; auto.
      now rewrite ceq_refl in X1.
Qed.

Lemma list_domains_spec o : (forall d, o = Some d -> nonul d) ->
  list_domains o = Ok (match o with Some d => sort_domains (split_on "|" d) | None => ([], []) end).
Proof.
  destruct o as [d|]; intros H; [|reflexivity]. unfold list_domains.
  change (cstr d) with ([] ++ [] ++ cstr d) at 1.
  change (domain_loop ([] ++ [] ++ cstr d) (cstr d) (length d + 1) 0 0 ([], []))
    with (domain_loop ([] ++ [] ++ cstr d) (cstr d) (length d + 1) (length (@nil ascii)) (length (@nil ascii)) ([], [])).
  rewrite domain_loop_spec; auto; [|cbn [app]; lia]. cbn [app fst snd].
  now destruct (sort_domains (split_on "|" d)).
Qed.

Lemma nonempty_in {A} (l : list A) : nonempty l = true <-> exists x, In x l.
Proof.
  destruct l as [|x l]; cbn [nonempty]; split; [discriminate|intros (x & [])| |auto].
  intros _. exists x. cbn; auto.
Qed.

Lemma listed_only_spec f : isDomainOnlyFilter f = true <-> listed_only f.
Proof.
  unfold isDomainOnlyFilter, listed_only, f_domains, f_antiDomains. destruct (f_dom f) as [dl|].
  - rewrite andb_true_iff, negb_true_iff, <- not_true_iff_false, !nonempty_in. split.
    + intros [(s & I) N]. exists dl. split; auto. split.
      * exists s. now apply lists_domainsOf.
      * intros t T. apply N. exists t. now apply excludes_antiDomainsOf.
    + intros (dl' & [= <-] & (s & I) & N). split.
      * exists s. now apply lists_domainsOf.
      * intros (t & T). apply (N t). now apply excludes_antiDomainsOf.
  - cbn. split; [discriminate|]. intros (dl & [=] & _).
Qed.

Lemma excluded_only_spec f : isAntiDomainOnlyFilter f = true <-> excluded_only f.
Proof.
  unfold isAntiDomainOnlyFilter, excluded_only, f_domains, f_antiDomains. destruct (f_dom f) as [dl|].
  - rewrite andb_true_iff, negb_true_iff, <- not_true_iff_false, !nonempty_in. split.
    + intros [(s & I) N]. exists dl. split; auto. split.
      * exists s. now apply excludes_antiDomainsOf.
      * intros t T. apply N. exists t. now apply lists_domainsOf.
    + intros (dl' & [= <-] & (s & I) & N). split.
      * exists s. now apply excludes_antiDomainsOf.
      * intros (t & T). apply (N t). now apply lists_domainsOf.
  - cbn. split; [discriminate|]. intros (dl & [=] & _).
Qed.

Lemma describe_spec f : wf_rule f -> exists en, describe f = Ok en /\ described f en.
Proof.
  intros (b & D & T & Ho & _ & _). unfold describe.
  rewrite list_domains_spec.
  2:{ intros d X. apply line_text_nonul, D, X. }
  cbn [bind]. eexists. split; [reflexivity|].
  unfold described. cbn [en_data en_host en_domains en_antiDomains en_tag en_domOnly en_antiOnly
    en_domOnlyExc en_antiOnlyExc].
  unfold is_exception.
  rewrite <- !listed_only_spec, <- !excluded_only_spec, !andb_true_iff, !negb_true_iff, !not_true_iff_false.
  split; [destruct (f_data f) as [[[|x d] t]|]; reflexivity|].
  split; [destruct (f_host f) as [[|x d]|]; reflexivity|].
  split; [|repeat split; tauto].
  unfold domains_of. destruct (f_dom f) as [dl|]; [|auto].
  exists (split_on "|" dl). split; [apply split_cut|apply sort_domains_spec].
Qed.

Lemma mapR_ok {A C} (f : A -> res C) (R : A -> C -> Prop) l :
  (forall x, In x l -> exists y, f x = Ok y /\ R x y) ->
  exists ys, mapR f l = Ok ys /\ Forall2 R l ys.
Proof.
  induction l as [|x l IH]; intros H; [exists []; split; [reflexivity|constructor]|].
  destruct (H x) as (y & Y & Z); [cbn; auto|].
  destruct IH as (ys & Ys & F); [intros z I; apply H; cbn; auto|].
  exists (y :: ys). split; [|now constructor].
  change (mapR f (x :: l)) with (y <- f x ;; ys <- mapR f l ;; Ok (y :: ys)).
  now rewrite Y, Ys.
Qed.

Lemma lines_arrays E calls c rs k :
  view E calls c rs ->
  exists fs, Forall2 (fun pl f => parses_to (fst pl) (snd pl) f) (loaded_lines calls) fs /\
    tget (c_lists c) k = List.filter (goes_to E (CList k)) fs.
Proof.
  intros V. exists (map (fun r => fst (fst r)) rs).
  rewrite (rep_lists E c rs k (w_rep _ _ _ _ V)).
  pose proof (w_rep _ _ _ _ V) as (PO & _). pose proof (w_lines _ _ _ _ V) as F.
  clear V. induction F as [|[p l] r L rs0 [Hl HR] F IH]; [split; [constructor|reflexivity]|].
  inversion PO as [|? ? P1 P2]; subst. destruct (IH P2) as [I1 I2]. cbn [map]. split.
  - constructor; auto. cbn [fst snd] in *. unfold rule_of in HR.
    rewrite (surjective_pairing (pline p l)) in HR.
    apply bind_ok in HR as (? & _ & HR). apply bind_ok in HR as (k' & _ & HR).
    destruct (is_gate k' && _); [discriminate|]. injection HR as <-. cbn [fst].
    exists (snd (pline p l)). rewrite parse_filter_cstr by auto. now destruct (pline p l).
  - destruct r as [[f b] kk]. destruct P1 as [_ K]. cbn [fst List.filter].
    unfold goes_to at 1. rewrite K. unfold rules_in in *. cbn [List.filter].
    unfold in_kind at 1. cbn [snd].
    destruct kk as [|e|kk]; auto.
    destruct (kind_eq_dec kk k) as [->|N]; [|exact I2]. cbn [map]. f_equal. exact I2.
Qed.

Lemma named_array_spec name k : In (name, k) array_names -> named_array name = Some k.
Proof.
  intros I. unfold array_names in I. cbn [In] in I.
  repeat (destruct I as [I|I]; [injection I as <- <-; reflexivity|]). destruct I.
Qed.

Lemma named_array_none name : (forall k, ~ In (name, k) array_names) -> named_array name = None.
Proof.
  intros N. unfold named_array.
  repeat match goal with |- context [beq name ?b] =>
    destruct (beq name b) eqn:X;
    [apply beq_eq in X; exfalso; rewrite X in N;
     first [ apply (N KFilters); cbn; tauto | apply (N KCosmetic); cbn; tauto
           | apply (N KHtml); cbn; tauto | apply (N KException); cbn; tauto
           | apply (N KNoFp); cbn; tauto | apply (N KNoFpExc); cbn; tauto
           | apply (N KNoFpDom); cbn; tauto | apply (N KNoFpAnti); cbn; tauto
           | apply (N KNoFpDomExc); cbn; tauto | apply (N KNoFpAntiExc); cbn; tauto ]|]; clear X
  end. reflexivity.
Qed.

Lemma getFilters_spec E calls c name k :
  history calls -> after E calls = Ok c -> In (name, k) array_names ->
  exists fs ens, getFilters c name = Ok ens /\
    Forall2 (fun pl f => parses_to (fst pl) (snd pl) f) (loaded_lines calls) fs /\
    Forall2 described (List.filter (goes_to E (CList k)) fs) ens.
Proof.
  intros H A I. destruct (hist_view E calls c H A) as (rs & V).
  destruct (lines_arrays E calls c rs k V) as (fs & F & L).
  unfold getFilters. rewrite (named_array_spec _ _ I).
  destruct (mapR_ok describe described (tget (c_lists c) k)) as (ens & G & D).
  - intros f J. apply describe_spec.
    rewrite (rep_lists E c rs k (w_rep _ _ _ _ V)) in J. apply in_rules_in in J as (b & J).
    exact (rep_wf E c rs _ (w_rep _ _ _ _ V) J).
  - exists fs, ens. rewrite L in D. auto.
Qed.

Lemma getFilters_unknown c name :
  (forall k, ~ In (name, k) array_names) -> getFilters c name = Ok [].
Proof. intros N. unfold getFilters. now rewrite named_array_none. Qed.

(** ** C62 *)
Lemma split_join ls : ls <> [] -> Forall (fun l => ~ In LF l) ls -> split_on LF (join_lf ls) = ls.
Proof.
  intros N F. destruct ls as [|l ls]; [easy|]. clear N. revert l F.
  induction ls as [|m ls IH]; intros l F; inversion F as [|? ? F1 F2]; subst.
  - cbn [join_lf]. now apply split_on_none.
  - change (join_lf (l :: m :: ls)) with (l ++ LF :: join_lf (m :: ls)).
    rewrite split_on_first by auto. f_equal. now apply IH.
Qed.

Definition imaX : list bytes := text_lines ima_rules.

Lemma ima_is_extra : imaX = extraConcatRules.
Proof. reflexivity. Qed.

(** The lines of a host list: host names and blank lines. *)
Lemma host_entry_clean h : host_entry h -> ~ In LF (B "||" ++ h) /\ ~ In CR (B "||" ++ h) /\
  mapRule (B "||" ++ h) = B "||" ++ h.
Proof.
  intros H.
  assert (forall c, In c h -> c <> LF /\ c <> CR /\ c <> "^"%char) as K.
  { intros c I. destruct H as [->|(_ & _ & H)]; [easy|].
    destruct (H c I) as (Hsep & (_ & _ & _ & _ & B5 & B6) & _).
    split; [|split]; auto. intros ->. apply Hsep. cbn; auto 10. }
  split; [|split].
  - intros I. apply in_app_or in I as [I|I]; [vm_compute in I; intuition discriminate|].
    now apply K in I as (X & _).
  - intros I. apply in_app_or in I as [I|I]; [vm_compute in I; intuition discriminate|].
    now apply K in I as (_ & X & _).
  - destruct (mapRule_marked (B "||" ++ h)) as [[X _]|[[X _]|(_ & _ & X)]]; auto.
    + exfalso. change (B "||imasdk.googleapis.com^$third-party")
        with (B "||" ++ B "imasdk.googleapis.com^$third-party") in X.
      apply app_inv_head in X.
      subst h. destruct (K "^"%char) as (_ & _ & Y); auto. vm_compute. tauto.
    + discriminate.
Qed.

Lemma sanitize_fixed (ls : list bytes) :
  ls <> [] -> Forall (fun l => ~ In LF l /\ l <> [] /\ mapRule l = l) ls ->
  sanitizeABPInput (join_lf ls) = join_lf (ls ++ extraConcatRules).
Proof.
  intros N F. unfold sanitizeABPInput, sanitizeWith. rewrite split_join; auto.
  - f_equal. f_equal. clear N. induction F as [|l ls (_ & N & M) F IH]; [reflexivity|].
    cbn [List.filter]. destruct l; [easy|]. cbn [truthy map]. rewrite M. now f_equal.
  - eapply Forall_impl; [|exact F]. cbn. intuition.
Qed.

Lemma extra_fixed : Forall (fun l => ~ In LF l /\ l <> [] /\ mapRule l = l) extraConcatRules.
Proof.
  repeat constructor; try discriminate; vm_compute; intuition discriminate.
Qed.

Lemma split_text t : ~ In CR t -> split_on LF t = text_lines t.
Proof.
  intros H. rewrite text_lines_split.
  assert (forall l, In l (split_on LF t) -> text_lines l = [l]) as K by (intros l; now apply no_cr_split).
  induction (split_on LF t) as [|l ls IH]; [reflexivity|]. cbn [flat_map].
  rewrite K by (cbn; auto). cbn [app]. f_equal. apply IH. intros m I. apply K. cbn; auto.
Qed.

Lemma single_lines ls :
  Forall (fun l => ~ In CR l /\ ~ In LF l) ls -> flat_map text_lines ls = ls.
Proof.
  induction 1 as [|l ls [H1 H2] F IH]; [reflexivity|]. cbn [flat_map].
  rewrite no_eol_single by auto. cbn [app]. now f_equal.
Qed.

Lemma listURL_host_lines body :
  ~ In CR body -> skipn 4 (text_lines body) <> [] -> Forall host_entry (skipn 4 (text_lines body)) ->
  text_lines (listURLText (Some hostListFilter) body) =
  map (app (B "||")) (skipn 4 (text_lines body)) ++ extraConcatRules ++ extraConcatRules.
Proof.
  intros H N F. unfold listURLText, singleListData, hostListFilter. rewrite split_text by auto.
  set (hs := skipn 4 (text_lines body)) in *.
  change (map (fun l => B "||" ++ l) hs) with (map (app (B "||")) hs).
  assert (Forall (fun l => ~ In LF l /\ l <> [] /\ mapRule l = l) (map (app (B "||")) hs)) as F1.
  { apply Forall_forall. intros l I. apply in_map_iff in I as (h & <- & I).
    rewrite Forall_forall in F. destruct (host_entry_clean h (F h I)) as (A1 & A2 & A3).
    split; auto. split; auto. discriminate. }
  assert (map (app (B "||")) hs <> []) as N1 by (destruct hs; [easy|discriminate]).
  rewrite sanitize_fixed by auto. rewrite sanitize_fixed.
  - rewrite text_lines_join.
    + rewrite <- app_assoc. apply single_lines. apply Forall_app. split.
      * apply Forall_forall. intros l I. apply in_map_iff in I as (h & <- & I).
        rewrite Forall_forall in F. destruct (host_entry_clean h (F h I)) as (A1 & A2 & A3). auto.
      * assert (Forall (fun l => ~ In CR l /\ ~ In LF l) extraConcatRules) as X
          by (repeat constructor; vm_compute; intuition discriminate).
        apply Forall_app. auto.
    + destruct hs; [easy|discriminate].
  - destruct hs; [easy|discriminate].
  - apply Forall_app. split; auto. apply extra_fixed.
Qed.

(** What a line "||h" parses to. *)
Lemma host_entry_line p h f :
  host_entry h -> parses_to p (B "||" ++ h) f ->
  f_host f = Some h /\ has (f_type f) FTException = false.
Proof.
  intros [->|Hh] P.
  - apply parses_rule_at in P; [|apply line_text_dec; vm_compute; reflexivity].
    subst f. destruct p; split; vm_compute; reflexivity.
  - destruct (host_body_ok h h Hh (or_introl eq_refl)) as (G & BH & _).
    pose proof (good_rule_line _ G) as Hl.
    destruct P as [b HP]. rewrite <- host_syntax_line in HP.
    rewrite parse_filter_cstr, parse_rule_line in HP by auto.
    injection HP as <- _.
    destruct (shape_fields p (host_syntax h)) as (F1 & F2 & F3 & F4).
    destruct (shape_bits (host_syntax h)) as (_ & S1 & S2 & _).
    rewrite F1, F3, S1. split; auto.
    unfold shape_host, host_syntax. cbn. f_equal. now apply body_host_prefix.
Qed.

Lemma not_exception E f k :
  has (f_type f) FTException = false -> classify E f = Ok k -> category_of k <> ExceptionRule.
Proof.
  intros H K. unfold classify in K. destruct (hasUnsupportedOptions f); [injection K as <-; discriminate|].
  destruct (N.eqb_spec (N.land (f_type f) FTListTypesMask) FTException) as [X|_].
  - exfalso. assert (N.land (f_type f) FTException = 0%N) as Z.
    { unfold has in H. apply Bool.negb_false_iff in H. now apply N.eqb_eq. }
    assert (N.land (N.land (f_type f) FTListTypesMask) FTException = FTException) as Y by (rewrite X; reflexivity).
    rewrite <- N.land_assoc in Y. change (N.land FTListTypesMask FTException) with FTException in Y.
    rewrite Z in Y. discriminate.
  - repeat match type of K with (if ?b then _ else _) = _ => destruct b; [injection K as <-; discriminate|] end.
    unfold classify_tail in K. destruct (has (f_type f) FTHostOnly); [injection K as <-; discriminate|].
    destruct (getFingerprint E f) as [[g|]|]; cbn [bind] in K; [|destruct (isDomainOnlyFilter f); [|destruct (isAntiDomainOnlyFilter f)]|]; try discriminate;
      injection K as <-; discriminate.
Qed.

Lemma first_in (A : Type) (dec : forall x y : A, {x = y} + {x <> y}) (x : A) l :
  In x l -> exists a b, l = a ++ x :: b /\ ~ In x a.
Proof.
  induction l as [|y l IH]; [easy|]. intros I. destruct (dec y x) as [->|N].
  - exists [], l. auto.
  - destruct I as [I|I]; [easy|]. destruct (IH I) as (a & b & -> & Na).
    exists (y :: a), b. split; auto. intros [|]; auto.
Qed.

Lemma in_skipn_in (A : Type) (x : A) n l : In x (skipn n l) -> In x l.
Proof. intros I. rewrite <- (firstn_skipn n l). apply in_or_app. auto. Qed.

Lemma host_list E p body c h url uh context dom v c' :
  nonul body -> ~ In CR body ->
  Forall host_entry (skipn 4 (text_lines body)) -> In h (skipn 4 (text_lines body)) -> h <> [] ->
  after E [Parse p (listURLText (Some hostListFilter) body)] = Ok c ->
  nonul url -> web_url url -> url_has_host url uh ->
  first_party h uh -> h = uh \/ In "."%char h -> has context FODocument = false ->
  matches E c (cstr url) context dom = Ok (v, c') ->
  v_block v = true.
Proof.
  intros Hb Hc F I Nh A Hu Hw Huh FP LK D M.
  set (hs := skipn 4 (text_lines body)) in *.
  assert (hs <> []) as N by (destruct hs; [easy|discriminate]).
  pose proof (listURL_host_lines body Hc N F) as TL. fold hs in TL.
  assert (host_name h) as Hh. { rewrite Forall_forall in F. destruct (F h I); [easy|auto]. }
  destruct (first_in _ (list_eq_dec ascii_dec) h hs I) as (a & b & Eh & Na).
  set (calls := [Parse p (listURLText (Some hostListFilter) body)]) in *.
  assert (loaded_lines calls = map (pair p) (map (app (B "||")) a) ++ (p, B "||" ++ h) ::
     map (pair p) (map (app (B "||")) b ++ extraConcatRules ++ extraConcatRules)) as LL.
  { unfold calls. cbn [loaded_lines loaded_from app]. rewrite TL, Eh, !map_app. cbn [map]. 
    rewrite <- !app_assoc. reflexivity. }
  assert (forall x, In x a \/ In x b -> host_entry x) as HE.
  { intros x J. rewrite Forall_forall in F. apply F. rewrite Eh. apply in_or_app. cbn. intuition. }
  assert (history calls) as Hy.
  { constructor; [|constructor]. cbn. unfold listURLText, singleListData, sanitizeABPInput.
    do 2 apply sanitize_nonul. unfold hostListFilter. apply nonul_join.
    apply Forall_forall. intros l J. apply in_map_iff in J as (x & <- & J).
    change (nonul (B "||" ++ x)). apply nonul_app. split; [now apply nonulb_ok|].
    pose proof (nonul_split body Hb) as K. rewrite Forall_forall in K. apply K.
    exact (in_skipn_in _ x 4 _ J). }
  eapply (host_line_blocks E calls c _ p _ h h url uh context dom v c'); eauto.
  - intros p' l f J P HR Q. apply in_map_iff in J as (l' & [= <- <-] & J).
    apply in_map_iff in J as (x & <- & J).
    destruct (host_entry_line p x f (HE x (or_introl J)) P) as [Y _]. congruence.
  - intros f (k & (p' & l & J & P & K) & C) _.
    assert (has (f_type f) FTException = false) as X.
    { change (In (p', l) (map (pair p) (text_lines (listURLText (Some hostListFilter) body)))) in J.
      rewrite TL in J. apply in_map_iff in J as (l' & [= <- <-] & J2).
      assert (In l' (map (app (B "||")) hs) \/ In l' extraConcatRules) as [J3|J3]
        by (apply in_app_or in J2 as [J2|J2]; auto; apply in_app_or in J2 as [J2|J2]; auto);
        clear J2; rename J3 into J2.
      - apply in_map_iff in J2 as (x & <- & J2). rewrite Forall_forall in F.
        now apply (host_entry_line p x f (F x J2)).
      - destruct J2 as [<-|[<-|[]]];
          (apply parses_rule_at in P; [|apply line_text_dec; vm_compute; reflexivity]);
          subst f; destruct p; vm_compute; reflexivity. }
    now apply (not_exception E f k X K).
Qed.

(** ** C64 *)
Lemma strings_after E p ts : clientFromStrings E p ts = after E (map (Parse p) ts).
Proof.
  unfold clientFromStrings, after. generalize client0. induction ts as [|t ts IH]; intros c; [reflexivity|].
  cbn [map foldM perform]. destruct (parse E p (cstr t) c); cbn [bind]; auto.
Qed.

Lemma strings_decide E p ts c1 c2 :
  Forall nonul ts -> ts <> [] ->
  clientFromStrings E p ts = Ok c1 -> clientFromStrings E p [join_lf ts] = Ok c2 ->
  same_decisions E c1 c2.
Proof.
  intros H N. rewrite !strings_after. intros A1 A2 url context dom Hu.
  apply (corr_decisions E (map (Parse p) ts) (map (Parse p) [join_lf ts])); auto.
  - apply Forall_forall. intros k I. apply in_map_iff in I as (t & <- & I).
    rewrite Forall_forall in H. cbn. auto.
  - constructor; [|constructor]. cbn. now apply nonul_join.
  - assert (loaded_lines (map (Parse p) ts) = loaded_lines (map (Parse p) [join_lf ts])) as ->;
      [|apply corr_refl].
    unfold loaded_lines. cbn [map loaded_from]. rewrite text_lines_join by auto. clear.
    change (map (pair p) (flat_map text_lines ts)) with (map (pair p) (flat_map text_lines ts)).
    assert (forall L, loaded_from L (map (Parse p) ts) = L ++ map (pair p) (flat_map text_lines ts)) as K.
    { induction ts as [|t ts IH]; intros L; cbn [map loaded_from flat_map]; [now rewrite app_nil_r|].
      rewrite IH, map_app, app_assoc. reflexivity. }
    now rewrite K.
  - intros u. split; intros (a & b & X & _); exfalso.
    + assert (In (AddTag u) (map (Parse p) ts)) as I by (rewrite X; apply in_or_app; cbn; auto).
      apply in_map_iff in I as (t & [=] & _).
    + assert (In (AddTag u) (map (Parse p) [join_lf ts])) as I by (rewrite X; apply in_or_app; cbn; auto).
      apply in_map_iff in I as (t & [=] & _).
Qed.
