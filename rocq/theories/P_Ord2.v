(** Which rule is reported, in terms of loaded lines. *)
From Verif Require Import Base Flags Protocol Url Sets FilterM ParseM ClientM Spec SpecM
  P_Base P_Protocol P_Url P_Match P_Rule P_Parse P_List P_Shape P_Fp P_Line P_Line2
  P_Fp2 P_Props1 P_Props2 P_Props3 P_Opt P_Opt2 P_Set P_Client P_Decide P_Hist P_Dec2 P_Dec3
  P_Ord SpecC SpecOrd.

Lemma class_unique E calls k k' f : loaded_in E calls k f -> loaded_in E calls k' f -> k = k'.
Proof. intros (p & l & _ & _ & A) (p' & l' & _ & _ & A'). congruence. Qed.

Lemma pick_class E calls c rs e s url context dom f :
  view E calls c rs -> nonul url -> pick s (hosts_in e rs) = Some f ->
  applies E calls f url context dom -> loaded_in E calls (CHost e) f /\ f_host f = Some s.
Proof.
  intros V Hu X A. pose proof (w_lines _ _ _ _ V) as F.
  apply (first_host_pick E calls) in X as [X1 X2]; auto. split; auto.
  destruct X1 as [HR (a & pres & l & b & h' & L & P & _)].
  assert (In (pres, l) (loaded_lines calls)) as I.
  { rewrite L. apply in_or_app. cbn; auto. }
  destruct (F2_in_l _ _ _ _ F I) as ([[g bb] k] & J & LR).
  assert (f = g) as <- by (now apply (line_rule_parses E (pres, l) (g, bb, k))).
  pose proof (line_rule_ok _ _ _ LR) as PO.
  destruct (host_rule_class E e f bb k PO HR) as [->|U].
  - apply (loaded_rule E calls rs); eauto.
  - exfalso. destruct A as ((host' & _ & A) & _). now rewrite unsupported_never in A.
Qed.

Section Report.
  Context (E : env) (calls : list call) (c : client) (rs : list prule) (e : bool)
    (url : bytes) (context : N) (dom : option bytes).
  Context (V : view E calls c rs) (Hu : nonul url).
  Notation applies f := (applies E calls f url context dom).
  Notation fires := (fires E c url context dom).
  Notation in_group := (in_group E calls e).

  Lemma fa f : fires f <-> applies f.
  Proof. now apply (fires_applies E calls c rs). Qed.

  Lemma lr k f : loaded_in E calls (CList k) f <-> In f (rules_in k rs).
  Proof. apply loaded_rules_in. apply (w_lines _ _ _ _ V). Qed.

  Lemma first_line_of k grp f a b :
    group_class e grp = CList k -> rules_in k rs = a ++ f :: b ->
    (forall g, In g a -> ~ fires g) -> first_line E calls e grp url context dom f.
  Proof.
    intros K R N. unfold rules_in in R. apply filter_map_split in R as
      (ra & [[g bb] kk] & rb & Er & IK & Eg & Ea & Eb). cbn [fst] in Eg. subst g.
    pose proof (w_lines _ _ _ _ V) as F. rewrite Er in F. clear Er.
    apply Forall2_app_inv_r in F as (la & lb & Fa & Fb & L).
    inversion Fb as [|[pres l] ? lb' ? LR Fb']; subst.
    exists la, pres, l, lb'. split; auto. split.
    { now apply (line_rule_parses E (pres, l) (f, bb, kk)). }
    intros pres' l' f' I P G A. destruct (F2_in_l _ _ _ _ Fa I) as ([[g' b'] k'] & J & LR').
    assert (f' = g') as <- by (now apply (line_rule_parses E (pres', l') (g', b', k'))).
    destruct (line_rule_ok _ _ _ LR') as [_ K'].
    assert (k' = CList k) as ->.
    { destruct G as (p0 & l0 & _ & _ & G). rewrite K in G. congruence. }
    apply (N f'); [|now apply fa].
    apply (in_rules_in k ra f'). eauto.
  Qed.

  Definition known (P : filter -> Prop) (x : group * stage) : Prop :=
    (forall g, snd x (Some g) -> exists f, in_group (fst x) f /\ P f /\ applies f /\
       same_content f g /\
       match fst x with
       | Hosts => shortest_host E calls e url context dom P f
       | grp => first_line E calls e grp url context dom f
       end) /\
    (snd x None -> forall f, in_group (fst x) f -> P f -> ~ applies f).

  Lemma known_scan (P : filter -> Prop) grp k (B : Prop) :
    group_class e grp = CList k -> (forall f, In f (rules_in k rs) -> B -> P f) ->
    (forall f, in_group grp f -> P f -> applies f -> B) ->
    known P (grp, scanT E c url context dom (rules_in k rs) B).
  Proof.
    intros K H1 H2. split; cbn [fst snd scanT].
    - intros g [HB (a & b & R & F & N)]. exists g.
      assert (In g (rules_in k rs)) as I by (rewrite R; apply in_or_app; cbn; auto).
      split; [unfold SpecOrd.in_group; rewrite K; now apply lr|].
      split; auto. split; [now apply fa|]. split; [apply same_self|].
      pose proof (first_line_of k grp g a b K R N) as X.
      destruct grp; auto. discriminate K.
    - intros H f G Pf A. apply (H (H2 f G Pf A) f).
      + unfold SpecOrd.in_group in G. rewrite K in G. now apply lr.
      + now apply fa.
  Qed.

  Lemma known_host (P : filter -> Prop) host :
    (forall x f, probed host x -> pick x (hosts_in e rs) = Some f -> P f) ->
    (forall f, in_group Hosts f -> P f -> applies f ->
       exists x, probed host x /\ pick x (hosts_in e rs) = Some f) ->
    known P (Hosts, firsthost E c url context dom (probed host) (hosts_in e rs)).
  Proof.
    intros H1 H2. split; cbn [fst snd firsthost].
    - intros g (x & f & X & Pk & F & -> & M). exists f. apply fa in F.
      destruct (pick_class E calls c rs e x url context dom f V Hu Pk F) as [C1 C2].
      split; auto. split; eauto. split; auto. split; [apply same_copy|].
      exists x. split; auto. intros f' h' Pf' G' Hh' A'.
      destruct (H2 f' G' Pf' A') as (x' & X' & Pk').
      destruct (pick_class E calls c rs e x' url context dom f' V Hu Pk' A') as [_ C2'].
      assert (h' = x') as -> by congruence. apply (M x' f'); auto. now apply fa.
    - intros H f G Pf A. destruct (H2 f G Pf A) as (x & X & Pk). apply (H x f X Pk).
      now apply fa.
  Qed.

  Lemma stages_report P sts g :
    Forall (known P) sts -> stages sts (Some g) ->
    first_report E calls e (map fst sts) url context dom P g.
  Proof.
    intros K (a & grp & T & b & -> & Hg & N).
    rewrite Forall_app in K. destruct K as [Ka K]. inversion K as [|? ? [K1 _] _]; subst.
    destruct (K1 g Hg) as (f & F1 & F2 & F3 & F4 & F5). cbn [fst] in *.
    exists (map fst a), grp, (map fst b), f. rewrite map_app. cbn [map fst].
    split; [reflexivity|]. split; [exact F1|]. split; [exact F2|]. split; [exact F3|].
    split; [exact F4|]. split; [|destruct grp; exact F5].
    intros grp' f' I G Pf'. apply in_map_iff in I as ([grp2 T2] & Eg & I). cbn [fst] in Eg.
    subst grp2. rewrite Forall_forall in Ka, N. destruct (Ka _ I) as [_ K2].
    pose proof (N _ I) as NI. now apply K2.
  Qed.

  Lemma consulted_group f grp :
    in_group grp f -> consulted E rs e dom (hostOf url) f -> applies f ->
    match grp with
    | Listed => gate_hit E 1000 (items (kDom e) rs) dom
    | Excluded => ~ gate_hit E 100 (items (kAnti e) rs) dom
    | Hosts => exists s, probed (hostOf url) s /\ pick s (hosts_in e rs) = Some f
    | _ => True
    end.
  Proof.
    intros G X A.
    assert (forall k, In f (rules_in k rs) -> group_class e grp = CList k) as U.
    { intros k I. apply lr in I. apply (class_unique E calls _ _ f G I). }
    destruct X as [X|[X|[[X B]|[[X B]|(s & Ps & X)]]]].
    - apply U in X. destruct grp, e; auto; discriminate X.
    - apply U in X. destruct grp, e; auto; discriminate X.
    - apply U in X. destruct grp; auto; destruct e; discriminate X.
    - apply U in X. destruct grp; auto; destruct e; discriminate X.
    - destruct (pick_class E calls c rs e s url context dom f V Hu X A) as [C1 _].
      pose proof (class_unique E calls _ _ f G C1) as C.
      destruct grp; eauto; destruct e; discriminate C.
  Qed.

  Lemma asked_known :
    web_url url -> Forall (known (heeded E calls e url dom))
                          (asked_stages E c url context dom rs e).
  Proof.
    intros Hw.
    assert (forall f, consulted E rs e dom (hostOf url) f -> applies f ->
              heeded E calls e url dom f) as CH.
    { intros f X A. apply (heeded_consulted E calls c rs e url context dom f V Hu Hw).
      split; auto. now apply fa. }
    assert (forall f, heeded E calls e url dom f -> applies f ->
              consulted E rs e dom (hostOf url) f) as HC.
    { intros f X A. apply (heeded_consulted E calls c rs e url context dom f V Hu Hw). auto. }
    pose proof (w_rep _ _ _ _ V) as (PO & _). pose proof (w_lines _ _ _ _ V) as F.
    pose proof (anti_hit E calls rs e dom F PO) as AH.
    unfold asked_stages. repeat apply Forall_cons; [| | | | |apply Forall_nil].
    - apply known_scan; [reflexivity| |].
      + intros f I B. apply heeded_listed; [now apply (lr (kDom e))|]. intros ->. now apply dom_rule_null in B.
      + intros f G Pf A. exact (consulted_group f Listed G (HC f Pf A) A).
    - apply known_scan; [reflexivity| |].
      + intros f I B. apply heeded_excluded; [now apply (lr (kAnti e))|]. now rewrite <- AH.
      + intros f G Pf A. exact (consulted_group f Excluded G (HC f Pf A) A).
    - apply known_scan; [reflexivity| |auto].
      intros f I _. apply heeded_plain. now apply (lr (kNo e)).
    - apply known_host.
      + intros x f X Pk. apply (first_host_pick E calls) in Pk as [P1 P2]; auto.
        apply (heeded_host E calls e url dom f (hostOf url) x); auto. now apply web_host.
      + intros f G Pf A. exact (consulted_group f Hosts G (HC f Pf A) A).
    - apply known_scan; [reflexivity| |auto].
      intros f I _. apply heeded_fingerprint. now apply (lr (kFp e)).
  Qed.

  Lemma found_known :
    Forall (known (visible E calls e url)) (found_stages E c url context dom rs e).
  Proof.
    assert (forall f, present E rs e (hostOf url) f <-> visible E calls e url f) as PV.
    { intros f. now apply (visible_present E calls c rs). }
    assert (forall grp k, group_class e grp = CList k ->
      (forall f, In f (rules_in k rs) -> present E rs e (hostOf url) f) ->
      known (visible E calls e url) (grp, scanT E c url context dom (rules_in k rs) True)) as KS.
    { intros grp k K H. apply known_scan; auto. intros f I _. apply PV. auto. }
    assert (known (visible E calls e url)
      (Hosts, firsthost E c url context dom (probed (hostOf url)) (hosts_in e rs))) as KH.
    { apply known_host.
      - intros x f X Pk. apply PV. unfold present. do 4 right. eauto.
      - intros f G Pf A. apply PV in Pf.
        assert (forall k, In f (rules_in k rs) -> False) as U.
        { intros k I. apply lr in I. pose proof (class_unique E calls _ _ f G I) as X.
          discriminate X. }
        destruct Pf as [X|[X|[X|[X|X]]]]; auto; now apply U in X. }
    unfold found_stages. apply Forall_cons; [apply KS; [reflexivity|intros f I; unfold present; auto]|].
    apply Forall_cons; [apply KS; [reflexivity|intros f I; unfold present; auto]|].
    apply Forall_cons; [apply KS; [reflexivity|intros f I; unfold present; auto]|].
    assert (known (visible E calls e url)
      (Fingerprinted, scanT E c url context dom (rules_in (kFp e) rs) True)) as KF
      by (apply KS; [reflexivity|intros f I; unfold present; auto]).
    clear KS PV. destruct e; repeat (apply Forall_cons || apply Forall_nil); auto.
  Qed.
End Report.

Lemma asked_none E calls c rs url context dom v c' :
  view E calls c rs -> nonul url -> c_host c = None ->
  matches E c (cstr url) context dom = Ok (v, c') -> v_filter v = None /\ v_exc v = None.
Proof.
  intros V Hu N M. destruct (rep_fresh E c rs (w_rep _ _ _ _ V) N) as [_ F].
  destruct (fresh_matches E c url context dom v c' Hu F M) as [-> _]. auto.
Qed.

Theorem matches_first E calls c url context dom v c' :
  history calls -> after E calls = Ok c -> nonul url ->
  matches E c (cstr url) context dom = Ok (v, c') ->
  (forall g, v_filter v = Some g ->
     first_report E calls false asked_order url context dom (heeded E calls false url dom) g) /\
  (forall g, v_exc v = Some g ->
     first_report E calls true asked_order url context dom (heeded E calls true url dom) g).
Proof.
  intros H A Hu M. destruct (hist_view E calls c H A) as (rs & V).
  destruct (c_host c) as [hs|] eqn:N.
  2:{ destruct (asked_none E calls c rs url context dom v c' V Hu N M) as [-> ->]. easy. }
  assert (c_host c <> None) as N' by congruence.
  pose proof (w_rep _ _ _ _ V) as R. unfold matches in M.
  rewrite strlen_cstr in M by auto. cbn [bind] in M.
  destruct (isBlockableProtocol_spec url Hu) as (b & E1 & E2).
  rewrite E1 in M. cbn [bind] in M. destruct b; cbn [negb] in M.
  2:{ injection M as <- <-. easy. }
  assert (web_url url) as Hw by (now apply E2).
  rewrite mkQuery_cstr in M by auto. cbn [bind] in M. cbv zeta in M.
  change (q_url (the_query url context dom)) with url in M.
  apply bind_ok in M as ([[hit mf] c1] & HB & M).
  pose proof (block_first E c url context dom rs _ hit mf c1 R Hu (covers_inputBloom E url) N' HB) as F1.
  destruct (block_phase_spec E c rs url context dom _ hit mf c1 R Hu (covers_inputBloom E url) N' HB)
    as (Q1 & _ & ->).
  assert (forall g, mf = Some g -> first_report E calls false asked_order url context dom
            (heeded E calls false url dom) g) as K1.
  { intros g ->. apply (stages_report E calls false url context dom _
      (asked_stages E c url context dom rs false) g); auto. now apply asked_known. }
  destruct mf as [g|]; cbn [negb] in M.
  2:{ injection M as <- <-. easy. }
  apply bind_ok in M as ([[block me] c2] & HX & M).
  injection M as <- <-. cbn [v_filter v_exc]. split; auto. intros g' ->.
  assert (rep E c1 rs) as R1 by (eapply rep_same; [apply Q1|auto]).
  assert (view E calls c1 rs) as V1.
  { constructor; auto; [apply (w_lines _ _ _ _ V)|]. intros t.
    rewrite <- (w_tags _ _ _ _ V). unfold tagExists. destruct Q1 as [_ ->]. tauto. }
  assert (c_host c1 <> None) as N1.
  { destruct Q1 as [(_ & _ & _ & _ & _ & Q & _) _]. congruence. }
  pose proof (exc_first E c1 url context dom rs _ _ _ c2 R1 Hu (covers_inputBloom E url) N1 HX) as F2.
  apply (stages_report E calls true url context dom _
    (asked_stages E c1 url context dom rs true) g'); auto. now apply asked_known.
Qed.

Theorem find_first E calls c url context dom v :
  history calls -> after E calls = Ok c -> nonul url ->
  findMatchingFilters E c (cstr url) context dom = Ok v ->
  (forall g, v_filter v = Some g ->
     first_report E calls false (found_order false) url context dom (visible E calls false url) g) /\
  (forall g, v_exc v = Some g ->
     first_report E calls true (found_order true) url context dom (visible E calls true url) g).
Proof.
  intros H A Hu M. destruct (hist_view E calls c H A) as (rs & V).
  pose proof (w_rep _ _ _ _ V) as R.
  destruct (find_spec E c rs url context dom v R Hu M) as (S1 & _ & S3 & _).
  destruct (c_host c) as [hs|] eqn:N.
  2:{ destruct (rep_fresh E c rs R N) as [-> _].
      assert (v_filter v = None) as X.
      { destruct (v_filter v) as [g|]; auto. exfalso.
        destruct S1 as (f & [[]|[[]|[[]|[[]|(s & _ & X)]]]] & _). discriminate X. }
      rewrite (S3 X), X. easy. }
  assert (c_host c <> None) as N' by congruence.
  destruct (found_first E c url context dom rs v R Hu N' M) as [F1 F2]. split.
  - intros g X. rewrite X in F1. apply (stages_report E calls false url context dom _
      (found_stages E c url context dom rs false) g); auto. now apply found_known.
  - intros g X. assert (v_filter v <> None) as Y by (intros Y; rewrite (S3 Y) in X; discriminate).
    specialize (F2 Y). rewrite X in F2. apply (stages_report E calls true url context dom _
      (found_stages E c url context dom rs true) g); auto. now apply found_known.
Qed.
