(** Host rules in a client; loading again; reordering. *)
From Coq Require Import Permutation.
From Verif Require Import Base Flags Protocol Url Sets FilterM ParseM ClientM Spec SpecM
  P_Base P_Protocol P_Url P_Match P_Rule P_Parse P_List P_Shape P_Fp P_Line P_Line2
  P_Line3 P_Line4 P_Line5 P_Fp2 P_Match2 P_Props1 P_Props2 P_Props3 P_Opt P_Opt2 SpecC
  P_Set P_Client P_Decide P_Hist P_Dec2 P_Dec3 P_Dec4 P_Dec5.

Definition host_syntax (body : bytes) : rule_syntax := mkRule false HostBars body false None.

Lemma host_syntax_line body : rule_line (host_syntax body) = B "||" ++ body.
Proof. unfold rule_line, pattern_line, host_syntax. cbn. now rewrite !app_nil_r. Qed.

Lemma host_body_ok h body :
  host_name h -> body = h \/ body = h ++ B "^" ->
  good_rule (host_syntax body) /\ body_host body h /\ pieces_of body [body] /\
  names_only_host (host_syntax body) /\ carets_end body.
Proof.
  intros (N & L & H) Hb.
  assert (forall c, In c h -> ~ In c separators) as Hs by (intros c I; now apply H).
  assert (In "^"%char separators) as Sc by (cbn; auto 10).
  assert (body_host body h) as BH.
  { destruct Hb as [->| ->].
    - exists []. rewrite app_nil_r. auto.
    - exists (B "^"). split; auto. split; auto. right. exists "^"%char, []. auto. }
  assert (forall c, In c body -> body_char c /\ c <> "*"%char) as Hc.
  { intros c I. destruct Hb as [->| ->].
    - destruct (H c I) as (_ & X & Y). auto.
    - apply in_app_or in I as [I|[<-|[]]]; [destruct (H c I) as (_ & X & Y); auto|].
      split; [|discriminate]. unfold body_char. repeat split; discriminate. }
  assert (pieces_of body [body]) as PO.
  { split; [discriminate|]. split; auto. intros p [<-|[]] I. now apply Hc in I as [_ I]. }
  split; [|split; [|split; [|split]]]; auto.
  - split; [|split; [|split; [|split]]].
    + cbn. destruct Hb as [->| ->]; auto. intros X. apply app_eq_nil in X as [_ X]. discriminate.
    + intros c I. now apply Hc.
    + discriminate.
    + intros o X. discriminate.
    + rewrite host_syntax_line. rewrite app_length.
      destruct Hb as [->| ->]; rewrite ?app_length; cbn [B list_ascii_of_string length String.length];
        change (length (B "||")) with 2; change (length (B "^")) with 1; lia.
  - split; auto. split; auto. exists h. auto.
  - intros pieces p P I. apply pieces_of_unique in P, PO. rewrite <- PO in P. subst pieces.
    destruct I as [<-|[]]. intros (x & y & Q1 & Q2).
    assert (~ In "^"%char h) as Nc by (intros I; now apply (Hs _ I)).
    destruct Hb as [->| ->].
    + apply Nc. rewrite Q1. apply in_or_app. right. cbn. auto.
    + destruct y as [|y0 y] using rev_ind; [easy|].
      rewrite !app_assoc in Q1. apply app_inj_tail in Q1 as [Q1 _]. apply Nc. rewrite Q1.
      apply in_or_app. left. apply in_or_app. right. cbn. auto.
Qed.

Lemma host_found url uh h body :
  host_name h -> body = h \/ body = h ++ B "^" -> url_has_host url uh -> first_party h uh ->
  pieces_found url 0 [body].
Proof.
  intros (N & L & H) Hb (scheme & slashes & rest & -> & U1 & U2 & U3 & U4 & U5) FP.
  assert (exists sub, uh = sub ++ h) as (sub & ->).
  { destruct FP as [->|(s & ->)]; [now exists []|]. exists (s ++ B "."). now rewrite <- app_assoc. }
  set (pre := scheme ++ B ":" ++ slashes ++ sub).
  assert (scheme ++ B ":" ++ slashes ++ (sub ++ h) ++ rest = pre ++ h ++ rest) as ->.
  { unfold pre. now rewrite <- !app_assoc. }
  assert (0 < length pre) as Lp.
  { unfold pre. rewrite !app_length. cbn. lia. }
  assert (0 < length h) as Lh by (destruct h; [easy|cbn; lia]).
  assert (forall j pc, nth_error h j = Some pc ->
    nth_error (pre ++ h ++ rest) (length pre + j) = Some pc) as NH.
  { intros j pc J. rewrite nth_error_app2 by lia.
    replace (length pre + j - length pre) with j by lia.
    rewrite nth_error_app1; auto. apply nth_error_Some. congruence. }
  apply (pf_cons _ 0 body (length pre)); [|constructor].
  split; [lia|]. split; [rewrite !app_length; lia|]. split; [|split].
  - split.
    + destruct Hb as [->| ->]; rewrite !app_length; cbn; lia.
    + intros j pc J. destruct Hb as [->| ->].
      * rewrite (NH j pc J). cbn. auto.
      * destruct (Nat.lt_ge_cases j (length h)) as [Lj|Lj].
        { rewrite nth_error_app1 in J by auto. rewrite (NH j pc J). cbn. auto. }
        rewrite nth_error_app2 in J by auto.
        assert (j = length h /\ pc = "^"%char) as [-> ->].
        { destruct (j - length h) as [|m] eqn:X; [|destruct m; discriminate].
          split; [lia|]. cbn in J. congruence. }
        rewrite nth_error_app2 by lia.
        replace (length pre + length h - length pre) with (length h) by lia.
        rewrite nth_error_app2, Nat.sub_diag by lia.
        destruct U5 as [->|(c & r & -> & Ic)]; cbn; auto.
  - intros X. destruct Hb as [->| ->].
    + destruct (H "^"%char) as (K & _); [rewrite X; cbn; auto|]. apply K. cbn. auto 10.
    + destruct h as [|x h]; [easy|]. destruct h; discriminate.
  - auto.
Qed.

Lemma host_line E p h body url uh context dom :
  host_name h -> body = h \/ body = h ++ B "^" -> nonul url -> url_has_host url uh ->
  first_party h uh -> has context FODocument = false ->
  exists f, parses_to p (B "||" ++ body) f /\ host_rule false f /\ f_host f = Some h /\
    f_tag f = [] /\
    (has (party_context context dom uh) FODocument = false) /\
    filter_matches E f (cstr url) (length url) (party_context context dom uh) dom None [] = Ok true.
Proof.
  intros Hh Hb Hu Huh FP D.
  destruct (host_body_ok h body Hh Hb) as (G & BH & PO & NO & CE).
  pose proof (good_rule_line _ G) as Hl.
  pose proof (parse_filter_cstr p _ Hl) as HP. rewrite parse_rule_line in HP by auto.
  set (f := shape p (host_syntax body)) in *.
  assert (has (party_context context dom uh) FODocument = false) as D2.
  { unfold party_context. destruct dom as [d|]; auto.
    destruct (has context (N.lor FOThirdParty FONotThirdParty)); auto.
    assert (forall b, N.land b FODocument = 0%N -> has (N.lor context b) FODocument = false) as K.
    { intros b X. unfold has in *. rewrite N.land_lor_distr_l, X, N.lor_0_r. exact D. }
    destruct (isThirdPartyHost d uh); apply K; reflexivity. }
  destruct (shape_fields p (host_syntax body)) as (F1 & F2 & F3 & F4).
  destruct (shape_bits (host_syntax body)) as (_ & S1 & S2 & _).
  exists f. split; [|split; [|split; [|split; [|split]]]]; auto.
  - exists true. rewrite <- host_syntax_line. exact HP.
  - split; [|split].
    + unfold f. rewrite F1, S2. now apply host_only_spec.
    + unfold f. rewrite F1, S1. reflexivity.
    + unfold f. rewrite F2. discriminate.
  - unfold f. rewrite F3. unfold shape_host, host_syntax. cbn. f_equal. now apply body_host_prefix.
  - unfold f, shape, apply_options, shape_base. cbn. now destruct p.
  - assert (host_arg url []) as HA by now left.
    assert (pairs_held E None url) as PH by (intros b q [=]).
    assert (x_anchor (host_syntax body) = LeftBar \/ x_right (host_syntax body) = true \/
            carets_end (x_body (host_syntax body))) as CE' by auto.
    pose proof (rule_eval E p (host_syntax body) f true G HP url Hu
                  (party_context context dom uh) dom None [] HA PH CE') as EV.
    rewrite EV. f_equal.
    eapply (P_Match2.host_rule E p (host_syntax body) f true url uh h
              (party_context context dom uh) dom None [] _ [body]) in EV as [_ EV]; eauto.
    apply EV. split; [|split; auto].
    + apply (unrestricted_options p (host_syntax body) f true); auto. now split.
    + eapply host_found; eauto.
Qed.

(** ** C32, C44 *)
Lemma first_host_counts E calls c url host h context dom v c' e f :
  history calls -> after E calls = Ok c -> nonul url -> web_url url ->
  matches E c (cstr url) context dom = Ok (v, c') ->
  first_host_rule calls e f -> url_has_host url host -> f_host f = Some h ->
  looked_up host h -> applies E calls f url context dom ->
  if e then v_block v = false
  else v_filter v <> None /\ (v_block v = true <-> v_exc v = None).
Proof.
  intros H A Hu Hw M F Uh Fh L AP.
  assert (heeded E calls e url dom f) as HE by (eapply heeded_host; eauto).
  destruct e.
  - eapply exception_wins; eauto.
  - eapply block_rule_counts; eauto.
Qed.

Lemma host_line_blocks E calls c a p b h body url uh context dom v c' :
  history calls -> after E calls = Ok c -> nonul url -> web_url url -> url_has_host url uh ->
  host_name h -> body = h \/ body = h ++ B "^" ->
  loaded_lines calls = a ++ (p, B "||" ++ body) :: b -> no_host_rule false h a ->
  first_party h uh -> h = uh \/ In "."%char h -> has context FODocument = false ->
  (forall f, loaded E calls ExceptionRule f -> ~ applies E calls f url context dom) ->
  matches E c (cstr url) context dom = Ok (v, c') ->
  v_block v = true.
Proof.
  intros H A Hu Hw Huh Hh Hb LL NH FP LK D NX M.
  destruct (host_line E p h body url uh context dom Hh Hb Hu Huh FP D)
    as (f & P & HR & Fh & Ft & _ & FM).
  assert (first_host_rule calls false f) as FH.
  { split; auto. exists a, p, (B "||" ++ body), b, h. auto. }
  assert (looked_up uh h) as LU.
  { destruct LK as [->|Dot]; [now left|]. right. split; auto.
    destruct FP as [->|FP]; auto. }
  assert (applies E calls f url context dom) as AP.
  { split; [|now left]. exists uh. split; auto.
    rewrite getUrlHost_cstr by auto. now rewrite (hostOf_spec _ _ Huh). }
  apply (decision E calls c url context dom v c'); auto. split.
  - exists f. split; auto. eapply heeded_host; eauto.
  - intros (g & X & Y). destruct (hist_view E calls c H A) as (rs & V).
    apply (NX g); auto.
    exact (heeded_loaded E calls c rs true url context dom g V X Y).
Qed.

(** ** C50, C51 *)
Definition effectV (E : env) (calls : list call) (e : bool) url context dom : Prop :=
  exists f, visible E calls e url f /\ applies E calls f url context dom.

Lemma find_decision E calls c url context dom v :
  history calls -> after E calls = Ok c -> nonul url ->
  findMatchingFilters E c (cstr url) context dom = Ok v ->
  v_block v = true <-> effectV E calls false url context dom /\ ~ effectV E calls true url context dom.
Proof.
  intros H A Hu F. destruct (find_reports E calls c url context dom v H A Hu F) as (R1 & R2 & ->).
  destruct (v_filter v) as [g|].
  - destruct R1 as (f & _ & X1 & X2 & _). specialize (R2 ltac:(discriminate)).
    destruct (v_exc v) as [x|].
    + destruct R2 as (f' & _ & Y1 & Y2 & _). split; [discriminate|].
      intros [_ Z]. exfalso. apply Z. exists f'. auto.
    + split; auto. intros _. split; [exists f; auto|].
      intros (f' & Y1 & Y2). now apply (R2 f').
  - split; [discriminate|]. intros [(f & X1 & X2) _]. exfalso. now apply (R1 f).
Qed.

Lemma find_decision_eq E calls1 calls2 c1 c2 url context dom v1 v2 :
  history calls1 -> after E calls1 = Ok c1 -> history calls2 -> after E calls2 = Ok c2 ->
  nonul url ->
  (forall e, effectV E calls1 e url context dom <-> effectV E calls2 e url context dom) ->
  findMatchingFilters E c1 (cstr url) context dom = Ok v1 ->
  findMatchingFilters E c2 (cstr url) context dom = Ok v2 ->
  v_block v1 = v_block v2.
Proof.
  intros H1 A1 H2 A2 Hu K F1 F2.
  pose proof (find_decision E calls1 c1 url context dom v1 H1 A1 Hu F1) as D1.
  pose proof (find_decision E calls2 c2 url context dom v2 H2 A2 Hu F2) as D2.
  rewrite !K in D1. rewrite <- D2 in D1.
  destruct (v_block v1), (v_block v2); auto; [symmetry|]; now apply D1.
Qed.

Lemma visible_ext E calls1 calls2 e url :
  (forall k f, loaded_in E calls1 k f <-> loaded_in E calls2 k f) ->
  (forall f, first_host_rule calls1 e f <-> first_host_rule calls2 e f) ->
  forall f, visible E calls1 e url f <-> visible E calls2 e url f.
Proof.
  intros LI FH f. unfold visible. split; (intros [(k & X & C)|(host & h & X1 & X2)];
    [left; exists k; split; auto; now apply LI|right; exists host, h; split; auto; now apply FH]).
Qed.

Lemma load_twice E calls mid p t c1 c2 url context dom :
  history (calls ++ Parse p t :: mid) -> ~ In Clear mid ->
  after E (calls ++ Parse p t :: mid) = Ok c1 ->
  after E (calls ++ Parse p t :: mid ++ [Parse p t]) = Ok c2 -> nonul url ->
  (forall v1 v2 c1' c2', matches E c1 (cstr url) context dom = Ok (v1, c1') ->
     matches E c2 (cstr url) context dom = Ok (v2, c2') -> v_block v1 = v_block v2) /\
  (forall v1 v2, findMatchingFilters E c1 (cstr url) context dom = Ok v1 ->
     findMatchingFilters E c2 (cstr url) context dom = Ok v2 -> v_block v1 = v_block v2).
Proof.
  intros H NC A1 A2 Hu.
  assert (history (calls ++ Parse p t :: mid ++ [Parse p t])) as H2.
  { unfold history in *. rewrite Forall_app in H |- *. destruct H as [X Y]. split; auto.
    inversion Y as [|? ? Y1 Y2]; subst. constructor; auto. apply Forall_app. split; auto. }
  split.
  - intros v1 v2 c1' c2' M1 M2.
    apply (decision_eq E E _ _ c1 c2 url context dom v1 v2 c1' c2' H A1 H2 A2 Hu); auto.
    intros _ e. now apply load_again.
  - intros v1 v2 M1 M2.
    apply (find_decision_eq E _ _ c1 c2 url context dom v1 v2 H A1 H2 A2 Hu); auto.
    intros e. destruct (again_lines E calls mid p t NC) as [LI FH].
    pose proof (visible_ext E _ _ e url LI (FH e)) as HH.
    split; intros (f & X & Y); exists f; (split; [now apply HH|now apply (again_applies E calls mid p t)]).
Qed.

Lemma order_irrelevant E calls p t1 t2 c1 c2 url context dom :
  history (calls ++ [Parse p t1]) -> history (calls ++ [Parse p t2]) ->
  Permutation (text_lines t1) (text_lines t2) -> hosts_distinct p (text_lines t1) ->
  after E (calls ++ [Parse p t1]) = Ok c1 ->
  after E (calls ++ [Parse p t2]) = Ok c2 -> nonul url ->
  (forall v1 v2 c1' c2', matches E c1 (cstr url) context dom = Ok (v1, c1') ->
     matches E c2 (cstr url) context dom = Ok (v2, c2') -> v_block v1 = v_block v2) /\
  (forall v1 v2, findMatchingFilters E c1 (cstr url) context dom = Ok v1 ->
     findMatchingFilters E c2 (cstr url) context dom = Ok v2 -> v_block v1 = v_block v2).
Proof.
  intros H H2 Pm HD A1 A2 Hu. split.
  - intros v1 v2 c1' c2' M1 M2.
    apply (decision_eq E E _ _ c1 c2 url context dom v1 v2 c1' c2' H A1 H2 A2 Hu); auto.
    intros _ e. now apply reorder.
  - intros v1 v2 M1 M2.
    apply (find_decision_eq E _ _ c1 c2 url context dom v1 v2 H A1 H2 A2 Hu); auto.
    intros e. destruct (reorder_lines E calls p t1 t2 Pm HD) as [LI FH].
    pose proof (visible_ext E _ _ e url LI (FH e)) as HH.
    split; intros (f & X & Y); exists f;
      (split; [now apply HH|now apply (reorder_applies E calls p t1 t2)]).
Qed.
