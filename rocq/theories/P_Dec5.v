(** Proofs of the client properties that follow from the decision theorem. *)
From Coq Require Import Permutation.
From Verif Require Import Base Flags Protocol Url Sets FilterM ParseM ClientM Spec SpecM
  P_Base P_Protocol P_Url P_Match P_Rule P_Parse P_List P_Shape P_Fp P_Line P_Line2
  P_Line3 P_Line4 P_Line5 P_Fp2 P_Match2 P_Props1 P_Props2 P_Props3 P_Opt P_Opt2 SpecC
  P_Set P_Client P_Decide P_Hist P_Dec2 P_Dec3 P_Dec4.

Lemma not_web url v c E context dom v' c' :
  nonul url -> ~ web_url url -> matches E c (cstr url) context dom = Ok (v', c') ->
  v = mkV false None None -> v' = v.
Proof. intros Hu Hw M ->. rewrite matches_nonweb in M by auto. congruence. Qed.

Lemma web_dec url : nonul url -> web_url url \/ ~ web_url url.
Proof.
  intros Hu. destruct (isBlockableProtocol_spec url Hu) as (b & _ & W). destruct b.
  - left. now apply W.
  - right. intros X. apply W in X. discriminate.
Qed.

(** ** C08 *)
Lemma block_needs_rule E calls c url context dom v c' :
  history calls -> after E calls = Ok c -> nonul url ->
  matches E c (cstr url) context dom = Ok (v, c') ->
  v_block v = true ->
  exists f, loaded E calls BlockRule f /\ applies E calls f url context dom.
Proof.
  intros H A Hu M B. destruct (web_dec url Hu) as [Hw|Hw].
  - apply (decision E calls c url context dom v c') in B; auto.
    destruct B as [(f & X & Y) _]. exists f. split; auto.
    destruct (hist_view E calls c H A) as (rs & V).
    now apply (heeded_loaded E calls c rs false url context dom f V).
  - rewrite matches_nonweb in M by auto. injection M as <- <-. discriminate.
Qed.

Lemma find_block_needs_rule E calls c url context dom v :
  history calls -> after E calls = Ok c -> nonul url ->
  findMatchingFilters E c (cstr url) context dom = Ok v ->
  v_block v = true ->
  exists f, loaded E calls BlockRule f /\ applies E calls f url context dom.
Proof.
  intros H A Hu M B. destruct (find_reports E calls c url context dom v H A Hu M) as (R1 & _ & R3).
  destruct (v_filter v) as [g|]; [|congruence]. destruct R1 as (f & X1 & X2 & _). eauto.
Qed.

Lemma exception_wins E calls c url context dom v c' f :
  history calls -> after E calls = Ok c -> nonul url ->
  matches E c (cstr url) context dom = Ok (v, c') ->
  heeded E calls true url dom f -> applies E calls f url context dom ->
  v_block v = false.
Proof.
  intros H A Hu M X Y. apply not_true_iff_false. intros B.
  destruct (web_dec url Hu) as [Hw|Hw].
  - apply (decision E calls c url context dom v c') in B; auto. destruct B as [_ B].
    apply B. eauto.
  - rewrite matches_nonweb in M by auto. injection M as <- <-. discriminate.
Qed.

Lemma find_exception_wins E calls c url context dom v f :
  history calls -> after E calls = Ok c -> nonul url ->
  findMatchingFilters E c (cstr url) context dom = Ok v ->
  visible E calls true url f -> applies E calls f url context dom ->
  v_block v = false.
Proof.
  intros H A Hu M X Y.
  destruct (find_reports E calls c url context dom v H A Hu M) as (_ & R2 & R3).
  destruct (v_filter v) as [g|]; [|auto]. destruct (v_exc v) as [x|]; [auto|].
  exfalso. apply (R2 ltac:(discriminate) f); auto.
Qed.

(** A heeded block rule that applies is reported, and blocks unless an exception is. *)
Lemma block_rule_counts E calls c url context dom v c' f :
  history calls -> after E calls = Ok c -> nonul url -> web_url url ->
  matches E c (cstr url) context dom = Ok (v, c') ->
  heeded E calls false url dom f -> applies E calls f url context dom ->
  v_filter v <> None /\ (v_block v = true <-> v_exc v = None).
Proof.
  intros H A Hu Hw M X Y.
  destruct (matches_reports E calls c url context dom v c' H A Hu Hw M) as (R1 & _ & R3).
  destruct (v_filter v) as [g|].
  - split; [discriminate|]. rewrite R3. destruct (v_exc v); split; congruence.
  - exfalso. now apply (R1 f).
Qed.

(** ** C02 *)
Lemma no_rule_no_block E calls c url context dom :
  history calls -> after E calls = Ok c -> nonul url ->
  (forall f, ~ loaded E calls BlockRule f) ->
  (forall v c', matches E c (cstr url) context dom = Ok (v, c') ->
     v_block v = false /\ v_filter v = None) /\
  (forall v, findMatchingFilters E c (cstr url) context dom = Ok v ->
     v_block v = false /\ v_filter v = None).
Proof.
  intros H A Hu N. split.
  - intros v c' M. destruct (web_dec url Hu) as [Hw|Hw].
    + destruct (matches_reports E calls c url context dom v c' H A Hu Hw M) as (R1 & _ & R3).
      destruct (v_filter v) as [g|]; [|auto]. destruct R1 as (f & X & _). now apply N in X.
    + rewrite matches_nonweb in M by auto. injection M as <- <-. auto.
  - intros v M. destruct (find_reports E calls c url context dom v H A Hu M) as (R1 & _ & R3).
    destruct (v_filter v) as [g|]; [|auto]. destruct R1 as (f & X & _). now apply N in X.
Qed.

Lemma no_network_class E p l f k :
  line_text l -> no_network_line l -> parses_to p l f -> classify E f = Ok k ->
  category_of k <> BlockRule /\ category_of k <> ExceptionRule /\
  (forall e, ~ host_rule e f).
Proof.
  intros Hl N [b HP] K. destruct N as [bl s Hb Hs Len|d m s Hd Hm Len].
  - assert (line_text s) as Ts by (intros c I; apply Hl; apply in_or_app; auto).
    destruct (comment_pline p bl s Hb Hs Ts Len) as (f' & E1 & E2 & E3).
    rewrite parse_filter_cstr, E1 in HP by auto. assert (f = f') as -> by congruence.
    unfold classify, hasUnsupportedOptions in K. rewrite E2 in K.
    assert (forall e, ~ host_rule e f') as NH.
    { intros e (X & _). destruct E3 as [E3|E3]; rewrite E3 in X; discriminate. }
    destruct E3 as [E3|E3]; rewrite E3 in K; cbn in K; injection K as <-;
      (split; [discriminate|split; [discriminate|auto]]).
  - assert (line_text s) as Ts by (intros c I; apply Hl; apply in_or_app; right; apply in_or_app; auto).
    destruct (cosmetic_rule E p d m s Hd Ts Len Hm) as (f' & E1 & E2 & E3 & _).
    assert (f = f') as -> by congruence. rewrite E2 in K.
    assert (k = CList (if beq m (B "$$") then KHtml else KCosmetic)) as -> by congruence.
    split; [|split].
    + destruct (beq m (B "$$")); discriminate.
    + destruct (beq m (B "$$")); discriminate.
    + intros e (X & _). rewrite E3 in X.
      destruct (beq m (B "##")), (beq m (B "#@")); discriminate X.
Qed.

Lemma loaded_line_text calls p l : history calls -> In (p, l) (loaded_lines calls) -> line_text l.
Proof.
  intros H. unfold loaded_lines.
  assert (forall L, (forall x, In x L -> line_text (snd x)) ->
    In (p, l) (loaded_from L calls) -> line_text l) as G; [|apply G; easy].
  induction calls as [|k calls IH]; intros L HL I.
  - exact (HL (p, l) I).
  - inversion H as [|? ? Hk Hc]; subst. destruct k; cbn [loaded_from] in I;
      try (now apply (IH Hc L)).
    + apply (IH Hc _ ) in I; auto. intros x J. apply in_app_or in J as [J|J]; auto.
      apply in_map_iff in J as (y & <- & J). cbn [snd].
      eapply text_lines_line; eauto.
    + apply (IH Hc _ ) in I; auto. easy.
Qed.

Lemma no_network_lines E calls :
  history calls -> (forall p l, In (p, l) (loaded_lines calls) -> no_network_line l) ->
  forall f, ~ loaded E calls BlockRule f /\ ~ loaded E calls ExceptionRule f.
Proof.
  intros H N f. split; intros (k & (p & l & I & P & K) & C);
    destruct (no_network_class E p l f k) as (X & Y & _); eauto using loaded_line_text.
Qed.

Lemma fresh_client E calls c :
  history calls -> after E calls = Ok c -> loaded_lines calls = [] -> fresh c.
Proof.
  revert c. induction calls as [|k calls IH] using rev_ind; intros c Hc H L.
  - injection H as <-. unfold fresh. auto 20.
  - apply Forall_app in Hc as [Hc Hk].
    rewrite after_snoc in H. apply bind_ok in H as (c0 & H0 & H).
    unfold loaded_lines in L. rewrite loaded_from_snoc in L.
    assert (match k with Clear => True | _ => loaded_lines calls = [] end) as L0.
    { destruct k; auto. now apply app_eq_nil in L as [L _]. }
    destruct k as [p t| |t|t|url context dom|]; cbn [perform] in H.
    + apply app_eq_nil in L as [_ L]. apply map_eq_nil in L. now apply text_lines_nonempty in L.
    + injection H as <-. unfold fresh, clear. cbn. auto 20.
    + injection H as <-. unfold addTag. destruct (tagExists c0 t); [auto|].
      exact (IH c0 Hc H0 L0).
    + injection H as <-. exact (IH c0 Hc H0 L0).
    + inversion Hk as [|? ? Hu _]; subst. cbn in Hu.
      apply rmap_ok in H as ([v c'] & H & ->). cbn [snd].
      apply matches_quiet in H as [Q _]. specialize (IH c0 Hc H0 L0).
      unfold fresh, same_rules in *. intuition congruence.
    + injection H as <-. unfold enableBadFp. destruct (c_badfp c0); [auto|].
      exact (IH c0 Hc H0 L0).
Qed.

Lemma fresh_total E c url context dom :
  nonul url -> fresh c ->
  (exists c', matches E c (cstr url) context dom = Ok (mkV false None None, c')) /\
  findMatchingFilters E c (cstr url) context dom = Ok (mkV false None None).
Proof.
  intros Hu (F1 & F2 & F3 & F4 & F5 & F6 & F7 & F8 & F9 & _).
  destruct c as [c1 c2 c3 c4 c5 c6 c7 c8 c9 c10 c11 c12 c13 c14].
  cbn in F1, F4, F5, F6, F7, F8, F9. rewrite F1, F4, F5, F6, F7, F8, F9. split.
  - unfold matches. rewrite strlen_cstr by auto. cbn [bind].
    destruct (isBlockableProtocol_spec url Hu) as (b & E1 & _). rewrite E1. cbn [bind].
    destruct b; cbn [negb]; [|eauto].
    rewrite mkQuery_cstr by auto. cbn [bind].
    unfold block_phase, exc_phase, scan, lookup, hostLookup. cbn. eauto.
  - unfold findMatchingFilters. rewrite strlen_cstr by auto. cbn [bind].
    rewrite mkQuery_cstr by auto. reflexivity.
Qed.

Lemma empty_client E calls c url context dom :
  history calls -> after E calls = Ok c -> loaded_lines calls = [] -> nonul url ->
  (exists c', matches E c (cstr url) context dom = Ok (mkV false None None, c')) /\
  findMatchingFilters E c (cstr url) context dom = Ok (mkV false None None).
Proof. intros. apply fresh_total; auto. eapply fresh_client; eauto. Qed.

(** ** C03 *)
Lemma after_hashes_irrelevant E h h2 calls c1 c2 url context dom v1 v2 c1' c2' :
  history calls -> after E calls = Ok c1 ->
  after (with_bloom_hashes E h h2) calls = Ok c2 -> nonul url ->
  matches E c1 (cstr url) context dom = Ok (v1, c1') ->
  matches (with_bloom_hashes E h h2) c2 (cstr url) context dom = Ok (v2, c2') ->
  v_block v1 = v_block v2.
Proof.
  intros H A1 A2 Hu M1 M2.
  eapply (decision_eq E (with_bloom_hashes E h h2) calls calls); eauto.
  intros _ e. apply effect_hashes.
Qed.

(** ** C30 *)
Lemma same_lines_effect E calls1 calls2 url context dom :
  loaded_lines calls1 = loaded_lines calls2 ->
  (forall t f, loaded E calls1 t f -> tag_on calls1 f <-> tag_on calls2 f) ->
  forall e c1 c2, history calls1 -> after E calls1 = Ok c1 -> history calls2 ->
    after E calls2 = Ok c2 ->
    effect E calls1 e url context dom <-> effect E calls2 e url context dom.
Proof.
  intros L T e c1 c2 H1 A1 H2 A2.
  destruct (hist_view E _ _ H1 A1) as (rs1 & V1).
  destruct (hist_view E _ _ H2 A2) as (rs2 & V2).
  assert (forall t f, loaded E calls1 t f <-> loaded E calls2 t f) as LD.
  { intros. unfold loaded, loaded_in. now rewrite L. }
  assert (forall f, heeded E calls1 e url dom f <-> heeded E calls2 e url dom f) as HH.
  { apply heeded_ext.
    - intros. unfold loaded_in. now rewrite L.
    - intros. unfold first_host_rule. now rewrite L. }
  split; intros (f & X & Y); exists f.
  - assert (loaded E calls1 (blocker e) f) as D by (eapply heeded_loaded; eauto).
    split; [now apply HH|]. destruct Y as [Y1 Y2]. split; auto. now apply (T _ _ D).
  - assert (loaded E calls2 (blocker e) f) as D by (eapply heeded_loaded; eauto).
    split; [now apply HH|]. destruct Y as [Y1 Y2]. split; auto. apply LD in D. now apply (T _ _ D).
Qed.

Lemma tags_decide E calls1 calls2 c1 c2 url context dom v1 v2 c1' c2' :
  history calls1 -> after E calls1 = Ok c1 -> history calls2 -> after E calls2 = Ok c2 ->
  nonul url -> loaded_lines calls1 = loaded_lines calls2 ->
  (forall t f, loaded E calls1 t f -> tag_on calls1 f <-> tag_on calls2 f) ->
  matches E c1 (cstr url) context dom = Ok (v1, c1') ->
  matches E c2 (cstr url) context dom = Ok (v2, c2') ->
  v_block v1 = v_block v2.
Proof.
  intros H1 A1 H2 A2 Hu L T M1 M2.
  eapply (decision_eq E E calls1 calls2); eauto. intros _ e.
  eapply same_lines_effect; eauto.
Qed.

Lemma tag_state E calls c t :
  history calls -> after E calls = Ok c -> (tagExists c t = true <-> tag_enabled calls t).
Proof. intros H A. destruct (hist_view E _ _ H A) as (rs & V). apply (w_tags _ _ _ _ V). Qed.

(** ** C45, C30: a line that cannot act *)
Lemma quiet_line E pre rest p a b l s s' g k c1 c2 url context dom v1 v2 c1' c2' :
  history (pre ++ Parse p (a ++ s :: l ++ s' :: b) :: rest) ->
  history (pre ++ Parse p (a ++ s :: b) :: rest) ->
  (s = CR \/ s = LF) -> (s' = CR \/ s' = LF) -> line_text l -> nonul url ->
  parses_to p l g -> classify E g = Ok k ->
  (forall e, k <> only_excluded e) -> (forall e, ~ host_rule e g) ->
  (forall e, category_of k = blocker e ->
     ~ applies E (pre ++ Parse p (a ++ s :: l ++ s' :: b) :: rest) g url context dom) ->
  after E (pre ++ Parse p (a ++ s :: b) :: rest) = Ok c1 ->
  after E (pre ++ Parse p (a ++ s :: l ++ s' :: b) :: rest) = Ok c2 ->
  matches E c1 (cstr url) context dom = Ok (v1, c1') ->
  matches E c2 (cstr url) context dom = Ok (v2, c2') ->
  v_block v1 = v_block v2.
Proof.
  intros H2 H1 Hs Hs' Hl Hu P K N1 N2 NA A1 A2 M1 M2.
  eapply (decision_eq E E _ _ c1 c2); [exact H1|exact A1|exact H2|exact A2|exact Hu| |exact M1|exact M2].
  intros _ e. eapply insert_line; eauto.
Qed.

Lemma history_insert pre rest p a b l (s s' : ascii) :
  history (pre ++ Parse p (a ++ s :: l ++ s' :: b) :: rest) ->
  history (pre ++ Parse p (a ++ s :: b) :: rest).
Proof.
  intros H. apply Forall_app in H as [H1 H2]. inversion H2 as [|? ? H3 H4]; subst.
  apply Forall_app. split; auto. constructor; auto. cbn in *. unfold nonul in *.
  intros I. apply H3. apply in_app_or in I as [I|[I|I]].
  - apply in_or_app; auto.
  - apply in_or_app. right. now left.
  - apply in_or_app. right. right. apply in_or_app. right. now right.
Qed.

Lemma no_network_insert E pre rest p a b l s s' c1 c2 url context dom v1 v2 c1' c2' :
  history (pre ++ Parse p (a ++ s :: l ++ s' :: b) :: rest) ->
  (s = CR \/ s = LF) -> (s' = CR \/ s' = LF) -> line_text l -> no_network_line l ->
  nonul url ->
  after E (pre ++ Parse p (a ++ s :: b) :: rest) = Ok c1 ->
  after E (pre ++ Parse p (a ++ s :: l ++ s' :: b) :: rest) = Ok c2 ->
  matches E c1 (cstr url) context dom = Ok (v1, c1') ->
  matches E c2 (cstr url) context dom = Ok (v2, c2') ->
  v_block v1 = v_block v2.
Proof.
  intros H2 Hs Hs' Hl N Hu A1 A2 M1 M2.
  assert (exists g k, parses_to p l g /\ classify E g = Ok k) as (g & k & P & K).
  { destruct N as [bl t Hb Ht Len|d m t Hd Hm Len].
    - assert (line_text t) as Ts by (intros c I; apply Hl; apply in_or_app; auto).
      destruct (comment_pline p bl t Hb Ht Ts Len) as (f' & E1 & E2 & E3).
      exists f', CSkip. split.
      + exists false. rewrite parse_filter_cstr, E1 by auto. reflexivity.
      + unfold classify, hasUnsupportedOptions. rewrite E2. destruct E3 as [-> | ->]; reflexivity.
    - assert (line_text t) as Ts by (intros c I; apply Hl; apply in_or_app; right; apply in_or_app; auto).
      destruct (cosmetic_rule E p d m t Hd Ts Len Hm) as (f' & E1 & E2 & _).
      exists f', (CList (if beq m (B "$$") then KHtml else KCosmetic)).
      split; [now exists true|exact E2]. }
  destruct (no_network_class E p l g k Hl N P K) as (X1 & X2 & X3).
  eapply (quiet_line E pre rest p a b l s s' g k c1 c2); eauto using history_insert.
  - intros e ->. destruct e; [now apply X2|now apply X1].
  - intros e C _. destruct e; [now apply X2|now apply X1].
Qed.

Lemma disabled_insert E pre rest p a b l s s' g k c1 c2 url context dom v1 v2 c1' c2' :
  history (pre ++ Parse p (a ++ s :: l ++ s' :: b) :: rest) ->
  (s = CR \/ s = LF) -> (s' = CR \/ s' = LF) -> line_text l -> nonul url ->
  parses_to p l g -> classify E g = Ok k ->
  (forall e, k <> only_excluded e) -> (forall e, ~ host_rule e g) ->
  f_tag g <> [] -> ~ tag_enabled (pre ++ rest) (f_tag g) ->
  after E (pre ++ Parse p (a ++ s :: b) :: rest) = Ok c1 ->
  after E (pre ++ Parse p (a ++ s :: l ++ s' :: b) :: rest) = Ok c2 ->
  matches E c1 (cstr url) context dom = Ok (v1, c1') ->
  matches E c2 (cstr url) context dom = Ok (v2, c2') ->
  v_block v1 = v_block v2.
Proof.
  intros H2 Hs Hs' Hl Hu P K N1 N2 T1 T2 A1 A2 M1 M2.
  eapply (quiet_line E pre rest p a b l s s' g k c1 c2); eauto using history_insert.
  intros e _ [_ X]. destruct X as [X|X]; [easy|]. rewrite tag_enabled_parse in X. exact (T2 X).
Qed.

(** ** C34 *)
Lemma agree E calls c url context d v c' w :
  history calls -> after E calls = Ok c -> nonul url -> web_url url ->
  (forall e, ~ page_excluded E calls e (Some d)) ->
  matches E c (cstr url) context (Some d) = Ok (v, c') ->
  findMatchingFilters E c (cstr url) context (Some d) = Ok w ->
  v_block v = v_block w.
Proof.
  intros H A Hu Hw N M F. destruct (hist_view E calls c H A) as (rs & V).
  destruct (find_reports E calls c url context (Some d) w H A Hu F) as (R1 & R2 & R3).
  pose proof (decision E calls c url context (Some d) v c' H A Hu Hw M) as D.
  assert (forall e f, heeded E calls e url (Some d) f <-> visible E calls e url f) as HV.
  { intros e f. split.
    - intros [g X|g X|g X Y|g X Y|g host h X1 X2 X3 X4].
      1-4: left; eexists; split; [exact X|now destruct e].
      right. exists host, h. split; auto. split; auto.
      rewrite getUrlHost_cstr by auto. now rewrite (hostOf_spec _ _ X2).
    - intros [(k & X & C)|(host & h & X1 & X2 & X3 & X4)].
      + destruct e, k; cbn in C; try discriminate.
        all: first [now apply heeded_fingerprint|now apply heeded_plain
          |apply heeded_listed; [exact X|discriminate]
          |apply heeded_excluded; [exact X|apply N]].
      + apply (heeded_host E calls e url (Some d) f host h); auto.
        apply web_host; auto. rewrite getUrlHost_cstr in X2 by auto. congruence. }
  assert (v_block w = true <->
    (exists f, heeded E calls false url (Some d) f /\ applies E calls f url context (Some d)) /\
    ~ (exists f, heeded E calls true url (Some d) f /\ applies E calls f url context (Some d))) as D2.
  { rewrite R3. destruct (v_filter w) as [g|].
    - destruct R1 as (f & _ & X1 & X2 & _). specialize (R2 ltac:(discriminate)).
      destruct (v_exc w) as [x|].
      + destruct R2 as (f' & _ & Y1 & Y2 & _). split; [discriminate|].
        intros [_ Z]. exfalso. apply Z. exists f'. split; auto. now apply HV.
      + split; auto. intros _. split; [exists f; split; auto; now apply HV|].
        intros (f' & Y1 & Y2). apply (R2 f'); auto. now apply HV.
    - split; [discriminate|]. intros [(f & X1 & X2) _]. exfalso. apply (R1 f); auto. now apply HV. }
  destruct (v_block v), (v_block w); auto.
  - symmetry. now apply D2, D.
  - now apply D, D2.
Qed.
