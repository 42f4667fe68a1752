(** C79 for lists with regular expressions. *)
From Verif Require Import Base Flags Protocol Url Sets FilterM ParseM ClientM Spec SpecM
  SpecC SpecQ SpecE SpecN SpecG SpecH P_Base P_Protocol P_Url P_Match P_Rule P_Parse P_List P_Shape P_Fp P_Line P_Line2
  P_Line3 P_Line4 P_Line5 P_Fp2 P_Props1 P_Props2 P_Props3 P_Opt P_Opt2 P_Rx P_Abb P_Abb2 P_Match2 P_Set P_Client P_Decide P_Hist
  P_Dec2 P_Dec5 P_Safe P_End P_Exact.
From Verif Require Import SpecC.

Lemma party_document context dom host :
  has (party_context context dom host) FODocument = has context FODocument.
Proof.
  assert (forall b, N.land b FODocument = 0%N -> has (N.lor context b) FODocument = has context FODocument) as K.
  { intros b X. unfold has. now rewrite N.land_lor_distr_l, X, N.lor_0_r. }
  unfold party_context. destruct dom as [d|]; auto.
  destruct (has context (N.lor FOThirdParty FONotThirdParty)); auto.
  destruct (isThirdPartyHost d host); apply K; reflexivity.
Qed.

Section Mixed.
  Context (E : env) (calls : list call) (c : client) (url uh : bytes) (context : N)
    (page : option bytes)
    (H : history calls) (A : after E calls = Ok c)
    (Hu : nonul url) (Huh : url_has_host url uh) (UL : mixed_list calls).

  Lemma regex_line_facts pres l f : In (pres, l) (loaded_lines calls) ->
    regex_line l -> length l < 2048 -> parses_to pres l f ->
    classify E f = Ok (CList KNoFp) /\ f_tag f = [] /\
    has (f_type f) FTRegex = true /\ has (f_type f) FTHostOnly = false.
  Proof.
    intros I [L1 (a & S)] L2 [b HP]. pose proof (loaded_line_text calls pres l H I) as T.
    split; [now apply (regex_rule_class E pres l a f b)|].
    rewrite (regex_result pres l a T (conj L1 L2) S) in HP. injection HP as <- _.
    cbn [f_tag f_type]. auto.
  Qed.

  Lemma regex_meets pres l f :
    In (pres, l) (loaded_lines calls) -> regex_line l -> length l < 2048 -> parses_to pres l f ->
    applies E calls f url context page -> expression_meets E calls url context.
  Proof.
    intros I R L2 P [(host & _ & M) _]. pose proof R as [L1 (a & S)].
    pose proof (loaded_line_text calls pres l H I) as T. destruct P as [b HP].
    rewrite (regex_rule_matches E pres l a f b), party_document in M by auto.
    destruct (has context FODocument) eqn:Q; [discriminate|]. cbn [negb andb] in M.
    split; [now rewrite <- has_false|]. exists (regex_pattern l a). split; [|congruence].
    exists pres, l, a. auto.
  Qed.

  Lemma meets_regex : expression_meets E calls url context ->
    exists f, loaded_in E calls (CList KNoFp) f /\ applies E calls f url context page.
  Proof.
    intros [ND (p & (pres & l & a & I & L & S & ->) & X)].
    pose proof (loaded_line_text calls pres l H I) as T.
    pose proof (regex_result pres l a T L S) as HP.
    eexists. split.
    - exists pres, l. split; [exact I|]. split; [eexists; exact HP|].
      apply (regex_rule_class E pres l a _ false T L S HP).
    - split; [|left; reflexivity].
      exists (hostOf url). split; [now apply getUrlHost_cstr|].
      rewrite (regex_rule_matches E pres l a _ _ _ _ _ _ _ _ T L S Hu HP), party_document.
      apply has_false in ND. now rewrite ND, X.
  Qed.

  Lemma loaded_mixed pres l f k e :
    In (pres, l) (loaded_lines calls) -> parses_to pres l f -> classify E f = Ok k ->
    category_of k = blocker e ->
    (exists r, l = rule_line r /\ rule_loaded calls r /\ x_exception r = e) \/
    (regex_line l /\ length l < 2048 /\ e = false /\ k = CList KNoFp).
  Proof.
    intros I P K C. destruct (UL pres l I) as [N|[[R L]|(r & -> & U)]].
    - exfalso. destruct (no_network_class E pres l f k) as (X & Y & _); auto.
      + now apply (loaded_line_text calls pres).
      + destruct e; [now apply Y|now apply X].
    - right. destruct (regex_line_facts pres l f I R L P) as (K' & _).
      assert (k = CList KNoFp) as -> by congruence. destruct e; [discriminate|auto].
    - left. exists r. split; auto. split; [split; eauto|]. destruct P as [b HP].
      destruct (rule_category E pres r f b (proj1 U) HP) as (k' & K' & C').
      assert (k' = k) as -> by congruence. rewrite C' in C.
      destruct (hasUnsupportedOptions f), (x_exception r), e; try discriminate; auto.
  Qed.

  Lemma mixed_safe x f :
    x = BlockRule \/ x = ExceptionRule -> loaded E calls x f -> safe_pattern f.
  Proof.
    intros Hx (k & (pres & l & I & P & K) & C).
    assert (exists e, x = blocker e) as (e & ->).
    { destruct Hx as [-> | ->]; [now exists false|now exists true]. }
    destruct (loaded_mixed pres l f k e I P K C) as [(r & -> & R & _)|(R & L & _)].
    - destruct R as [(G & S & _) _]. eapply syntax_safe; eauto.
    - destruct (regex_line_facts pres l f I R L P) as (_ & _ & X & Y).
      intros d t _. split; auto. rewrite Y. discriminate.
  Qed.

  Lemma host_line pres l f e :
    In (pres, l) (loaded_lines calls) -> parses_to pres l f -> host_rule e f ->
    exists r, l = rule_line r /\ usual_rule r.
  Proof.
    intros I P HR. destruct (UL pres l I) as [N|[[R L]|(r & -> & U)]]; [| |eauto]; exfalso.
    2:{ destruct (regex_line_facts pres l f I R L P) as (_ & _ & _ & X).
        destruct HR as [HR _]. congruence. }
    destruct (hist_view E calls c H A) as (rs & V).
    pose proof (loaded_line_text calls pres l H I) as T1.
    destruct (F2_in_l _ _ _ _ (w_lines _ _ _ _ V) I) as ([[g' bb] k1] & J1 & LR).
    assert (f = g') as <- by (now apply (line_rule_parses E (pres, l) (g', bb, k1))).
    apply line_rule_ok in LR as [_ K1].
    destruct (no_network_class E pres l f k1 T1 N P K1) as (_ & _ & Z). now apply (Z e).
  Qed.

  Lemma first_text r :
    usual_rule r -> names_only_host r -> first_for_host calls r ->
    exists pres f, In (pres, rule_line r) (loaded_lines calls) /\
      parses_to pres (rule_line r) f /\
      first_host_rule calls (x_exception r) f /\ f_host f = Some (host_prefix (x_body r)).
  Proof.
    intros U NH (a & pres & b & L & N). destruct U as (G & S & O).
    destruct (line_shape pres r G) as (bb & HP).
    exists pres, (shape pres r).
    assert (In (pres, rule_line r) (loaded_lines calls)) as I.
    { rewrite L. apply in_or_app. cbn; auto. }
    assert (parses_to pres (rule_line r) (shape pres r)) as P by (eexists; eauto).
    destruct (rule_host_fields pres r _ (x_exception r) (host_prefix (x_body r)) G P) as [_ HF].
    destruct HF as [HR Hh]; [split; auto; split; auto; apply body_host_exists|].
    split; auto. split; auto. split; auto. split; auto.
    exists a, pres, (rule_line r), b, (host_prefix (x_body r)).
    split; auto. split; auto. split; auto.
    intros p1 l1 f1 I1 P1 HR1 Hh1.
    assert (In (p1, l1) (loaded_lines calls)) as I1'.
    { rewrite L. apply in_or_app. auto. }
    destruct (host_line p1 l1 f1 _ I1' P1 HR1) as (r1 & -> & U1).
    destruct (rule_host_fields p1 r1 f1 (x_exception r) (host_prefix (x_body r)) (proj1 U1) P1)
      as [HF1 _].
    destruct HF1 as (N1 & X1 & B1); auto.
    apply (N p1 r1 (host_prefix (x_body r))); auto. apply body_host_exists.
  Qed.

  Lemma text_first e f h :
    first_host_rule calls e f -> f_host f = Some h ->
    exists pres r, In (pres, rule_line r) (loaded_lines calls) /\
      parses_to pres (rule_line r) f /\ usual_rule r /\
      names_only_host r /\ x_exception r = e /\ body_host (x_body r) h /\
      first_for_host calls r.
  Proof.
    intros [HR (a & pres & l & b & h' & L & P & Hh & N)] Hh'.
    assert (h' = h) as -> by congruence.
    assert (In (pres, l) (loaded_lines calls)) as I.
    { rewrite L. apply in_or_app. cbn; auto. }
    destruct (host_line pres l f e I P HR) as (r & -> & U).
    destruct (rule_host_fields pres r f e h (proj1 U) P) as [HF _].
    destruct HF as (N1 & X1 & B1); auto.
    exists pres, r. split; auto. split; auto. split; auto. split; auto. split; auto. split; auto.
    exists a, pres, b. split; auto.
    intros p1 r1 h1 I1 U1 N2 X2 B2 B3.
    apply body_host_prefix in B1, B2. assert (h1 = h) as -> by congruence.
    destruct (line_shape p1 r1 (proj1 U1)) as (bb & HP).
    assert (parses_to p1 (rule_line r1) (shape p1 r1)) as P1 by (eexists; eauto).
    destruct (rule_host_fields p1 r1 _ e h (proj1 U1) P1) as [_ HF].
    destruct HF as [HR1 Hh1]; [split; auto; split; auto; congruence|].
    now apply (N p1 _ _ I1 P1 HR1).
  Qed.

  Lemma barred_iff e : page_barred E calls e page <-> page_excluded E calls e page.
  Proof.
    split.
    - intros (r & dl & s & [Us (pres & I)] & X & SU & SR & NL & XD & PG).
      pose proof Us as (G & S & parts & O & U).
      destruct (line_shape pres r G) as (b & HP).
      assert (parses_to pres (rule_line r) (shape pres r)) as P by (eexists; eauto).
      destruct (supported_class E pres r _ Us P) as (k & K & NK). apply NK in SU.
      destruct (class_text E pres r _ k Us P K SU) as [[N _]|(_ & j & -> & C & _ & _ & L3)].
      { now destruct SR as (SR & _). }
      exists (shape pres r), dl, s. split; [|split; [|split; auto]].
      + exists pres, (rule_line r). split; auto. split; auto. rewrite K.
        assert (j = KNoFpAnti \/ j = KNoFpAntiExc) as J by (apply L3; eauto).
        rewrite X in C. f_equal. destruct J as [-> | ->], e; try discriminate; reflexivity.
      + destruct SR as (_ & _ & p & O' & LD).
        assert (p = parts) as -> by (eapply parts_unique; eauto).
        now apply (dom_facts pres r _ b parts G O U HP).
    - intros (g & dl & s & (pres & l & I & P & K) & Q & XD & PG).
      assert (category_of (only_excluded e) = blocker e) as CB by now destruct e.
      destruct (loaded_mixed pres l g _ e I P K CB) as [(r & -> & R & X)|(_ & _ & -> & Q')];
        [|discriminate Q'].
      pose proof R as [Us _]. pose proof Us as (G & S & parts & O & U).
      exists r, dl, s. split; auto. split; auto.
      assert (only_excluded e <> CSkip) as NK by now destruct e.
      split.
      { destruct (supported_class E pres r g Us P) as (k & K' & NK'). apply NK'. congruence. }
      destruct (class_text E pres r g _ Us P K NK) as [[_ N]|(_ & j & J & C & _ & _ & L3)].
      { destruct e; discriminate. }
      destruct (proj1 L3) as (dl' & S1 & S2).
      { destruct e; injection J as <-; auto. }
      assert (dl' = dl) as ->.
      { pose proof P as [b HP]. destruct S1 as (_ & _ & p & O' & LD).
        assert (p = parts) as -> by (eapply parts_unique; eauto).
        apply (dom_facts pres r g b parts G O U HP) in LD. congruence. }
      auto.
  Qed.

  Lemma noticed_host r :
    rule_loaded calls r -> rule_meets calls r url uh context page -> noticed calls r uh ->
    names_only_host r ->
    exists f, first_host_rule calls (x_exception r) f /\
      f_host f = Some (host_prefix (x_body r)) /\ looked_up uh (host_prefix (x_body r)) /\
      applies E calls f url context page.
  Proof.
    intros [Us _] M NT NH. destruct (NT NH) as [FF LU].
    destruct (first_text r Us NH FF) as (p & f & I & P & FH & Hh).
    exists f. split; auto. split; auto. split; [apply LU, body_host_exists|].
    now apply (usual_meets E calls url uh context page Hu Huh p r f).
  Qed.

  Lemma host_noticed e f h :
    first_host_rule calls e f -> f_host f = Some h -> looked_up uh h ->
    applies E calls f url context page ->
    exists r, rule_loaded calls r /\ x_exception r = e /\ names_only_host r /\
      noticed calls r uh /\ rule_meets calls r url uh context page.
  Proof.
    intros FH Hh LU Ap.
    destruct (text_first e f h FH Hh) as (p & r & I & P & Us & NH & X & BH & FF).
    exists r. split; [split; eauto|]. split; auto. split; auto.
    split; [|now apply (usual_meets E calls url uh context page Hu Huh p r f)].
    intros _. split; auto. intros h' BH'. apply body_host_prefix in BH, BH'. congruence.
  Qed.

  Lemma visible_text e :
    (exists f, visible E calls e url f /\ applies E calls f url context page) <->
    (exists r, rule_loaded calls r /\ x_exception r = e /\ noticed calls r uh /\
      rule_meets calls r url uh context page) \/
    (e = false /\ expression_meets E calls url context).
  Proof.
    split.
    - intros (f & [(k & (pres & l & I & P & K) & C)|(host & h & X1 & X2 & X3 & X4)] & Ap).
      + destruct (loaded_mixed pres l f _ e I P K C) as [(r & -> & R & X)|(R & L & Q & _)];
          [left|right; split; auto; now apply (regex_meets pres l f)].
        exists r. split; auto. split; auto. destruct R as [Us _].
        split; [|now apply (usual_meets E calls url uh context page Hu Huh pres r f)].
        intros NH. now apply (list_noticed E pres r f k) in NH.
      + apply (uh_host url uh Hu Huh) in X2 as ->.
        destruct (host_noticed e f h X1 X3 X4 Ap) as (r & R1 & R2 & _ & R3 & R4). left. eauto 6.
    - intros [(r & R & X & NT & M)|[-> X]].
      2:{ destruct (meets_regex X) as (f & L & Ap). exists f. split; auto. left.
          exists KNoFp. auto. }
      pose proof R as [Us (pres & I)].
      destruct (line_shape pres r (proj1 Us)) as (b & HP).
      assert (parses_to pres (rule_line r) (shape pres r)) as P by (eexists; eauto).
      assert (applies E calls (shape pres r) url context page) as Ap
        by (now apply (usual_meets E calls url uh context page Hu Huh pres r)).
      destruct (applies_class E calls url context page pres r _ Us P Ap) as (k & K & NK).
      destruct (class_text E pres r _ k Us P K NK) as [[NH _]|(_ & j & -> & C & _)].
      + destruct (noticed_host r R M NT NH) as (f & F1 & F2 & F3 & F4). exists f. split; auto.
        right. exists uh, (host_prefix (x_body r)). rewrite X in F1. split; auto. split; auto.
        rewrite getUrlHost_cstr by auto. now rewrite (hostOf_spec _ _ Huh).
      + exists (shape pres r). split; auto. left. exists j. split; [|congruence].
        exists pres, (rule_line r). auto.
  Qed.

  Lemma heeded_text e :
    (exists f, heeded E calls e url page f /\ applies E calls f url context page) <->
    (exists r, rule_loaded calls r /\ x_exception r = e /\ listened E calls r uh page /\
      rule_meets calls r url uh context page) \/
    (e = false /\ expression_meets E calls url context).
  Proof.
    assert (forall j f, loaded_in E calls (CList j) f -> category_of (CList j) = blocker e ->
      applies E calls f url context page ->
      (j = KNoFpDom \/ j = KNoFpDomExc -> page <> None) ->
      (j = KNoFpAnti \/ j = KNoFpAntiExc -> ~ page_excluded E calls e page) ->
      (exists r, rule_loaded calls r /\ x_exception r = e /\ listened E calls r uh page /\
        rule_meets calls r url uh context page) \/
      (e = false /\ expression_meets E calls url context)) as Ls.
    { intros j f (pres & l & I & P & K) C Ap L1 L2.
      destruct (loaded_mixed pres l f _ e I P K C) as [(r & -> & R & X)|(R & L & Q & _)];
        [left|right; split; auto; now apply (regex_meets pres l f)].
      exists r. split; auto. split; auto. destruct R as [Us _].
      split; [|now apply (usual_meets E calls url uh context page Hu Huh pres r f)].
      destruct (class_text E pres r f _ Us P K) as [[_ N]|(N & j' & J & _ & C1 & C2 & C3)];
        [discriminate|discriminate|]. injection J as <-.
      split; [now intros NH|]. intros dl SR. split.
      - intros NX. apply L1, C2. eauto.
      - intros NX. rewrite X, barred_iff. apply L2, C3. eauto. }
    split.
    - intros (f & [g X|g X|g X Y|g X Y|g host h X1 X2 X3 X4] & Ap).
      + eapply Ls; eauto; destruct e; cbn; auto; intros [|]; discriminate.
      + eapply Ls; eauto; destruct e; cbn; auto; intros [|]; discriminate.
      + eapply Ls; eauto; destruct e; cbn; auto; intros [|]; discriminate.
      + eapply Ls; eauto; destruct e; cbn; auto; intros [|]; discriminate.
      + assert (host = uh) as ->.
        { apply (uh_host url uh Hu Huh). rewrite getUrlHost_cstr by auto. now rewrite (hostOf_spec _ _ X2). }
        destruct (host_noticed e g h X1 X3 X4 Ap) as (r & R1 & R2 & NH & R3 & R4).
        left. exists r. split; auto. split; auto. split; auto. split; auto.
        intros dl (N & _). easy.
    - intros [(r & R & X & [NT LS] & M)|[-> X]].
      2:{ destruct (meets_regex X) as (f & L & Ap). exists f. split; auto.
          now apply heeded_plain. }
      pose proof R as [Us (pres & I)].
      destruct (line_shape pres r (proj1 Us)) as (b & HP).
      assert (parses_to pres (rule_line r) (shape pres r)) as P by (eexists; eauto).
      assert (applies E calls (shape pres r) url context page) as Ap
        by (now apply (usual_meets E calls url uh context page Hu Huh pres r)).
      destruct (applies_class E calls url context page pres r _ Us P Ap) as (k & K & NK).
      destruct (class_text E pres r _ k Us P K NK) as [[NH _]|(_ & j & -> & C & C1 & C2 & C3)].
      + destruct (noticed_host r R M NT NH) as (f & F1 & F2 & F3 & F4). exists f. split; auto.
        rewrite X in F1. now apply (heeded_host E calls e url page f uh (host_prefix (x_body r))).
      + exists (shape pres r). split; auto. rewrite X in *.
        assert (loaded_in E calls (CList j) (shape pres r)) as LI by (exists pres, (rule_line r); auto).
        assert (j = KNoFpDom \/ j = KNoFpDomExc -> page <> None) as L1.
        { intros J. apply C2 in J as (dl & S1 & S2). now apply (LS dl S1). }
        assert (j = KNoFpAnti \/ j = KNoFpAntiExc -> ~ page_excluded E calls e page) as L2.
        { intros J. apply C3 in J as (dl & S1 & S2). rewrite <- barred_iff. now apply (LS dl S1). }
        clear C1 C2 C3 LS.
        destruct e; destruct j; try discriminate;
        first [ apply heeded_fingerprint; exact LI | apply heeded_plain; exact LI
              | apply heeded_listed; [exact LI|auto]
              | apply heeded_excluded; [exact LI|auto] ].
  Qed.

  Theorem mixed_decides :
    exists v c', matches E c (cstr url) context page = Ok (v, c') /\
    (v_block v = true <->
     web_url url /\
     ((exists r, rule_loaded calls r /\ x_exception r = false /\ listened E calls r uh page /\
        rule_meets calls r url uh context page) \/ expression_meets E calls url context) /\
     ~ (exists r, rule_loaded calls r /\ x_exception r = true /\ listened E calls r uh page /\
        rule_meets calls r url uh context page)).
  Proof.
    destruct (asks_safe E calls c url context page H A Hu) as [(v & c' & M) _].
    { intros x f Hx L. now apply (mixed_safe x f). }
    exists v, c'. split; auto. destruct (web_dec url Hu) as [Hw|Hw].
    - rewrite (decision E calls c url context page v c') by auto.
      rewrite !heeded_text. intuition discriminate.
    - rewrite matches_nonweb in M by auto. injection M as <- _. cbn [v_block].
      split; [discriminate|tauto].
  Qed.

  Theorem mixed_finds :
    exists v, findMatchingFilters E c (cstr url) context page = Ok v /\
    (v_block v = true <->
     ((exists r, rule_loaded calls r /\ x_exception r = false /\ noticed calls r uh /\
        rule_meets calls r url uh context page) \/ expression_meets E calls url context) /\
     ~ (exists r, rule_loaded calls r /\ x_exception r = true /\ noticed calls r uh /\
        rule_meets calls r url uh context page)).
  Proof.
    destruct (asks_safe E calls c url context page H A Hu) as [_ (v & M)].
    { intros x f Hx L. now apply (mixed_safe x f). }
    exists v. split; auto. rewrite (find_decision E calls c url context page v) by auto.
    rewrite !visible_text. intuition discriminate.
  Qed.
End Mixed.
