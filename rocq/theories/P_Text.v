(** C93: whole histories, with restarts, read off the texts. *)
From Verif Require Import Base Flags Protocol Url Sets FilterM ParseM ClientM SerialM Spec SpecM
  SpecC SpecS SpecL SpecQ SpecE SpecN SpecF SpecG SpecH P_Base P_Protocol P_Url P_Match P_Rule P_Parse P_List P_Shape P_Fp P_Line P_Line2
  P_Line3 P_Line4 P_Line5 P_Fp2 P_Props1 P_Props2 P_Props3 P_Opt P_Opt2 P_Rx P_Abb P_Abb2 P_Match2 P_Set P_Client P_Decide P_Hist
  P_Dec2 P_Dec5 P_Safe P_Fault P_End P_Exact P_Rx3 P_Life.
From Verif Require Import SpecC.

(** ** Loading *)
Lemma comment_fields pres b s f :
  (forall c, In c b -> blank c) -> comment_text s -> line_text s ->
  length (b ++ firstn 1 s) < 2048 -> parses_to pres (b ++ s) f -> line_text (b ++ s) ->
  f_data f = None /\ f_dom f = None /\ f_tag f = [] /\ has (f_type f) FTHostAnchored = false.
Proof.
  intros Hb Hs Ht Hl [x HP] Hbs. rewrite parse_filter_cstr in HP by auto.
  rewrite app_length, firstn_length in Hl.
  unfold pline, parse_filter in HP. rewrite app_length in HP. unfold cstr at 2 in HP.
  rewrite <- app_assoc, loop_blanks in HP by (auto; lia).
  rewrite Nat.add_0_l in HP.
  destruct Hs as [->|[(r & ->)|[(r & ->)|(r & ->)]]];
    cbn [length] in Hl, HP; cbn [app] in HP; try (rewrite loop_cons in HP by lia); cbn in HP;
    injection HP as <- _; auto.
Qed.

Lemma rule_no_fault E pres r f b :
  usual_rule r -> short_names r ->
  parse_filter pres (cstr (rule_line r)) (length (rule_line r)) = Ok (f, b) -> ~ line_fault E f b.
Proof.
  intros (G & S & parts & O & U) SN HP LF.
  pose proof (rule_shape pres r f b G HP) as Sh.
  destruct (shape_fields pres r) as (F1 & F2 & F3 & _).
  pose proof (dom_facts pres r f b parts G O U HP) as D.
  destruct LF as [h d X1 X2 X3 X4|h X1 X2 X3 X4 _ _|k w X1 X2 X3].
  - rewrite Sh, F2 in X3. injection X3 as <-. rewrite Sh, F3 in X2.
    unfold shape_host in X2. destruct (x_anchor r); try discriminate. injection X2 as <-.
    destruct (body_host_exists (x_body r)) as (rest & Q & _).
    rewrite Q, app_length in X4 at 1. lia.
  - rewrite Sh, F2 in X4. discriminate.
  - destruct X3 as (dl & d & D1 & D2 & D3).
    apply D in D1.
    specialize (SN parts dl d O D1 D2). lia.
Qed.

Lemma readable_no_fault E pres l f b :
  line_text l -> readable_line l ->
  parse_filter pres (cstr l) (length l) = Ok (f, b) -> ~ line_fault E f b.
Proof.
  intros Hl [N|[[R L]|(r & -> & U & SN)]] HP.
  - intros LF.
    assert (exists k, classify E f = Ok k) as (k & K).
    { destruct LF as [h d X1 X2 X3 X4|h X1 X2 X3 X4 _ _|k w X1 X2 X3].
      - exfalso. destruct N as [bl s Hb Hs Len|d' m s Hd Hm Len].
        + assert (line_text s) as Ts by (intros c I; apply Hl; apply in_or_app; auto).
          destruct (comment_fields pres bl s f Hb Hs Ts Len) as (Y & _); [eexists; eauto|auto|congruence].
        + assert (line_text s) as Ts by (intros c I; apply Hl; apply in_or_app; right; apply in_or_app; auto).
          destruct (cosmetic_pline pres d' m s Hd Hm Ts Len) as (x & Q).
          rewrite parse_filter_cstr, Q in HP by auto. injection HP as <-. discriminate X2.
      - exfalso. destruct N as [bl s Hb Hs Len|d' m s Hd Hm Len].
        + assert (line_text s) as Ts by (intros c I; apply Hl; apply in_or_app; auto).
          destruct (comment_fields pres bl s f Hb Hs Ts Len) as (_ & _ & _ & Y); [eexists; eauto|auto|congruence].
        + assert (line_text s) as Ts by (intros c I; apply Hl; apply in_or_app; right; apply in_or_app; auto).
          destruct (cosmetic_pline pres d' m s Hd Hm Ts Len) as (x & Q).
          rewrite parse_filter_cstr, Q in HP by auto. injection HP as <-. discriminate X4.
      - eauto. }
    destruct (no_network_class E pres l f k Hl N) as (X & Y & _); [eexists; eauto|auto|].
    destruct LF as [h d X1 X2 X3 X4|h X1 X2 X3 X4 _ _|k' w X1 X2 X3].
    + destruct N as [bl s Hb Hs Len|d' m s Hd Hm Len].
      * assert (line_text s) as Ts by (intros c I; apply Hl; apply in_or_app; auto).
        destruct (comment_fields pres bl s f Hb Hs Ts Len) as (Z & _); [eexists; eauto|auto|congruence].
      * assert (line_text s) as Ts by (intros c I; apply Hl; apply in_or_app; right; apply in_or_app; auto).
        destruct (cosmetic_pline pres d' m s Hd Hm Ts Len) as (x & Q).
        rewrite parse_filter_cstr, Q in HP by auto. injection HP as <-. discriminate X2.
    + destruct N as [bl s Hb Hs Len|d' m s Hd Hm Len].
      * assert (line_text s) as Ts by (intros c I; apply Hl; apply in_or_app; auto).
        destruct (comment_fields pres bl s f Hb Hs Ts Len) as (_ & _ & _ & Z); [eexists; eauto|auto|congruence].
      * assert (line_text s) as Ts by (intros c I; apply Hl; apply in_or_app; right; apply in_or_app; auto).
        destruct (cosmetic_pline pres d' m s Hd Hm Ts Len) as (x & Q).
        rewrite parse_filter_cstr, Q in HP by auto. injection HP as <-. discriminate X4.
    + assert (k' = k) as -> by congruence. unfold gated in X2.
      repeat (destruct X2 as [<-|X2]; [first [now apply X|now apply Y]|]). destruct X2.
  - destruct R as [L1 (a & S)].
    pose proof (regex_rule_class E pres l a f b Hl (conj L1 L) S HP) as K.
    rewrite (regex_result pres l a Hl (conj L1 L) S) in HP. injection HP as <- <-.
    intros LF. destruct LF as [h d X1 X2 X3 X4|h X1 X2 X3 X4 _ _|k' w X1 X2 X3].
    + discriminate X2.
    + discriminate X4.
    + rewrite K in X1. injection X1 as <-. unfold gated in X2.
      repeat (destruct X2 as [X2|X2]; [discriminate X2|]). destruct X2.
  - eapply rule_no_fault; eauto.
Qed.

Lemma readable_mixed calls : readable calls -> mixed_list calls.
Proof.
  intros R pres l I. apply loaded_from_in in I as [[]|(t & I1 & I2)].
  destruct (R _ t l I1 I2) as [N|[X|(r & Q & U & _)]]; eauto.
Qed.

Lemma readable_app a b : readable (a ++ b) -> readable a.
Proof. intros R pres t l I. apply (R pres t l). apply in_or_app. now left. Qed.

Lemma readable_after E calls : history calls -> readable calls -> exists c, after E calls = Ok c.
Proof.
  induction calls as [|k calls IH] using rev_ind; intros H R.
  { eexists; reflexivity. }
  apply Forall_app in H as [H Hk]. inversion Hk as [|? ? Hk' _]; subst.
  destruct (IH H (readable_app _ _ R)) as (c & A).
  rewrite after_snoc, A. cbn [bind].
  destruct k as [pres t| | | |url context dom|]; cbn [perform]; try (eexists; reflexivity).
  - destruct (parse E pres (cstr t) c) as [c'|] eqn:Q; [eauto|]. exfalso.
    apply text_fault_iff in Q as (l & f & b & I & HP & LF); [|exact Hk'].
    apply (readable_no_fault E pres l f b); auto.
    + apply (text_lines_line t); auto.
    + apply (R pres t l); auto. apply in_or_app. right. now left.
  - destruct (asks_safe E calls c url context dom) as [(v & c' & M) _]; auto.
    { intros x f Hx L. apply (mixed_safe E calls H (readable_mixed _ (readable_app _ _ R)) x f); auto. }
    rewrite M. eexists; reflexivity.
Qed.

(** ** Saving *)
Lemma kept_storable pres r f :
  usual_rule r -> parses_to pres (rule_line r) f -> (storable f <-> kept_rule r).
Proof.
  intros (G & S & parts & O & U) [b HP].
  pose proof (rule_shape pres r f b G HP) as Sh.
  destruct (shape_fields pres r) as (F1 & F2 & F3 & _).
  destruct (tag_facts pres r f b parts G O U HP) as [T1 T2].
  pose proof (dom_facts pres r f b parts G O U HP) as D.
  assert (pattern f = Some (x_body r)) as Pt by (unfold pattern; rewrite Sh, F2; reflexivity).
  split.
  - intros (S1 & S2 & S3) parts' dl O' LD.
    assert (parts' = parts) as -> by (eapply parts_unique; eauto). apply D in LD.
    split; [intros ->; now apply S2|]. intros [x ->].
    destruct T2 as [T2|T2].
    + exfalso. apply (S3 T2 x LD).
    + exists (f_tag f). split; auto. intros Q. apply (S3 Q x LD).
  - intros K. split; [|split].
    + rewrite Pt. intros Q. injection Q as Q. now apply G in Q.
    + intros Q. apply D in Q. now apply (K parts [] O) in Q.
    + intros Q x Y. apply D in Y. destruct (K parts _ O Y) as [_ Z].
      destruct Z as (t & L & N); [eexists; reflexivity|]. apply T1 in L. congruence.
Qed.

Lemma kept_line_storable pres l f :
  line_text l -> kept_line l -> parses_to pres l f -> storable f.
Proof.
  intros Hl K P. destruct K as [bl s Hb Hs Len|d m s Hd Hm Ns Len|l a L S N|r U K].
  - assert (line_text s) as Ts by (intros c I; apply Hl; apply in_or_app; auto).
    destruct (comment_fields pres bl s f Hb Hs Ts Len P Hl) as (Y1 & Y2 & _).
    unfold storable, pattern. rewrite Y1, Y2. split; [discriminate|]. split; [discriminate|].
    intros _ r. discriminate.
  - assert (line_text s) as Ts by (intros c I; apply Hl; apply in_or_app; right; apply in_or_app; auto).
    destruct (cosmetic_pline pres d m s Hd Hm Ts Len) as (x & Q). destruct P as [b HP].
    rewrite parse_filter_cstr, Q in HP by auto. injection HP as <- <-.
    unfold storable, pattern. cbn [f_data f_dom f_tag option_map fst].
    split; [congruence|]. destruct d as [|c d]; (split; [discriminate|]); intros _ r; [discriminate|].
    intros Y. injection Y as Y1 Y2.
    assert (In "#"%char (c :: d)) as I by (rewrite Y1, Y2; cbn; auto).
    destruct (Hd _ I) as [(_ & _ & Z & _) _]. now apply Z.
  - destruct P as [b HP]. rewrite (regex_result pres l a Hl L S) in HP. injection HP as <- _.
    unfold storable, pattern. cbn [f_data f_dom f_tag option_map fst].
    split; [congruence|]. split; [discriminate|]. intros _ r. discriminate.
  - now apply (kept_storable pres r f).
Qed.

Lemma calls_of_app a b : calls_of (a ++ b) = calls_of a ++ calls_of b.
Proof. induction a as [|[k|] a IH]; cbn; auto. now rewrite IH. Qed.

Lemma kept_restarts es : history (calls_of es) -> restarts_kept es -> restarts_ok es.
Proof.
  intros H R a nc nh r d b Q. destruct (R a nc nh r d b Q) as [K T]. split; auto.
  intros p l f I P. apply (kept_line_storable p l f); eauto.
  apply (loaded_line_text (calls_of a) p); auto.
  rewrite Q, calls_of_app in H. now apply Forall_app in H as [H _].
Qed.

Theorem life_text E es :
  history (calls_of es) -> readable (calls_of es) -> restarts_kept es ->
  exists c, life E es = Ok c /\
    forall url uh context page, nonul url -> url_has_host url uh ->
      (exists v c', matches E c (cstr url) context page = Ok (v, c') /\
         (v_block v = true <->
          web_url url /\
          ((exists r, rule_loaded (calls_of es) r /\ x_exception r = false /\
              listened E (calls_of es) r uh page /\
              rule_meets (calls_of es) r url uh context page) \/
           expression_meets E (calls_of es) url context) /\
          ~ (exists r, rule_loaded (calls_of es) r /\ x_exception r = true /\
              listened E (calls_of es) r uh page /\
              rule_meets (calls_of es) r url uh context page))) /\
      (exists v, findMatchingFilters E c (cstr url) context page = Ok v /\
         (v_block v = true <->
          ((exists r, rule_loaded (calls_of es) r /\ x_exception r = false /\
              noticed (calls_of es) r uh /\
              rule_meets (calls_of es) r url uh context page) \/
           expression_meets E (calls_of es) url context) /\
          ~ (exists r, rule_loaded (calls_of es) r /\ x_exception r = true /\
              noticed (calls_of es) r uh /\
              rule_meets (calls_of es) r url uh context page))).
Proof.
  intros H R K. destruct (readable_after E _ H R) as (c & A).
  destruct (life_decides E es c H (kept_restarts es H K) A) as (c' & L & M1 & M2 & _).
  exists c'. split; auto. intros url uh context page Hu Huh.
  pose proof (readable_mixed _ R) as ML. split.
  - destruct (mixed_decides E _ c url uh context page H A Hu Huh ML) as (v & c2 & M & D).
    destruct (M1 _ _ _ _ _ M) as (w & c3 & M' & V & _). exists w, c3. split; auto. now rewrite <- V.
  - destruct (mixed_finds E _ c url uh context page H A Hu Huh ML) as (v & M & D).
    destruct (M2 _ _ _ _ M) as (w & M' & V & _). exists w. split; auto. now rewrite <- V.
Qed.
