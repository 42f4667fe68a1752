(** Exact conditions for C21, C30, C31, C57, C58, C70. *)
From Coq Require Import Permutation.
From Verif Require Import Base Flags Protocol Url Sets FilterM ParseM ClientM SerialM JsM DataM CosmeticM
  Spec SpecM SpecC SpecS SpecL SpecX SpecT SpecK SpecQ SpecE SpecN SpecI
  P_Base P_Protocol P_Url P_Match P_Rule P_Parse P_List P_Shape P_Fp P_Line P_Line2
  P_Fp2 P_Props1 P_Props2 P_Props3 P_Opt P_Opt2 P_Set P_Client P_Decide P_Hist P_Dec2
  P_Dec3 P_Dec4 P_Dec5 P_Exact P_Data P_Cos SpecC.

(** ** Inserting a line *)
Section insert.
  Context (E : env) (calls1 calls2 : list call) (c2 : client) (a b : list (bool * bytes))
    (x : bool * bytes) (g : filter).
  Context (Hist : history calls2).
  Context (Aft : after E calls2 = Ok c2).
  Context (L1 : loaded_lines calls1 = a ++ b).
  Context (L2 : loaded_lines calls2 = a ++ x :: b).
  Context (P : parsed x g).

  Lemma lists_grow k f : loaded_in E calls1 k f -> loaded_in E calls2 k f.
  Proof. now apply (loaded_in_insert E calls1 calls2 a x b). Qed.

  Lemma new_loaded k : classify E g = Ok k -> loaded_in E calls2 k g.
  Proof.
    intros K. destruct x as [p l]. exists p, l. rewrite L2. split; [|split; auto].
    apply in_or_app. right. now left.
  Qed.

  Lemma loaded_class k f : loaded_in E calls2 k f -> classify E f = Ok k.
  Proof. intros (p & l & _ & _ & K). exact K. Qed.

  (** A loaded host rule is kept in the index by host or not at all. *)
  Lemma loaded_host k e f : loaded_in E calls2 k f -> host_rule e f -> k = CHost e \/ k = CSkip.
  Proof.
    intros (p & l & I & Pf & K) HR. destruct (hist_view E _ c2 Hist Aft) as (rs & V).
    exact (host_class E calls2 c2 rs (p, l) e f k V I Pf K HR).
  Qed.

  Lemma first_kept e f :
    first_host_rule calls1 e f ->
    first_host_rule calls2 e f \/
    (host_rule e g /\ exists h, f_host g = Some h /\ f_host f = Some h /\ no_host_rule e h a).
  Proof.
    intros [HR (a1 & p & l & b1 & h & L & Pf & Hh & N)].
    rewrite L1 in L. apply app_eq_app in L as (m & [[E1 E2]|[E1 E2]]).
    - destruct m as [|y m].
      + cbn in E2. rewrite app_nil_r in E1. subst a1.
        assert ((host_rule e g /\ f_host g = Some h) \/ ~ (host_rule e g /\ f_host g = Some h)) as D.
        { unfold host_rule. destruct (Bool.bool_dec (has (f_type g) FTHostOnly) true);
            [|right; tauto].
          destruct (Bool.bool_dec (has (f_type g) FTException) e); [|right; tauto].
          destruct (f_data g); [|right; tauto].
          destruct (f_host g) as [h'|]; [|right; intros [_ X]; discriminate].
          destruct (list_eq_dec ascii_dec h' h) as [->|Q]; [left|right].
          - repeat split; auto. discriminate.
          - intros [_ X]. congruence. }
        destruct D as [[D1 D2]|D]; [right; eauto 6|left]. split; auto. rewrite L2.
        exists (a ++ [x]), p, l, b1, h. rewrite <- app_assoc. cbn. rewrite <- E2.
        split; auto. split; auto. split; auto.
        intros p' l' g' I P' HR'. apply in_app_or in I as [I|[I|[]]]; eauto.
        assert (g' = g) as -> by (apply (parsed_unique x); [rewrite I; exact P'|exact P]). tauto.
      + injection E2 as <- E2. left. split; auto. rewrite L2.
        exists a1, p, l, (m ++ x :: b), h. rewrite E1, <- app_assoc. auto 6.
    - assert ((host_rule e g /\ f_host g = Some h) \/ ~ (host_rule e g /\ f_host g = Some h)) as D.
      { unfold host_rule. destruct (Bool.bool_dec (has (f_type g) FTHostOnly) true);
          [|right; tauto].
        destruct (Bool.bool_dec (has (f_type g) FTException) e); [|right; tauto].
        destruct (f_data g); [|right; tauto].
        destruct (f_host g) as [h'|]; [|right; intros [_ X]; discriminate].
        destruct (list_eq_dec ascii_dec h' h) as [->|Q]; [left|right].
        - repeat split; auto. discriminate.
        - intros [_ X]. congruence. }
      destruct D as [[D1 D2]|D].
      + right. split; auto. exists h. split; auto. split; auto.
        intros p' l' g' I. apply (N p' l' g'). rewrite E1. apply in_or_app; auto.
      + left. split; auto. rewrite L2.
        exists (a ++ x :: m), p, l, b1, h. rewrite E2, <- app_assoc. cbn. split; auto.
        split; auto. split; auto. intros p' l' g' I P' HR'.
        apply in_app_or in I as [I|[I|I]].
        * apply (N p' l' g'); auto. rewrite E1. apply in_or_app; auto.
        * assert (g' = g) as -> by (apply (parsed_unique x); [rewrite I; exact P'|exact P]). tauto.
        * apply (N p' l' g'); auto. rewrite E1. apply in_or_app; auto.
  Qed.

  (** What is heeded before and not shadowed is heeded afterwards. *)
  Lemma heeded_kept e url dom f :
    heeded E calls1 e url dom f -> ~ shadows E a e g dom f -> heeded E calls2 e url dom f.
  Proof.
    intros X NS. destruct X as [f X|f X|f X N|f X N|f host k X1 X2 X3 X4].
    - apply heeded_fingerprint. now apply lists_grow.
    - apply heeded_plain. now apply lists_grow.
    - apply heeded_listed; auto. now apply lists_grow.
    - apply heeded_excluded; [now apply lists_grow|].
      intros (g' & dl & s & Y1 & Y2). pose proof (loaded_class _ _ Y1) as K.
      apply (loaded_in_insert E calls1 calls2 a x b) in Y1 as [Y1|Y1]; auto.
      + apply N. exists g', dl, s. auto.
      + assert (g' = g) as -> by (eapply parsed_unique; eauto).
        apply NS. left. split; auto. split; [exact (loaded_class _ _ (lists_grow _ _ X))|].
        exists dl, s. auto.
    - apply (heeded_host E calls2 e url dom f host k); auto.
      destruct (first_kept e f X1) as [Z|(Z1 & h & Z2 & Z3 & Z4)]; auto.
      exfalso. apply NS. right. split; auto. split; [apply X1|]. eauto.
  Qed.

  (** What is shadowed is not heeded afterwards, unless it is the new rule. *)
  Lemma shadowed_gone e url context dom f :
    shadows E a e g dom f -> heeded E calls2 e url dom f ->
    applies E calls2 f url context dom -> f = g.
  Proof.
    intros S X A. destruct S as [(S1 & S2 & S3)|(S1 & S2 & h & S3 & S4 & S5)].
    - assert (page_excluded E calls2 e dom) as PX.
      { destruct S3 as (dl & s & Q). exists g, dl, s. split; [now apply new_loaded|auto]. }
      exfalso. destruct X as [f X|f X|f X N|f X N|f host k X1 X2 X3 X4].
      1-3: apply loaded_class in X; rewrite X in S2; destruct e; discriminate.
      + exact (N PX).
      + destruct X1 as [HR (a1 & p & l & b1 & h & L & Pf & _)].
        assert (loaded_in E calls2 (only_excluded e) f) as LI.
        { exists p, l. split; [|split; auto]. rewrite L. apply in_or_app. right. now left. }
        destruct (loaded_host _ _ _ LI HR) as [Q|Q]; destruct e; discriminate.
    - destruct X as [f X|f X|f X N|f X N|f host k X1 X2 X3 X4].
      1-4: destruct (loaded_host _ _ _ X S2) as [Q|Q]; destruct e; discriminate.
      destruct X1 as [HR (a1 & p & l & b1 & h' & L & Pf & Hh & N)].
      assert (h' = h) as -> by congruence.
      rewrite L2 in L. apply app_eq_app in L as (m & [[E1 E2]|[E1 E2]]).
      + destruct m as [|y m].
        * cbn in E2. injection E2 as E2 _. apply (parsed_unique x); [rewrite <- E2; exact Pf|exact P].
        * injection E2 as E2 _. subst y. exfalso.
          apply (S5 p l f); auto. rewrite E1. apply in_or_app. right. now left.
      + destruct m as [|y m].
        * cbn in E2. injection E2 as E2 _. apply (parsed_unique x); [rewrite E2; exact Pf|exact P].
        * injection E2 as E2 _. subst y. exfalso. destruct x as [p' l'].
          apply (N p' l' g); auto. rewrite E1. apply in_or_app. right. now left.
  Qed.

  (** The rules of one kind that apply after the insertion of a rule that does
      not. *)
  Lemma effect_insert e url context dom :
    (forall f, applies E calls1 f url context dom <-> applies E calls2 f url context dom) ->
    ~ applies E calls2 g url context dom ->
    effect E calls2 e url context dom <->
    exists f, heeded E calls1 e url dom f /\ ~ shadows E a e g dom f /\
      applies E calls1 f url context dom.
  Proof.
    intros AP NA. split.
    - intros (f & X & Y). exists f.
      assert (f <> g) as NG by (intros ->; auto).
      split; [|split; [|now apply AP]].
      + apply (heeded_remove E calls1 calls2 a x b) in X as [X|X]; auto.
        exfalso. apply NG. eapply parsed_unique; eauto.
      + intros S. apply NG. eapply shadowed_gone; eauto.
    - intros (f & X & N & Y). exists f. split; [now apply heeded_kept|now apply AP].
  Qed.
End insert.

Lemma nonweb_false E c url context dom v c' :
  nonul url -> ~ web_url url -> matches E c (cstr url) context dom = Ok (v, c') -> v_block v = false.
Proof. intros Hu W M. rewrite matches_nonweb in M by auto. now injection M as <- <-. Qed.

Lemma web_url_dec url : nonul url -> web_url url \/ ~ web_url url.
Proof.
  intros Hu. destruct (isBlockableProtocol_spec url Hu) as (b & _ & W). destruct b.
  - left. now apply W.
  - right. intros X. apply W in X. discriminate.
Qed.

(** ** C30 *)
Lemma disabled_exactly E calls1 calls2 a b p l g c2 url context dom v2 c2' :
  history calls2 -> after E calls2 = Ok c2 -> nonul url ->
  loaded_lines calls1 = a ++ b -> loaded_lines calls2 = a ++ (p, l) :: b ->
  (forall t, tag_enabled calls1 t <-> tag_enabled calls2 t) ->
  parses_to p l g -> f_tag g <> [] -> ~ tag_enabled calls2 (f_tag g) ->
  matches E c2 (cstr url) context dom = Ok (v2, c2') ->
  let speaks e := exists f, heeded E calls1 e url dom f /\ ~ shadows E a e g dom f /\
    applies E calls1 f url context dom in
  (v_block v2 = true <-> web_url url /\ speaks false /\ ~ speaks true).
Proof.
  intros H A Hu L1 L2 T P N1 N2 M. cbv zeta.
  destruct (web_url_dec url Hu) as [W|W].
  - rewrite (decision E calls2 c2 url context dom v2 c2' H A Hu W M).
    assert (forall f, applies E calls1 f url context dom <-> applies E calls2 f url context dom) as AP.
    { intros f. unfold applies, tag_on. now rewrite T. }
    assert (~ applies E calls2 g url context dom) as NA by (intros [_ [X|X]]; auto).
    pose proof (fun e => effect_insert E calls1 calls2 c2 a b (p, l) g H A L1 L2 P e url context dom AP NA) as K.
    unfold effect in K. rewrite !K. tauto.
  - rewrite (nonweb_false E c2 url context dom v2 c2' Hu W M). split; [discriminate|tauto].
Qed.

(** ** C31 *)
Lemma added_lines calls p l : line_text l ->
  loaded_lines (calls ++ [Parse p l]) = loaded_lines calls ++ [(p, l)].
Proof. intros Hl. unfold loaded_lines. rewrite loaded_from_snoc, text_lines_single; auto. Qed.

Lemma added_history calls p l : history calls -> line_text l -> history (calls ++ [Parse p l]).
Proof.
  intros H Hl. apply Forall_app. split; auto. constructor; [|constructor]. cbn. now apply line_text_nonul.
Qed.

Lemma added_applies E calls p l f url context dom :
  applies E calls f url context dom <-> applies E (calls ++ [Parse p l]) f url context dom.
Proof. unfold applies, tag_on. now rewrite tag_enabled_parse, app_nil_r. Qed.

(** The rules of the kind of the new rule speak before and not afterwards. *)
Lemma lost E calls p l g k e url context dom c1 c2 :
  history calls -> line_text l -> parses_to p l g -> classify E g = Ok k ->
  category_of k = blocker e ->
  after E calls = Ok c1 -> after E (calls ++ [Parse p l]) = Ok c2 ->
  effect E calls e url context dom ->
  (~ effect E (calls ++ [Parse p l]) e url context dom <->
   k = only_excluded e /\ excludes_this_page E g dom /\
   forall f, heeded E calls e url dom f -> applies E calls f url context dom ->
     classify E f = Ok (only_excluded e)).
Proof.
  intros H Hl P K C A1 A2 EF. set (calls2 := calls ++ [Parse p l]) in *.
  assert (history calls2) as H2 by now apply added_history.
  assert (loaded_lines calls = loaded_lines calls ++ []) as L1 by now rewrite app_nil_r.
  assert (loaded_lines calls2 = loaded_lines calls ++ [(p, l)]) as L2 by now apply added_lines.
  pose proof (fun f => added_applies E calls p l f url context dom) as AP. fold calls2 in AP.
  assert (parsed (p, l) g) as P' by exact P.
  pose proof (heeded_kept E calls calls2 (loaded_lines calls) [] (p, l) g L1 L2 P') as KEEP.
  assert (k = only_excluded e \/ k <> only_excluded e) as [Kx|Kx].
  { unfold only_excluded. destruct k as [|q|k]; try (right; discriminate).
    destruct e, k; first [now left|right; discriminate]. }
  2:{ split; [|tauto]. intros N. exfalso. apply N.
      now apply (add_rule E calls p l g k e url context dom c1 c2). }
  subst k.
  pose proof (new_loaded E calls2 (loaded_lines calls) [] (p, l) g L2 P' _ K) as LG.
  pose proof (lists_grow E calls calls2 (loaded_lines calls) [] (p, l) L1 L2) as GROW.
  split.
  - intros N. split; auto.
    assert (page_excluded E calls2 e dom /\ ~ page_excluded E calls e dom) as [PX NX].
    { destruct EF as (f & X & Y).
      destruct (page_excluded_dec E calls2 c2 e dom H2 A2) as [Q|Q];
      destruct (page_excluded_dec E calls c1 e dom H A1) as [R|R]; auto.
      - exfalso. apply N. exists f. split; [|now apply AP].
        destruct X as [f X|f X|f X Z|f X Z|f host h X1 X2 X3 X4].
        + apply heeded_fingerprint; auto.
        + apply heeded_plain; auto.
        + apply heeded_listed; auto.
        + easy.
        + apply (heeded_host E calls2 e url dom f host h); auto.
          apply (first_host_insert calls calls2 (loaded_lines calls) (p, l) []); auto.
      - exfalso. destruct R as (g' & dl & s & R1 & R2). apply Q. exists g', dl, s. auto.
      - exfalso. apply N. exists f. split; [|now apply AP]. apply KEEP; auto.
        intros [(_ & _ & dl & s & Z)|(Z & _)].
        + apply Q. exists g, dl, s. auto.
        + destruct (loaded_host E calls2 c2 H2 A2 _ _ _ LG Z) as [V|V]; destruct e; discriminate. }
    split.
    + destruct PX as (g' & dl & s & R1 & R2).
      destruct (proj2 (loaded_in_insert E calls calls2 (loaded_lines calls) (p, l) [] _ g' L1 L2) R1) as [R|R].
      * exfalso. apply NX. exists g', dl, s. auto.
      * assert (g' = g) as -> by (eapply parsed_unique; eauto). exists dl, s. auto.
    + intros f X Y. destruct X as [f X|f X|f X Z|f X Z|f host h X1 X2 X3 X4].
      4: exact (loaded_class E calls2 _ _ (GROW _ _ X)).
      all: exfalso; apply N; exists f; (split; [|now apply AP]).
      * apply heeded_fingerprint; auto.
      * apply heeded_plain; auto.
      * apply heeded_listed; auto.
      * apply (heeded_host E calls2 e url dom f host h); auto.
        apply (first_host_insert calls calls2 (loaded_lines calls) (p, l) []); auto.
  - intros (_ & PX & ALL) (f & X & Y).
    assert (shadows E (loaded_lines calls) e g dom g) as SG by (left; auto).
    assert (f <> g) as NG.
    { intros ->. destruct X as [f X|f X|f X Z|f X Z|f host h X1 X2 X3 X4].
      1-3: apply (loaded_class E calls2) in X; rewrite X in K; destruct e; discriminate.
      - apply Z. destruct PX as (dl & s & Q). exists f, dl, s. auto.
      - destruct (loaded_host E calls2 c2 H2 A2 _ _ _ LG (proj1 X1)) as [V|V]; destruct e; discriminate. }
    pose proof X as X'. apply (heeded_remove E calls calls2 (loaded_lines calls) (p, l) []) in X' as [X'|X']; auto.
    2:{ apply NG. eapply parsed_unique; eauto. }
    apply NG. apply (shadowed_gone E calls2 c2 (loaded_lines calls) [] (p, l) g H2 A2 L2 P' e url context dom f); auto.
    left. split; auto. split; auto. apply (ALL f X'). now apply AP.
Qed.

Lemma add_block_exactly E calls p l g k url context dom c1 c2 v1 v2 c1' c2' :
  history calls -> line_text l -> parses_to p l g -> classify E g = Ok k ->
  category_of k = BlockRule ->
  after E calls = Ok c1 -> after E (calls ++ [Parse p l]) = Ok c2 -> nonul url ->
  matches E c1 (cstr url) context dom = Ok (v1, c1') ->
  matches E c2 (cstr url) context dom = Ok (v2, c2') ->
  v_block v1 = true ->
  (v_block v2 = false <->
   k = only_excluded false /\ excludes_this_page E g dom /\
   forall f, heeded E calls false url dom f -> applies E calls f url context dom ->
     classify E f = Ok (only_excluded false)).
Proof.
  intros H Hl P K C A1 A2 Hu M1 M2 B1.
  assert (web_url url) as Hw.
  { destruct (web_url_dec url Hu) as [W|W]; auto.
    rewrite (nonweb_false E c1 url context dom v1 c1' Hu W M1) in B1. discriminate. }
  pose proof (added_history calls p l H Hl) as H2.
  pose proof (decision E _ c2 url context dom v2 c2' H2 A2 Hu Hw M2) as D2.
  apply (decision E calls c1 url context dom v1 c1') in B1 as [B1 B2]; auto.
  rewrite <- (lost E calls p l g k false url context dom c1 c2 H Hl P K C A1 A2 B1).
  rewrite <- not_true_iff_false, D2. fold (effect E (calls ++ [Parse p l]) false url context dom).
  assert (~ effect E (calls ++ [Parse p l]) true url context dom) as B3.
  { intros (f & X & Y).
    destruct (hist_view E _ c2 H2 A2) as (rs2 & V2).
    pose proof (heeded_loaded E _ c2 rs2 true url context dom f V2 X Y) as LD.
    apply (heeded_remove E calls _ (loaded_lines calls) (p, l) []) in X as [X|X];
      [|idtac|now rewrite app_nil_r|now apply added_lines].
    - apply B2. exists f. split; auto. now apply added_applies in Y.
    - assert (f = g) as -> by (eapply parsed_unique; eauto).
      assert (BlockRule = ExceptionRule) as Q; [|discriminate].
      rewrite <- C. symmetry. eapply loaded_category; eauto. }
  unfold effect in *. tauto.
Qed.

Lemma excepted E calls c url context dom v c' :
  history calls -> after E calls = Ok c -> nonul url -> web_url url ->
  matches E c (cstr url) context dom = Ok (v, c') -> v_block v = false ->
  effect E calls false url context dom -> effect E calls true url context dom.
Proof.
  intros H A Hu Hw M F (f & X & Y).
  destruct (matches_reports E calls c url context dom v c' H A Hu Hw M) as (R1 & R2 & R3).
  rewrite R3 in F. destruct (v_filter v) as [g|]; [|now apply R1 in X].
  specialize (R2 ltac:(discriminate)). destruct (v_exc v) as [h|]; [|discriminate].
  destruct R2 as (f' & _ & Z1 & Z2 & _). exists f'. auto.
Qed.

Lemma add_exception_exactly E calls p l g k url context dom c1 c2 v1 v2 c1' c2' :
  history calls -> line_text l -> parses_to p l g -> classify E g = Ok k ->
  category_of k = ExceptionRule ->
  after E calls = Ok c1 -> after E (calls ++ [Parse p l]) = Ok c2 -> nonul url -> web_url url ->
  matches E c1 (cstr url) context dom = Ok (v1, c1') ->
  matches E c2 (cstr url) context dom = Ok (v2, c2') ->
  v_block v1 = false ->
  (v_block v2 = true <->
   (exists f, heeded E calls false url dom f /\ applies E calls f url context dom) /\
   k = only_excluded true /\ excludes_this_page E g dom /\
   forall f, heeded E calls true url dom f -> applies E calls f url context dom ->
     classify E f = Ok (only_excluded true)).
Proof.
  intros H Hl P K C A1 A2 Hu Hw M1 M2 B1.
  pose proof (added_history calls p l H Hl) as H2.
  pose proof (decision E _ c2 url context dom v2 c2' H2 A2 Hu Hw M2) as D2.
  pose proof (decision E _ c1 url context dom v1 c1' H A1 Hu Hw M1) as D1.
  assert (effect E calls false url context dom <-> effect E (calls ++ [Parse p l]) false url context dom) as B3.
  { split.
    - intros (f & X & Y). exists f. split; [|now apply added_applies].
      apply (heeded_kept E calls (calls ++ [Parse p l]) (loaded_lines calls) [] (p, l) g); auto.
      + now rewrite app_nil_r.
      + now apply added_lines.
      + intros [(Q & _)|(Q & _)].
        * assert (k = only_excluded false) as -> by congruence. discriminate.
        * assert (loaded_in E (calls ++ [Parse p l]) k g) as LG.
          { apply (new_loaded E _ (loaded_lines calls) [] (p, l) g); auto. now apply added_lines. }
          destruct (loaded_host E _ c2 H2 A2 _ _ _ LG Q) as [-> | ->]; discriminate.
    - intros (f & X & Y).
      destruct (hist_view E _ c2 H2 A2) as (rs2 & V2).
      pose proof (heeded_loaded E _ c2 rs2 false url context dom f V2 X Y) as LD.
      apply (heeded_remove E calls _ (loaded_lines calls) (p, l) []) in X as [X|X];
        [|idtac|now rewrite app_nil_r|now apply added_lines].
      + exists f. split; auto. now apply added_applies in Y.
      + assert (f = g) as -> by (eapply parsed_unique; eauto).
        assert (ExceptionRule = BlockRule) as Q; [|discriminate].
        rewrite <- C. symmetry. eapply loaded_category; eauto. }
  pose proof (excepted E calls c1 url context dom v1 c1' H A1 Hu Hw M1 B1) as EX. rewrite D2.
  fold (effect E (calls ++ [Parse p l]) false url context dom).
  fold (effect E (calls ++ [Parse p l]) true url context dom).
  fold (effect E calls false url context dom) in *. fold (effect E calls true url context dom) in *.
  rewrite <- B3. split.
  - intros [Q1 Q2]. split; auto.
    apply (lost E calls p l g k true url context dom c1 c2 H Hl P K C A1 A2); auto.
  - intros [Q1 Q2]. split; auto. intros Q3. revert Q3.
    apply (lost E calls p l g k true url context dom c1 c2 H Hl P K C A1 A2); auto.
Qed.

(** ** C21 *)
Lemma loop_stop pres input ilen n q s :
  0 < n -> 2047 <= s_pos s -> pf_loop pres input ilen n q s = Ok (PReturn (s_f s)).
Proof.
  intros H L. destruct n as [|n]; [lia|]. cbn [pf_loop].
  assert (kMaxLineLength - 1 <=? s_pos s = true) as ->; auto. apply Nat.leb_le.
  change (kMaxLineLength - 1) with 2047. exact L.
Qed.

Lemma long_comment_pline pres b s :
  (forall c, In c b -> blank c) -> 2048 <= length (b ++ firstn 1 s) ->
  pline pres (b ++ s) = (filter0, false).
Proof.
  intros Hb L. rewrite app_length, firstn_length in L.
  set (n := N.to_nat 2047). assert (n = 2047) as En by reflexivity.
  destruct (split_at n b) as (b1 & b2 & -> & L1); [lia|].
  assert (0 < length (b2 ++ s)) as L2.
  { rewrite app_length in *. destruct s; cbn [length] in *; lia. }
  unfold pline, parse_filter. unfold cstr at 2. rewrite <- !app_assoc.
  rewrite (app_length b1), loop_blanks.
  - rewrite Nat.add_0_l, loop_stop; [reflexivity|exact L2|cbn [s_pos]; lia].
  - intros c I. apply Hb. apply in_or_app; auto.
  - lia.
Qed.

Lemma long_comment_rule E pres b s :
  (forall c, In c b -> blank c) -> 2048 <= length (b ++ firstn 1 s) ->
  rule_of E pres (b ++ s) = Ok (filter0, false, CList KNoFp).
Proof. intros Hb L. unfold rule_of. now rewrite long_comment_pline. Qed.

Lemma comment_counts E pres a b s x z c c1 :
  nonul a -> nonul z -> (x = CR \/ x = LF) ->
  (forall y, In y b -> blank y) -> comment_text s -> line_text s ->
  parse E pres (cstr (a ++ x :: z)) c = Ok c1 ->
  exists c2, parse E pres (cstr (a ++ x :: (b ++ s) ++ x :: z)) c = Ok c2 /\
    (forall k, k <> KNoFp -> tget (c_lists c2) k = tget (c_lists c1) k) /\
    length (tget (c_lists c2) KNoFp) =
      length (tget (c_lists c1) KNoFp) + (if length (b ++ firstn 1 s) <? 2048 then 0 else 1) /\
    c_numHA c2 = c_numHA c1 /\ c_numHAE c2 = c_numHAE c1.
Proof.
  intros Ha Hz Hx Hb Hs Ht A.
  destruct (Nat.ltb_spec (length (b ++ firstn 1 s)) 2048) as [L|L].
  - exists c1. rewrite parse_comment by auto. repeat split; auto; lia.
  - assert (line_text (b ++ s)) as HT.
    { apply line_text_app. split; auto. intros y I.
      destruct (Hb y I) as [->| ->]; repeat split; discriminate. }
    assert (x <> NUL) as Nx by (destruct Hx as [->| ->]; discriminate).
    assert (nonul (b ++ s)) as HN by now apply line_text_nonul.
    rewrite parse_normal in A by (apply nonul_app; split; auto; apply nonul_cons; split; auto).
    rewrite parse_normal.
    2:{ apply nonul_app. split; auto. apply nonul_cons. split; auto.
        apply nonul_app. split; auto. apply nonul_cons. auto. }
    rewrite text_lines_app, mapM_app in A by auto.
    rewrite !text_lines_app by auto. rewrite (text_lines_single (b ++ s)) by auto. rewrite !mapM_app.
    destruct (mapM (rule_of E pres) (text_lines a)) as [ra|]; [|discriminate].
    cbn [bind mapM] in A |- *. rewrite (long_comment_rule E pres b s Hb L). cbn [bind].
    destruct (mapM (rule_of E pres) (text_lines z)) as [rz|]; [|discriminate].
    cbn [bind rmap app] in A |- *. injection A as <-.
    exists (install E (ra ++ (filter0, false, CList KNoFp) :: rz) c). split; [reflexivity|].
    unfold install.
    pose proof (fold_store_w E (ra ++ rz) (st_of c)) as W1.
    pose proof (fold_store_ha E (ra ++ rz) (st_of c)) as HA1.
    pose proof (fold_store_w E (ra ++ (filter0, false, CList KNoFp) :: rz) (st_of c)) as W2.
    pose proof (fold_store_ha E (ra ++ (filter0, false, CList KNoFp) :: rz) (st_of c)) as HA2.
    destruct (fold_left (store E) (ra ++ rz) (st_of c)) as [[[s1 w1] ha1] hae1].
    destruct (fold_left (store E) (ra ++ (filter0, false, CList KNoFp) :: rz) (st_of c)) as [[[s2 w2] ha2] hae2].
    cbn [with_st c_lists c_numHA c_numHAE fst snd st_w] in *.
    assert (forall k, rules_in k (ra ++ (filter0, false, CList KNoFp) :: rz) =
      rules_in k ra ++ (if kind_eq_dec KNoFp k then [filter0] else []) ++ rules_in k rz) as R.
    { intros k. unfold rules_in. rewrite filter_app, map_app. f_equal. now destruct k. }
    assert (forall k, rules_in k (ra ++ rz) = rules_in k ra ++ rules_in k rz) as R'.
    { intros k. unfold rules_in. now rewrite filter_app, map_app. }
    split; [|split].
    + intros k N. rewrite W1, W2, R, R'. now destruct k.
    + rewrite W1, W2, R, R', !app_length. cbn [kind_eq_dec length]. destruct (kind_eq_dec KNoFp KNoFp); [cbn [length]; lia|easy].
    + destruct HA1 as [-> ->], HA2 as [-> ->]. rewrite !filter_app. cbn [List.filter is_ha]. auto.
Qed.

Lemma filter0_silent E url context dom calls : ~ applies E calls filter0 url context dom.
Proof.
  intros [(host & _ & X) _]. unfold filter_matches in X.
  destruct (negb _) in X; discriminate.
Qed.

Lemma comment_decides E pre rest p a b bl t s s' c1 c2 url context dom v1 v2 c1' c2' :
  history (pre ++ Parse p (a ++ s :: (bl ++ t) ++ s' :: b) :: rest) ->
  (s = CR \/ s = LF) -> (s' = CR \/ s' = LF) ->
  (forall y, In y bl -> blank y) -> comment_text t -> line_text t -> nonul url ->
  after E (pre ++ Parse p (a ++ s :: b) :: rest) = Ok c1 ->
  after E (pre ++ Parse p (a ++ s :: (bl ++ t) ++ s' :: b) :: rest) = Ok c2 ->
  matches E c1 (cstr url) context dom = Ok (v1, c1') ->
  matches E c2 (cstr url) context dom = Ok (v2, c2') ->
  v_block v1 = v_block v2.
Proof.
  intros H Hs Hs' Hb Ht Tt Hu A1 A2 M1 M2.
  assert (line_text (bl ++ t)) as HT.
  { apply line_text_app. split; auto. intros y I.
    destruct (Hb y I) as [->| ->]; repeat split; discriminate. }
  destruct (Nat.lt_ge_cases (length (bl ++ firstn 1 t)) 2048) as [L|L].
  - eapply (no_network_insert E pre rest p a b (bl ++ t) s s' c1 c2); eauto.
    now apply nn_comment.
  - eapply (quiet_line E pre rest p a b (bl ++ t) s s' filter0 (CList KNoFp) c1 c2); eauto using history_insert.
    + exists false. rewrite parse_filter_cstr, long_comment_pline by auto. reflexivity.
    + intros e; destruct e; discriminate.
    + intros e (X & _). discriminate.
    + intros e _. apply filter0_silent.
Qed.

(** ** C58 *)
Lemma comma_length sels :
  length (comma_list sels) = fold_right (fun s n => length s + n) 0 sels + 2 * (length sels - 1).
Proof.
  induction sels as [|s [|t r] IH]; auto.
  - cbn. lia.
  - change (comma_list (s :: t :: r)) with (s ++ B ", " ++ comma_list (t :: r)).
    rewrite !app_length, IH. change (length (B ", ")) with 2. cbn [fold_right length]. lia.
Qed.

Lemma sum_perm (a b : list bytes) : Permutation a b ->
  fold_right (fun s n => length s + n) 0 a = fold_right (fun s n => length s + n) 0 b.
Proof. induction 1; cbn; lia. Qed.

Lemma bucket_length hash sels i o o' :
  bucket_text hash sels i o -> bucket_text hash sels i o' -> length o = length o'.
Proof.
  intros (a & N & I & ->) (b & N' & I' & ->).
  assert (Permutation a b) as P.
  { apply NoDup_Permutation; auto. intros s. now rewrite I, I'. }
  rewrite !comma_length, (sum_perm a b P), (Permutation_length P). reflexivity.
Qed.

Lemma stylesheet_defined hash sels :
  toStylesheet (selectorSet hash sels) <> UB <->
  forall i o out, bucket_text hash sels i o -> bucket_text hash sels 999 out ->
    length o <= length out.
Proof.
  destruct (selectorSet_tidy hash sels) as (L & H).
  pose proof (selectorSet_length hash sels) as SL.
  set (S0 := selectorSet hash sels) in *.
  assert (forall i, (i < 1000)%N -> bucket_text hash sels i (comma_list (nth (N.to_nat i) S0 []))) as BT.
  { intros i Li. exists (nth (N.to_nat i) S0 []). destruct (H (N.to_nat i)) as [N K].
    split; auto. split; auto. intros s. rewrite K. unfold hs_index. rewrite SL, Nnat.N2Nat.id.
    split; intros [X Y]; (split; auto); lia. }
  destruct (last_split S0 L) as (a & Ea & La).
  assert (length S0 - 1 = N.to_nat 999) as E9 by lia. rewrite E9 in Ea.
  set (l := nth (N.to_nat 999) S0 []) in *.
  assert (bucket_text hash sels 999 (comma_list l)) as BL by (apply (BT 999%N); lia).
  rewrite Ea, stylesheet_exact. rewrite E9 in La.
  assert (forall j, j < length a -> nth j a [] = nth j S0 []) as NA.
  { intros j Lj. rewrite Ea, app_nth1; auto. }
  split.
  - intros X i o out Bo Bout.
    destruct (forallb _ a) eqn:F; [|easy]. rewrite forallb_forall in F.
    rewrite (bucket_length hash sels 999 out (comma_list l) Bout BL).
    destruct (N.lt_ge_cases i 1000) as [Li|Li].
    + rewrite (bucket_length hash sels i o _ Bo (BT i Li)).
      destruct (N.eq_dec i 999) as [->|Ni]; [auto|].
      apply Nat.leb_le, F. rewrite <- NA by lia. apply nth_In. lia.
    + destruct Bo as (once & _ & I & ->). destruct once as [|s once]; [cbn; lia|].
      destruct (proj1 (I s) (or_introl eq_refl)) as [_ Q].
      pose proof (N.mod_lt (hash s) 1000). lia.
  - intros X. destruct (forallb _ a) eqn:F; [discriminate|]. exfalso.
    apply not_true_iff_false in F. apply F. apply forallb_forall. intros b I.
    apply Nat.leb_le. destruct (In_nth a b [] I) as (j & Lj & <-).
    rewrite NA by auto. apply (X (N.of_nat j) _ _); auto.
    pose proof (BT (N.of_nat j)) as Q. rewrite Nnat.Nat2N.id in Q. apply Q. lia.
Qed.

(** ** C70 *)
Lemma denotes_length s w : denotes s w -> length w <= length s /\ (length w = length s -> plain_text w).
Proof.
  assert (plain_text []) as Z by (repeat split; easy).
  induction 1 as [|c s t N1 N2 N3 D [L P]| s t D [L P]| s t D [L P]| s t D [L P]];
    cbn [length]; (split; [lia|]); intros E; try lia; auto.
  destruct P as (P1 & P2 & P3); [lia|]. repeat split; intros [I|I]; auto.
Qed.

Lemma header_iff l :
  (exists text, headerText l = header_head ++ text ++ header_tail /\ array_of l text) <->
  Forall plain_text l.
Proof.
  split.
  - intros (text & X & Y). rewrite header_parts in X. apply app_mid in X. subst text.
    assert (forall l text, array_of l text -> length (flat_map header_entry l) <= length text /\
      (length (flat_map header_entry l) = length text -> Forall plain_text l)) as K.
    { induction 1 as [|s w l' text D A [IH1 IH2]]; cbn [flat_map]; [auto|].
      apply denotes_length in D as [D1 D2]. 
      assert (length (header_entry w) = 4 + length w) as HE.
      { unfold header_entry. rewrite !app_length. cbn. lia. }
      rewrite !app_length, HE. change (length (B ",")) with 1. cbn [length].
      split; [lia|]. intros Q. constructor; [apply D2|apply IH2]; lia. }
    now apply (K l _ Y).
  - intros F. exists (flat_map header_entry l). split; [apply header_parts|now apply header_array].
Qed.

(** ** C57 *)
Lemma option_parts_unique r a b : option_parts r a -> option_parts r b -> a = b.
Proof.
  unfold option_parts. destruct (x_options r) as [o|]; [|congruence]. intros X Y; apply cut_unique in X; apply cut_unique in Y; congruence.
Qed.

Lemma first_party_dec p h : first_party p h \/ ~ first_party p h.
Proof.
  unfold first_party. destruct (list_eq_dec ascii_dec h p) as [->|N]; auto.
  set (k := length h - length (B "." ++ p)).
  destruct (list_eq_dec ascii_dec (skipn k h) (B "." ++ p)) as [Q|Q].
  - left. right. exists (firstn k h). rewrite <- Q. symmetry. apply firstn_skipn.
  - right. intros [X|(sub & ->)]; [easy|]. apply Q. unfold k.
    rewrite (app_length sub), Nat.add_sub, skipn_app, skipn_all, Nat.sub_diag. reflexivity.
Qed.

Lemma undefined_narrow s : ~ wide_suffix undefined s.
Proof.
  intros [[->|(p & Q)] I].
  - vm_compute in I. repeat (destruct I as [I|I]; [discriminate|]). destruct I.
  - assert (In "."%char undefined) as J by (rewrite Q; apply in_or_app; right; now left).
    vm_compute in J. repeat (destruct J as [J|J]; [discriminate|]). destruct J.
Qed.

Lemma undefined_domain dl : domain_applies dl undefined <-> forall s, ~ lists_domain dl s.
Proof.
  split.
  - intros [(s & W & _)|[_ X]]; auto. now apply undefined_narrow in W.
  - intros X. right. split; auto. intros s W. now apply undefined_narrow in W.
Qed.

Lemma undefined_meets calls r url uh context :
  context <> 0%N -> ~ common context (N.lor FOThirdParty FONotThirdParty) ->
  (rule_meets calls r url uh context (Some undefined) <->
   rule_meets calls r url uh context None /\
   exists parts, option_parts r parts /\
     (forall dl s, last_domain parts dl -> ~ lists_domain dl s) /\
     (positive_option parts (B "third-party") -> ~ first_party undefined uh) /\
     (negative_option parts (B "third-party") -> first_party undefined uh)).
Proof.
  intros NC NP. unfold rule_meets. split.
  - intros (PF & parts & O & (M1 & M2 & [_ M3] & M4 & M5 & M6) & T). split.
    + split; auto. exists parts. split; auto. split; auto. split; auto. split; auto.
      split; [split|split; [|split]].
      * intros [Q _]. easy.
      * intros _. apply M3. intros [Q _]. easy.
      * intros dl d _ Q. discriminate.
      * intros PO [Q|(_ & d & Q & _)]; [|discriminate]. apply (M5 PO). now left.
      * intros PO [Q|(_ & d & Q & _)]; [|discriminate]. apply (M6 PO). now left.
    + exists parts. split; auto. split; [|split].
      * intros dl s D. revert s. apply undefined_domain. now apply (M4 dl).
      * intros PO Q. apply (M5 PO). right. split; auto. eauto.
      * intros PO. destruct (first_party_dec undefined uh) as [Q|Q]; auto.
        exfalso. apply (M6 PO). right. split; auto. eauto.
  - intros [(PF & parts & O & (M1 & M2 & [_ M3] & M4 & M5 & M6) & T) (parts' & O' & D & T1 & T2)].
    assert (parts' = parts) as -> by (eapply option_parts_unique; eauto).
    split; auto. exists parts. split; auto. split; auto. split; auto. split; auto.
    split; [split|split; [|split]].
    * intros [Q _]. easy.
    * intros _. apply M3. intros [Q _]. easy.
    * intros dl d LD [= <-]. apply undefined_domain. intros s. now apply D.
    * intros PO [Q|(_ & d & [= <-] & Q)]; [apply (M5 PO); now left|]. now apply T1.
    * intros PO [Q|(_ & d & [= <-] & Q)]; [apply (M6 PO); now left|]. apply Q. now apply T2.
Qed.

Lemma omitted_page E calls c url uh context :
  history calls -> after E calls = Ok c -> nonul url -> url_has_host url uh -> usual_list calls ->
  exists b c', jsMatches E c url context None = Ok (b, c') /\
  (b = true <->
   web_url url /\
   (exists r, rule_loaded calls r /\ x_exception r = false /\ listened E calls r uh (Some undefined) /\
      rule_meets calls r url uh context (Some undefined)) /\
   ~ (exists r, rule_loaded calls r /\ x_exception r = true /\ listened E calls r uh (Some undefined) /\
      rule_meets calls r url uh context (Some undefined))).
Proof.
  intros H A Hu Hh U.
  destruct (text_decides E calls c url uh context (Some undefined) H A Hu Hh U) as (v & c' & M & D).
  exists (v_block v), c'. split; auto.
  unfold jsMatches, js_string. change (B "undefined") with undefined. now rewrite M.
Qed.
