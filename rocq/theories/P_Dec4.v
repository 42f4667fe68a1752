(** Consequences of the decision theorem. *)
From Coq Require Import Permutation.
From Verif Require Import Base Flags Protocol Url Sets FilterM ParseM ClientM Spec SpecM
  SpecC P_Base P_Protocol P_Url P_Match P_Rule P_Parse P_List P_Shape P_Fp P_Line P_Line2
  P_Fp2 P_Props1 P_Props2 P_Props3 P_Opt P_Opt2 P_Set P_Client P_Decide P_Hist P_Dec2
  P_Dec3.

Definition other (e : bool) : bool := negb e.

Lemma category_other e t : category_of t = blocker e -> category_of t <> blocker (other e).
Proof. intros ->. now destruct e. Qed.

Lemma host_class E calls c rs x e g k :
  view E calls c rs -> In x (loaded_lines calls) -> parsed x g -> classify E g = Ok k ->
  host_rule e g -> k = CHost e \/ k = CSkip.
Proof.
  intros V I P K H. pose proof (w_lines _ _ _ _ V) as F.
  destruct (F2_in_l _ _ _ _ F I) as ([[g' b] k'] & J & LR).
  assert (g = g') as <- by (now apply (line_rule_parses E x (g', b, k'))).
  pose proof (line_rule_ok _ _ _ LR) as PO.
  assert (k' = k) as -> by (destruct PO as [_ K']; congruence).
  destruct (host_rule_class E e g b k PO H) as [->|U]; auto. right.
  unfold classify in K. rewrite U in K. congruence.
Qed.

(** *** Adding one rule at the end *)
Lemma add_rule E calls p l g k e url context dom c1 c2 :
  history calls -> line_text l -> parses_to p l g -> classify E g = Ok k ->
  category_of k = blocker e -> k <> only_excluded e ->
  after E calls = Ok c1 -> after E (calls ++ [Parse p l]) = Ok c2 ->
  (effect E calls e url context dom -> effect E (calls ++ [Parse p l]) e url context dom) /\
  (effect E calls (other e) url context dom <->
   effect E (calls ++ [Parse p l]) (other e) url context dom).
Proof.
  intros H Hl P K C N A1 A2.
  assert (history (calls ++ [Parse p l])) as H2.
  { apply Forall_app. split; auto. constructor; [|constructor]. cbn.
    now apply line_text_nonul. }
  destruct (hist_view E _ c2 H2 A2) as (rs2 & V2).
  assert (loaded_lines calls = loaded_lines calls ++ []) as L1 by now rewrite app_nil_r.
  assert (loaded_lines (calls ++ [Parse p l]) = loaded_lines calls ++ [(p, l)]) as L2.
  { unfold loaded_lines. rewrite loaded_from_snoc, text_lines_single; auto. }
  assert (forall f, applies E calls f url context dom <->
                    applies E (calls ++ [Parse p l]) f url context dom) as AP.
  { intros f. unfold applies, tag_on.
    assert (forall t, tag_enabled (calls ++ [Parse p l]) t <-> tag_enabled calls t) as T.
    { intros t. rewrite tag_enabled_parse, app_nil_r. reflexivity. }
    now rewrite T. }
  assert (forall e' f, (e' = e \/ e' = other e) -> heeded E calls e' url dom f ->
    heeded E (calls ++ [Parse p l]) e' url dom f) as UP.
  { intros e' f He. apply (heeded_insert E calls _ (loaded_lines calls) (p, l) []); auto.
    intros g' P' K'. assert (g' = g) as -> by (eapply parsed_unique; eauto).
    destruct He as [->| ->]; [congruence|].
    assert (k = only_excluded (other e)) as -> by congruence.
    apply category_other in C. apply C. now destruct e. }
  split; [|split].
  - intros (f & X & Y). exists f. split; [auto|now apply AP].
  - intros (f & X & Y). exists f. split; [auto|now apply AP].
  - intros (f & X & Y). exists f. split; [|now apply AP].
    pose proof (heeded_loaded E _ c2 rs2 (other e) url context dom f V2 X Y) as LD.
    apply (heeded_remove E calls _ (loaded_lines calls) (p, l) []) in X as [X|X]; auto.
    assert (f = g) as -> by (eapply parsed_unique; eauto).
    apply category_other in C. exfalso. apply C. symmetry. eapply loaded_category; eauto.
Qed.

Lemma add_block E calls p l g k url context dom c1 c2 v1 v2 c1' c2' :
  history calls -> line_text l -> parses_to p l g -> classify E g = Ok k ->
  category_of k = BlockRule -> k <> only_excluded false ->
  after E calls = Ok c1 -> after E (calls ++ [Parse p l]) = Ok c2 -> nonul url ->
  matches E c1 (cstr url) context dom = Ok (v1, c1') ->
  matches E c2 (cstr url) context dom = Ok (v2, c2') ->
  v_block v1 = true -> v_block v2 = true.
Proof.
  intros H Hl P K C N A1 A2 Hu M1 M2 B1.
  assert (history (calls ++ [Parse p l])) as H2.
  { apply Forall_app. split; auto. constructor; [|constructor]. cbn.
    now apply line_text_nonul. }
  destruct (add_rule E calls p l g k false url context dom c1 c2) as [X1 X2]; auto.
  destruct (isBlockableProtocol_spec url Hu) as (b & _ & W). destruct b.
  2:{ assert (~ web_url url) as Hw by (intros X; apply W in X; discriminate).
      rewrite matches_nonweb in M1 by auto. injection M1 as <- <-. discriminate. }
  assert (web_url url) as Hw by (now apply W).
  apply (decision E calls c1 url context dom v1 c1') in B1; auto.
  apply (decision E (calls ++ [Parse p l]) c2 url context dom v2 c2'); auto. destruct B1 as [B1 B2].
  split; [now apply X1|]. intros B3. apply B2. now apply X2.
Qed.

Lemma add_exception E calls p l g k url context dom c1 c2 v1 v2 c1' c2' :
  history calls -> line_text l -> parses_to p l g -> classify E g = Ok k ->
  category_of k = ExceptionRule -> k <> only_excluded true ->
  after E calls = Ok c1 -> after E (calls ++ [Parse p l]) = Ok c2 -> nonul url ->
  matches E c1 (cstr url) context dom = Ok (v1, c1') ->
  matches E c2 (cstr url) context dom = Ok (v2, c2') ->
  v_block v1 = false -> v_block v2 = false.
Proof.
  intros H Hl P K C N A1 A2 Hu M1 M2 B1.
  assert (history (calls ++ [Parse p l])) as H2.
  { apply Forall_app. split; auto. constructor; [|constructor]. cbn.
    now apply line_text_nonul. }
  destruct (add_rule E calls p l g k true url context dom c1 c2) as [X1 X2]; auto.
  apply not_true_iff_false. intros B2. apply not_true_iff_false in B1. apply B1.
  destruct (isBlockableProtocol_spec url Hu) as (b & _ & W). destruct b.
  2:{ assert (~ web_url url) as Hw by (intros X; apply W in X; discriminate).
      rewrite matches_nonweb in M2 by auto. injection M2 as <- <-. discriminate. }
  assert (web_url url) as Hw by (now apply W).
  apply (decision E (calls ++ [Parse p l]) c2 url context dom v2 c2') in B2; auto. destruct B2 as [B2 B3].
  apply (decision E calls c1 url context dom v1 c1'); auto.
  split; [now apply X2|]. intros B4. apply B3. now apply X1.
Qed.

(** *** Inserting one line anywhere *)
Definition one_more (pre rest : list call) (p : bool) (a b l : bytes) (s s' : ascii)
  : list call * list call :=
  (pre ++ Parse p (a ++ s :: b) :: rest, pre ++ Parse p (a ++ s :: l ++ s' :: b) :: rest).

Lemma insert_line E pre rest p a b l s s' g k c2 url context dom :
  history (pre ++ Parse p (a ++ s :: l ++ s' :: b) :: rest) ->
  (s = CR \/ s = LF) -> (s' = CR \/ s' = LF) -> line_text l -> parses_to p l g -> classify E g = Ok k ->
  (forall e, k <> only_excluded e) -> (forall e, ~ host_rule e g) ->
  after E (pre ++ Parse p (a ++ s :: l ++ s' :: b) :: rest) = Ok c2 ->
  (forall e, category_of k = blocker e ->
     ~ applies E (pre ++ Parse p (a ++ s :: l ++ s' :: b) :: rest) g url context dom) ->
  forall e, effect E (pre ++ Parse p (a ++ s :: b) :: rest) e url context dom <->
            effect E (pre ++ Parse p (a ++ s :: l ++ s' :: b) :: rest) e url context dom.
Proof.
  intros H Hs Hs' Hl P K N1 N2 A NA e.
  set (calls1 := pre ++ Parse p (a ++ s :: b) :: rest).
  set (calls2 := pre ++ Parse p (a ++ s :: l ++ s' :: b) :: rest) in *.
  destruct (hist_view E _ c2 H A) as (rs2 & V2).
  assert (forall f, applies E calls1 f url context dom <->
                    applies E calls2 f url context dom) as AP.
  { intros f. unfold applies, tag_on, calls1, calls2. now rewrite !tag_enabled_parse. }
  assert (loaded_lines calls1 = loaded_lines calls2 \/
    exists x y, loaded_lines calls1 = x ++ y /\ loaded_lines calls2 = x ++ (p, l) :: y) as LL.
  { unfold loaded_lines, calls1, calls2. rewrite !loaded_from_app. cbn [loaded_from].
    destruct (loaded_from_shape rest) as [[S HS]|[S HS]]; [left; now rewrite !HS|right].
    rewrite !HS, !text_lines_app, (text_lines_single l Hl) by auto.
    exists (loaded_from [] pre ++ map (pair p) (text_lines a)), (map (pair p) (text_lines b) ++ S).
    rewrite !map_app. cbn [map app]. rewrite <- !app_assoc. cbn [app].
    rewrite <- ?app_assoc. auto. }
  destruct LL as [LL|(x & y & L1 & L2)].
  - unfold effect. assert (forall f, heeded E calls1 e url dom f <-> heeded E calls2 e url dom f) as HH.
    { assert (forall a b, loaded_lines a = loaded_lines b -> forall f, heeded E a e url dom f ->
        heeded E b e url dom f) as G.
      { intros a' b' EL f X.
        assert (forall k g, loaded_in E a' k g <-> loaded_in E b' k g) as LI.
        { intros. unfold loaded_in. now rewrite EL. }
        destruct X as [f X|f X|f X Y|f X Y|f host h X1 X2 X3 X4].
        - apply heeded_fingerprint; now apply LI.
        - apply heeded_plain; now apply LI.
        - apply heeded_listed; auto; now apply LI.
        - apply heeded_excluded; [now apply LI|]. intros (g' & dl & t & Z1 & Z2).
          apply Y. exists g', dl, t. split; auto. now apply LI.
        - apply (heeded_host E b' e url dom f host h); auto.
          unfold first_host_rule in *. now rewrite <- EL. }
      intros f; split; apply G; auto. }
    split; intros (f & X & Y); exists f; (split; [now apply HH|now apply AP]).
  - split; intros (f & X & Y); exists f; (split; [|now apply AP]).
    + eapply (heeded_insert E calls1 calls2 x (p, l) y); eauto.
      * right. intros g' P'. assert (g' = g) as -> by (eapply parsed_unique; eauto). auto.
      * intros g' P'. assert (g' = g) as -> by (eapply parsed_unique; eauto).
        rewrite K. intros Z. apply (N1 e). congruence.
    + pose proof (heeded_loaded E _ c2 rs2 e url context dom f V2 X Y) as LD.
      apply (heeded_remove E calls1 calls2 x (p, l) y) in X as [X|X]; auto.
      assert (f = g) as -> by (eapply parsed_unique; eauto).
      exfalso. apply (NA e); auto. symmetry. eapply loaded_category; eauto.
Qed.

(** *** Loading again *)
Lemma first_host_dup calls1 calls2 D e f :
  loaded_lines calls2 = loaded_lines calls1 ++ D -> incl D (loaded_lines calls1) ->
  first_host_rule calls1 e f <-> first_host_rule calls2 e f.
Proof.
  intros L I. unfold first_host_rule. rewrite L.
  split; intros [HR (a & p & l & b & h & L1 & P & Hh & N)]; (split; [exact HR|]).
  - exists a, p, l, (b ++ D), h. rewrite L1, <- app_assoc. auto.
  - apply app_eq_app in L1 as (m & [[E1 E2]|[E1 E2]]).
    + destruct m as [|y m].
      * rewrite app_nil_r in E1. cbn in E2. exfalso.
        assert (In (p, l) (loaded_lines calls1)) as J.
        { apply I. rewrite <- E2. cbn; auto. }
        rewrite E1 in J. now apply (N p l f).
      * assert (y = (p, l)) as -> by (cbn in E2; congruence). exists a, p, l, m, h. auto.
    + exfalso. assert (In (p, l) (loaded_lines calls1)) as J.
      { apply I. rewrite E2. apply in_or_app. cbn; auto. }
      apply (N p l f); auto. rewrite E1. apply in_or_app; auto.
Qed.

Lemma heeded_ext E calls1 calls2 e url dom :
  (forall k f, loaded_in E calls1 k f <-> loaded_in E calls2 k f) ->
  (forall f, first_host_rule calls1 e f <-> first_host_rule calls2 e f) ->
  forall f, heeded E calls1 e url dom f <-> heeded E calls2 e url dom f.
Proof.
  intros LI FH. 
  assert (forall a b, (forall k f, loaded_in E a k f <-> loaded_in E b k f) ->
    (forall f, first_host_rule a e f <-> first_host_rule b e f) ->
    forall f, heeded E a e url dom f -> heeded E b e url dom f) as G.
  { intros a b L F f X.
    destruct X as [f X|f X|f X Y|f X Y|f host h X1 X2 X3 X4].
    - apply heeded_fingerprint; now apply L.
    - apply heeded_plain; now apply L.
    - apply heeded_listed; auto; now apply L.
    - apply heeded_excluded; [now apply L|]. intros (g' & dl & t & Z1 & Z2).
      apply Y. exists g', dl, t. split; auto. now apply L.
    - apply (heeded_host E b e url dom f host h); auto. now apply F. }
  intros f; split; apply G; auto; intros; symmetry; auto.
Qed.

Lemma again_lines E calls mid p t :
  ~ In Clear mid ->
  (forall k f, loaded_in E (calls ++ Parse p t :: mid) k f <->
               loaded_in E (calls ++ Parse p t :: mid ++ [Parse p t]) k f) /\
  (forall e f, first_host_rule (calls ++ Parse p t :: mid) e f <->
               first_host_rule (calls ++ Parse p t :: mid ++ [Parse p t]) e f).
Proof.
  intros NC. set (c1 := calls ++ Parse p t :: mid).
  assert (calls ++ Parse p t :: mid ++ [Parse p t] = c1 ++ [Parse p t]) as ->
    by (unfold c1; now rewrite <- app_assoc).
  assert (loaded_lines (c1 ++ [Parse p t]) = loaded_lines c1 ++ map (pair p) (text_lines t)) as L.
  { unfold loaded_lines. now rewrite loaded_from_snoc. }
  assert (incl (map (pair p) (text_lines t)) (loaded_lines c1)) as I.
  { unfold loaded_lines, c1. rewrite loaded_from_app. cbn [loaded_from].
    generalize (loaded_from [] calls). intros L0.
    assert (forall L, incl L (loaded_from L mid)) as IN.
    { clear -NC. induction mid as [|k mid IH]; intros L; [apply incl_refl|].
      assert (~ In Clear mid) as N by (intros X; apply NC; now right).
      destruct k; cbn [loaded_from]; auto.
      - eapply incl_tran; [|apply IH; auto]. now apply incl_appl, incl_refl.
      - exfalso. apply NC. now left. }
    eapply incl_tran; [|apply IN]. apply incl_appr, incl_refl. }
  split.
  - intros k f. unfold loaded_in. rewrite L.
    split; intros (p' & l & J & X); exists p', l; (split; [|exact X]).
    + apply in_or_app; auto.
    + apply in_app_or in J as [J|J]; auto.
  - intros e f. now apply (first_host_dup c1 _ (map (pair p) (text_lines t))).
Qed.

Lemma again_applies E calls mid p t f url context dom :
  applies E (calls ++ Parse p t :: mid) f url context dom <->
  applies E (calls ++ Parse p t :: mid ++ [Parse p t]) f url context dom.
Proof.
  unfold applies, tag_on.
  assert (forall u, tag_enabled (calls ++ Parse p t :: mid ++ [Parse p t]) u <->
                    tag_enabled (calls ++ Parse p t :: mid) u) as T.
  { intros u.
    assert (calls ++ Parse p t :: mid ++ [Parse p t] =
            (calls ++ Parse p t :: mid) ++ Parse p t :: []) as ->
      by (now rewrite <- app_assoc).
    rewrite tag_enabled_parse, app_nil_r. reflexivity. }
  now rewrite T.
Qed.

Lemma load_again E calls mid p t url context dom e :
  ~ In Clear mid ->
  effect E (calls ++ Parse p t :: mid) e url context dom <->
  effect E (calls ++ Parse p t :: mid ++ [Parse p t]) e url context dom.
Proof.
  intros NC. destruct (again_lines E calls mid p t NC) as [LI FH].
  pose proof (heeded_ext E _ _ e url dom LI (FH e)) as HH.
  split; intros (f & X & Y); exists f; (split; [now apply HH|now apply (again_applies E calls mid p t)]).
Qed.

(** *** Reordering *)
Lemma hosts_distinct_perm p ls ls' :
  Permutation ls ls' -> hosts_distinct p ls -> hosts_distinct p ls'.
Proof.
  intros P H l l' rest e f f' h Q. apply (H l l' rest e f f' h). eapply perm_trans; eauto.
Qed.

Lemma first_host_perm calls1 calls2 L p ls1 ls2 e f :
  loaded_lines calls1 = L ++ map (pair p) ls1 -> loaded_lines calls2 = L ++ map (pair p) ls2 ->
  Permutation ls1 ls2 -> hosts_distinct p ls1 ->
  first_host_rule calls1 e f -> first_host_rule calls2 e f.
Proof.
  intros L1 L2 Pm HD [HR (a & q & l & b & h & LL & P & Hh & N)]. split; auto.
  rewrite L1 in LL. rewrite L2. apply app_eq_app in LL as (m & [[E1 E2]|[E1 E2]]).
  - destruct m as [|y m].
    + (* first line of ls1 *)
      cbn in E2. rewrite app_nil_r in E1.
      assert (In (q, l) (map (pair p) ls1)) as J by (rewrite <- E2; cbn; auto).
      apply in_map_iff in J as (l0 & EQ & J).
    assert (q = p) as -> by congruence. assert (l0 = l) as -> by congruence. clear EQ.
      assert (In l ls2) as J2 by (eapply Permutation_in; eauto).
      apply in_split in J2 as (u & w & ->).
      exists (L ++ map (pair p) u), p, l, (map (pair p) w), h.
      rewrite map_app. cbn [map]. rewrite <- app_assoc.
      split; auto. split; auto. split; auto.
      intros p' l' g I P' HR' Hg. apply in_app_or in I as [I|I].
      * subst L. now apply (N p' l' g).
      * apply in_map_iff in I as (l0 & [= <- <-] & I).
        apply in_split in I as (u1 & u2 & ->).
        apply (HD l l0 (u1 ++ u2 ++ w) e f g h); auto.
        eapply perm_trans; [exact Pm|].
        rewrite <- app_assoc. cbn [app].
        eapply perm_trans; [apply Permutation_sym, Permutation_middle|].
        eapply perm_trans; [apply perm_skip; rewrite app_assoc;
                            apply Permutation_sym, Permutation_middle|].
        eapply perm_trans; [apply perm_swap|]. rewrite <- app_assoc. apply Permutation_refl.
    + assert (y = (q, l)) as -> by (cbn in E2; congruence).
      exists a, q, l, (m ++ map (pair p) ls2), h. rewrite E1, <- app_assoc. auto.
  - (* inside ls1 *)
    assert (In (q, l) (map (pair p) ls1)) as J.
    { rewrite E2. apply in_or_app. cbn; auto. }
    apply in_map_iff in J as (l0 & EQ & J).
    assert (q = p) as -> by congruence. assert (l0 = l) as -> by congruence. clear EQ.
    assert (In l ls2) as J2 by (eapply Permutation_in; eauto).
    apply in_split in J2 as (u & w & ->).
    exists (L ++ map (pair p) u), p, l, (map (pair p) w), h.
    rewrite map_app. cbn [map]. rewrite <- app_assoc.
    split; auto. split; auto. split; auto.
    intros p' l' g I P' HR' Hg. apply in_app_or in I as [I|I].
    * apply (N p' l' g); auto. rewrite E1. apply in_or_app; auto.
    * apply in_map_iff in I as (l0 & [= <- <-] & I).
      apply in_split in I as (u1 & u2 & ->).
      apply (HD l l0 (u1 ++ u2 ++ w) e f g h); auto.
      eapply perm_trans; [exact Pm|].
      rewrite <- app_assoc. cbn [app].
      eapply perm_trans; [apply Permutation_sym, Permutation_middle|].
      eapply perm_trans; [apply perm_skip; rewrite app_assoc;
                          apply Permutation_sym, Permutation_middle|].
      eapply perm_trans; [apply perm_swap|]. rewrite <- app_assoc. apply Permutation_refl.
Qed.

Lemma reorder_lines E calls p t1 t2 :
  Permutation (text_lines t1) (text_lines t2) -> hosts_distinct p (text_lines t1) ->
  (forall k f, loaded_in E (calls ++ [Parse p t1]) k f <->
               loaded_in E (calls ++ [Parse p t2]) k f) /\
  (forall e f, first_host_rule (calls ++ [Parse p t1]) e f <->
               first_host_rule (calls ++ [Parse p t2]) e f).
Proof.
  intros Pm HD.
  assert (forall t, loaded_lines (calls ++ [Parse p t]) =
                    loaded_lines calls ++ map (pair p) (text_lines t)) as L.
  { intros t. unfold loaded_lines. now rewrite loaded_from_snoc. }
  split.
  - intros k f. unfold loaded_in. rewrite !L.
    assert (forall x, In x (map (pair p) (text_lines t1)) <-> In x (map (pair p) (text_lines t2))) as IF.
    { intros x. rewrite !in_map_iff.
      split; intros (y & Y & J); exists y; (split; [exact Y|]);
        [|apply Permutation_sym in Pm]; eapply Permutation_in; eauto. }
    split; intros (p' & l & J & X); exists p', l; (split; [|exact X]);
      apply in_app_or in J as [J|J]; apply in_or_app; auto; right; now apply IF.
  - intros e f. split.
    + eapply first_host_perm; eauto.
    + eapply first_host_perm; eauto; [now apply Permutation_sym|].
      eapply hosts_distinct_perm; eauto.
Qed.

Lemma reorder_applies E calls p t1 t2 f url context dom :
  applies E (calls ++ [Parse p t1]) f url context dom <->
  applies E (calls ++ [Parse p t2]) f url context dom.
Proof. unfold applies, tag_on. now rewrite !tag_enabled_parse. Qed.

Lemma reorder E calls p t1 t2 url context dom e :
  Permutation (text_lines t1) (text_lines t2) -> hosts_distinct p (text_lines t1) ->
  effect E (calls ++ [Parse p t1]) e url context dom <->
  effect E (calls ++ [Parse p t2]) e url context dom.
Proof.
  intros Pm HD. destruct (reorder_lines E calls p t1 t2 Pm HD) as [LI FH].
  pose proof (heeded_ext E _ _ e url dom LI (FH e)) as HH.
  split; intros (f & X & Y); exists f;
    (split; [now apply HH|now apply (reorder_applies E calls p t1 t2)]).
Qed.
