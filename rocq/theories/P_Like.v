(** Rules that differ in behavioural options only decide alike; histories whose
    loaded lines correspond to each other. *)
From Coq Require Import Permutation.
From Verif Require Import Base Flags Protocol Url Sets FilterM ParseM ClientM Spec SpecM
  P_Base P_Protocol P_Url P_Match P_Rule P_Parse P_List P_Shape P_Fp P_Line P_Line2
  P_Line3 P_Line4 P_Line5 P_Fp2 P_Match2 P_Props1 P_Props2 P_Props3 P_Opt P_Opt2 SpecC
  P_Set P_Client P_Decide P_Hist P_Dec2 P_Dec3 P_Dec4 P_Dec5 P_Dec8.

Definition quietBits : N := fold_left N.lor [FORedirect; FOImportant; FOExplicitCancel] 0%N.

Record like (f g : filter) : Prop := mkLike {
  lk_type : f_type f = f_type g;
  lk_opt : N.ldiff (f_opt f) quietBits = N.ldiff (f_opt g) quietBits;
  lk_anti : f_anti f = f_anti g;
  lk_data : f_data f = f_data g;
  lk_dom : f_dom f = f_dom g;
  lk_tag : f_tag f = f_tag g;
  lk_host : f_host f = f_host g
}.

Lemma like_refl f : like f f.
Proof. now constructor. Qed.

Lemma like_sym f g : like f g -> like g f.
Proof. intros []. now constructor. Qed.

Lemma like_trans f g h : like f g -> like g h -> like f h.
Proof. intros [] []. constructor; congruence. Qed.

Lemma land_like a b x :
  N.ldiff a quietBits = N.ldiff b quietBits -> N.land x quietBits = 0%N ->
  N.land a x = N.land b x.
Proof.
  intros H D. apply N.bits_inj. intros i. rewrite !N.land_spec.
  assert (N.testbit (N.ldiff a quietBits) i = N.testbit (N.ldiff b quietBits) i) as K by now rewrite H.
  assert (N.testbit (N.land x quietBits) i = false) as L by (rewrite D; apply N.bits_0).
  rewrite !N.ldiff_spec in K. rewrite N.land_spec in L.
  destruct (N.testbit x i); [|now rewrite !andb_false_r].
  cbn [andb] in L. rewrite L in K. cbn [negb] in K. now rewrite !andb_true_r in K |- *.
Qed.

Lemma has_like a b x :
  N.ldiff a quietBits = N.ldiff b quietBits -> N.land x quietBits = 0%N -> has a x = has b x.
Proof. intros H D. unfold has. now rewrite (land_like a b x). Qed.

Lemma ldiff_like a b :
  N.ldiff a quietBits = N.ldiff b quietBits ->
  N.ldiff a BehavioralFilterOnly = N.ldiff b BehavioralFilterOnly.
Proof.
  intros H.
  assert (forall x, N.ldiff x BehavioralFilterOnly =
                    N.ldiff (N.ldiff x quietBits) BehavioralFilterOnly) as K.
  { intros x. apply N.bits_inj. intros i. rewrite !N.ldiff_spec.
    destruct (N.testbit x i); auto. cbn [andb].
    assert (N.land quietBits BehavioralFilterOnly = quietBits) as Q by reflexivity.
    apply (f_equal (fun n => N.testbit n i)) in Q. rewrite N.land_spec in Q.
    destruct (N.testbit quietBits i), (N.testbit BehavioralFilterOnly i); auto; discriminate. }
  rewrite (K a), (K b), H. reflexivity.
Qed.

Lemma unsupported_like f g : like f g -> hasUnsupportedOptions f = hasUnsupportedOptions g.
Proof. intros L. apply has_like; [apply L|reflexivity]. Qed.

Lemma matchesOptions_like f g context dom :
  like f g -> matchesOptions f context dom = matchesOptions g context dom.
Proof.
  intros L. pose proof (unsupported_like f g L) as U. destruct L.
  unfold matchesOptions. rewrite U. destruct (hasUnsupportedOptions g); auto.
  rewrite (has_like (f_opt f) (f_opt g) FODocument), (ldiff_like (f_opt f) (f_opt g)),
    (land_like (f_opt f) (f_opt g) FOResourcesOnly), (has_like (f_opt f) (f_opt g) FOResourcesOnly),
    (has_like (f_opt f) (f_opt g) FOThirdParty) by (auto; reflexivity).
  unfold contextDomainMatchesFilter, f_domains, f_antiDomains.
  now rewrite lk_anti0, lk_dom0.
Qed.

Lemma filter_matches_like E f g input n context dom bf host :
  like f g ->
  filter_matches E f input n context dom bf host = filter_matches E g input n context dom bf host.
Proof.
  intros L. unfold filter_matches. rewrite (matchesOptions_like f g) by auto.
  destruct L. now rewrite lk_data0, lk_type0, lk_host0.
Qed.

Lemma getFingerprint_like E f g : like f g -> getFingerprint E f = getFingerprint E g.
Proof.
  intros []. unfold getFingerprint. now rewrite ?lk_data0, ?lk_type0, ?lk_host0.
Qed.

Lemma domains_like f g : like f g -> f_domains f = f_domains g /\ f_antiDomains f = f_antiDomains g.
Proof. intros []. unfold f_domains, f_antiDomains. now rewrite lk_dom0. Qed.

Lemma classify_like E f g : like f g -> classify E f = classify E g.
Proof.
  intros L. unfold classify, classify_tail, isDomainOnlyFilter, isAntiDomainOnlyFilter.
  destruct (domains_like f g L) as [-> ->].
  rewrite (unsupported_like f g L), (getFingerprint_like E f g L). destruct L. now rewrite lk_type0.
Qed.

Lemma host_rule_like e f g : like f g -> host_rule e f -> host_rule e g.
Proof. intros [] (A & B0 & C). unfold host_rule. rewrite <- lk_type0, <- lk_data0. auto. Qed.

Lemma rule_of_like E p l p' l' :
  like (fst (pline p l)) (fst (pline p' l')) -> snd (pline p l) = snd (pline p' l') ->
  (rule_of E p l = UB <-> rule_of E p' l' = UB).
Proof.
  unfold rule_of. destruct (pline p l) as [f r], (pline p' l') as [g r']. cbn [fst snd].
  intros L <-. rewrite (getFingerprint_like E f g L), (classify_like E f g L).
  unfold is_cosmetic, dom_fits, gate_items. destruct L. rewrite lk_type0, lk_dom0.
  destruct (if r && _ then _ else _); cbn [bind]; [|easy].
  destruct (classify E g) as [k|]; cbn [bind]; [|easy].
  destruct (is_gate k && _); easy.
Qed.

(** ** The rule of a loaded line *)
Definition rl (x : bool * bytes) : filter := fst (pline (fst x) (snd x)).

Lemma parsed_rl x f : line_text (snd x) -> (parsed x f <-> f = rl x).
Proof.
  intros H. unfold parsed, parses_to, rl. rewrite parse_filter_cstr by auto.
  destruct (pline (fst x) (snd x)) as [g b]. cbn [fst]. split.
  - intros (b' & [= -> ->]). auto.
  - intros ->. eauto.
Qed.

Definition hostb (e : bool) (f : filter) : bool :=
  has (f_type f) FTHostOnly && Bool.eqb (has (f_type f) FTException) e &&
  match f_data f with Some _ => true | None => false end.

Lemma hostb_spec e f : hostb e f = true <-> host_rule e f.
Proof.
  unfold hostb, host_rule. rewrite !andb_true_iff, Bool.eqb_true_iff.
  destruct (f_data f); split; intros H; decompose [and] H; repeat split; auto; try discriminate; congruence.
Qed.

Definition hostlines (e : bool) (L : list (bool * bytes)) : list (bool * bytes) :=
  List.filter (fun x => hostb e (rl x)) L.

Lemma line_texts calls x : history calls -> In x (loaded_lines calls) -> line_text (snd x).
Proof. intros H I. destruct x as [p l]. now apply (loaded_line_text calls p l). Qed.

Lemma loaded_in_rl E calls k f :
  history calls ->
  loaded_in E calls k f <-> exists x, In x (loaded_lines calls) /\ f = rl x /\ classify E f = Ok k.
Proof.
  intros H. unfold loaded_in. split.
  - intros (p & l & I & P & C). exists (p, l). split; auto. split; auto.
    apply (parsed_rl (p, l)); auto. now apply (line_texts calls (p, l)).
  - intros ([p l] & I & P & C). exists p, l. split; auto. split; auto.
    apply (parsed_rl (p, l)); auto. now apply (line_texts calls (p, l)).
Qed.

Lemma filter_split {A} (P : A -> bool) l a x b :
  List.filter P l = a ++ x :: b ->
  exists a' b', l = a' ++ x :: b' /\ List.filter P a' = a /\ List.filter P b' = b /\ P x = true.
Proof.
  revert a. induction l as [|y l IH]; intros a H; [destruct a; discriminate|].
  cbn [List.filter] in H. destruct (P y) eqn:Py.
  - destruct a as [|z a]; injection H as -> H.
    + exists [], l. auto.
    + destruct (IH a H) as (a' & b' & -> & <- & <- & Px). exists (z :: a'), b'.
      cbn [List.filter]. rewrite Py. auto.
  - destruct (IH a H) as (a' & b' & -> & <- & <- & Px). exists (y :: a'), b'.
    cbn [List.filter]. rewrite Py. auto.
Qed.

Lemma first_host_rl calls e f :
  history calls ->
  first_host_rule calls e f <->
  exists a x b h, hostlines e (loaded_lines calls) = a ++ x :: b /\ f = rl x /\
    f_host f = Some h /\ forall y, In y a -> f_host (rl y) <> Some h.
Proof.
  intros H. pose proof (line_texts calls) as LT. unfold first_host_rule. split.
  - intros [HR (a & p & l & b & h & L & P & Hh & N)].
    assert (f = rl (p, l)) as Ef.
    { apply (parsed_rl (p, l)); auto. apply (LT (p, l) H). rewrite L. apply in_or_app. cbn; auto. }
    exists (hostlines e a), (p, l), (hostlines e b), h. split; [|split; [|split]]; auto.
    + rewrite L. unfold hostlines. rewrite filter_app. cbn [List.filter]. rewrite <- Ef.
      apply hostb_spec in HR. now rewrite HR.
    + intros y I. apply filter_In in I as [I Hy]. apply hostb_spec in Hy.
      destruct y as [p' l']. apply (N p' l' (rl (p', l'))); auto.
      apply (parsed_rl (p', l')); auto. apply (LT (p', l') H). rewrite L. apply in_or_app; auto.
  - intros (a & [p l] & b & h & L & Ef & Hh & N).
    apply filter_split in L as (a' & b' & L & Ea & Eb & Hx).
    split; [rewrite Ef; now apply hostb_spec|].
    exists a', p, l, b', h. split; auto. split; [|split]; auto.
    + apply (parsed_rl (p, l)); auto. apply (LT (p, l) H). rewrite L. apply in_or_app. cbn; auto.
    + intros p' l' g I P HR.
      assert (g = rl (p', l')) as ->.
      { apply (parsed_rl (p', l')); auto. apply (LT (p', l') H). rewrite L. apply in_or_app; auto. }
      apply N. rewrite <- Ea. apply filter_In. split; auto. now apply hostb_spec.
Qed.

(** ** Corresponding line lists *)
Definition likeL (x y : bool * bytes) : Prop := like (rl x) (rl y).

(** A line that holds no network rule. *)
Definition idle (E : env) (x : bool * bytes) : Prop :=
  classify E (rl x) = Ok CSkip /\ forall e, hostb e (rl x) = false.

Definition covered (E : env) (L1 L2 : list (bool * bytes)) : Prop :=
  forall x, In x L1 -> idle E x \/ exists y, In y L2 /\ likeL x y.

Record corr (E : env) (L1 L2 : list (bool * bytes)) : Prop := mkCorr {
  co_12 : covered E L1 L2;
  co_21 : covered E L2 L1;
  co_host : forall e, Forall2 likeL (hostlines e L1) (hostlines e L2)
}.

Lemma likeL_sym x y : likeL x y -> likeL y x.
Proof. apply like_sym. Qed.

Lemma F2_sym {A} (R : A -> A -> Prop) (l m : list A) :
  (forall x y, R x y -> R y x) -> Forall2 R l m -> Forall2 R m l.
Proof. intros S. induction 1; constructor; auto. Qed.

Lemma corr_sym E L1 L2 : corr E L1 L2 -> corr E L2 L1.
Proof.
  intros []. constructor; auto. intros e. apply F2_sym; [apply likeL_sym|auto].
Qed.

Lemma corr_refl E L : corr E L L.
Proof.
  assert (covered E L L) as C by (intros x I; right; exists x; split; auto; apply like_refl).
  constructor; auto. intros e. induction (hostlines e L); constructor; auto. apply like_refl.
Qed.

Lemma corr_app E L1 L2 M1 M2 : corr E L1 L2 -> corr E M1 M2 -> corr E (L1 ++ M1) (L2 ++ M2).
Proof.
  assert (forall A1 A2 B1 B2, covered E A1 A2 -> covered E B1 B2 ->
    covered E (A1 ++ B1) (A2 ++ B2)) as C.
  { intros A1 A2 B1 B2 X Y x I. apply in_app_or in I as [I|I].
    - destruct (X x I) as [|(y & J & K)]; auto. right. exists y. split; auto. apply in_or_app; auto.
    - destruct (Y x I) as [|(y & J & K)]; auto. right. exists y. split; auto. apply in_or_app; auto. }
  intros [] []. constructor; auto. intros e. unfold hostlines. rewrite !filter_app.
  apply Forall2_app; [apply co_host0|apply co_host1].
Qed.

Lemma F2_split_l {A C} (R : A -> C -> Prop) a x b m :
  Forall2 R (a ++ x :: b) m ->
  exists a' x' b', m = a' ++ x' :: b' /\ Forall2 R a a' /\ R x x' /\ Forall2 R b b'.
Proof.
  intros F. apply Forall2_app_inv_l in F as (a' & m' & Fa & F & ->).
  inversion F as [|? x' ? b' Rx Fb]; subst. exists a', x', b'. auto.
Qed.

Lemma idle_not_loaded E x k : idle E x -> classify E (rl x) = Ok k -> k = CSkip.
Proof. intros [C _] K. congruence. Qed.

Lemma corr_loaded E calls1 calls2 k f :
  history calls1 -> history calls2 -> corr E (loaded_lines calls1) (loaded_lines calls2) ->
  k <> CSkip -> loaded_in E calls1 k f -> exists g, loaded_in E calls2 k g /\ like f g.
Proof.
  intros H1 H2 C N L. apply (loaded_in_rl E calls1 k f H1) in L as (x & I & -> & K).
  destruct (co_12 _ _ _ C x I) as [D|(y & J & LK)].
  - exfalso. apply N. eapply idle_not_loaded; eauto.
  - exists (rl y). split; auto. apply loaded_in_rl; auto. exists y. split; auto. split; auto.
    rewrite <- K. symmetry. now apply classify_like.
Qed.

Lemma corr_first E calls1 calls2 e f :
  history calls1 -> history calls2 -> corr E (loaded_lines calls1) (loaded_lines calls2) ->
  first_host_rule calls1 e f -> exists g, first_host_rule calls2 e g /\ like f g.
Proof.
  intros H1 H2 C F. apply (first_host_rl calls1 e f H1) in F as (a & x & b & h & L & -> & Hh & N).
  pose proof (co_host _ _ _ C e) as CH. rewrite L in CH.
  apply F2_split_l in CH as (a' & x' & b' & E2 & Fa & Rx & Fb).
  exists (rl x'). split; auto. apply first_host_rl; auto. exists a', x', b', h.
  split; auto. split; auto. split; [now rewrite <- (lk_host _ _ Rx)|].
  intros y I. destruct (F2_in _ _ _ _ Fa I) as (z & J & R). rewrite <- (lk_host _ _ R). auto.
Qed.

Lemma corr_excluded E calls1 calls2 e dom :
  history calls1 -> history calls2 -> corr E (loaded_lines calls1) (loaded_lines calls2) ->
  page_excluded E calls1 e dom -> page_excluded E calls2 e dom.
Proof.
  intros H1 H2 C (g & dl & s & L & D & X).
  destruct (corr_loaded E calls1 calls2 (only_excluded e) g H1 H2 C) as (g' & L' & K); auto.
  { destruct e; discriminate. }
  exists g', dl, s. split; auto. split; auto. now rewrite <- (lk_dom _ _ K).
Qed.

Lemma corr_heeded E calls1 calls2 e url dom f :
  history calls1 -> history calls2 -> corr E (loaded_lines calls1) (loaded_lines calls2) ->
  heeded E calls1 e url dom f -> exists g, heeded E calls2 e url dom g /\ like f g.
Proof.
  intros H1 H2 C HE.
  assert (forall k f, k <> CSkip -> loaded_in E calls1 k f ->
    exists g, loaded_in E calls2 k g /\ like f g) as LI
    by (intros; now apply (corr_loaded E calls1 calls2 k f0)).
  destruct HE as [f X|f X|f X Y|f X Y|f host h X1 X2 X3 X4].
  - apply LI in X as (g & X & K); [|discriminate]. exists g. split; auto. now apply heeded_fingerprint.
  - apply LI in X as (g & X & K); [|discriminate]. exists g. split; auto. now apply heeded_plain.
  - apply LI in X as (g & X & K); [|destruct e; discriminate]. exists g. split; auto. now apply heeded_listed.
  - apply LI in X as (g & X & K); [|destruct e; discriminate]. exists g. split; auto. apply heeded_excluded; auto.
    intros Z. apply Y. eapply corr_excluded; [exact H2|exact H1|now apply corr_sym|exact Z].
  - destruct (corr_first E calls1 calls2 e f H1 H2 C X1) as (g & F & K). exists g. split; auto.
    apply (heeded_host E calls2 e url dom g host h); auto. now rewrite <- (lk_host _ _ K).
Qed.

Lemma like_applies E calls1 calls2 f g url context dom :
  (forall u, tag_enabled calls1 u <-> tag_enabled calls2 u) -> like f g ->
  applies E calls1 f url context dom -> applies E calls2 g url context dom.
Proof.
  intros T L [(host & Hh & M) O]. split.
  - exists host. split; auto. now rewrite <- (filter_matches_like E f g).
  - unfold tag_on in *. rewrite <- (lk_tag _ _ L). now rewrite <- T.
Qed.

Lemma corr_effect E calls1 calls2 e url context dom :
  history calls1 -> history calls2 -> corr E (loaded_lines calls1) (loaded_lines calls2) ->
  (forall u, tag_enabled calls1 u <-> tag_enabled calls2 u) ->
  effect E calls1 e url context dom <-> effect E calls2 e url context dom.
Proof.
  intros H1 H2 C T. split; intros (f & X & Y).
  - destruct (corr_heeded E calls1 calls2 e url dom f H1 H2 C X) as (g & HG & K).
    exists g. split; auto. eapply like_applies; eauto.
  - apply corr_sym in C. destruct (corr_heeded E calls2 calls1 e url dom f H2 H1 C X) as (g & HG & K).
    exists g. split; auto. eapply like_applies; eauto. intros u. symmetry. apply T.
Qed.

Lemma corr_visible E calls1 calls2 e url f :
  history calls1 -> history calls2 -> corr E (loaded_lines calls1) (loaded_lines calls2) ->
  visible E calls1 e url f -> exists g, visible E calls2 e url g /\ like f g.
Proof.
  intros H1 H2 C [(k & X & K)|(host & h & X & U & Hh & LU)].
  - destruct (corr_loaded E calls1 calls2 (CList k) f H1 H2 C) as (g & L & Q); auto; [discriminate|].
    exists g. split; auto. left. exists k. auto.
  - destruct (corr_first E calls1 calls2 e f H1 H2 C X) as (g & F & Q). exists g. split; auto.
    right. exists host, h. split; auto. split; auto. split; auto. now rewrite <- (lk_host _ _ Q).
Qed.

Lemma corr_effectV E calls1 calls2 e url context dom :
  history calls1 -> history calls2 -> corr E (loaded_lines calls1) (loaded_lines calls2) ->
  (forall u, tag_enabled calls1 u <-> tag_enabled calls2 u) ->
  effectV E calls1 e url context dom <-> effectV E calls2 e url context dom.
Proof.
  intros H1 H2 C T. split; intros (f & X & Y).
  - destruct (corr_visible E calls1 calls2 e url f H1 H2 C X) as (g & HG & K).
    exists g. split; auto. eapply like_applies; eauto.
  - apply corr_sym in C. destruct (corr_visible E calls2 calls1 e url f H2 H1 C X) as (g & HG & K).
    exists g. split; auto. eapply like_applies; eauto. intros u. symmetry. apply T.
Qed.

(** The two histories give the same decisions. *)
Lemma corr_decisions E calls1 calls2 c1 c2 url context dom :
  history calls1 -> history calls2 -> corr E (loaded_lines calls1) (loaded_lines calls2) ->
  (forall u, tag_enabled calls1 u <-> tag_enabled calls2 u) ->
  after E calls1 = Ok c1 -> after E calls2 = Ok c2 -> nonul url ->
  (forall v1 v2 c1' c2', matches E c1 (cstr url) context dom = Ok (v1, c1') ->
     matches E c2 (cstr url) context dom = Ok (v2, c2') -> v_block v1 = v_block v2) /\
  (forall v1 v2, findMatchingFilters E c1 (cstr url) context dom = Ok v1 ->
     findMatchingFilters E c2 (cstr url) context dom = Ok v2 -> v_block v1 = v_block v2).
Proof.
  intros H1 H2 C T A1 A2 Hu. split.
  - intros v1 v2 c1' c2' M1 M2.
    apply (decision_eq E E calls1 calls2 c1 c2 url context dom v1 v2 c1' c2'); auto.
    intros _ e. now apply corr_effect.
  - intros v1 v2 M1 M2.
    apply (find_decision_eq E calls1 calls2 c1 c2 url context dom v1 v2); auto.
    intros e. now apply corr_effectV.
Qed.

(** Replacing parse() calls inside a history. *)
Lemma corr_around E pre rest mid1 mid2 :
  (forall L, corr E (loaded_from L mid1) (loaded_from L mid2)) ->
  corr E (loaded_lines (pre ++ mid1 ++ rest)) (loaded_lines (pre ++ mid2 ++ rest)).
Proof.
  intros H. unfold loaded_lines. rewrite !loaded_from_app.
  set (L := loaded_from [] pre). specialize (H L).
  destruct (loaded_from_shape rest) as [[S R]|[S R]]; rewrite !R; [apply corr_refl|].
  apply corr_app; auto. apply corr_refl.
Qed.
