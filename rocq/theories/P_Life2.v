(** Lives with restarts, for arbitrary rules. *)
From Verif Require Import Base Flags Protocol Url Sets FilterM ParseM ClientM SerialM DataM Spec SpecM
  SpecC SpecS SpecW SpecL SpecX P_Base P_Protocol P_Url P_Match P_Rule P_Parse P_List P_Shape P_Fp P_Line P_Line2
  P_Fp2 P_Props1 P_Props2 P_Props3 P_Opt P_Opt2 P_Set P_Client P_Decide P_Hist
  P_Dec2 P_Ser1 P_Ser2 P_Ser3 P_Ser4 P_Ser5 P_Ser6 P_Ser7 P_Life.

(** ** Well-shaped clients *)
Definition sound (c : client) : Prop :=
  cfine arr_rule c /\ forall k f, In f (tget (c_lists c) k) -> arr_rule f /\ ends_nul f.

Lemma sound_new : sound client0.
Proof. split; [now apply cfine_none|]. intros [] f []. Qed.

Lemma as_read_arr f : arr_rule f -> arr_rule (as_read f).
Proof.
  intros (A1 & A2 & A3 & A4 & A5). unfold arr_rule, as_read. cbn [f_data f_dom f_tag f_host].
  destruct (tl_nonul (f_tag f) (str (f_dom f)) A3 A2) as [N2 N3].
  rewrite !if_any_str. split.
  { destruct A1 as [-> | (d & t & -> & N)]; [now left|]. destruct d as [|x d]; [now left|]. right. eauto. }
  split; [exact N3|]. split; [exact N2|]. split; [now apply tl_nocomma|exact A5].
Qed.

Lemma as_read_nul f : ends_nul f -> ends_nul (as_read f).
Proof.
  intros N d t. cbn [as_read f_data]. destruct (f_data f) as [[[|x e] u]|] eqn:D; try discriminate.
  intros [= <- <-]. eapply N; eauto.
Qed.

Lemma restarted_sound c d : sound c -> sound (restarted c d).
Proof.
  intros (F & L). split.
  - pose proof (as_read_cfine arr_rule c F (fun f H => H)) as X. exact X.
  - intros k f I. cbn [restarted c_lists] in I. rewrite tget_tab_map in I.
    apply in_map_iff in I as (g & <- & I). destruct (L k g I). split; auto using as_read_arr, as_read_nul.
Qed.

Lemma perform_sound E c k c1 : call_ok k -> sound c -> perform E c k = Ok c1 -> sound c1.
Proof.
  intros Hk (F & L) P.
  assert (Same : forall c2, same_rules c c2 -> sound c2).
  { intros c2 S. split; [eapply cfine_same; eauto|]. destruct S as (<- & _). exact L. }
  destruct k as [pres t| |t|t|url context dom|]; cbn [perform call_ok] in *.
  - rewrite parse_normal in P by auto. apply rmap_ok in P as (rs & P & ->).
    assert (Forall2 (line_rule E) (map (pair pres) (text_lines t)) rs) as FR.
    { apply mapM_ok in P.
      assert (forall l, In l (text_lines t) -> line_text l) as L0
        by (intros l; now apply text_lines_line).
      clear -P L0. induction P as [|l r ls rs H M IH]; constructor.
      - split; cbn; auto. apply L0. now left.
      - apply IH. intros; apply L0. now right. }
    split.
    + apply install_fine; auto.
      * apply Forall_forall. intros r I. destruct (F2_in _ _ _ _ FR I) as ([p l] & _ & L1 & R).
        now apply (rule_of_ok E p l).
      * intros r I Hr. destruct (F2_in _ _ _ _ FR I) as (pl & I' & R).
        pose proof (line_rule_ok E _ _ R) as PO. pose proof (line_rule_arr E _ _ R) as [AR _].
        destruct r as [[f b] k]. cbn [fst snd] in *. subst b.
        destruct PO as ((_ & _ & _ & _ & (d & Dd & _) & _) & _). split; [congruence|exact AR].
    + intros k f I. fold (install E rs c) in I. rewrite install_lists in I.
      apply in_app_iff in I as [I|I]; [now apply (L k)|].
      apply in_rules_in in I as (b & I). destruct (F2_in _ _ _ _ FR I) as (pl & J & R).
      apply (line_rule_arr E _ _ R).
  - injection P as <-. split; [now apply cfine_none|]. intros [] f [].
  - injection P as <-. apply Same. unfold addTag. destruct (tagExists c t); repeat split.
  - injection P as <-. apply Same. repeat split.
  - apply rmap_ok in P as ([v c'] & P & ->). cbn [snd]. apply matches_quiet in P. apply Same, P.
  - injection P as <-. apply Same. unfold enableBadFp. destruct (c_badfp c); repeat split.
Qed.

(** ** Restarts *)
Lemma ext_as_read f g : ends_nul f -> ext f g -> ext (as_read f) (as_read (norm g)).
Proof.
  intros N (E1 & E2 & E3 & E4 & E5 & E6 & E7). unfold ext, as_read, norm.
  cbn [f_type f_opt f_anti f_data f_dom f_tag f_host]. rewrite <- E5, <- E6, <- E7.
  repeat (split; [assumption|]). split; [|auto].
  destruct (f_data f) as [[d t]|] eqn:D, (f_data g) as [[d' t']|]; try easy.
  destruct E4 as [<- _]. destruct d; [exact I|]. split; auto. rewrite (N _ _ D). now exists [].
Qed.

Definition going (full : Prop) (c c' : client) : Prop :=
  sound c /\ mates c c' /\ (forall k, Forall arr_rule (tget (c_lists c') k)) /\
  (full -> forall k, Forall2 ext (tget (c_lists c) k) (tget (c_lists c') k)).

Lemma going_restart full c c' a b r d : going full c c' ->
  exists c2, (b0 <- serialize c' a b ;; x <- deserialize (b0 ++ r) d ;;
              if snd x then Ok (fst x) else UB) = Ok c2 /\
    going (full /\ a = false /\ b = false) (restarted c d) c2 /\
    length (tget (c_lists c2) KCosmetic) = (if a then 0 else length (tget (c_lists c') KCosmetic)).
Proof.
  intros ((CF & L) & M & AR & F).
  destruct (mates_blobs arr_rule c c' (fun f H => H) CF M) as [CB EB].
  set (ci := with_lists c (tmap (map norm) (c_lists c'))).
  assert (serialize c' a b = Ok (buffer ci (ser_lists ci a b))) as S1.
  { rewrite (serialize_gen c' a b CB AR). f_equal.
    pose proof M as (_ & M2 & M3 & _).
    apply (ser_same_arrays c' ci (c_lists c') (tmap (map norm) (c_lists c')));
      [reflexivity|reflexivity| |exact M2|exact M3|exact EB].
    intros k. rewrite tget_tmap, map_length. split; auto.
    induction (tget (c_lists c') k) as [|f fs IH]; auto. cbn [map flat_map].
    now rewrite <- IH, norm_record. }
  assert (forall k f, In f (tget (ser_lists ci a b) k) ->
            exists g, In g (tget (c_lists c') k) /\ f = norm g) as IN.
  { intros k f I. destruct (ser_lists_get ci a b k) as [Q|Q]; rewrite Q in I; [|destruct I].
    change (c_lists ci) with (tmap (map norm) (c_lists c')) in I.
    rewrite tget_tmap in I. apply in_map_iff in I as (g & <- & I). eauto. }
  destruct (deserialize_all arr_rule ci (ser_lists ci a b) d r) as (c2 & D & R).
  { intros k. apply Forall_forall. intros f I. destruct (IN k f I) as (g & J & ->).
    apply norm_arr. specialize (AR k). rewrite Forall_forall in AR. now apply AR. }
  { intros k f I. destruct (IN k f I) as (g & J & ->). apply norm_nul. }
  { exact CF. }
  { auto. }
  exists c2. rewrite S1. cbn [bind]. rewrite D. cbn [bind snd fst]. split; auto.
  rewrite <- ser_as_read in R.
  assert (mates (restarted ci d) c2) as M'.
  { apply (restores_mates arr_rule (restarted ci d) a b d c2); [|exact R|reflexivity].
    exact (as_read_cfine arr_rule ci CF (fun f H => H)). }
  assert (X : forall k, Forall2 ext (tget (c_lists c) k) (tget (c_lists c') k) ->
    Forall2 ext (tget (tab_map (map as_read) (c_lists c)) k)
                (map as_read (map norm (tget (c_lists c') k)))).
  { intros k G. rewrite tget_tab_map. specialize (L k). revert L.
    induction G as [|f g fs gs H G IH]; intros L; cbn [map]; constructor.
    - apply ext_as_read; auto. apply L. now left.
    - apply IH. intros x I. apply L. now right. }
  assert (length (tget (c_lists c2) KCosmetic) = (if a then 0 else length (tget (c_lists c') KCosmetic))) as LC.
  { destruct R as (R1 & _). destruct (R1 KCosmetic) as [G _]. apply F2_len in G. rewrite <- G.
    unfold ser_lists, client_as_read, ci, with_lists, tab_map, tmap. cbn [c_lists].
    destruct (c_lists c'), a, b; cbn; rewrite ?map_length; reflexivity. }
  split; [|exact LC].
  split; [apply restarted_sound; now split|]. split; [|split].
  - destruct M as (M1 & _). destruct M' as (N1 & N2). split; [|exact N2].
    intros k K1 K2. eapply F2_ext_trans; [apply X; auto|].
    specialize (N1 k K1 K2). cbn [restarted c_lists ci with_lists] in N1.
    now rewrite tget_tab_map, tget_tmap in N1.
  - intros k. destruct R as (R1 & _). now destruct (R1 k).
  - intros (HF & -> & ->) k. eapply F2_ext_trans; [apply X; auto|].
    destruct R as (R1 & _). destruct (R1 k) as [G _].
    change (ser_lists (client_as_read ci) false false) with
      (tab_map (map as_read) (tmap (map norm) (c_lists c'))) in G.
    rewrite tget_tab_map, tget_tmap in G. clear -G. induction G; constructor; auto using restored_ext.
Qed.

Lemma going_call E full c c' k c1 : call_ok k -> perform E c k = Ok c1 -> going full c c' ->
  exists c1', perform E c' k = Ok c1' /\ going full c1 c1'.
Proof.
  intros Hk P (S & M & AR & F).
  destruct (perform_ref E c c' k Hk M c1 P) as (c1' & P' & M1). exists c1'. split; auto.
  pose proof (perform_sound E c k c1 Hk S P) as S1. split; auto. split; auto.
  assert (Same : c_lists c1 = c_lists c -> c_lists c1' = c_lists c' ->
    (forall k, Forall arr_rule (tget (c_lists c1') k)) /\
    (full -> forall k, Forall2 ext (tget (c_lists c1) k) (tget (c_lists c1') k))).
  { intros -> ->. auto. }
  destruct k as [pres t| |t|t|url context dom|]; cbn [perform call_ok] in *.
  - rewrite parse_normal in P, P' by auto. apply rmap_ok in P as (rs & P & ->).
    rewrite P in P'. cbn [rmap bind] in P'. injection P' as <-.
    fold (install E rs c) (install E rs c') in *. split.
    + intros k. rewrite install_lists. apply Forall_app. split; [apply AR|].
      apply Forall_forall. intros f I. destruct S1 as (_ & S1). apply (S1 k f).
      rewrite install_lists. apply in_or_app. auto.
    + intros HF k. rewrite !install_lists. apply Forall2_app; auto.
      induction (rules_in k rs); constructor; auto using ext_refl.
  - injection P as <-. injection P' as <-. cbn [clear c_lists].
    split; [intros []; constructor|intros _ []; constructor].
  - injection P as <-. injection P' as <-. apply Same; auto;
      unfold addTag; destruct (tagExists _ t); reflexivity.
  - injection P as <-. injection P' as <-. apply Same; auto.
  - apply rmap_ok in P as ([v x] & P & ->). apply rmap_ok in P' as ([v' x'] & P' & ->).
    apply matches_quiet in P, P'. cbn [snd]. apply Same; auto; [symmetry; apply P|symmetry; apply P'].
  - injection P as <-. injection P' as <-. apply Same; auto;
      unfold enableBadFp; [destruct (c_badfp c)|destruct (c_badfp c')]; reflexivity.
Qed.

Lemma life_going E es : forall full c0 c0' c, history (calls_of es) -> going full c0 c0' ->
  foldM (happen_as_read E) c0 es = Ok c ->
  exists c', foldM (happen E) c0' es = Ok c' /\ going (full /\ saves_all es) c c'.
Proof.
  induction es as [|e es IH]; intros full c0 c0' c Hc G A.
  - injection A as <-. exists c0'. split; auto. destruct G as (G1 & G2 & G3 & G4).
    split; auto. split; auto. split; auto. intros (HF & _). auto.
  - cbn [foldM] in *. apply bind_ok in A as (c1 & A1 & A). destruct e as [k|nc nh r d].
    + cbn [calls_of] in Hc. inversion Hc as [|? ? Hk Hc']; subst.
      destruct (going_call E full c0 c0' k c1 Hk A1 G) as (c1' & P & G1).
      destruct (IH full c1 c1' c Hc' G1 A) as (c' & X & (Y1 & Y2 & Y3 & Y4)). exists c'.
      cbn [happen]. rewrite P. cbn [bind]. split; auto. split; auto. split; auto. split; auto.
      intros (HF & S). apply Y4. split; auto. intros nc nh r d I. apply (S nc nh r d). now right.
    + cbn [happen_as_read] in A1. injection A1 as <-.
      destruct (going_restart full c0 c0' nc nh r d G) as (c1' & P & G1 & _).
      destruct (IH _ _ c1' c Hc G1 A) as (c' & X & (Y1 & Y2 & Y3 & Y4)). exists c'.
      cbn [happen]. rewrite P. cbn [bind]. split; auto. split; auto. split; auto. split; auto.
      intros (HF & S). apply Y4. destruct (S nc nh r d (or_introl eq_refl)) as [-> ->].
      split; [auto|]. intros nc' nh' r' d' I. apply (S nc' nh' r' d'). now right.
Qed.

Lemma going_answers E full c c' : going full c c' ->
  (forall url context dom v c2, matches E c url context dom = Ok (v, c2) ->
     exists w c2', matches E c' url context dom = Ok (w, c2') /\ same_verdict v w) /\
  (forall url context dom v, findMatchingFilters E c url context dom = Ok v ->
     exists w, findMatchingFilters E c' url context dom = Ok w /\ same_verdict v w) /\
  (full -> getParsingStats c' = getParsingStats c /\
           forall nc nh, serialize c' nc nh = serialize c nc nh).
Proof.
  intros ((CF & L) & M & AR & F). split; [|split].
  - intros url context dom v c2 Q.
    destruct (matches_ref E c c' url context dom M (v, c2) Q) as ([w c2'] & Q' & V & _).
    exists w, c2'. split; auto. now apply vrel_same.
  - intros url context dom v Q.
    destruct (find_ref E c c' url context dom M v Q) as (w & Q' & V).
    exists w. split; auto. now apply vrel_same.
  - intros HF. specialize (F HF). pose proof M as (_ & M2 & M3 & _). split.
    + unfold getParsingStats. rewrite M2, M3.
      assert (Len : forall k, length (tget (c_lists c') k) = length (tget (c_lists c) k))
        by (intros k; symmetry; apply (F2_len _ _ _ (F k))).
      cbv zeta. now rewrite !Len.
    + intros nc nh. destruct (mates_blobs arr_rule c c' (fun f H => H) CF M) as [CB EB].
      rewrite serialize_gen by auto.
      assert (sh : shaped arr_rule c).
      { split; [|split; auto]. intros k. apply Forall_forall. intros f I. apply (L k f I). }
      rewrite (serialize_ok arr_rule c nc nh sh). f_equal.
      apply (ser_same_arrays c' c _ _ nc nh eq_refl eq_refl); auto.
      intros k. specialize (F k). split; [|symmetry; apply (F2_len _ _ _ F)].
      symmetry. induction F; auto. cbn [flat_map]. rewrite IHF. f_equal. now apply ext_record.
Qed.

Lemma any_life E es c : history (calls_of es) -> life_as_read E es = Ok c ->
  exists c', life E es = Ok c' /\
    (forall url context dom v c2, matches E c url context dom = Ok (v, c2) ->
       exists w c2', matches E c' url context dom = Ok (w, c2') /\ same_verdict v w) /\
    (forall url context dom v, findMatchingFilters E c url context dom = Ok v ->
       exists w, findMatchingFilters E c' url context dom = Ok w /\ same_verdict v w) /\
    (saves_all es -> getParsingStats c' = getParsingStats c /\
                     forall nc nh, serialize c' nc nh = serialize c nc nh).
Proof.
  intros Hc A.
  assert (G0 : going True client0 client0).
  { split; [exact sound_new|]. split; [exact mates_refl_new|].
    split; [intros []; constructor|intros _ []; constructor]. }
  destruct (life_going E es True client0 client0 c Hc G0 A) as (c' & L & G).
  exists c'. split; [exact L|].
  destruct (going_answers E _ c c' G) as (X1 & X2 & X3). split; [exact X1|]. split; [exact X2|].
  intros S. apply X3. auto.
Qed.

(** ** Numbers of rules *)

Definition same_counts (all : Prop) (c c' : client) : Prop :=
  c_numHA c = c_numHA c' /\ c_numHAE c = c_numHAE c' /\
  forall k, all \/ k <> KCosmetic /\ k <> KHtml ->
    length (tget (c_lists c) k) = length (tget (c_lists c') k).

Lemma store_counts E rs : forall s w ha hae s' w',
  exists s1 w1 s2 w2 h1 h2,
    fold_left (store E) rs (s, w, ha, hae) = (s1, w1, h1, h2) /\
    fold_left (store E) rs (s', w', ha, hae) = (s2, w2, h1, h2).
Proof.
  induction rs as [|r rs IH]; intros s w ha hae s' w'; cbn [fold_left]; [repeat eexists|].
  destruct r as [[f b] [|[]|k]]; cbn [store]; apply IH.
Qed.

Lemma install_counts all E rs c c' : same_counts all c c' -> same_counts all (install E rs c) (install E rs c').
Proof.
  intros (N1 & N2 & N3).
  assert (X : c_numHA (install E rs c) = c_numHA (install E rs c') /\
              c_numHAE (install E rs c) = c_numHAE (install E rs c')).
  { unfold install, st_of. rewrite N1, N2.
    destruct (store_counts E rs (initSets c) (c_lists c) (c_numHA c') (c_numHAE c')
                (initSets c') (c_lists c')) as (s1 & w1 & s2 & w2 & h1 & h2 & -> & ->).
    split; reflexivity. }
  destruct X as [X1 X2]. split; auto. split; auto.
  intros k K. rewrite !install_lists, !app_length. now rewrite N3.
Qed.

Lemma counts_stats (all : Prop) c c' : all -> same_counts all c c' -> getParsingStats c = getParsingStats c'.
Proof. intros A (N1 & N2 & N3). unfold getParsingStats. cbv zeta. now rewrite N1, N2, !N3 by auto. Qed.

Lemma counts_other all c c' : same_counts all c c' ->
  cosmetic_dropped (getParsingStats c) = cosmetic_dropped (getParsingStats c').
Proof.
  intros (N1 & N2 & N3).
  assert (forall x, cosmetic_dropped (getParsingStats x) =
    let n k := length (tget (c_lists x) k) in
    combine (map fst (getParsingStats client0))
      [n KFilters; 0; n KException; n KNoFp; n KNoFpDom; n KNoFpAnti; n KNoFpExc; n KNoFpDomExc;
       n KNoFpAntiExc; c_numHA x; c_numHAE x]) as K by reflexivity.
  rewrite !K. cbv zeta. rewrite N1, N2, !N3 by (right; split; discriminate). reflexivity.
Qed.

Lemma same_rules_counts all c c' : same_rules c c' -> same_counts all c c'.
Proof. intros (L & N1 & N2 & _). split; auto. split; auto. intros k _. now rewrite L. Qed.

Lemma counts_trans all a b c : same_counts all a b -> same_counts all b c -> same_counts all a c.
Proof.
  intros (A1 & A2 & A3) (B1 & B2 & B3). split; [congruence|]. split; [congruence|].
  intros k K. rewrite A3 by auto. now apply B3.
Qed.

Lemma perform_counts all E c c' k c1 c1' : call_ok k -> same_counts all c c' ->
  perform E c k = Ok c1 -> perform E c' k = Ok c1' -> same_counts all c1 c1'.
Proof.
  intros Hk S P P'. pose proof S as (N1 & N2 & N3).
  destruct k as [pres t| |t|t|url context dom|]; cbn [perform call_ok] in *.
  - rewrite parse_normal in P, P' by auto. apply rmap_ok in P as (rs & P & ->).
    rewrite P in P'. cbn [rmap bind] in P'. injection P' as <-. now apply install_counts.
  - injection P as <-. injection P' as <-. now repeat split.
  - injection P as <-. injection P' as <-. unfold addTag.
    destruct (tagExists c t), (tagExists c' t); exact S.
  - injection P as <-. injection P' as <-. exact S.
  - apply rmap_ok in P as ([v x] & P & ->). apply rmap_ok in P' as ([v' x'] & P' & ->).
    apply matches_quiet in P, P'. cbn [snd].
    eapply counts_trans; [|eapply counts_trans; [exact S|apply same_rules_counts, P']].
    assert (K : same_rules x c) by (destruct P as (P & _); unfold same_rules in *; intuition congruence).
    now apply same_rules_counts.
  - injection P as <-. injection P' as <-. unfold enableBadFp.
    destruct (c_badfp c), (c_badfp c'); exact S.
Qed.

(** A query leaves what is said about two clients, but for the set of
    fingerprints that is being collected. *)
Lemma going_ask E full c c' url context dom c1' :
  going full c c' -> perform E c' (Ask url context dom) = Ok c1' ->
  going full (set_stats c (c_stats c) (c_badfp c1')) c1'.
Proof.
  intros (S & M & AR & F) P. cbn [perform] in P. apply rmap_ok in P as ([v x] & P & ->). cbn [snd].
  apply matches_quiet in P as (Q & T).
  destruct Q as (Q1 & Q2 & Q3 & Q4 & Q5 & Q6 & Q7 & Q8 & Q9 & Q10 & Q11).
  destruct M as (M1 & M2 & M3 & M4 & M5 & M6 & M7 & M8 & M9 & M10 & M11 & M12 & M13).
  split; [exact S|]. split; [|rewrite <- Q1; auto].
  unfold mates. cbn [set_stats c_lists c_numHA c_numHAE c_bloom c_ebloom c_host c_ehost c_nfd c_nfa
    c_nfdexc c_nfaexc c_badfp].
  rewrite <- Q1, <- Q2, <- Q3, <- Q4, <- Q5, <- Q6, <- Q7, <- Q8, <- Q9, <- Q10, <- Q11.
  repeat (split; [assumption|]).
  split; [auto|]. intros t. unfold tagExists. rewrite <- T. apply M13.
Qed.

Lemma going_counts (all : Prop) c c' : going all c c' -> same_counts all c c'.
Proof.
  intros ((CF & L) & (M1 & M2 & M3 & _) & AR & F). split; auto. split; auto.
  intros k [X|[K1 K2]]; apply F2_len with (R := ext); [now apply F|now apply M1].
Qed.

Lemma restarted_counts all c d : same_counts all c (restarted c d).
Proof.
  split; auto. split; auto. intros k _. cbn [restarted c_lists].
  now rewrite tget_tab_map, map_length.
Qed.

Lemma counts_sym all a b : same_counts all a b -> same_counts all b a.
Proof. intros (A1 & A2 & A3). split; auto. split; auto. intros k K. symmetry. now apply A3. Qed.

Lemma perform_defined E c c' k c1 : call_ok k -> (forall u x d, k <> Ask u x d) ->
  perform E c k = Ok c1 -> exists c1', perform E c' k = Ok c1'.
Proof.
  intros Hk N P. destruct k as [pres t| |t|t|url context dom|]; cbn [perform call_ok] in *; try (eexists; reflexivity).
  - rewrite parse_normal in P |- * by auto. apply rmap_ok in P as (rs & P & _). rewrite P. eexists. reflexivity.
  - now destruct (N url context dom).
Qed.

Lemma going_weaker (p q : Prop) c c' : (q -> p) -> going p c c' -> going q c c'.
Proof. intros X (A & C & D & F). split; auto. Qed.

Lemma life_counts (all : Prop) E es : forall c0 c0' i c c', history (calls_of es) ->
  (all -> saves_all es) -> going all i c0' -> same_counts all c0 c0' ->
  foldM (perform E) c0 (calls_of es) = Ok c -> foldM (happen E) c0' es = Ok c' -> same_counts all c c'.
Proof.
  induction es as [|e es IH]; intros c0 c0' i c c' Hc Sv G S A L.
  - injection A as <-. injection L as <-. exact S.
  - cbn [foldM] in L. apply bind_ok in L as (c1' & L1 & L).
    assert (Sv' : all -> saves_all es) by (intros X nc nh r d I; apply (Sv X nc nh r d); now right).
    destruct e as [k|nc nh r d]; cbn [calls_of foldM happen] in *.
    + inversion Hc as [|? ? Hk Hc']; subst. apply bind_ok in A as (c1 & A1 & A).
      pose proof (perform_counts all E c0 c0' k c1 c1' Hk S A1 L1) as S1.
      assert (exists i1, going all i1 c1') as (i1 & G1); [|now apply (IH c1 c1' i1 c c')].
      assert (K : (exists u x d, k = Ask u x d) \/ forall u x d, k <> Ask u x d).
      { destruct k; try (right; discriminate). left. eauto. }
      destruct K as [(u & x & d & ->)|K].
      * eexists. eapply going_ask; eauto.
      * destruct (perform_defined E c0' i k c1' Hk K L1) as (i1 & P).
        destruct (going_call E all i c0' k i1 Hk P G) as (c2 & P2 & G2).
        rewrite L1 in P2. injection P2 as <-. eauto.
    + destruct (going_restart all i c0' nc nh r d G) as (c2 & P & G2 & _).
      rewrite L1 in P. injection P as <-.
      assert (G1 : going all (restarted i d) c1').
      { apply (going_weaker (all /\ nc = false /\ nh = false)); auto. intros X.
        destruct (Sv X nc nh r d (or_introl eq_refl)) as [-> ->]. auto. }
      apply (IH c0 c1' (restarted i d) c c'); auto.
      eapply counts_trans; [exact S|]. eapply counts_trans; [apply counts_sym, (going_counts all i); auto|].
      eapply counts_trans; [apply (restarted_counts all i d)|]. now apply (going_counts all).
Qed.

Lemma going_new all : going all client0 client0.
Proof.
  split; [apply sound_new|]. split; [apply mates_refl_new|].
  split; [intros []; constructor|intros _ []; constructor].
Qed.

Lemma life_numbers E es c c' : history (calls_of es) ->
  after E (calls_of es) = Ok c -> life E es = Ok c' ->
  cosmetic_dropped (getParsingStats c') = cosmetic_dropped (getParsingStats c) /\
  (saves_all es -> getParsingStats c' = getParsingStats c).
Proof.
  intros H A L.
  assert (S : same_counts (saves_all es) c c').
  { apply (life_counts (saves_all es) E es client0 client0 client0 c c'); auto.
    - apply going_new.
    - repeat split. }
  split; [symmetry; eapply counts_other; eauto|].
  intros X. symmetry. eapply counts_stats; eauto.
Qed.

(** ** One save and restore *)
Lemma foldM_map {A C D} (f : A -> C -> res A) (g : D -> C) l : forall a,
  foldM f a (map g l) = foldM (fun a x => f a (g x)) a l.
Proof. induction l as [|x l IH]; intros a; cbn; auto. destruct (f a (g x)); cbn; auto. Qed.

Lemma history_going E calls c : history calls -> after E calls = Ok c -> going True c c.
Proof.
  intros H A.
  assert (CO : forall l, calls_of (map Do l) = l).
  { induction l as [|k l IH]; cbn; auto. now rewrite IH. }
  destruct (life_going E (map Do calls) True client0 client0 c) as (c' & L & G).
  - now rewrite CO.
  - apply going_new.
  - rewrite foldM_map. exact A.
  - rewrite foldM_map in L. cbn [happen] in L. change (after E calls = Ok c') in L.
    rewrite A in L. injection L as <-. apply (going_weaker (True /\ saves_all (map Do calls))); auto.
    intros _. split; auto. intros nc nh r d I. apply in_map_iff in I as (k & I & _). discriminate.
Qed.

Lemma saved_again E calls c nc nh r d : history calls -> after E calls = Ok c ->
  exists file c', serialize c nc nh = Ok file /\ deserialize (file ++ r) d = Ok (c', true) /\
    (forall url context dom v c1, matches E (restarted c d) url context dom = Ok (v, c1) ->
       exists w c1', matches E c' url context dom = Ok (w, c1') /\ same_verdict v w) /\
    (forall url context dom v, findMatchingFilters E (restarted c d) url context dom = Ok v ->
       exists w, findMatchingFilters E c' url context dom = Ok w /\ same_verdict v w) /\
    getParsingStats c' = (if nc then cosmetic_dropped (getParsingStats c) else getParsingStats c) /\
    (forall t, tagExists c' t = tagExists d t).
Proof.
  intros H A. pose proof (history_going E calls c H A) as G.
  destruct (going_restart True c c nc nh r d G) as (c' & P & G' & LC).
  apply bind_ok in P as (file & S & P). apply bind_ok in P as ([x ok] & D & P). cbn [fst snd] in P.
  destruct ok; [|discriminate]. injection P as ->.
  exists file, c'. split; auto. split; auto.
  destruct (going_answers E _ _ _ G') as (Q1 & Q2 & _). split; auto. split; auto.
  split; [|destruct G' as (_ & M & _); apply M].
  apply going_counts in G'. destruct G' as (N1 & N2 & N3). cbn [restarted c_numHA c_numHAE c_lists] in *.
  assert (forall k, k <> KCosmetic /\ k <> KHtml -> length (tget (c_lists c') k) = length (tget (c_lists c) k)) as N4.
  { intros k K. rewrite <- N3 by auto. now rewrite tget_tab_map, map_length. }
  unfold getParsingStats. cbv zeta. rewrite <- N1, <- N2, LC, !N4 by (split; discriminate).
  now destruct nc.
Qed.
