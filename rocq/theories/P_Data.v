(** Parsing statistics, bad fingerprint header and data files. *)
From Verif Require Import Base Flags Protocol Url Sets FilterM ParseM ClientM SerialM JsM DataM
  Spec SpecM SpecC SpecS SpecL SpecX SpecT P_Base P_Protocol P_Url P_Match P_Rule P_Parse P_List P_Shape
  P_Fp P_Line P_Line2 P_Fp2 P_Props1 P_Props2 P_Props3 P_Opt P_Opt2 P_Set P_Client P_Decide P_Hist
  P_Dec2 P_Ser1 P_Ser2 P_Ser3 P_Ser4 P_Ser5 P_Ser6 P_Life P_Life2 P_Stat.

(** ** Parsing statistics *)
Definition num_in (E : env) (fs : list filter) (k : cls) : nat :=
  length (List.filter (goes_to E k) fs).

Lemma hist_numbers E calls c :
  history calls -> after E calls = Ok c ->
  exists fs, Forall2 (fun pl f => parses_to (fst pl) (snd pl) f) (loaded_lines calls) fs /\
    (forall k, length (tget (c_lists c) k) = num_in E fs (CList k)) /\
    c_numHA c = num_in E fs (CHost false) /\ c_numHAE c = num_in E fs (CHost true).
Proof.
  revert c. induction calls as [|k calls IH] using rev_ind; intros c Hc H.
  - injection H as <-. exists []. split; [constructor|]. split; [intros []; reflexivity|]. auto.
  - apply Forall_app in Hc as [Hc Hk]. inversion Hk as [|? ? Kk _]; subst.
    rewrite after_snoc in H. apply bind_ok in H as (c0 & H0 & H).
    destruct (IH c0 Hc H0) as (fs & F1 & F2 & F3 & F4).
    pose proof (loaded_from_snoc [] calls k) as LS. fold (loaded_lines (calls ++ [k])) in LS.
    fold (loaded_lines calls) in LS.
    destruct k as [pres t| |t|t|url context dom|]; cbn [perform call_ok] in *; rewrite LS.
    + destruct (parse_lists E pres t c0 c Kk H) as (gs & G1 & G2 & G3 & G4).
      exists (fs ++ gs). split.
      * apply Forall2_app; auto. clear -G1. unfold line_rules in G1.
        induction G1; cbn [map]; constructor; auto.
      * unfold num_in in *. split; [|split].
        { intros k. now rewrite G2, filter_app, !app_length, F2. }
        { now rewrite G3, F3, filter_app, app_length. }
        { now rewrite G4, F4, filter_app, app_length. }
    + injection H as <-. exists []. split; [constructor|]. split; [intros []; reflexivity|]. auto.
    + injection H as <-. exists fs. split; auto. unfold addTag. destruct (tagExists c0 t); auto.
    + injection H as <-. exists fs. split; auto.
    + apply rmap_ok in H as ([v c'] & H & ->). cbn [snd]. apply matches_quiet in H.
      destruct H as [(Q1 & Q2 & Q3 & _) _]. rewrite <- Q1, <- Q2, <- Q3. exists fs. auto.
    + injection H as <-. exists fs. split; auto. unfold enableBadFp. destruct (c_badfp c0); auto.
Qed.

Lemma parsing_stats E calls c :
  history calls -> after E calls = Ok c ->
  exists fs, Forall2 (fun pl f => parses_to (fst pl) (snd pl) f) (loaded_lines calls) fs /\
    getParsingStats c =
    map (fun nk => (fst nk, length (List.filter (goes_to E (snd nk)) fs))) stat_names.
Proof.
  intros Hc A. destruct (hist_numbers E calls c Hc A) as (fs & F1 & F2 & F3 & F4).
  exists fs. split; auto. unfold getParsingStats. rewrite !F2, F3, F4. reflexivity.
Qed.

Lemma life_stats E es c :
  history (calls_of es) -> restarts_ok es -> saves_all es -> after E (calls_of es) = Ok c ->
  exists c', life E es = Ok c' /\ getParsingStats c' = getParsingStats c.
Proof.
  intros Hc R S A. destruct (life_alike E es c Hc R A) as (c' & L & M & K & F).
  exists c'. split; auto. destruct M as (_ & M2 & M3 & _). unfold getParsingStats.
  rewrite M2, M3, <- !(fun k => F2_len _ _ _ (F S k)). reflexivity.
Qed.

(** ** The header *)
Lemma plain_denotes w : plain_text w -> denotes w w.
Proof.
  induction w as [|c w IH]; intros (P1 & P2 & P3); constructor.
  - intros ->. apply P1. now left.
  - intros ->. apply P2. now left.
  - intros ->. apply P3. now left.
  - apply IH. repeat split; intros I; [apply P1|apply P2|apply P3]; now right.
Qed.

Lemma header_array l : Forall plain_text l -> array_of l (flat_map header_entry l).
Proof.
  induction 1 as [|w l P F IH]; cbn [flat_map]; [constructor|].
  unfold header_entry. rewrite <- !app_assoc. apply arr_item; auto. now apply plain_denotes.
Qed.

(** ** Data files *)
Definition asks_of (sites : list bytes) : list call :=
  map (fun s => Ask s FONoFilterOption (Some (B "slashdot.org"))) sites.

Lemma checkSites_perform E sites : forall c,
  checkSites E c sites = foldM (perform E) c (asks_of sites).
Proof.
  intros c. unfold checkSites, asks_of. rewrite foldM_map. revert c.
  induction sites as [|s sites IH]; intros c; cbn [foldM]; auto.
  assert (rmap snd (jsMatches E c s FONoFilterOption (Some (B "slashdot.org"))) =
          perform E c (Ask s FONoFilterOption (Some (B "slashdot.org")))) as ->.
  { unfold jsMatches. cbn [perform js_string].
    now destruct (matches E c (cstr s) FONoFilterOption (Some (B "slashdot.org"))) as [[v c']|]. }
  destruct (perform _ _ _); cbn [bind]; auto.
Qed.

Lemma strings_after0 E keep items :
  clientFromStrings E keep items = after E (map (Parse keep) items).
Proof. unfold clientFromStrings, after. now rewrite foldM_map. Qed.

Lemma loaded_asks sites : forall L, loaded_from L (asks_of sites) = L.
Proof. induction sites as [|s sites IH]; intros L; cbn; auto. Qed.

Lemma loaded_from_app a : forall b L, loaded_from L (a ++ b) = loaded_from (loaded_from L a) b.
Proof. induction a as [|k a IH]; intros b L; auto. destruct k; cbn [app loaded_from]; auto. Qed.

Lemma twin_bad E c : twin False c (enableBadFp E c).
Proof.
  exists (c_stats c), (c_badfp (enableBadFp E c)). split; auto. unfold enableBadFp.
  destruct (c_badfp c) eqn:X; [rewrite X; symmetry; now rewrite <- X, set_same|reflexivity].
Qed.

Lemma quiet_twin c s b c' :
  quiet (set_stats c s b) c' -> c' = set_stats c (c_stats c') (c_badfp c').
Proof.
  intros [(Q1 & Q2 & Q3 & Q4 & Q5 & Q6 & Q7 & Q8 & Q9 & Q10 & Q11) Q].
  destruct c'. cbn in *. unfold set_stats. now subst.
Qed.

Lemma asks_twin E sites c : forall c1 c2,
  twin False c c1 -> foldM (perform E) c1 (asks_of sites) = Ok c2 -> twin False c c2.
Proof.
  induction sites as [|s sites IH]; intros c1 c2 T H; cbn [asks_of map foldM] in H.
  - now injection H as <-.
  - apply bind_ok in H as (c3 & P & H). apply (IH c3); auto. cbn [perform] in P.
    apply rmap_ok in P as ([v c4] & P & ->). cbn [snd].
    apply matches_quiet in P. destruct T as (s1 & b1 & -> & _).
    exists (c_stats c4), (c_badfp c4). split; [|tauto].
    now apply quiet_twin in P.
Qed.

Lemma twin_restarted c c' d : twin False c c' -> restarted c' d = restarted c d.
Proof. intros (s & b & -> & _). reflexivity. Qed.

(** What is restored from a data file, whatever the rules. *)
Lemma data_file_any E sites items data :
  Forall nonul items -> Forall nonul sites -> dataFile E sites items = Ok data ->
  exists c c', clientFromStrings E false items = Ok c /\ clientFromDAT data = Ok c' /\
    (forall url context dom v c1, matches E (restarted c client0) url context dom = Ok (v, c1) ->
       exists w c1', matches E c' url context dom = Ok (w, c1') /\ same_verdict v w) /\
    (forall url context dom v, findMatchingFilters E (restarted c client0) url context dom = Ok v ->
       exists w, findMatchingFilters E c' url context dom = Ok w /\ same_verdict v w) /\
    getParsingStats c' = cosmetic_dropped (getParsingStats c).
Proof.
  intros Hi Hs D. unfold dataFile in D. apply bind_ok in D as (c & P & D).
  apply bind_ok in D as (c2 & CS & D).
  change (clientFromStrings E false items = Ok c) in P.
  pose proof P as A. rewrite strings_after0 in A.
  assert (history (map (Parse false) items)) as H1.
  { apply Forall_forall. intros k I. apply in_map_iff in I as (t & <- & I).
    rewrite Forall_forall in Hi. now apply Hi. }
  assert (history (asks_of sites)) as H2.
  { apply Forall_forall. intros k I. apply in_map_iff in I as (t & <- & I).
    rewrite Forall_forall in Hs. now apply Hs. }
  set (all := map (Parse false) items ++ DetectBad :: asks_of sites).
  assert (after E all = Ok c2) as A2.
  { unfold all, after. rewrite foldM_app. unfold after in A. rewrite A. cbn [bind foldM perform].
    now rewrite <- checkSites_perform. }
  assert (history all) as H3.
  { apply Forall_app. split; auto. constructor; [exact I|exact H2]. }
  assert (twin False c c2) as TW.
  { revert A2. unfold all, after. rewrite foldM_app. unfold after in A. rewrite A.
    cbn [bind foldM perform]. apply asks_twin. apply twin_bad. }
  destruct (saved_again E all c2 true true [] client0 H3 A2) as (file & c' & S & R & Q1 & Q2 & Q3 & _).
  rewrite D in S. injection S as ->. rewrite app_nil_r in R.
  rewrite (twin_restarted c c2 client0 TW) in Q1, Q2.
  exists c, c'. split; auto. split; [unfold clientFromDAT; now rewrite R|]. split; auto. split; auto.
  rewrite Q3. destruct TW as (s & b & -> & _). reflexivity.
Qed.

Lemma data_file E sites items data :
  Forall nonul items -> Forall nonul sites ->
  all_storable (map (Parse false) items) ->
  dataFile E sites items = Ok data ->
  exists c c', clientFromStrings E false items = Ok c /\ clientFromDAT data = Ok c' /\
    (forall url context dom v c1, matches E c url context dom = Ok (v, c1) ->
       exists w c1', matches E c' url context dom = Ok (w, c1') /\ same_verdict v w) /\
    (forall url context dom v, findMatchingFilters E c url context dom = Ok v ->
       exists w, findMatchingFilters E c' url context dom = Ok w /\ same_verdict v w) /\
    getParsingStats c' = cosmetic_dropped (getParsingStats c).
Proof.
  intros Hi Hs St D. pose proof D as D0. unfold dataFile in D. apply bind_ok in D as (c & P & D).
  apply bind_ok in D as (c2 & CS & D).
  change (clientFromStrings E false items = Ok c) in P.
  assert (history (map (Parse false) items)) as H1.
  { apply Forall_forall. intros k I. apply in_map_iff in I as (t & <- & I).
    rewrite Forall_forall in Hi. now apply Hi. }
  assert (history (asks_of sites)) as H2.
  { apply Forall_forall. intros k I. apply in_map_iff in I as (t & <- & I).
    rewrite Forall_forall in Hs. now apply Hs. }
  pose proof P as A. rewrite strings_after0 in A.
  set (calls := map (Parse false) items) in *. set (all := calls ++ DetectBad :: asks_of sites).
  assert (after E all = Ok c2) as A2.
  { unfold all, after. rewrite foldM_app. unfold after in A. rewrite A. cbn [bind foldM perform].
    now rewrite <- checkSites_perform. }
  assert (history all) as H3.
  { apply Forall_app. split; auto. constructor; [exact I|exact H2]. }
  assert (all_storable all) as St2.
  { unfold all_storable, loaded_lines, all. rewrite loaded_from_app. cbn [loaded_from].
    rewrite loaded_asks. exact St. }
  assert (forall t, tagExists client0 t = tagExists c2 t) as T.
  { intros t. destruct (P_Hist.hist E all c2 H3 A2) as (rs & _ & _ & T).
    destruct (tagExists c2 t) eqn:X; auto. apply T in X as (a & b & X & _).
    assert (In (AddTag t) all) as J by (rewrite X; apply in_or_app; cbn; auto).
    unfold all, calls in J. apply in_app_iff in J as [J|[J|J]]; [|discriminate|];
      apply in_map_iff in J as (? & J & _); discriminate. }
  destruct (restored_decides E all c2 H3 A2 true true data client0 [] St2 D T) as (c' & R & Q).
  destruct (Q [] c2) as (c'' & C2 & Q1 & Q2); [constructor|reflexivity|].
  injection C2 as <-. rewrite app_nil_r in R.
  assert (twin False c c2) as TW.
  { revert A2. unfold all, after. rewrite foldM_app. unfold after in A. rewrite A.
    cbn [bind foldM perform]. apply asks_twin. apply twin_bad. }
  pose proof (hist_settled E calls c H1 A) as SE.
  destruct (data_file_any E sites items data Hi Hs D0) as (x & y & X & Y & _ & _ & N).
  rewrite P in X. injection X as <-. unfold clientFromDAT in Y. rewrite R in Y. injection Y as <-.
  exists c, c'. split; auto. split; [unfold clientFromDAT; now rewrite R|].
  split; [|split; [|exact N]].
  - intros url context dom v c1 M.
    destruct (twin_matches E False c c2 url context dom v c1 TW SE M) as (c3 & M2 & _).
    exact (Q1 _ _ _ _ _ M2).
  - intros url context dom v F. apply Q2. destruct TW as (s & b & -> & _). now rewrite find_any.
Qed.

(** ** Detection changes nothing else *)
Lemma twin_answers E same c c' : settled c -> twin same c c' -> same_answers E c c'.
Proof.
  intros ST T. split.
  - intros url context dom v. split; intros (c1 & M).
    + destruct (twin_matches E same c c' url context dom v c1 T ST M) as (c2 & M2 & _). eauto.
    + pose proof (twin_settled same c c' T ST) as ST'. apply twin_sym in T.
      destruct (twin_matches E same c' c url context dom v c1 T ST' M) as (c2 & M2 & _). eauto.
  - intros url context dom. destruct T as (s & b & -> & _). now rewrite find_any.
Qed.

Lemma detection_inert E a b :
  history (a ++ b) ->
  match after E (a ++ b), after E (a ++ DetectBad :: b) with
  | Ok c, Ok c' => c_stats c' = c_stats c /\ getParsingStats c' = getParsingStats c /\
                   same_answers E c c'
  | UB, UB => True
  | _, _ => False
  end.
Proof.
  intros Hc. pose proof Hc as X. apply Forall_app in X as [Ha Hb].
  assert (history ((a ++ [DetectBad]) ++ b)) as Hd.
  { rewrite <- app_assoc. apply Forall_app. split; auto. constructor; [exact I|auto]. }
  destruct (after E (a ++ b)) as [c|] eqn:A; destruct (after E (a ++ DetectBad :: b)) as [c'|] eqn:A'; auto.
  - pose proof (hist_settled E _ _ Hc A) as ST.
    unfold after in A, A'. rewrite foldM_app in A, A'. apply bind_ok in A as (c0 & A0 & A).
    rewrite A0 in A'. cbn [bind foldM perform] in A'.
    destruct (twin_continue E True a b c0 (enableBadFp E c0) c Hc A0) as (c1 & X & T); auto.
    { destruct (twin_bad E c0) as (s & b0 & X & _). exists (c_stats c0), (c_badfp (enableBadFp E c0)).
      split; auto. unfold enableBadFp. destruct (c_badfp c0) eqn:Y; [|reflexivity].
      rewrite Y. now rewrite <- Y, set_same. }
    rewrite X in A'. injection A' as <-. split; [|split].
    + destruct T as (s & b0 & -> & K). now rewrite <- K.
    + destruct T as (s & b0 & -> & K). reflexivity.
    + now apply (twin_answers E True).
  - unfold after in A, A'. rewrite foldM_app in A, A'. apply bind_ok in A as (c0 & A0 & A).
    rewrite A0 in A'. cbn [bind foldM perform] in A'.
    destruct (twin_continue E False a b c0 (enableBadFp E c0) c Hc A0 (twin_bad E c0) A) as (c1 & X & T).
    congruence.
  - unfold after in A, A'. rewrite foldM_app in A, A'. apply bind_ok in A' as (c0 & A0 & A').
    rewrite A0 in A. cbn [bind foldM perform] in A, A'.
    assert (after E (a ++ [DetectBad]) = Ok (enableBadFp E c0)) as A1.
    { rewrite after_snoc. unfold after. rewrite A0. reflexivity. }
    destruct (twin_continue E False (a ++ [DetectBad]) b (enableBadFp E c0) c0 c' Hd A1
                (twin_sym _ _ _ (twin_bad E c0)) A') as (c1 & X & T).
    congruence.
Qed.

Lemma matching_stats E calls c :
  history calls -> after E calls = Ok c ->
  exists fp efp bl ebl hs ehs,
    getMatchingStats c =
      [(B "numFalsePositives", fp); (B "numExceptionFalsePositives", efp);
       (B "numBloomFilterSaves", bl); (B "numExceptionBloomFilterSaves", ebl);
       (B "numHashSetSaves", hs); (B "numExceptionHashSetSaves", ehs)] /\
    tally E (no_rule_applied E) calls (N.to_nat (fp + bl)) /\
    tally E was_blocked calls (N.to_nat (efp + ebl)) /\
    hs = bl /\ (ebl <= ehs)%N.
Proof.
  intros Hc A. destruct (stat_tallies E calls c Hc A) as (T1 & T2 & T3 & T4).
  do 6 eexists. split; [reflexivity|]. auto.
Qed.

(** ** Restart differs *)
Lemma life_differs E t url context dom vb wb :
  (c <- after E [Parse false t] ;; rmap (fun x => v_block (fst x)) (matches E c (cstr url) context dom)) = Ok vb ->
  (c <- life E [Do (Parse false t); Restart false false [] client0] ;;
   rmap (fun x => v_block (fst x)) (matches E c (cstr url) context dom)) = Ok wb ->
  exists c v c1 c' w c1', after E [Parse false t] = Ok c /\
    life E [Do (Parse false t); Restart false false [] client0] = Ok c' /\
    matches E c (cstr url) context dom = Ok (v, c1) /\
    matches E c' (cstr url) context dom = Ok (w, c1') /\ v_block v = vb /\ v_block w = wb.
Proof.
  intros H1 H2. apply bind_ok in H1 as (c & A & H1). apply bind_ok in H2 as (c' & L & H2).
  apply rmap_ok in H1 as ([v c1] & M & ->). apply rmap_ok in H2 as ([w c1'] & M' & ->).
  exists c, v, c1, c', w, c1'. auto 10.
Qed.

(** ** The header of a client *)
Lemma header_parts l : headerText l = header_head ++ flat_map header_entry l ++ header_tail.
Proof. unfold headerText, header_head, header_tail. now rewrite <- !app_assoc. Qed.

Lemma app_mid {A} (p m m' q : list A) : p ++ m ++ q = p ++ m' ++ q -> m = m'.
Proof. intros H. apply app_inv_head in H. now apply app_inv_tail in H. Qed.

Lemma plain_piece x w y : plain_text (x ++ w ++ y) -> plain_text w.
Proof.
  intros (P1 & P2 & P3). rewrite !in_app_iff in P1, P2, P3. unfold plain_text. tauto.
Qed.

Lemma header_ok E calls c l :
  history calls -> after E calls = Ok c -> c_badfp c = Some l ->
  Forall plain_text (e_bads E) -> (forall url context dom, In (Ask url context dom) calls -> plain_text url) ->
  exists text, headerText l = header_head ++ text ++ header_tail /\ array_of l text.
Proof.
  intros Hc A L P Q. exists (flat_map header_entry l). split; [apply header_parts|].
  apply header_array. destruct (hist_bad E calls c Hc A) as [_ B]. destruct (B l L) as (_ & _ & K).
  apply Forall_forall. intros w I. rewrite Forall_forall in P.
  destruct (K w I) as [J|(u & x & d & J & _ & a & b & ->)]; [now apply P|].
  apply Q in J. now apply plain_piece in J.
Qed.

Lemma broken_entry w text : In quote w -> ~ In "\"%char w ->
  header_head ++ text ++ header_tail = headerText [w] -> ~ array_of [w] text.
Proof.
  intros I N H X. rewrite header_parts in H. apply app_mid in H. cbn [flat_map] in H.
  rewrite app_nil_r in H. inversion X as [|s ? ? t D Y]; subst. inversion Y; subst.
  unfold header_entry in H2. injection H2 as H2. rewrite ?app_nil_r in H2.
  apply app_inv_tail in H2. subst s. clear -D I N. revert I N.
  assert (forall s t, denotes s t -> ~ In "\"%char s -> ~ In quote s) as K.
  { induction 1 as [|c s t A1 A2 A3 D1 IH| | |]; intros N I; [destruct I|..];
      try (apply N; now left). destruct I as [->|I]; [easy|]. apply IH; auto. intros J. apply N. now right. }
  intros I N. now apply (K w w).
Qed.

Lemma data_differs E items url context dom vb wb :
  (c <- clientFromStrings E false items ;;
   rmap (fun x => v_block (fst x)) (matches E c (cstr url) context dom)) = Ok vb ->
  (d <- dataFile E [] items ;; c <- clientFromDAT d ;;
   rmap (fun x => v_block (fst x)) (matches E c (cstr url) context dom)) = Ok wb ->
  exists c v c1 d c' w c1', clientFromStrings E false items = Ok c /\
    dataFile E [] items = Ok d /\ clientFromDAT d = Ok c' /\
    matches E c (cstr url) context dom = Ok (v, c1) /\
    matches E c' (cstr url) context dom = Ok (w, c1') /\ v_block v = vb /\ v_block w = wb.
Proof.
  intros H1 H2. apply bind_ok in H1 as (c & A & H1). apply bind_ok in H2 as (d & D & H2).
  apply bind_ok in H2 as (c' & L & H2).
  apply rmap_ok in H1 as ([v c1] & M & ->). apply rmap_ok in H2 as ([w c1'] & M' & ->).
  exists c, v, c1, d, c', w, c1'. auto 10.
Qed.
