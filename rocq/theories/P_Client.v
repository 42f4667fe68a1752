(** What a client holds after its rules have been stored, and how it decides. *)
From Verif Require Import Base Flags Protocol Url Sets FilterM ParseM ClientM Spec SpecM
  P_Base P_Url P_Match P_Rule P_Parse P_List P_Shape P_Fp P_Line P_Line2 P_Fp2 P_Props1
  P_Props2 P_Opt P_Opt2 P_Set.

(** ** Contents of the sets *)
Definition in_hosts (exc : bool) (r : prule) : bool :=
  let '(f, reached, _) := r in
  reached && negb (is_cosmetic f) && has (f_type f) FTHostOnly &&
  Bool.eqb (has (f_type f) FTException) exc.

Definition hosts_in (exc : bool) (rs : list prule) : list filter :=
  map (fun r => fst (fst r)) (List.filter (in_hosts exc) rs).

Definition items (k : kind) (rs : list prule) : list bytes :=
  flat_map gate_items (rules_in k rs).

Definition fp_stored (E : env) (exc : bool) (r : prule) (fp : bytes) : Prop :=
  let '(f, reached, _) := r in
  reached = true /\ is_cosmetic f = false /\ has (f_type f) FTHostOnly = false /\
  has (f_type f) FTException = exc /\ getFingerprint E f = Ok (Some fp).

Definition gate_rep (E : env) (n : N) (s : hset bytes) (xs : list bytes) : Prop :=
  hs_rep (fun x => x) (e_hash E) s xs /\ length s = N.to_nat n.

Record st_good (E : env) (rs : list prule) (a : st) : Prop := mkGood {
  g_lists : forall k, tget (st_w a) k = rules_in k rs;
  g_host : hs_rep hkey (e_hash E) (x_host (fst (fst (fst a))))
             (map copyFilter (hosts_in false rs));
  g_ehost : hs_rep hkey (e_hash E) (x_ehost (fst (fst (fst a))))
             (map copyFilter (hosts_in true rs));
  g_bloom : forall r fp, In r rs -> fp_stored E false r fp ->
             bl_exists (e_hashes E) (x_bloom (fst (fst (fst a)))) fp = true;
  g_ebloom : forall r fp, In r rs -> fp_stored E true r fp ->
             bl_exists (e_hashes E) (x_ebloom (fst (fst (fst a)))) fp = true;
  g_nfd : gate_rep E 1000 (x_nfd (fst (fst (fst a)))) (items KNoFpDom rs);
  g_nfa : gate_rep E 100 (x_nfa (fst (fst (fst a)))) (items KNoFpAnti rs);
  g_nfdexc : gate_rep E 1000 (x_nfdexc (fst (fst (fst a)))) (items KNoFpDomExc rs);
  g_nfaexc : gate_rep E 100 (x_nfaexc (fst (fst (fst a)))) (items KNoFpAntiExc rs)
}.

Lemma rules_in_snoc k rs r :
  rules_in k (rs ++ [r]) = rules_in k rs ++ (if in_kind k r then [fst (fst r)] else []).
Proof.
  unfold rules_in. rewrite filter_app, map_app. cbn [List.filter].
  now destruct (in_kind k r).
Qed.

Lemma items_snoc k rs r :
  items k (rs ++ [r]) = items k rs ++ (if in_kind k r then gate_items (fst (fst r)) else []).
Proof.
  unfold items. rewrite rules_in_snoc, flat_map_app. f_equal.
  destruct (in_kind k r); auto. cbn. now rewrite app_nil_r.
Qed.

Lemma hosts_in_snoc e rs r :
  hosts_in e (rs ++ [r]) = hosts_in e rs ++ (if in_hosts e r then [fst (fst r)] else []).
Proof.
  unfold hosts_in. rewrite filter_app, map_app. cbn [List.filter].
  now destruct (in_hosts e r).
Qed.

Lemma gate_rep_fold E n s xs l :
  gate_rep E n s xs -> gate_rep E n (fold_left (gate_add E) l s) (xs ++ l).
Proof.
  intros [H L]. split; [now apply (hs_rep_fold (fun x => x) (e_hash E))|].
  rewrite <- L. clear. revert s. induction l as [|x l IH]; intros s; cbn; auto.
  rewrite IH. apply hs_add_length.
Qed.

Ltac snoc := rewrite ?rules_in_snoc, ?items_snoc, ?hosts_in_snoc, ?map_app.

Lemma st_good0 E : st_good E [] (st_of client0).
Proof.
  constructor.
  - intros k. now destruct k.
  - now apply hs_rep_new.
  - now apply hs_rep_new.
  - easy.
  - easy.
  - split; [now apply hs_rep_new|apply repeat_length].
  - split; [now apply hs_rep_new|apply repeat_length].
  - split; [now apply hs_rep_new|apply repeat_length].
  - split; [now apply hs_rep_new|apply repeat_length].
Qed.

(** The two ways one rule changes the sets. *)
Lemma ins_spec E f s :
  is_cosmetic f = true \/ (exists o, getFingerprint E f = Ok o) ->
  ins E f s =
  mkS (if negb (is_cosmetic f) && negb (has (f_type f) FTHostOnly) &&
          negb (has (f_type f) FTException)
       then match fpo E f with
            | Some fp => bl_add (e_hashes E) (x_bloom s) fp
            | None => x_bloom s
            end
       else x_bloom s)
      (if negb (is_cosmetic f) && negb (has (f_type f) FTHostOnly) &&
          has (f_type f) FTException
       then match fpo E f with
            | Some fp => bl_add (e_hashes E) (x_ebloom s) fp
            | None => x_ebloom s
            end
       else x_ebloom s)
      (if in_hosts false (f, true, CSkip)
       then hs_add hkey (e_hash E) (x_host s) (copyFilter f) else x_host s)
      (if in_hosts true (f, true, CSkip)
       then hs_add hkey (e_hash E) (x_ehost s) (copyFilter f) else x_ehost s)
      (x_nfd s) (x_nfa s) (x_nfdexc s) (x_nfaexc s).
Proof.
  intros H. unfold ins, insert2, in_hosts, fpo. destruct s as [s1 s2 s3 s4 s5 s6 s7 s8].
  cbn [x_bloom x_ebloom x_host x_ehost x_nfd x_nfa x_nfdexc x_nfaexc].
  destruct (is_cosmetic f); cbn [negb andb]; auto.
  destruct H as [[=]|[o ->]].
  destruct (has (f_type f) FTHostOnly), (has (f_type f) FTException);
    cbn [negb andb bind Bool.eqb]; auto; destruct o; reflexivity.
Qed.

Definition prule_fine (E : env) (r : prule) : Prop :=
  let '(f, reached, k) := r in
  reached = true -> is_cosmetic f = true \/ exists o, getFingerprint E f = Ok o.

Lemma store_good E rs a r :
  prule_fine E r -> st_good E rs a -> st_good E (rs ++ [r]) (store E a r).
Proof.
  intros PF G. destruct a as [[[s w] ha] hae], r as [[f b] k].
  (* the sets after insertion *)
  assert (exists s1, (if b then ins E f s else s) = s1 /\
    st_good E rs (s, w, ha, hae) /\
    hs_rep hkey (e_hash E) (x_host s1) (map copyFilter (hosts_in false (rs ++ [(f, b, k)]))) /\
    hs_rep hkey (e_hash E) (x_ehost s1) (map copyFilter (hosts_in true (rs ++ [(f, b, k)]))) /\
    (forall r fp, In r (rs ++ [(f, b, k)]) -> fp_stored E false r fp ->
       bl_exists (e_hashes E) (x_bloom s1) fp = true) /\
    (forall r fp, In r (rs ++ [(f, b, k)]) -> fp_stored E true r fp ->
       bl_exists (e_hashes E) (x_ebloom s1) fp = true) /\
    x_nfd s1 = x_nfd s /\ x_nfa s1 = x_nfa s /\ x_nfdexc s1 = x_nfdexc s /\
    x_nfaexc s1 = x_nfaexc s) as (s1 & Es & _ & H1 & H2 & B1 & B2 & N1 & N2 & N3 & N4).
  { pose proof G as [G1 G2 G3 G4 G5 G6 G7 G8 G9]. cbn [fst snd] in *.
    eexists. split; [reflexivity|]. split; [exact G|]. snoc.
    destruct b.
    2:{ cbn [in_hosts andb map app]. rewrite !app_nil_r.
        split; auto. split; auto. split; [|split; [|auto]].
        - intros r fp I. apply in_app_or in I as [I|[<-|[]]]; eauto. now intros (C & _).
        - intros r fp I. apply in_app_or in I as [I|[<-|[]]]; eauto. now intros (C & _). }
    rewrite ins_spec by (now apply PF).
    cbn [x_bloom x_ebloom x_host x_ehost x_nfd x_nfa x_nfdexc x_nfaexc].
    change (in_hosts false (f, true, k)) with (in_hosts false (f, true, CSkip)).
    change (in_hosts true (f, true, k)) with (in_hosts true (f, true, CSkip)).
    split; [|split; [|split; [|split; [|auto]]]].
    - destruct (in_hosts false _); cbn [map fst]; rewrite ?app_nil_r; auto.
      now apply hs_rep_add.
    - destruct (in_hosts true _); cbn [map fst]; rewrite ?app_nil_r; auto.
      now apply hs_rep_add.
    - intros r fp I S1. apply in_app_or in I as [I|[<-|[]]].
      + pose proof (G4 _ _ I S1) as X. destruct (_ && _); auto.
        destruct (fpo E f); auto. now apply bl_add_mono.
      + destruct S1 as (_ & C1 & C2 & C3 & C4). rewrite C1, C2, C3. cbn [negb andb].
        unfold fpo. rewrite C4. apply bl_add_same.
    - intros r fp I S1. apply in_app_or in I as [I|[<-|[]]].
      + pose proof (G5 _ _ I S1) as X. destruct (_ && _); auto.
        destruct (fpo E f); auto. now apply bl_add_mono.
      + destruct S1 as (_ & C1 & C2 & C3 & C4). rewrite C1, C2, C3. cbn [negb andb].
        unfold fpo. rewrite C4. apply bl_add_same. }
  assert (forall j, tget (st_w (store E (s, w, ha, hae) (f, b, k))) j =
                    rules_in j (rs ++ [(f, b, k)])) as GL.
  { intros j. rewrite store_w, rules_in_snoc. f_equal. apply (g_lists _ _ _ G). }
  destruct G as [_ _ _ _ _ G6 G7 G8 G9]. cbn [fst snd] in G6, G7, G8, G9.
  rewrite <- N1 in G6. rewrite <- N2 in G7. rewrite <- N3 in G8. rewrite <- N4 in G9.
  assert (forall j xs n g, gate_rep E n g (items j rs) ->
    xs = items j (rs ++ [(f, b, k)]) ->
    gate_rep E n (if in_kind j (f, b, k) then fold_left (gate_add E) (gate_items f) g
                  else g) xs) as GA.
  { intros j xs n g H ->. rewrite items_snoc. destruct (in_kind j _); cbn [fst].
    - now apply gate_rep_fold.
    - now rewrite app_nil_r. }
  unfold store in *. rewrite Es in *. 
  destruct k as [|[]|k]; constructor; cbn [fst snd]; auto;
    try (destruct k; assumption);
    try (destruct k; apply (GA _ _ _ _ G6 eq_refl));
    try (destruct k; apply (GA _ _ _ _ G7 eq_refl));
    try (destruct k; apply (GA _ _ _ _ G8 eq_refl));
    try (destruct k; apply (GA _ _ _ _ G9 eq_refl)).
  all: first [apply (GA _ _ _ _ G6 eq_refl)|apply (GA _ _ _ _ G7 eq_refl)
             |apply (GA _ _ _ _ G8 eq_refl)|apply (GA _ _ _ _ G9 eq_refl)].
Qed.

(** ** A client and the rules loaded into it *)
Definition prule_ok (E : env) (r : prule) : Prop :=
  let '(f, b, k) := r in rule_ok f b /\ classify E f = Ok k.

Definition fresh (c : client) : Prop :=
  c_lists c = tall [] /\ c_bloom c = None /\ c_ebloom c = None /\ c_host c = None /\
  c_ehost c = None /\ c_nfd c = None /\ c_nfa c = None /\ c_nfdexc c = None /\
  c_nfaexc c = None /\ c_numHA c = 0 /\ c_numHAE c = 0.

Definition rep (E : env) (c : client) (rs : list prule) : Prop :=
  Forall (prule_ok E) rs /\
  ((rs = [] /\ fresh c) \/ exists a, st_good E rs a /\ c = with_st c a).

Lemma rule_of_ok E pres l r :
  line_text l -> rule_of E pres l = Ok r -> prule_ok E r /\ prule_fine E r.
Proof.
  intros Hl H. unfold rule_of in H. pose proof (pline_ok pres l Hl) as RO.
  destruct (pline pres l) as [f b]. cbn [fst snd] in RO.
  apply bind_ok in H as (o & H1 & H). apply bind_ok in H as (k & H2 & H).
  destruct (is_gate k && _); [easy|]. assert (r = (f, b, k)) as -> by congruence.
  split; [split; auto|]. intros ->. destruct (is_cosmetic f); auto. right. eauto.
Qed.

Lemma fold_good E rs0 a rs :
  Forall (prule_fine E) rs -> st_good E rs0 a ->
  st_good E (rs0 ++ rs) (fold_left (store E) rs a).
Proof.
  revert rs0 a; induction rs as [|r rs IH]; intros rs0 a F G; cbn [fold_left].
  - now rewrite app_nil_r.
  - inversion F; subst. rewrite (app_assoc rs0 [r] rs : rs0 ++ r :: rs = _).
    apply IH; auto. now apply store_good.
Qed.

Lemma st_of_with_st c a : st_of (with_st c a) = a.
Proof. destruct a as [[[[] w] ha] hae]. reflexivity. Qed.

Lemma st_of_fresh c : fresh c -> st_of c = st_of client0.
Proof.
  intros (H1 & H2 & H3 & H4 & H5 & H6 & H7 & H8 & H9 & H10 & H11).
  unfold st_of, initSets. now rewrite H1, H2, H3, H4, H5, H6, H7, H8, H9, H10, H11.
Qed.

Lemma rep_st_of E c rs : rep E c rs -> st_good E rs (st_of c).
Proof.
  intros (_ & [[-> H]|(a & G & ->)]).
  - rewrite st_of_fresh by auto. apply st_good0.
  - now rewrite st_of_with_st.
Qed.

Lemma rep_install E c rs rs' :
  rep E c rs -> Forall (prule_ok E) rs' -> Forall (prule_fine E) rs' ->
  rep E (install E rs' c) (rs ++ rs').
Proof.
  intros R F1 F2. split.
  - apply Forall_app. split; auto. apply R.
  - right. exists (fold_left (store E) rs' (st_of c)). split.
    + apply fold_good; auto. now apply rep_st_of.
    + unfold install. destruct (fold_left _ _ _) as [[[[] ?] ?] ?]. reflexivity.
Qed.

Lemma rep_parse E pres t c c' rs :
  nonul t -> rep E c rs -> parse E pres (cstr t) c = Ok c' ->
  exists rs', mapM (rule_of E pres) (text_lines t) = Ok rs' /\ rep E c' (rs ++ rs').
Proof.
  intros Ht R H. rewrite parse_normal in H by auto. apply rmap_ok in H as (rs' & H1 & ->).
  exists rs'. split; auto.
  assert (Forall (fun r => prule_ok E r /\ prule_fine E r) rs') as F.
  { apply mapM_ok in H1. clear -H1 Ht.
    assert (forall l, In l (text_lines t) -> line_text l) as L
      by (intros l; now apply text_lines_line).
    induction H1 as [|l r ls rs' H1 H2 IH]; constructor.
    - apply (rule_of_ok E pres l); auto. apply L. now left.
    - apply IH. intros; apply L. now right. }
  apply rep_install; auto.
  - eapply Forall_impl; [|exact F]. intros r K; apply K.
  - eapply Forall_impl; [|exact F]. intros r K; apply K.
Qed.

Lemma rep_clear E c : rep E (clear c) [].
Proof. split; [constructor|]. left. now repeat split. Qed.

Lemma rep_client0 E : rep E client0 [].
Proof. split; [constructor|]. left. now repeat split. Qed.

(** Only rules and sets matter. *)
Definition same_rules (c c' : client) : Prop :=
  c_lists c = c_lists c' /\ c_numHA c = c_numHA c' /\ c_numHAE c = c_numHAE c' /\
  c_bloom c = c_bloom c' /\ c_ebloom c = c_ebloom c' /\ c_host c = c_host c' /\
  c_ehost c = c_ehost c' /\ c_nfd c = c_nfd c' /\ c_nfa c = c_nfa c' /\
  c_nfdexc c = c_nfdexc c' /\ c_nfaexc c = c_nfaexc c'.

Lemma rep_same E c c' rs : same_rules c c' -> rep E c rs -> rep E c' rs.
Proof.
  intros S1 (F & R). split; auto. destruct c as [c1 c2 c3 c4 c5 c6 c7 c8 c9 c10 c11 c12 c13 c14].
  destruct c' as [d1 d2 d3 d4 d5 d6 d7 d8 d9 d10 d11 d12 d13 d14].
  unfold same_rules in S1. cbn in S1.
  destruct S1 as (-> & -> & -> & -> & -> & -> & -> & -> & -> & -> & ->).
  destruct R as [[-> H]|(a & G & H)]; [left; split; auto|right; exists a; split; auto].
  destruct a as [[[s w] ha] hae]. unfold with_st in *. cbn in *. congruence.
Qed.

Lemma rep_wf E c rs r : rep E c rs -> In r rs -> wf_rule (fst (fst r)).
Proof.
  intros (F & _) I. rewrite Forall_forall in F. apply F in I.
  destruct r as [[f b] k]. exists b. apply I.
Qed.

Lemma in_rules_in k rs f :
  In f (rules_in k rs) <-> exists b, In (f, b, CList k) rs.
Proof.
  unfold rules_in. rewrite in_map_iff. split.
  - intros ([[g b] c] & <- & I). apply filter_In in I as [I K].
    unfold in_kind in K. cbn [snd fst] in *. destruct c as [| |k']; try easy.
    destruct (kind_eq_dec k' k) as [->|]; [|easy]. eauto.
  - intros (b & I). exists (f, b, CList k). split; auto. apply filter_In. split; auto.
    unfold in_kind. cbn. now destruct (kind_eq_dec k k).
Qed.

Lemma in_hosts_in e rs f :
  In f (hosts_in e rs) <-> exists k, In (f, true, k) rs /\ in_hosts e (f, true, k) = true.
Proof.
  unfold hosts_in. rewrite in_map_iff. split.
  - intros ([[g b] c] & <- & I). apply filter_In in I as [I K]. cbn [fst].
    assert (b = true) as -> by (destruct b; auto). eauto.
  - intros (k & I & K). exists (f, true, k). split; auto. apply filter_In. auto.
Qed.

(** ** One rule against one request *)
Definition ctx_of (url : bytes) (context : N) (dom : option bytes) : N :=
  party_context context dom (hostOf url).

Definition fm (E : env) (f : filter) (url : bytes) (context : N) (dom : option bytes) : res bool :=
  filter_matches E f (cstr url) (length url) (ctx_of url context dom) dom None [].

Definition fires (E : env) (c : client) (url : bytes) (context : N) (dom : option bytes)
    (f : filter) : Prop :=
  fm E f url context dom = Ok true /\ tag_ok c f = true.

Lemma hasMatching_spec E c fs url context dom bf host o :
  nonul url -> (forall f, In f fs -> wf_rule f) ->
  (forall b, bf = Some b -> covers (e_hash2 E) b url) ->
  host = [] \/ host = hostOf url ->
  hasMatchingFilters E c fs (cstr url) (length url) (ctx_of url context dom) dom bf host = Ok o ->
  match o with
  | Some f => In f fs /\ fires E c url context dom f
  | None => forall f, In f fs -> ~ fires E c url context dom f
  end.
Proof.
  intros Hu W C Hh. induction fs as [|f fs IH]; cbn [hasMatchingFilters]; intros H.
  - injection H as <-. intros f [].
  - apply bind_ok in H as (m & M & H).
    assert (fm E f url context dom = Ok true <-> m = true) as FM.
    { unfold fm. rewrite <- (filter_matches_host E f url _ _ _ None host) by auto.
      destruct bf as [b|].
      - split.
        + intros X. apply (filter_matches_bloom E f url _ _ b) in X; auto; [congruence|].
          intros d t Hd. apply line_text_nonul.
          eapply wf_nonul in Hd; [apply Hd|]. apply W. now left.
        + intros ->. now apply filter_matches_bloom_true in M.
      - rewrite M. split; congruence. }
    destruct m; cbn [andb] in H.
    + destruct (tag_ok c f) eqn:T.
      * injection H as <-. split; [now left|]. split; auto. now apply FM.
      * apply IH in H; [|intros; apply W; now right].
        destruct o as [g|].
        -- split; [right|]; apply H.
        -- intros g [<-|I]; auto. intros [_ X]. congruence.
    + apply IH in H; [|intros; apply W; now right].
      destruct o as [g|].
      * split; [right|]; apply H.
      * intros g [<-|I]; auto. intros [X _]. apply FM in X. discriminate.
Qed.

(** *** The copies kept in the hash sets *)
Lemma strcmp_ext p q x y b : strcmp_eq p q = Ok b -> strcmp_eq (p ++ x) (q ++ y) = Ok b.
Proof.
  revert q; induction p as [|a p IH]; intros [|c q]; cbn; try easy.
  destruct (ceq a c); auto. destruct (ceq a NUL); auto.
Qed.

Lemma strncmp_ext n p q x y b :
  strncmp_eq p q n = Ok b -> strncmp_eq (p ++ x) (q ++ y) n = Ok b.
Proof.
  revert p q; induction n as [|n IH]; intros p q.
  - destruct p, q, x, y; auto.
  - destruct p as [|a p], q as [|c q]; cbn [app strncmp_eq]; try easy.
    destruct (ceq a c); auto. destruct (ceq a NUL); auto.
Qed.

Lemma wild_ext hs bf parts input n i x b :
  wild hs bf parts [] input n i = Ok b -> wild hs bf parts x input n i = Ok b.
Proof.
  revert i; induction parts as [|p parts IH]; intros i; auto. cbn [wild].
  destruct p as [|c p], parts as [|p' parts]; auto; cbn [deref bind]; try easy.
  - cbn [negb]. destruct (part_pairs_ok _ _ _); auto. cbn [negb].
    destruct (indexOfFilter _ _ _ _) as [[j|]|]; auto. cbn [bind].
    destruct (rd _ _); auto. cbn [bind]. destruct (ceq _ _); auto.
  - cbn [negb]. destruct (part_pairs_ok _ _ _); auto. cbn [negb].
    destruct (indexOfFilter _ _ _ _) as [[j|]|]; auto. cbn [bind].
    destruct (rd _ _); auto. cbn [bind]. destruct (ceq _ _); auto.
Qed.

Lemma copy_match E f input n context dom bf host b :
  filter_matches E (copyFilter f) input n context dom bf host = Ok b ->
  filter_matches E f input n context dom bf host = Ok b.
Proof.
  unfold filter_matches. unfold copyFilter at 1.
  change (matchesOptions (mkF _ _ _ _ _ _ _ _) context dom)
    with (matchesOptions f context dom).
  destruct (negb _); auto.
  cbn [copyFilter f_data f_type f_host]. destruct (f_data f) as [[d t]|]; auto.
  destruct (has (f_type f) FTRegex); auto.
  rewrite app_nil_r.
  destruct (_ && _).
  { intros H. apply (strcmp_ext _ _ t []) in H. now rewrite app_nil_r in H. }
  destruct (has (f_type f) FTRightAnchored).
  { destruct (n <? length d); auto. intros H. apply (strcmp_ext _ _ [] t) in H.
    now rewrite app_nil_r in H. }
  destruct (has (f_type f) FTLeftAnchored).
  { intros H. apply (strncmp_ext _ _ _ t []) in H. now rewrite app_nil_r in H. }
  intros H. apply bind_ok in H as (go & G & H). rewrite (bind_Ok_eq _ _ _ G).
  destruct (negb go); auto. now apply wild_ext.
Qed.

Definition pick (s : bytes) (hs : list filter) : option filter :=
  find (fun f => beq (hkey f) s) hs.

Lemma pick_copy s hs :
  find (fun y => beq (hkey y) s) (map copyFilter hs) = option_map copyFilter (pick s hs).
Proof.
  induction hs as [|f hs IH]; auto. cbn [map find pick].
  change (hkey (copyFilter f)) with (hkey f). destruct (beq _ _); auto.
Qed.

Lemma probe_spec E c s hs k url context dom o :
  hs_rep hkey (e_hash E) s (map copyFilter hs) ->
  host_probe E c s k (cstr url) (length url) (ctx_of url context dom) dom = Ok o ->
  match o with
  | Some g => exists f, pick k hs = Some f /\ fires E c url context dom f /\ g = copyFilter f
  | None => forall f, pick k hs = Some f -> ~ fires E c url context dom f
  end.
Proof.
  intros (_ & F & _). unfold host_probe. rewrite F, pick_copy.
  destruct (pick k hs) as [f|]; cbn [option_map]; intros H.
  2:{ injection H as <-. easy. }
  apply bind_ok in H as (m & M & H). apply copy_match in M.
  change (tag_ok c (copyFilter f)) with (tag_ok c f) in H.
  destruct m, (tag_ok c f) eqn:T; cbn [andb] in H; injection H as <-.
  - exists f. split; auto. split; auto. split; auto.
  - intros f' [= <-] [_ X]. congruence.
  - intros f' [= <-] [X _]. unfold fm in X. congruence.
  - intros f' [= <-] [X _]. unfold fm in X. congruence.
Qed.

Lemma host_walk_spec E c s hs h k url context dom o :
  hs_rep hkey (e_hash E) s (map copyFilter hs) -> k <= length h ->
  host_walk E c s h k (cstr url) (length url) (ctx_of url context dom) dom = Ok o ->
  match o with
  | Some g => exists x f, walked h k x /\ pick x hs = Some f /\
                          fires E c url context dom f /\ g = copyFilter f
  | None => forall x f, walked h k x -> pick x hs = Some f ->
                        ~ fires E c url context dom f
  end.
Proof.
  intros R. revert o. induction k as [|k IH]; intros o L; cbn [host_walk]; intros H.
  - apply (probe_spec E c s hs) in H; auto. destruct o as [g|].
    + destruct H as (f & H1 & H2 & H3). exists h, f. split; auto. now left.
    + intros x f [->|(j & J & _)] P; auto. lia.
  - apply bind_ok in H as (r & H1 & H).
    destruct (nth_error h k) as [c0|] eqn:N.
    2:{ apply nth_error_None in N. lia. }
    rewrite (nth_error_nth h k NUL N) in H1.
    destruct (ceq c0 "."%char) eqn:C0.
    + apply ceq_eq in C0. rewrite C0 in N. apply (probe_spec E c s hs) in H1; auto. destruct r as [g|].
      * injection H as <-. destruct H1 as (f & P1 & P2 & P3).
        exists (skipn (S k) h), f. split; auto. right. eauto.
      * apply IH in H; [|lia]. destruct o as [g|].
        -- destruct H as (x & f & [->|(j & J & Jx)] & Hx).
           ++ exists h, f. split; auto. now left.
           ++ exists x, f. split; auto. right. exists j. split; [lia|auto].
        -- intros x f [->|(j & J1 & J2 & ->)] P.
           ++ apply (H h f); auto. now left.
           ++ destruct (Nat.eq_dec j k) as [->|]; auto. apply (H (skipn (S j) h) f); auto.
              right. exists j. split; [lia|auto].
    + injection H1 as <-. apply IH in H; [|lia]. destruct o as [g|].
      * destruct H as (x & f & [->|(j & J & Jx)] & Hx).
        -- exists h, f. split; auto. now left.
        -- exists x, f. split; auto. right. exists j. split; [lia|auto].
      * intros x f [->|(j & J1 & J2 & ->)] P.
        -- apply (H h f); auto. now left.
        -- destruct (Nat.eq_dec j k) as [->|].
           { assert (c0 = "."%char) as -> by congruence. discriminate C0. }
           apply (H (skipn (S j) h) f); auto. right. exists j. split; [lia|auto].
Qed.

Lemma hostLookup_spec E c s hs h url context dom r :
  hs_rep hkey (e_hash E) s (map copyFilter hs) ->
  hostLookup E c (Some s) h (cstr url) (length url) (ctx_of url context dom) dom = Ok r ->
  match r with
  | HNoSet => False
  | HHit g => exists x f, probed h x /\ pick x hs = Some f /\
                          fires E c url context dom f /\ g = copyFilter f
  | HMiss => forall x f, probed h x -> pick x hs = Some f ->
                         ~ fires E c url context dom f
  end.
Proof.
  intros R H. unfold hostLookup in H. apply bind_ok in H as (o & H1 & H).
  apply (host_walk_spec E c s hs) in H1; auto.
  2:{ destruct (skip_tld_spec h (length h) (Nat.le_refl _)) as [K|K]; lia. }
  injection H as <-. destruct o as [g|].
  - destruct H1 as (x & f & X & P). exists x, f. split; auto. now apply walked_probed.
  - intros x f X. apply H1. now apply walked_probed.
Qed.
