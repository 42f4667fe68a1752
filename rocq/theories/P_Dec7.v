(** preserveRules: erasing the kept rule texts commutes with everything. *)
From Verif Require Import Base Flags Protocol Url Sets FilterM ParseM ClientM Spec SpecM
  P_Base P_Protocol P_Url P_Match P_Rule P_Parse P_List P_Shape P_Fp P_Line P_Line2
  P_Line3 P_Line4 P_Line5 P_Fp2 P_Match2 P_Props1 P_Props2 P_Props3 P_Opt P_Opt2 SpecC
  P_Set P_Client P_Decide P_Hist P_Dec2 P_Dec3 P_Dec4 P_Dec5 P_Dec6.

Definition bare (f : filter) : filter := set_rule f None.
Definition bareH (s : hset filter) : hset filter := map (map bare) s.
Definition bareT (t : tab (list filter)) : tab (list filter) :=
  mkTab (map bare (t_filters t)) (map bare (t_cosmetic t)) (map bare (t_html t))
        (map bare (t_exc t)) (map bare (t_nf t)) (map bare (t_nfexc t)) (map bare (t_nfd t))
        (map bare (t_nfa t)) (map bare (t_nfdexc t)) (map bare (t_nfaexc t)).
Definition bareS (s : sets) : sets :=
  mkS (x_bloom s) (x_ebloom s) (bareH (x_host s)) (bareH (x_ehost s))
      (x_nfd s) (x_nfa s) (x_nfdexc s) (x_nfaexc s).
Definition bareC (c : client) : client :=
  mkC (bareT (c_lists c)) (c_numHA c) (c_numHAE c) (c_bloom c) (c_ebloom c)
      (option_map bareH (c_host c)) (option_map bareH (c_ehost c))
      (c_nfd c) (c_nfa c) (c_nfdexc c) (c_nfaexc c) (c_badfp c) (c_stats c) (c_tags c).
Definition bareR (r : prule) : prule := (bare (fst (fst r)), snd (fst r), snd r).
Definition bareA (a : st) : st := let '(s, w, ha, hae) := a in (bareS s, bareT w, ha, hae).
Definition bareV (v : verdict) : verdict :=
  mkV (v_block v) (option_map bare (v_filter v)) (option_map bare (v_exc v)).

Lemma bareT_get t k : tget (bareT t) k = map bare (tget t k).
Proof. now destruct k. Qed.

Lemma bareT_add t k f :
  bareT (tset t k (tget t k ++ [f])) = tset (bareT t) k (tget (bareT t) k ++ [bare f]).
Proof. destruct t. unfold bareT. destruct k; cbn; now rewrite map_app. Qed.

Lemma upd_bare (s : hset filter) i f g :
  (forall b, map bare (f b) = g (map bare b)) ->
  bareH (upd s i f) = upd (bareH s) i g.
Proof.
  intros H. revert i. induction s as [|y l IH]; intros [|i]; cbn; auto.
  - unfold bareH. now rewrite H.
  - unfold bareH in *. now rewrite IH.
Qed.

Lemma hs_index_bare hash s k : hs_index hash (bareH s) k = hs_index hash s k.
Proof. unfold hs_index, bareH. now rewrite map_length. Qed.

Lemma bareH_add hash s f :
  bareH (hs_add hkey hash s f) = hs_add hkey hash (bareH s) (bare f).
Proof.
  unfold hs_add. rewrite hs_index_bare. apply upd_bare. intros b.
  change (hkey (bare f)) with (hkey f).
  assert (existsb (fun y => beq (hkey y) (hkey f)) (map bare b) =
          existsb (fun y => beq (hkey y) (hkey f)) b) as ->.
  { induction b as [|x b IH]; auto. cbn [map existsb]. now rewrite IH. }
  destruct (existsb _ b); auto. now rewrite map_app.
Qed.

Lemma bareH_find hash s k :
  hs_find hkey hash (bareH s) k = option_map bare (hs_find hkey hash s k).
Proof.
  unfold hs_find. rewrite hs_index_bare. unfold bareH.
  change (@nil filter) with (map bare []) at 1. rewrite map_nth.
  induction (nth (hs_index hash s k) s []) as [|x b IH]; auto. cbn [map find].
  change (hkey (bare x)) with (hkey x). destruct (beq (hkey x) k); auto.
Qed.

Lemma bareH_new n : bareH (hs_new n) = hs_new n.
Proof.
  unfold bareH, hs_new. induction (N.to_nat n) as [|m IH]; auto. cbn. now rewrite IH.
Qed.

Lemma getFingerprint_bare E f : getFingerprint E (bare f) = getFingerprint E f.
Proof. reflexivity. Qed.

Lemma ins_bare E f s : bareS (ins E f s) = ins E (bare f) (bareS s).
Proof.
  unfold ins, insert2. change (is_cosmetic (bare f)) with (is_cosmetic f).
  change (f_type (bare f)) with (f_type f). rewrite getFingerprint_bare.
  destruct (is_cosmetic f); auto.
  destruct (has (f_type f) FTException && has (f_type f) FTHostOnly).
  { unfold bareS. cbn [x_bloom x_ebloom x_host x_ehost x_nfd x_nfa x_nfdexc x_nfaexc].
    f_equal. exact (bareH_add (e_hash E) (x_ehost s) (copyFilter f)). }
  destruct (has (f_type f) FTHostOnly).
  { unfold bareS. cbn [x_bloom x_ebloom x_host x_ehost x_nfd x_nfa x_nfdexc x_nfaexc].
    f_equal. exact (bareH_add (e_hash E) (x_host s) (copyFilter f)). }
  destruct (getFingerprint E f) as [[fp|]|]; cbn [bind]; auto.
  destruct (has (f_type f) FTException); auto.
Qed.

Lemma gate_bare E f k s : bareS (gate E f k s) = gate E (bare f) k (bareS s).
Proof. unfold gate. change (gate_items (bare f)) with (gate_items f). destruct k; reflexivity. Qed.

Lemma store_bare E a r : bareA (store E a r) = store E (bareA a) (bareR r).
Proof.
  destruct a as [[[s w] ha] hae], r as [[f b] k]. unfold bareR, store, bareA. cbn [fst snd].
  assert (bareS (if b then ins E f s else s) = if b then ins E (bare f) (bareS s) else bareS s) as K.
  { destruct b; auto. apply ins_bare. }
  rewrite <- K. destruct k as [|[]|k]; auto.
  now rewrite gate_bare, bareT_add.
Qed.

Lemma fold_bare E rs a :
  bareA (fold_left (store E) rs a) = fold_left (store E) (map bareR rs) (bareA a).
Proof.
  revert a. induction rs as [|r rs IH]; intros a; auto. cbn [fold_left map].
  now rewrite IH, store_bare.
Qed.

Lemma st_of_bare c : bareA (st_of c) = st_of (bareC c).
Proof.
  unfold st_of, bareA, initSets, bareS, bareC.
  cbn [c_lists c_numHA c_numHAE c_bloom c_ebloom c_host c_ehost c_nfd c_nfa c_nfdexc c_nfaexc
       x_bloom x_ebloom x_host x_ehost x_nfd x_nfa x_nfdexc x_nfaexc].
  destruct (c_host c), (c_ehost c); cbn [odef option_map]; rewrite ?bareH_new; reflexivity.
Qed.

Lemma with_st_bare c a : bareC (with_st c a) = with_st (bareC c) (bareA a).
Proof. destruct a as [[[s w] ha] hae]. reflexivity. Qed.

Lemma install_bare E rs c : bareC (install E rs c) = install E (map bareR rs) (bareC c).
Proof. unfold install. now rewrite with_st_bare, fold_bare, st_of_bare. Qed.

Lemma parse_bare E p p' t c c' :
  nonul t -> bareC c = bareC c' ->
  res_rel (fun x y => bareC x = bareC y) (parse E p (cstr t) c) (parse E p' (cstr t) c').
Proof.
  intros Ht H. rewrite !parse_normal by auto.
  assert (forall q, res_rel (fun rs rs' => map bareR rs = map bareR rs')
    (mapM (rule_of E q) (text_lines t)) (mapM (rule_of E false) (text_lines t))) as K.
  { intros q. destruct (mapM (rule_of E q) (text_lines t)) as [rs|] eqn:M.
    - destruct (mapM_pres E q _ _ (fun l => text_lines_line t l Ht) M) as (rs' & -> & F).
      cbn. clear M. induction F as [|r r' rs rs' (S1 & S2 & S3) F IH]; auto.
      cbn [map]. rewrite IH. f_equal. unfold bareR. unfold same_rule in S1.
      unfold bare. rewrite S1, S2, S3. reflexivity.
    - apply mapM_UB in M as (l & I & M).
      pose proof (rule_of_pres E q l (text_lines_line t l Ht I)) as S. rewrite M in S.
      destruct (rule_of E false l) eqn:R; [easy|]. now rewrite (mapM_UB_in _ _ l I R). }
  pose proof (K p) as K1. pose proof (K p') as K2.
  destruct (mapM (rule_of E p) (text_lines t)) as [rs|], (mapM (rule_of E p') (text_lines t)) as [rs'|],
           (mapM (rule_of E false) (text_lines t)) as [rs0|]; cbn in *; try easy.
  rewrite !install_bare. congruence.
Qed.

(** *** Queries *)
Lemma hasMatching_bare E c fs input n context dom bf host :
  hasMatchingFilters E (bareC c) (map bare fs) input n context dom bf host =
  rmap (option_map bare) (hasMatchingFilters E c fs input n context dom bf host).
Proof.
  induction fs as [|f fs IH]; [reflexivity|]. cbn [map hasMatchingFilters].
  change (filter_matches E (bare f) input n context dom bf host)
    with (filter_matches E f input n context dom bf host).
  destruct (filter_matches E f input n context dom bf host) as [m|]; [|reflexivity]. cbn [bind].
  change (tag_ok (bareC c) (bare f)) with (tag_ok c f).
  destruct (m && tag_ok c f); auto.
Qed.

Lemma scan_bare E c k q bf :
  scan E (bareC c) k q bf = rmap (option_map bare) (scan E c k q bf).
Proof. unfold scan. cbn [bareC c_lists]. rewrite bareT_get. apply hasMatching_bare. Qed.

Lemma probe_bare E c s h input n context dom :
  host_probe E (bareC c) (bareH s) h input n context dom =
  rmap (option_map bare) (host_probe E c s h input n context dom).
Proof.
  unfold host_probe. rewrite bareH_find. destruct (hs_find _ _ s h) as [f|]; [|reflexivity].
  cbn [option_map].
  change (filter_matches E (bare f) input n context dom None [])
    with (filter_matches E f input n context dom None []).
  destruct (filter_matches E f input n context dom None []) as [m|]; [|reflexivity]. cbn [bind].
  change (tag_ok (bareC c) (bare f)) with (tag_ok c f).
  destruct (m && tag_ok c f); auto.
Qed.

Lemma walk_bare E c s h k input n context dom :
  host_walk E (bareC c) (bareH s) h k input n context dom =
  rmap (option_map bare) (host_walk E c s h k input n context dom).
Proof.
  induction k as [|k IH]; cbn [host_walk].
  - apply probe_bare.
  - rewrite IH, probe_bare. destruct (ceq (nth k h NUL) ".").
    + destruct (host_probe E c s (skipn (S k) h) input n context dom) as [[f|]|]; reflexivity.
    + reflexivity.
Qed.

Definition bareHR (r : hres) : hres :=
  match r with HHit f => HHit (bare f) | r => r end.

Lemma lookup_bare E c s q :
  lookup E (bareC c) (option_map bareH s) q = rmap bareHR (lookup E c s q).
Proof.
  unfold lookup, hostLookup. destruct s as [s|]; [|reflexivity]. cbn [option_map].
  rewrite walk_bare. destruct (host_walk E c s _ _ _ _ _ _) as [[f|]|]; reflexivity.
Qed.

Lemma orelse_bare a b :
  orelse (rmap (option_map bare) a) (rmap (option_map bare) b) =
  rmap (option_map bare) (orelse a b).
Proof. destruct a as [[f|]|]; reflexivity. Qed.

Lemma when_bare b a :
  when b (rmap (option_map bare) a) = rmap (option_map bare) (when b a).
Proof. now destruct b. Qed.

Definition bareP (x : bool * option filter * client) : bool * option filter * client :=
  (fst (fst x), option_map bare (snd (fst x)), bareC (snd x)).

Lemma block_phase_bare E c q bf :
  block_phase E (bareC c) q bf = rmap bareP (block_phase E c q bf).
Proof.
  unfold block_phase.
  change (c_host (bareC c)) with (option_map bareH (c_host c)).
  rewrite !scan_bare, lookup_bare, !when_bare, !orelse_bare.
  change (c_nfd (bareC c)) with (c_nfd c). change (c_nfa (bareC c)) with (c_nfa c).
  destruct (orelse _ _) as [[f|]|]; [reflexivity| |reflexivity]. cbn [rmap bind option_map].
  destruct (lookup E c (c_host c) q) as [h|]; [|reflexivity]. cbn [rmap bind].
  destruct h as [| |f]; cbn [bareHR]; try reflexivity. cbv zeta.
  change (c_bloom (bareC c)) with (c_bloom c).
  destruct (bloomMiss E (c_bloom c) (q_url q)); [reflexivity|].
  destruct (scan E c KFilters q bf) as [[f|]|]; try reflexivity. cbn [rmap bind option_map].
  change (c_badfp (bareC c)) with (c_badfp c).
  destruct (discover E (c_badfp c) (q_url q) (c_bloom c)); reflexivity.
Qed.

Lemma exc_phase_bare E c q bf :
  exc_phase E (bareC c) q bf = rmap bareP (exc_phase E c q bf).
Proof.
  unfold exc_phase.
  change (c_ehost (bareC c)) with (option_map bareH (c_ehost c)).
  rewrite !scan_bare, lookup_bare, !when_bare, !orelse_bare.
  change (c_nfdexc (bareC c)) with (c_nfdexc c). change (c_nfaexc (bareC c)) with (c_nfaexc c).
  destruct (orelse _ _) as [[f|]|]; [reflexivity| |reflexivity]. cbn [rmap bind option_map].
  destruct (lookup E c (c_ehost c) q) as [h|]; [|reflexivity]. cbn [rmap bind].
  destruct h as [| |f]; cbn [bareHR]; try reflexivity. cbv zeta.
  change (c_ebloom (bareC c)) with (c_ebloom c).
  destruct (bloomMiss E (c_ebloom c) (q_url q)); [reflexivity|].
  destruct (scan E c KException q bf) as [[f|]|]; try reflexivity. cbn [rmap bind option_map].
  change (c_badfp (bareC c)) with (c_badfp c).
  destruct (discover E (c_badfp c) (q_url q) (c_ebloom c)); reflexivity.
Qed.

Lemma matches_bare E c input context dom :
  matches E (bareC c) input context dom =
  rmap (fun x => (bareV (fst x), bareC (snd x))) (matches E c input context dom).
Proof.
  unfold matches. destruct (strlen input) as [n|]; [|reflexivity]. cbn [bind].
  destruct (isBlockableProtocol input n) as [w|]; [|reflexivity]. cbn [bind].
  destruct (negb w); [reflexivity|].
  destruct (mkQuery input n context dom) as [q|]; [|reflexivity]. cbn [bind]. cbv zeta.
  rewrite block_phase_bare.
  destruct (block_phase E c q _) as [[[h m] c1]|]; [|reflexivity].
  cbn [rmap bind bareP fst snd]. destruct (negb h); [reflexivity|].
  rewrite exc_phase_bare. destruct (exc_phase E c1 q _) as [[[b x] c2]|]; reflexivity.
Qed.

Lemma lookup_filter_bare E c s q :
  lookup_filter E (bareC c) (option_map bareH s) q = rmap (option_map bare) (lookup_filter E c s q).
Proof.
  unfold lookup_filter. rewrite lookup_bare. destruct (lookup E c s q) as [[| |f]|]; reflexivity.
Qed.

Lemma find_bare E c input context dom :
  findMatchingFilters E (bareC c) input context dom =
  rmap bareV (findMatchingFilters E c input context dom).
Proof.
  unfold findMatchingFilters. destruct (strlen input) as [n|]; [|reflexivity]. cbn [bind].
  destruct (mkQuery input n context dom) as [q|]; [|reflexivity]. cbn [bind].
  change (c_host (bareC c)) with (option_map bareH (c_host c)).
  change (c_ehost (bareC c)) with (option_map bareH (c_ehost c)).
  rewrite !scan_bare, !lookup_filter_bare, !orelse_bare.
  destruct (orelse _ _) as [[f|]|]; [|reflexivity|reflexivity]. cbn [rmap bind option_map].
  destruct (orelse _ _) as [[x|]|]; reflexivity.
Qed.

Lemma bare_tags c c' : bareC c = bareC c' -> c_tags c = c_tags c'.
Proof. intros H. apply (f_equal c_tags) in H. exact H. Qed.

Lemma perform_bare E c c' k k' :
  call_ok k -> bareC c = bareC c' ->
  (k = k' \/ exists p p' t, k = Parse p t /\ k' = Parse p' t) ->
  res_rel (fun x y => bareC x = bareC y) (perform E c k) (perform E c' k').
Proof.
  intros Hk H K.
  assert (forall p p' t, nonul t ->
    res_rel (fun x y => bareC x = bareC y) (parse E p (cstr t) c) (parse E p' (cstr t) c')) as PB.
  { intros. now apply parse_bare. }
  destruct K as [<-|(p & p' & t & -> & ->)]; [|now apply PB].
  pose proof (bare_tags c c' H) as T.
  destruct k as [p t| |t|t|url context dom|]; cbn [perform].
  - now apply PB.
  - cbn. unfold clear. now rewrite T.
  - cbn. unfold addTag, tagExists. rewrite T. destruct (memb t (c_tags c')); auto.
    change (bareC (set_tags c (t :: c_tags c'))) with (set_tags (bareC c) (t :: c_tags c')).
    now rewrite H.
  - cbn. unfold removeTag. rewrite T.
    match goal with |- bareC (set_tags c ?x) = _ =>
      change (bareC (set_tags c x)) with (set_tags (bareC c) x) end.
    now rewrite H.
  - pose proof (matches_bare E c (cstr url) context dom) as M1.
    pose proof (matches_bare E c' (cstr url) context dom) as M2. rewrite H, M2 in M1.
    destruct (matches E c (cstr url) context dom) as [[v d]|],
             (matches E c' (cstr url) context dom) as [[v' d']|]; cbn in *; try easy. congruence.
  - cbn. unfold enableBadFp.
    assert (c_badfp c = c_badfp c') as B by (apply (f_equal c_badfp) in H; exact H).
    assert (c_stats c = c_stats c') as St by (apply (f_equal c_stats) in H; exact H).
    rewrite B, St. destruct (c_badfp c'); auto.
    match goal with |- bareC (set_stats c ?x ?y) = _ =>
      change (bareC (set_stats c x y)) with (set_stats (bareC c) x y) end.
    now rewrite H.
Qed.

Lemma after_bare E p calls :
  history calls ->
  res_rel (fun x y => bareC x = bareC y) (after E calls) (after E (preserving p calls)).
Proof.
  intros H. unfold after, preserving. generalize (eq_refl (bareC client0)).
  generalize client0 at 1 3 as c. generalize client0 as c'.
  induction H as [|k calls Hk H IH]; intros c' c HC; [exact HC|].
  cbn [foldM map].
  apply (res_rel_bind (fun x y => bareC x = bareC y)).
  - apply perform_bare; auto. destruct k; auto. right. eauto.
  - intros x y. apply IH.
Qed.

Lemma preserve_same E p calls input context dom :
  history calls ->
  (after E calls = UB <-> after E (preserving p calls) = UB) /\
  forall c1 c2, after E calls = Ok c1 -> after E (preserving p calls) = Ok c2 ->
    rmap (fun x => v_block (fst x)) (matches E c1 input context dom) =
    rmap (fun x => v_block (fst x)) (matches E c2 input context dom) /\
    rmap v_block (findMatchingFilters E c1 input context dom) =
    rmap v_block (findMatchingFilters E c2 input context dom) /\
    (forall k, length (tget (c_lists c1) k) = length (tget (c_lists c2) k)) /\
    c_numHA c1 = c_numHA c2 /\ c_numHAE c1 = c_numHAE c2.
Proof.
  intros H. pose proof (after_bare E p calls H) as R.
  destruct (after E calls) as [d1|], (after E (preserving p calls)) as [d2|]; cbn in R; try easy.
  split; [split; discriminate|]. intros c1 c2 E1 E2.
  assert (d1 = c1) as -> by congruence. assert (d2 = c2) as -> by congruence.
  pose proof (matches_bare E c1 input context dom) as M1.
  pose proof (matches_bare E c2 input context dom) as M2.
  pose proof (find_bare E c1 input context dom) as F1.
  pose proof (find_bare E c2 input context dom) as F2.
  rewrite R in M1, F1. rewrite M1 in M2. rewrite F1 in F2. split; [|split; [|split; [|split]]].
  - destruct (matches E c1 input context dom) as [[v d]|],
             (matches E c2 input context dom) as [[v' d']|]; cbn in *; try easy.
    f_equal. injection M2 as X _ _ _. exact X.
  - destruct (findMatchingFilters E c1 input context dom) as [v|],
             (findMatchingFilters E c2 input context dom) as [v'|]; cbn in *; try easy.
    f_equal. injection F2 as X _ _. exact X.
  - intros k. apply (f_equal c_lists) in R. cbn [bareC c_lists] in R.
    apply (f_equal (fun t => length (tget t k))) in R.
    now rewrite !bareT_get, !map_length in R.
  - apply (f_equal c_numHA) in R. exact R.
  - apply (f_equal c_numHAE) in R. exact R.
Qed.
