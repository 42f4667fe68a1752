(** A restored client decides like the original, now and after further calls. *)
From Verif Require Import Base Flags Protocol Url Sets FilterM ParseM ClientM SerialM Spec SpecM
  SpecC SpecS P_Base P_Protocol P_Url P_Match P_Rule P_Parse P_List P_Shape P_Fp P_Line P_Line2
  P_Fp2 P_Props1 P_Props2 P_Props3 P_Opt P_Opt2 P_Set P_Client P_Decide P_Hist
  P_Ser1 P_Ser2 P_Ser3 P_Ser4.

(** [g] is [f] with possibly more memory after the pattern. *)
Definition ext (f g : filter) : Prop :=
  f_type f = f_type g /\ f_opt f = f_opt g /\ f_anti f = f_anti g /\
  match f_data f, f_data g with
  | None, None => True
  | Some (d, t), Some (d', t') => d = d' /\ exists r, t' = t ++ r
  | _, _ => False
  end /\
  f_dom f = f_dom g /\ f_tag f = f_tag g /\ str (f_host f) = str (f_host g).

Lemma ext_refl f : ext f f.
Proof.
  unfold ext. repeat split; auto. destruct (f_data f) as [[d t]|]; auto.
  split; auto. exists []. now rewrite app_nil_r.
Qed.

Lemma restored_ext f g : restored_as f g -> ext f g.
Proof. unfold restored_as, ext. tauto. Qed.

Lemma wild_ext2 hs bf parts input n t x b : forall i,
  wild hs bf parts t input n i = Ok b -> wild hs bf parts (t ++ x) input n i = Ok b.
Proof.
  induction parts as [|p parts IH]; intros i; auto. cbn [wild].
  assert (forall c, deref t = Ok c -> deref (t ++ x) = Ok c) as D.
  { intros c. destruct t; [easy|]. auto. }
  intros H. apply bind_ok in H as (en & H1 & H).
  rewrite (bind_Ok_eq _ _ en).
  2:{ destruct p as [|c p], parts as [|p' parts]; auto.
      apply bind_ok in H1 as (c & H1 & H2). rewrite (D c H1). exact H2. }
  destruct (negb en); auto. destruct (negb (part_pairs_ok hs bf p)); auto.
  destruct (indexOfFilter input n i p) as [[j|]|]; auto. cbn [bind] in *.
  destruct parts as [|p' parts]; auto.
  apply bind_ok in H as (c & H2 & H). rewrite (bind_Ok_eq _ _ c H2).
  destruct (ceq c NUL); auto.
Qed.

Lemma ext_match E f g input n context dom bf host b :
  ext f g -> filter_matches E f input n context dom bf host = Ok b ->
  filter_matches E g input n context dom bf host = Ok b.
Proof.
  intros (E1 & E2 & E3 & E4 & E5 & E6 & E7). unfold filter_matches.
  assert (matchesOptions g context dom = matchesOptions f context dom) as ->.
  { unfold matchesOptions, hasUnsupportedOptions, contextDomainMatchesFilter, f_domains, f_antiDomains.
    now rewrite E2, E3, E5. }
  destruct (negb _); auto. rewrite <- E1.
  destruct (f_data f) as [[d t]|], (f_data g) as [[d' t']|]; try easy.
  destruct E4 as [<- [r ->]].
  destruct (has (f_type f) FTRegex); auto.
  destruct (_ && _).
  { intros H. apply (strcmp_ext _ _ r []) in H. now rewrite app_nil_r, <- app_assoc in H. }
  destruct (has (f_type f) FTRightAnchored).
  { destruct (n <? length d); auto. intros H. apply (strcmp_ext _ _ [] r) in H.
    now rewrite app_nil_r, <- app_assoc in H. }
  destruct (has (f_type f) FTLeftAnchored).
  { intros H. apply (strncmp_ext _ _ _ r []) in H. now rewrite app_nil_r, <- app_assoc in H. }
  intros H. apply bind_ok in H as (go & G & H).
  rewrite (bind_Ok_eq _ _ go).
  - destruct (negb go); auto. now apply wild_ext2.
  - rewrite <- G. destruct (has (f_type f) FTHostAnchored); auto. f_equal.
    change (match f_host f with Some h => h | None => [] end) with (str (f_host f)).
    change (match f_host g with Some h => h | None => [] end) with (str (f_host g)).
    now rewrite E7.
Qed.

Lemma ext_copy f g : ext f g -> ext (copyFilter f) (copyFilter g).
Proof.
  intros (E1 & E2 & E3 & E4 & E5 & E6 & E7). unfold ext, copyFilter.
  cbn [f_type f_opt f_anti f_data f_dom f_tag f_host]. repeat split; auto.
  destruct (f_data f) as [[d t]|], (f_data g) as [[d' t']|]; try easy.
  destruct E4 as [-> _]. split; auto. now exists [].
Qed.

(** ** Refinement *)
Definition refines {A C} (R : A -> C -> Prop) (a : res A) (b : res C) : Prop :=
  forall x, a = Ok x -> exists y, b = Ok y /\ R x y.

Lemma ref_ok {A C} (R : A -> C -> Prop) x y : R x y -> refines R (Ok x) (Ok y).
Proof. intros H z [= <-]. eauto. Qed.

Lemma ref_bind {A A' C C'} (R : A -> A' -> Prop) (Q : C -> C' -> Prop) a b f g :
  refines R a b -> (forall x y, R x y -> refines Q (f x) (g y)) ->
  refines Q (bind a f) (bind b g).
Proof.
  intros H K x E. apply bind_ok in E as (u & E1 & E2). destruct (H u E1) as (v & -> & Ruv).
  cbn [bind]. exact (K u v Ruv x E2).
Qed.

Lemma ref_same {A} (a : res A) : refines eq a a.
Proof. intros x E. eauto. Qed.

Definition mates (c c' : client) : Prop :=
  (forall k, k <> KCosmetic -> k <> KHtml -> Forall2 ext (tget (c_lists c) k) (tget (c_lists c') k)) /\
  c_numHA c' = c_numHA c /\ c_numHAE c' = c_numHAE c /\
  c_bloom c' = c_bloom c /\ c_ebloom c' = c_ebloom c /\
  orel (Forall2 (Forall2 ext)) (c_host c) (c_host c') /\
  orel (Forall2 (Forall2 ext)) (c_ehost c) (c_ehost c') /\
  c_nfd c' = c_nfd c /\ c_nfa c' = c_nfa c /\ c_nfdexc c' = c_nfdexc c /\
  c_nfaexc c' = c_nfaexc c /\
  (c_badfp c = None -> c_badfp c' = None) /\
  (forall t, tagExists c' t = tagExists c t).

Lemma tag_ok_ext c c' f g : mates c c' -> ext f g -> tag_ok c' g = tag_ok c f.
Proof.
  intros M (_ & _ & _ & _ & _ & E & _). unfold tag_ok. rewrite E.
  destruct (f_tag g); auto. apply M.
Qed.

Lemma hasMatching_ref E c c' fs gs input n context dom bf host :
  mates c c' -> Forall2 ext fs gs ->
  refines (orel ext) (hasMatchingFilters E c fs input n context dom bf host)
                     (hasMatchingFilters E c' gs input n context dom bf host).
Proof.
  intros M F. induction F as [|f g fs gs H F IH]; cbn [hasMatchingFilters].
  - now apply ref_ok.
  - apply (ref_bind eq).
    + intros b Hb. exists b. split; auto. now apply (ext_match E f g).
    + intros b ? <-. rewrite (tag_ok_ext c c' f g M H).
      destruct (b && tag_ok c f); auto. now apply ref_ok.
Qed.

Lemma scan_ref E c c' k q bf : mates c c' -> k <> KCosmetic -> k <> KHtml ->
  refines (orel ext) (scan E c k q bf) (scan E c' k q bf).
Proof. intros M K1 K2. apply hasMatching_ref; auto. now apply M. Qed.

Lemma F2_nth {A C} (R : A -> C -> Prop) l m i a b :
  Forall2 R l m -> R a b -> R (nth i l a) (nth i m b).
Proof. intros F H. revert i; induction F; intros [|i]; cbn; auto. Qed.

Lemma hs_find_ext hash s s' k :
  Forall2 (Forall2 ext) s s' ->
  orel ext (hs_find hkey hash s k) (hs_find hkey hash s' k).
Proof.
  intros F. unfold hs_find.
  assert (hs_index hash s' k = hs_index hash s k) as ->
    by (unfold hs_index; now rewrite (F2_len _ _ _ F)).
  pose proof (F2_nth _ s s' (hs_index hash s k) [] [] F (Forall2_nil _)) as B.
  induction B as [|f g b b' H B IH]; cbn [find]; [exact I|].
  assert (hkey g = hkey f) as -> by (symmetry; apply H).
  destruct (beq (hkey f) k); auto.
Qed.

Lemma probe_ref E c c' s s' h input n context dom :
  mates c c' -> Forall2 (Forall2 ext) s s' ->
  refines (orel ext) (host_probe E c s h input n context dom)
                     (host_probe E c' s' h input n context dom).
Proof.
  intros M F. unfold host_probe. pose proof (hs_find_ext (e_hash E) s s' h F) as K.
  destruct (hs_find hkey (e_hash E) s h) as [f|], (hs_find hkey (e_hash E) s' h) as [g|]; try easy.
  - apply (ref_bind eq).
    + intros b Hb. exists b. split; auto. now apply (ext_match E f g).
    + intros b ? <-. rewrite (tag_ok_ext c c' f g M K). apply ref_ok.
      now destruct (b && tag_ok c f).
  - now apply ref_ok.
Qed.

Lemma walk_ref E c c' s s' h k input n context dom :
  mates c c' -> Forall2 (Forall2 ext) s s' ->
  refines (orel ext) (host_walk E c s h k input n context dom)
                     (host_walk E c' s' h k input n context dom).
Proof.
  intros M F. induction k as [|k IH]; cbn [host_walk].
  - now apply probe_ref.
  - apply (ref_bind (orel ext)).
    + destruct (ceq (nth k h NUL) "."); [now apply probe_ref|now apply ref_ok].
    + intros [f|] [g|] H; try easy. now apply ref_ok.
Qed.

Definition hrel (x y : hres) : Prop :=
  match x, y with
  | HNoSet, HNoSet => True | HMiss, HMiss => True
  | HHit f, HHit g => ext f g | _, _ => False
  end.

Lemma lookup_ref E c c' o o' q :
  mates c c' -> orel (Forall2 (Forall2 ext)) o o' ->
  refines hrel (lookup E c o q) (lookup E c' o' q).
Proof.
  intros M R. unfold lookup, hostLookup. destruct o as [s|], o' as [s'|]; try easy.
  - apply (ref_bind (orel ext)); [now apply walk_ref|].
    intros [f|] [g|] H; try easy; now apply ref_ok.
  - now apply ref_ok.
Qed.

Lemma orelse_ref a b a' b' :
  refines (orel ext) a a' -> refines (orel ext) b b' ->
  refines (orel ext) (orelse a b) (orelse a' b').
Proof.
  intros H1 H2. unfold orelse. apply (ref_bind (orel ext)); auto.
  intros [f|] [g|] H; try easy. now apply ref_ok.
Qed.

Lemma when_ref b a a' : refines (orel ext) a a' -> refines (orel ext) (when b a) (when b a').
Proof. intros H. destruct b; auto. now apply ref_ok. Qed.

Lemma mates_stats c c' s s' b b' :
  mates c c' -> (b = None -> b' = None) -> mates (set_stats c s b) (set_stats c' s' b').
Proof.
  intros (M1 & M2 & M3 & M4 & M5 & M6 & M7 & M8 & M9 & M10 & M11 & M12 & M13) H.
  unfold mates, set_stats. cbn.
  split; [exact M1|]. split; [auto|]. split; [auto|]. split; [auto|]. split; [auto|].
  split; [exact M6|]. split; [exact M7|]. split; [auto|]. split; [auto|]. split; [auto|].
  split; [auto|]. split; [exact H|exact M13].
Qed.

Lemma discover_ref E b b' url bl :
  (b = None -> b' = None) ->
  refines (fun x y => x = None -> y = None) (discover E b url bl) (discover E b' url bl).
Proof.
  intros H. unfold discover. destruct b as [l|].
  - destruct b' as [l'|].
    + destruct bl as [bl|].
      * now apply ref_ok.
      * destruct (length url <? kFingerprintSize); [now apply ref_ok|]. intros x [=].
    + intros x _. exists None. auto.
  - rewrite H by auto. now apply ref_ok.
Qed.

Definition prel (x y : bool * option filter * client) : Prop :=
  fst (fst x) = fst (fst y) /\ orel ext (snd (fst x)) (snd (fst y)) /\ mates (snd x) (snd y).

Ltac kk := try discriminate; auto.

Lemma block_phase_ref E c c' q bf :
  mates c c' -> refines prel (block_phase E c q bf) (block_phase E c' q bf).
Proof.
  intros M. pose proof M as (M1 & M2 & M3 & M4 & M5 & M6 & M7 & M8 & M9 & M10 & M11 & M12 & M13).
  unfold block_phase. rewrite M8, M9.
  apply (ref_bind (orel ext)).
  { apply orelse_ref; [apply when_ref, scan_ref; kk|].
    apply orelse_ref; [apply when_ref, scan_ref; kk|apply scan_ref; kk]. }
  intros [f|] [g|] H; try easy; [now apply ref_ok|]. cbv zeta. rewrite M4.
  apply (ref_bind hrel); [now apply lookup_ref|].
  intros [| |f] [| |g] HH; try easy; try (now apply ref_ok).
  destruct (bloomMiss E (c_bloom c) (q_url q)).
  - apply ref_ok. split; [auto|]. split; [exact I|]. cbn [snd]. now apply mates_stats.
  - apply (ref_bind (orel ext)); [apply scan_ref; kk|].
    intros [f|] [g|] HS; try easy; [now apply ref_ok|].
    apply (ref_bind (fun x y => x = None -> y = None)); [now apply discover_ref|].
    intros x y Hxy. apply ref_ok. split; [auto|]. split; [exact I|]. cbn [snd]. now apply mates_stats.
Qed.

Lemma exc_phase_ref E c c' q bf :
  mates c c' -> refines prel (exc_phase E c q bf) (exc_phase E c' q bf).
Proof.
  intros M. pose proof M as (M1 & M2 & M3 & M4 & M5 & M6 & M7 & M8 & M9 & M10 & M11 & M12 & M13).
  unfold exc_phase. rewrite M10, M11.
  apply (ref_bind (orel ext)).
  { apply orelse_ref; [apply when_ref, scan_ref; kk|].
    apply orelse_ref; [apply when_ref, scan_ref; kk|apply scan_ref; kk]. }
  intros [f|] [g|] H; try easy; [now apply ref_ok|]. cbv zeta. rewrite M5.
  apply (ref_bind hrel); [now apply lookup_ref|].
  intros [| |f] [| |g] HH; try easy.
  - apply ref_ok. split; [auto|]. split; [exact I|]. cbn [snd]. now apply mates_stats.
  - destruct (bloomMiss E (c_ebloom c) (q_url q)).
    + apply ref_ok. split; [auto|]. split; [exact I|]. cbn [snd]. now apply mates_stats.
    + apply (ref_bind (orel ext)); [apply scan_ref; kk|].
      intros [f|] [g|] HS; try easy; [now apply ref_ok|].
      apply (ref_bind (fun x y => x = None -> y = None)); [now apply discover_ref|].
      intros x y Hxy. apply ref_ok. split; [auto|]. split; [exact I|]. cbn [snd]. now apply mates_stats.
  - apply ref_ok. split; [auto|]. split; [exact HH|]. cbn [snd]. now apply mates_stats.
Qed.

Definition vrel (v w : verdict) : Prop :=
  v_block v = v_block w /\ orel ext (v_filter v) (v_filter w) /\ orel ext (v_exc v) (v_exc w).

Lemma matches_ref E c c' input context dom :
  mates c c' ->
  refines (fun x y => vrel (fst x) (fst y) /\ mates (snd x) (snd y))
    (matches E c input context dom) (matches E c' input context dom).
Proof.
  intros M. unfold matches. apply (ref_bind eq); [apply ref_same|]. intros n ? <-.
  apply (ref_bind eq); [apply ref_same|]. intros w ? <-.
  destruct (negb w).
  { apply ref_ok. split; [|exact M]. split; [auto|]. split; exact I. }
  apply (ref_bind eq); [apply ref_same|]. intros q ? <-. cbv zeta.
  apply (ref_bind prel); [now apply block_phase_ref|].
  intros [[h m] c1] [[h' m'] c1'] (E1 & E2 & E3). cbn [fst snd] in *. subst h'.
  destruct (negb h).
  { apply ref_ok. split; [|exact E3]. split; [auto|]. split; [exact E2|exact I]. }
  apply (ref_bind prel); [now apply exc_phase_ref|].
  intros [[b x] c2] [[b' x'] c2'] (F1 & F2 & F3). cbn [fst snd] in *. subst b'.
  apply ref_ok. split; [|exact F3]. split; [auto|]. split; [exact E2|exact F2].
Qed.

Lemma lookup_filter_ref E c c' o o' q :
  mates c c' -> orel (Forall2 (Forall2 ext)) o o' ->
  refines (orel ext) (lookup_filter E c o q) (lookup_filter E c' o' q).
Proof.
  intros M R. unfold lookup_filter. apply (ref_bind hrel); [now apply lookup_ref|].
  intros [| |f] [| |g] H; try easy; now apply ref_ok.
Qed.

Lemma find_ref E c c' input context dom :
  mates c c' ->
  refines vrel (findMatchingFilters E c input context dom)
               (findMatchingFilters E c' input context dom).
Proof.
  intros M. pose proof M as (_ & _ & _ & _ & _ & M6 & M7 & _). unfold findMatchingFilters.
  apply (ref_bind eq); [apply ref_same|]. intros n ? <-.
  apply (ref_bind eq); [apply ref_same|]. intros q ? <-.
  apply (ref_bind (orel ext)).
  { repeat (apply orelse_ref; [apply scan_ref; kk|]). now apply lookup_filter_ref. }
  intros [f|] [g|] H; try easy.
  2:{ apply ref_ok. split; [auto|]. split; exact I. }
  apply (ref_bind (orel ext)).
  { do 3 (apply orelse_ref; [apply scan_ref; kk|]). apply orelse_ref; [now apply lookup_filter_ref|].
    apply scan_ref; kk. }
  intros [x|] [y|] HX; try easy; apply ref_ok; split; auto; split; auto.
Qed.

(** ** Later calls *)
Definition srel (s s' : sets) : Prop :=
  x_bloom s' = x_bloom s /\ x_ebloom s' = x_ebloom s /\
  Forall2 (Forall2 ext) (x_host s) (x_host s') /\
  Forall2 (Forall2 ext) (x_ehost s) (x_ehost s') /\
  x_nfd s' = x_nfd s /\ x_nfa s' = x_nfa s /\ x_nfdexc s' = x_nfdexc s /\ x_nfaexc s' = x_nfaexc s.

Lemma F2_upd {A C} (R : list A -> list C -> Prop) (s : hset A) (s' : hset C) i f g :
  Forall2 R s s' -> (forall a b, R a b -> R (f a) (g b)) -> Forall2 R (upd s i f) (upd s' i g).
Proof. intros F H. revert i; induction F; intros [|i]; cbn; constructor; auto. Qed.

Lemma hs_add_ext hash s s' f :
  Forall2 (Forall2 ext) s s' ->
  Forall2 (Forall2 ext) (hs_add hkey hash s f) (hs_add hkey hash s' f).
Proof.
  intros F. unfold hs_add.
  assert (hs_index hash s' (hkey f) = hs_index hash s (hkey f)) as ->
    by (unfold hs_index; now rewrite (F2_len _ _ _ F)).
  apply F2_upd; auto. intros a b H.
  assert (existsb (fun y => beq (hkey y) (hkey f)) b = existsb (fun y => beq (hkey y) (hkey f)) a) as ->.
  { induction H as [|x y a b H F' IH]; auto. cbn [existsb]. rewrite IH.
    assert (hkey y = hkey x) as -> by (symmetry; apply H). reflexivity. }
  destruct (existsb _ a); auto. apply Forall2_app; auto. constructor; [apply ext_refl|constructor].
Qed.

Lemma ins_rel E f s s' : srel s s' -> srel (ins E f s) (ins E f s').
Proof.
  intros (H1 & H2 & H3 & H4 & H5 & H6 & H7 & H8). unfold ins, insert2.
  destruct (is_cosmetic f); [unfold srel; tauto|].
  destruct (_ && _).
  { unfold srel; cbn [x_bloom x_ebloom x_host x_ehost x_nfd x_nfa x_nfdexc x_nfaexc].
    repeat (split; [auto using hs_add_ext|]). auto. }
  destruct (has (f_type f) FTHostOnly).
  { unfold srel; cbn [x_bloom x_ebloom x_host x_ehost x_nfd x_nfa x_nfdexc x_nfaexc].
    repeat (split; [auto using hs_add_ext|]). auto. }
  destruct (getFingerprint E f) as [[fp|]|]; cbn [bind]; try (unfold srel; tauto).
  destruct (has (f_type f) FTException);
    unfold srel; cbn [x_bloom x_ebloom x_host x_ehost x_nfd x_nfa x_nfdexc x_nfaexc];
    rewrite ?H1, ?H2; tauto.
Qed.

Lemma gate_rel E f k s s' : srel s s' -> srel (gate E f k s) (gate E f k s').
Proof.
  intros (H1 & H2 & H3 & H4 & H5 & H6 & H7 & H8). unfold gate.
  destruct k; unfold srel; cbn [x_bloom x_ebloom x_host x_ehost x_nfd x_nfa x_nfdexc x_nfaexc];
    rewrite ?H5, ?H6, ?H7, ?H8; tauto.
Qed.

Definition arel (a a' : st) : Prop :=
  srel (st_s a) (st_s a') /\
  (forall k, k <> KCosmetic -> k <> KHtml -> Forall2 ext (tget (st_w a) k) (tget (st_w a') k)) /\
  snd (fst a') = snd (fst a) /\ snd a' = snd a.

Lemma store_rel E a a' r : arel a a' -> arel (store E a r) (store E a' r).
Proof.
  intros (H1 & H2 & H3 & H4).
  assert (forall k, k <> KCosmetic -> k <> KHtml ->
    Forall2 ext (tget (st_w (store E a r)) k) (tget (st_w (store E a' r)) k)) as W.
  { intros k K1 K2. rewrite !store_w. apply Forall2_app; auto.
    destruct (in_kind k r); constructor; [apply ext_refl|constructor]. }
  destruct a as [[[s w] ha] hae], a' as [[[s' w'] ha'] hae'], r as [[f b] k].
  cbn [fst snd st_s] in *. subst ha' hae'.
  assert (srel (if b then ins E f s else s) (if b then ins E f s' else s')) as K.
  { destruct b; auto. now apply ins_rel. }
  unfold store in *.
  destruct k as [|[]|k]; (split; [|split; [exact W|split; reflexivity]]); cbn [st_s fst snd]; auto.
  now apply gate_rel.
Qed.

Lemma fold_rel E rs : forall a a', arel a a' ->
  arel (fold_left (store E) rs a) (fold_left (store E) rs a').
Proof. induction rs as [|r rs IH]; intros a a' H; cbn; auto. apply IH. now apply store_rel. Qed.

Lemma F2_hnew (R : filter -> filter -> Prop) n : Forall2 (Forall2 R) (hs_new n) (hs_new n).
Proof. unfold hs_new. induction (N.to_nat n); cbn; constructor; auto. Qed.

Lemma st_of_rel c c' : mates c c' -> arel (st_of c) (st_of c').
Proof.
  intros (M1 & M2 & M3 & M4 & M5 & M6 & M7 & M8 & M9 & M10 & M11 & M12 & M13).
  unfold arel, st_of. cbn [st_s st_w fst snd]. split; [|split; [exact M1|split; auto]].
  unfold srel, initSets. cbn [x_bloom x_ebloom x_host x_ehost x_nfd x_nfa x_nfdexc x_nfaexc].
  rewrite M4, M5, M8, M9, M10, M11.
  split; auto. split; auto. split; [|split; [|auto]].
  - destruct (c_host c), (c_host c'); try easy. apply F2_hnew.
  - destruct (c_ehost c), (c_ehost c'); try easy. apply F2_hnew.
Qed.

Lemma with_st_rel c c' a a' : mates c c' -> arel a a' -> mates (with_st c a) (with_st c' a').
Proof.
  intros M (H1 & H2 & H3 & H4). destruct M as (_ & _ & _ & _ & _ & _ & _ & _ & _ & _ & _ & M12 & M13).
  destruct a as [[[s w] ha] hae], a' as [[[s' w'] ha'] hae'].
  cbn [fst snd st_s st_w] in *. subst ha' hae'.
  destruct H1 as (S1 & S2 & S3 & S4 & S5 & S6 & S7 & S8).
  unfold mates, with_st. cbn [c_lists c_numHA c_numHAE c_bloom c_ebloom c_host c_ehost c_nfd c_nfa c_nfdexc c_nfaexc c_badfp].
  rewrite S1, S2, S5, S6, S7, S8.
  split; [exact H2|]. split; [auto|]. split; [auto|]. split; [auto|]. split; [auto|].
  split; [exact S3|]. split; [exact S4|]. split; [auto|]. split; [auto|]. split; [auto|].
  split; [auto|]. split; [exact M12|exact M13].
Qed.

Lemma parse_ref E pres t c c' : nonul t -> mates c c' ->
  refines mates (parse E pres (cstr t) c) (parse E pres (cstr t) c').
Proof.
  intros Ht M. rewrite !parse_normal by auto.
  destruct (mapM (rule_of E pres) (text_lines t)) as [rs|]; [|intros x [=]].
  cbn [rmap bind]. apply ref_ok. apply with_st_rel; auto. now apply fold_rel, st_of_rel.
Qed.

Lemma mates_tags c c' ts ts' : mates c c' ->
  (forall t, memb t ts' = memb t ts) -> mates (set_tags c ts) (set_tags c' ts').
Proof.
  intros (M1 & M2 & M3 & M4 & M5 & M6 & M7 & M8 & M9 & M10 & M11 & M12 & M13) H.
  unfold mates, set_tags. cbn.
  split; [exact M1|]. split; [auto|]. split; [auto|]. split; [auto|]. split; [auto|].
  split; [exact M6|]. split; [exact M7|]. split; [auto|]. split; [auto|]. split; [auto|].
  split; [auto|]. split; [exact M12|exact H].
Qed.

Lemma perform_ref E c c' k : call_ok k -> mates c c' -> refines mates (perform E c k) (perform E c' k).
Proof.
  intros Hk M. pose proof M as (M1 & M2 & M3 & M4 & M5 & M6 & M7 & M8 & M9 & M10 & M11 & M12 & M13).
  destruct k as [pres t| |t|t|url context dom|]; cbn [perform call_ok] in *.
  - now apply parse_ref.
  - apply ref_ok. unfold mates, clear. cbn.
    split; [intros [] ? ?; constructor|]. repeat (split; [solve [auto|exact I]|]). exact M13.
  - apply ref_ok. unfold addTag. rewrite M13. destruct (tagExists c t); auto.
    apply mates_tags; auto. intros u. cbn [memb existsb]. f_equal. apply M13.
  - apply ref_ok. unfold removeTag. apply mates_tags; auto. intros u.
    apply Bool.eq_iff_eq_true. rewrite !memb_In, !filter_In.
    specialize (M13 u). unfold tagExists in M13. apply Bool.eq_iff_eq_true in M13.
    rewrite !memb_In in M13. tauto.
  - intros x E1. apply rmap_ok in E1 as (y & E1 & ->).
    destruct (matches_ref E c c' (cstr url) context dom M y E1) as (z & -> & _ & K).
    exists (snd z). auto.
  - apply ref_ok. unfold enableBadFp. destruct (c_badfp c) eqn:B.
    + destruct (c_badfp c') eqn:B'; auto.
      replace c with (set_stats c (c_stats c) (c_badfp c)) by now destruct c.
      apply mates_stats; auto. rewrite B. discriminate.
    + rewrite M12 by auto. now apply mates_stats.
Qed.

Lemma fold_perform_ref E calls : forall c c', history calls -> mates c c' ->
  refines mates (foldM (perform E) c calls) (foldM (perform E) c' calls).
Proof.
  induction calls as [|k calls IH]; intros c c' Hc M.
  - now apply ref_ok.
  - inversion Hc; subst. cbn [foldM]. apply (ref_bind mates).
    + now apply perform_ref.
    + intros x y. now apply IH.
Qed.

(** ** The restored client mirrors the original *)
Lemma host_restored_ext f g : (forall d t, f_data f = Some (d, t) -> t = []) ->
  host_restored f g -> ext f g.
Proof.
  intros T (E1 & E2 & E3 & E4 & E5 & E6 & E7 & _). unfold ext. repeat split; auto.
  unfold pattern in E4. destruct (f_data f) as [[d t]|], (f_data g) as [[d' t']|]; try easy.
  cbn [option_map fst] in E4. split; [congruence|]. rewrite (T d t eq_refl). now exists t'.
Qed.

Lemma host_set_ext (P : filter -> Prop) s s' :
  Forall (Forall (hostP P)) s -> Forall2 (Forall2 host_restored) s s' -> Forall2 (Forall2 ext) s s'.
Proof.
  intros F R. revert F. induction R as [|b b' s s' H R IH]; intros F; constructor.
  - inversion F as [|? ? Fb Fs]; subst. clear -H Fb.
    revert Fb. induction H as [|f g b b' H R IH]; intros F; constructor.
    + inversion F as [|? ? (f0 & -> & D & _) _]; subst. apply host_restored_ext; auto.
      cbn [copyFilter f_data]. intros d t. destruct (f_data f0) as [[]|]; [|easy]. congruence.
    + inversion F; auto.
  - inversion F; auto.
Qed.

Lemma restores_mates (P : filter -> Prop) c a b d c' :
  cfine P c -> restores c (ser_lists c a b) d c' ->
  (forall t, tagExists d t = tagExists c t) -> mates c c'.
Proof.
  intros (C1 & C2 & C3 & C4 & _) (R1 & R2 & R3 & R4 & R5 & R6 & R7 & R8 & R9 & R10 & R11 & R12 & R13 & R14) T.
  unfold mates. rewrite R2, R3, R4, R5, R8, R9, R10, R11.
  split.
  { intros k K1 K2. assert (tget (ser_lists c a b) k = tget (c_lists c) k) as Ek.
    { unfold ser_lists. destruct a, b; rewrite ?tget_tset;
        repeat destruct (kind_eq_dec _ _); auto; congruence. }
    destruct (R1 k) as [F _]. rewrite Ek in F. clear -F. induction F; constructor; auto using restored_ext. }
  split; auto. split; auto. split; auto. split; auto. split.
  { destruct (c_host c) as [s|], (c_host c') as [s'|]; try easy. cbn in *.
    destruct (C3 s eq_refl). eapply host_set_ext; eauto. }
  split.
  { destruct (c_ehost c) as [s|], (c_ehost c') as [s'|]; try easy. cbn in *.
    destruct (C4 s eq_refl). eapply host_set_ext; eauto. }
  split; auto. split; auto. split; auto. split; auto. split; auto.
  intros t. unfold tagExists in *. now rewrite R14.
Qed.
