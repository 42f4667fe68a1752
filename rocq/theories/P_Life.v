(** Clients that are saved and restored any number of times. *)
From Verif Require Import Base Flags Protocol Url Sets FilterM ParseM ClientM SerialM Spec SpecM
  SpecC SpecS SpecL P_Base P_Protocol P_Url P_Match P_Rule P_Parse P_List P_Shape P_Fp P_Line P_Line2
  P_Fp2 P_Props1 P_Props2 P_Props3 P_Opt P_Opt2 P_Set P_Client P_Decide P_Hist
  P_Dec2 P_Ser1 P_Ser2 P_Ser3 P_Ser4 P_Ser5 P_Ser6.

(** ** Memory after the pattern forgotten *)
Definition norm (f : filter) : filter :=
  mkF (f_type f) (f_opt f) (f_anti f)
      (match f_data f with Some (d, _) => Some (d, [NUL]) | None => None end)
      (f_dom f) (f_tag f) (f_host f) (f_rule f).

Definition tmap {A C} (g : A -> C) (t : tab A) : tab C :=
  mkTab (g (t_filters t)) (g (t_cosmetic t)) (g (t_html t)) (g (t_exc t)) (g (t_nf t))
        (g (t_nfexc t)) (g (t_nfd t)) (g (t_nfa t)) (g (t_nfdexc t)) (g (t_nfaexc t)).

Lemma tget_tmap {A C} (g : A -> C) t k : tget (tmap g t) k = g (tget t k).
Proof. now destruct k. Qed.

Definition with_lists (c : client) (t : tab (list filter)) : client :=
  mkC t (c_numHA c) (c_numHAE c) (c_bloom c) (c_ebloom c) (c_host c) (c_ehost c)
      (c_nfd c) (c_nfa c) (c_nfdexc c) (c_nfaexc c) (c_badfp c) (c_stats c) (c_tags c).

Lemma norm_pattern f : pattern (norm f) = pattern f.
Proof. unfold pattern, norm. cbn [f_data]. now destruct (f_data f) as [[]|]. Qed.

Lemma norm_fields f : same_fields (norm f) f.
Proof. unfold same_fields. rewrite norm_pattern. now repeat split. Qed.

Lemma norm_record f : rule_record (norm f) = rule_record f.
Proof. unfold rule_record. now rewrite norm_pattern. Qed.

Lemma norm_arr f : arr_rule f -> arr_rule (norm f).
Proof.
  intros (A1 & A2). split; [|exact A2]. unfold norm. cbn [f_data].
  destruct A1 as [->|(d & r & -> & N1)]; [now left|]. right. now exists d, [].
Qed.

Lemma norm_nul f : ends_nul (norm f).
Proof. intros d t. unfold norm. cbn [f_data]. destruct (f_data f) as [[]|]; congruence. Qed.

Lemma norm_storable f : storable f -> storable (norm f).
Proof. unfold storable. now rewrite norm_pattern. Qed.

Lemma ext_norm f g : ends_nul f -> ext f g -> ext f (norm g).
Proof.
  intros N (E1 & E2 & E3 & E4 & E5 & E6 & E7). unfold ext, norm. cbn.
  split; [exact E1|]. split; [exact E2|]. split; [exact E3|]. split; [|repeat split; auto].
  destruct (f_data f) as [[d t]|] eqn:D, (f_data g) as [[d' t']|]; try easy.
  destruct E4 as [-> _]. split; auto. rewrite (N _ _ D). now exists [].
Qed.

Lemma ext_trans f g h : ext f g -> ext g h -> ext f h.
Proof.
  intros (E1 & E2 & E3 & E4 & E5 & E6 & E7) (F1 & F2 & F3 & F4 & F5 & F6 & F7). unfold ext.
  repeat (split; [congruence|]). split; [|repeat split; congruence].
  destruct (f_data f) as [[d t]|], (f_data g) as [[d' t']|], (f_data h) as [[d2 t2]|]; try easy.
  destruct E4 as [-> [r ->]], F4 as [-> [r2 ->]]. split; auto. exists (r ++ r2).
  now rewrite app_assoc.
Qed.

Lemma F2_norm fs gs : Forall ends_nul fs -> Forall2 ext fs gs -> Forall2 ext fs (map norm gs).
Proof.
  intros N F. revert N. induction F; intros N; cbn [map]; constructor; inversion N; subst;
    auto using ext_norm.
Qed.

Lemma F2_ext_trans fs gs hs : Forall2 ext fs gs -> Forall2 ext gs hs -> Forall2 ext fs hs.
Proof.
  intros F. revert hs. induction F; intros hs G; inversion G; subst; constructor; eauto using ext_trans.
Qed.

(** ** What is written *)
Lemma serialize_gen c a b :
  client_blobs c = Ok (blobs_of c) -> (forall k, Forall arr_rule (tget (c_lists c) k)) ->
  serialize c a b = Ok (buffer c (ser_lists c a b)).
Proof.
  intros CB AR. assert (forall k, Forall arr_rule (tget (ser_lists c a b) k)) as AR'.
  { intros k. destruct (ser_lists_get c a b k) as [->| ->]; auto. }
  assert (serialize_size c a b = Ok (length (buffer c (ser_lists c a b)))) as SS.
  { unfold serialize_size. rewrite CB. cbn [bind].
    rewrite sizes_sum_ok by auto. cbn [bind].
    unfold buffer. rewrite !app_length, cstr_len, list_sum_concat. f_equal. lia. }
  unfold serialize. rewrite CB. cbn [bind]. rewrite SS. cbn [bind].
  set (t := ser_lists c a b) in *. set (hd := header_of c t (blobs_of c)).
  set (N := length (buffer c t)).
  assert (N = length (cstr hd) + (length (body t ser_order) + length (concat (blobs_of c)))) as LN.
  { unfold N, buffer. fold hd. now rewrite !app_length. }
  pose proof (snprintf_zeros [] N N hd) as W. cbn [app length] in W.
  rewrite cstr_len in LN.
  rewrite W by lia. clear W. cbn [bind].
  replace (length hd + 1) with (length (cstr hd)) by apply cstr_len.
  replace N with (length (cstr hd) + (N - length (cstr hd))) at 2 by (rewrite cstr_len; lia).
  rewrite lists_write_ok; auto.
  2:{ rewrite cstr_len. lia. }
  cbn [bind]. rewrite <- app_length. rewrite blobs_write_ok by (rewrite cstr_len; lia).
  cbn [bind fst]. f_equal.
  replace (N - length (cstr hd) - length (body t ser_order) - length (concat (blobs_of c)))
    with 0 by (rewrite cstr_len; lia).
  cbn [zeros repeat]. rewrite app_nil_r. unfold buffer. fold hd. now rewrite <- app_assoc.
Qed.

Lemma ext_record f g : ext f g -> rule_record f = rule_record g.
Proof.
  intros H. apply ext_fields in H as (E1 & E2 & E3 & E4 & E5 & E6 & E7). unfold rule_record.
  now rewrite E1, E2, E3, E4, E5, E6, E7.
Qed.

Lemma ext_item f g : ext f g -> item_record f = item_record g.
Proof.
  intros H. apply ext_fields in H as (E1 & E2 & E3 & E4 & E5 & E6 & E7).
  unfold item_record, item_head. now rewrite E1, E2, E3, E4, E5, E6, E7.
Qed.

Lemma ext_item_ok f g : ext f g -> item_ok f -> item_ok g.
Proof.
  intros H (A1 & A2 & A3 & A4 & A5). apply ext_fields in H as (E1 & E2 & E3 & E4 & E5 & E6 & E7).
  unfold item_ok. rewrite <- E5, <- E6, <- E7. split; [|auto].
  unfold pattern in E4. destruct (f_data f), (f_data g); try easy.
Qed.

Lemma ext_set s s' : Forall2 (Forall2 ext) s s' ->
  set_bytes item_record s = set_bytes item_record s'.
Proof.
  intros F. unfold set_bytes. f_equal.
  - now rewrite (F2_len _ _ _ F).
  - induction F as [|b b' s s' H F IH]; auto. cbn [flat_map]. rewrite IH. f_equal.
    unfold bucket_bytes. f_equal. clear F IH.
    induction H as [|f g b b' H F IH]; auto. cbn [flat_map]. now rewrite IH, (ext_item f g).
Qed.

Lemma ext_set_opt o o' : orel (Forall2 (Forall2 ext)) o o' ->
  ob (set_bytes item_record) o = ob (set_bytes item_record) o'.
Proof. destruct o, o'; cbn; try easy. apply ext_set. Qed.

Lemma ext_obytes (P : filter -> Prop) o o' :
  (forall f, P f -> arr_rule f) ->
  oall (fun s => Forall (Forall (hostP P)) s /\ s <> []) o ->
  orel (Forall2 (Forall2 ext)) o o' ->
  obytes hostset_bytes o' = Ok (ob (set_bytes item_record) o').
Proof.
  intros H O R. destruct o as [s|], o' as [s'|]; try easy. cbn [obytes ob].
  apply hostset_bytes_ok. destruct (O s eq_refl) as [F _].
  apply (host_items_ok P) in F; auto. cbn in R. clear -F R.
  revert F. induction R as [|b b' s s' H R IH]; intros F; auto.
  inversion F as [|? ? Fb Fs]; subst. constructor; auto. clear -H Fb.
  revert Fb. induction H as [|f g b b' H R IH]; intros F; auto.
  inversion F; subst. constructor; auto. eapply ext_item_ok; eauto.
Qed.

Lemma mates_blobs (P : filter -> Prop) c c' :
  (forall f, P f -> arr_rule f) -> cfine P c -> mates c c' ->
  client_blobs c' = Ok (blobs_of c') /\ blobs_of c' = blobs_of c.
Proof.
  intros HP (C1 & C2 & C3 & C4 & _)
    (M1 & M2 & M3 & M4 & M5 & M6 & M7 & M8 & M9 & M10 & M11 & M12 & M13).
  split.
  - unfold client_blobs.
    rewrite (ext_obytes P (c_host c) (c_host c')), (ext_obytes P (c_ehost c) (c_ehost c')) by auto.
    cbn [bind]. rewrite !obytes_dom. cbn [bind]. rewrite !obytes_bloom. reflexivity.
  - unfold blobs_of. rewrite M4, M5, M8, M9, M10, M11, <- (ext_set_opt _ _ M6), <- (ext_set_opt _ _ M7).
    reflexivity.
Qed.

(** ** The invariant: [c] saw the calls alone, [c'] also the restarts *)
Definition known (calls : list call) (f : filter) : Prop :=
  exists p l g, In (p, l) (loaded_lines calls) /\ parses_to p l g /\ same_fields g f.

Definition alike (calls : list call) (full : Prop) (c c' : client) : Prop :=
  mates c c' /\
  (forall k f, In f (tget (c_lists c') k) -> arr_rule f /\ known calls f) /\
  (full -> forall k, Forall2 ext (tget (c_lists c) k) (tget (c_lists c') k)).

Lemma ser_same_arrays c c' t t' a b :
  c_lists c = t -> c_lists c' = t' ->
  (forall k, flat_map rule_record (tget t k) = flat_map rule_record (tget t' k) /\
             length (tget t k) = length (tget t' k)) ->
  c_numHA c = c_numHA c' -> c_numHAE c = c_numHAE c' -> blobs_of c = blobs_of c' ->
  buffer c (ser_lists c a b) = buffer c' (ser_lists c' a b).
Proof.
  intros <- <- H N1 N2 EB.
  assert (forall k, flat_map rule_record (tget (ser_lists c a b) k) =
                    flat_map rule_record (tget (ser_lists c' a b) k) /\
                    length (tget (ser_lists c a b) k) = length (tget (ser_lists c' a b) k)) as H'.
  { intros k. unfold ser_lists. destruct a, b; rewrite ?tget_tset;
      repeat destruct (kind_eq_dec _ _); auto. }
  unfold buffer. rewrite EB. f_equal; [|f_equal].
  - unfold header_of. rewrite N1, N2. do 3 f_equal. apply map_ext. intros k. f_equal. apply H'.
  - unfold body. apply flat_map_ext. intros k. apply H'.
Qed.

Lemma fields_sym f g : same_fields f g -> same_fields g f.
Proof. unfold same_fields. intuition congruence. Qed.
Lemma fields_trans f g h : same_fields f g -> same_fields g h -> same_fields f h.
Proof. unfold same_fields. intuition congruence. Qed.

Lemma fields_storable f g : same_fields f g -> storable f -> storable g.
Proof.
  intros (_ & _ & _ & E4 & E5 & E6 & _). unfold storable. now rewrite E4, E5, E6.
Qed.

Lemma known_storable calls f : all_storable calls -> known calls f -> storable f.
Proof.
  intros St (p & l & g & I & PT & S). apply (fields_storable g); auto. now apply (St p l).
Qed.

Lemma restart_alike E calls full c c' a b r d :
  history calls -> after E calls = Ok c -> alike calls full c c' ->
  all_storable calls -> (forall t, tagExists d t = tagExists c t) ->
  exists c2, (b0 <- serialize c' a b ;; x <- deserialize (b0 ++ r) d ;;
              if snd x then Ok (fst x) else UB) = Ok c2 /\
    alike calls (full /\ a = false /\ b = false) c c2.
Proof.
  intros Hc A (M & K & F) St T.
  pose proof (hist_shaped E calls c Hc A) as (_ & CF & HP).
  destruct (mates_blobs (of_line calls) c c' HP CF M) as [CB EB].
  assert (forall k, Forall arr_rule (tget (c_lists c') k)) as AR.
  { intros k. apply Forall_forall. intros f I. apply (K k f I). }
  set (ci := with_lists c (tmap (map norm) (c_lists c'))).
  assert (serialize c' a b = Ok (buffer ci (ser_lists ci a b))) as S1.
  { rewrite (serialize_gen c' a b CB AR). f_equal.
    pose proof M as (_ & M2 & M3 & _).
    apply (ser_same_arrays c' ci (c_lists c') (tmap (map norm) (c_lists c')));
      [reflexivity|reflexivity| |exact M2|exact M3|exact EB].
    intros k. rewrite tget_tmap, map_length. split; auto.
    induction (tget (c_lists c') k) as [|f fs IH]; auto. cbn [map flat_map].
    now rewrite <- IH, norm_record. }
  assert (forall k f, In f (tget (ser_lists ci a b) k) ->
            exists g, In g (tget (c_lists c') k) /\ f = norm g) as IN.
  { intros k f I. destruct (ser_lists_get ci a b k) as [Q|Q]; rewrite Q in I; [|destruct I].
    change (c_lists ci) with (tmap (map norm) (c_lists c')) in I.
    rewrite tget_tmap in I. apply in_map_iff in I as (g & <- & I). eauto. }
  destruct (deserialize_ok (of_line calls) ci (ser_lists ci a b) d r) as (c2 & D & R).
  { intros k. apply Forall_forall. intros f I. destruct (IN k f I) as (g & J & ->).
    apply norm_arr. apply (K k g J). }
  { intros k. apply Forall_forall. intros f I. destruct (IN k f I) as (g & J & ->).
    apply norm_storable. apply (known_storable calls); auto. apply (K k g J). }
  { intros k f I. destruct (IN k f I) as (g & J & ->). apply norm_nul. }
  { exact CF. }
  { intros f [(p & l & J & PT) X]. split; auto. now apply (St p l). }
  exists c2. rewrite S1. cbn [bind]. rewrite D. cbn [bind snd fst]. split; auto.
  pose proof (restores_mates (of_line calls) ci a b d c2 CF R T) as M'.
  assert (forall k, Forall ends_nul (tget (c_lists c) k)) as EN.
  { intros k. apply Forall_forall. intros f I. apply (hist_lists E calls c Hc A k f I). }
  split; [|split].
  - destruct M as (M1 & _). destruct M' as (N1 & N2). split; [|exact N2].
    intros k K1 K2. apply (F2_ext_trans _ (map norm (tget (c_lists c') k))).
    + apply F2_norm; auto.
    + specialize (N1 k K1 K2). change (c_lists ci) with (tmap (map norm) (c_lists c')) in N1.
      now rewrite tget_tmap in N1.
  - intros k f I. destruct R as (R1 & _). destruct (R1 k) as [G H].
    split; [rewrite Forall_forall in H; auto|].
    destruct (F2_in _ _ _ _ G I) as (g & J & X). destruct (IN k g J) as (g' & J' & ->).
    destruct (K k g' J') as [_ (p & l & g0 & L & PT & S0)]. exists p, l, g0. split; auto. split; auto.
    apply (fields_trans _ g'); auto. apply (fields_trans _ (norm g')).
    + apply fields_sym, norm_fields.
    + now apply ext_fields, restored_ext.
  - intros (HF & -> & ->) k. apply (F2_ext_trans _ (map norm (tget (c_lists c') k))).
    + apply F2_norm; auto.
    + destruct R as (R1 & _). destruct (R1 k) as [G _].
      change (tget (ser_lists ci false false) k) with (tget (tmap (map norm) (c_lists c')) k) in G.
      rewrite tget_tmap in G. clear -G. induction G; constructor; auto using restored_ext.
Qed.

(** ** Calls *)
Lemma install_lists E rs c k :
  tget (c_lists (install E rs c)) k = tget (c_lists c) k ++ rules_in k rs.
Proof.
  pose proof (fold_store_w E rs (st_of c) k) as H. unfold install.
  destruct (fold_left (store E) rs (st_of c)) as [[[s w] ha] hae]. exact H.
Qed.

Lemma call_lists E calls full c c' k c1 c1' :
  call_ok k -> perform E c k = Ok c1 -> perform E c' k = Ok c1' ->
  alike calls full c c' -> mates c1 c1' -> alike (calls ++ [k]) full c1 c1'.
Proof.
  intros Hk P P' (M & K & F) M1. split; [exact M1|].
  pose proof (loaded_from_snoc [] calls k) as LS. fold (loaded_lines (calls ++ [k])) in LS.
  fold (loaded_lines calls) in LS.
  assert (c_lists c1 = c_lists c -> c_lists c1' = c_lists c' ->
          loaded_lines (calls ++ [k]) = loaded_lines calls ->
          (forall k0 f, In f (tget (c_lists c1') k0) -> arr_rule f /\ known (calls ++ [k]) f) /\
          (full -> forall k0, Forall2 ext (tget (c_lists c1) k0) (tget (c_lists c1') k0))) as Same.
  { intros E1 E2 E3. rewrite E1, E2. unfold known. rewrite E3. auto. }
  destruct k as [pres t| |t|t|url context dom|]; cbn [perform call_ok] in *.
  - rewrite parse_normal in P, P' by auto. apply rmap_ok in P as (rs & P & ->).
    rewrite P in P'. cbn [rmap bind] in P'. injection P' as <-.
    assert (Forall2 (line_rule E) (map (pair pres) (text_lines t)) rs) as FR.
    { apply mapM_ok in P.
      assert (forall l, In l (text_lines t) -> line_text l) as L
        by (intros l; now apply text_lines_line).
      clear -P L. induction P as [|l r ls rs H M IH]; constructor.
      - split; cbn; auto. apply L. now left.
      - apply IH. intros; apply L. now right. }
    split.
    + intros k f I. fold (install E rs c') in I. rewrite install_lists in I.
      apply in_app_iff in I as [I|I].
      * destruct (K k f I) as [A (p & l & g & J & X)]. split; auto. exists p, l, g. split; auto.
        rewrite LS. apply in_or_app. auto.
      * apply in_rules_in in I as (b & I). destruct (F2_in _ _ _ _ FR I) as (pl & J & L).
        split; [apply (line_rule_arr E _ _ L)|]. exists (fst pl), (snd pl), f.
        split; [rewrite LS; apply in_or_app; right; now destruct pl|].
        split; [now apply (line_rule_parses E pl (f, b, CList k))|]. now repeat split.
    + intros HF k. fold (install E rs c) (install E rs c'). rewrite !install_lists.
      apply Forall2_app; auto. induction (rules_in k rs); constructor; auto using ext_refl.
  - injection P as <-. injection P' as <-. cbn [clear c_lists].
    split; [intros [] f []|intros _ []; constructor].
  - injection P as <-. injection P' as <-. apply Same; auto;
      unfold addTag; destruct (tagExists _ t); reflexivity.
  - injection P as <-. injection P' as <-. apply Same; auto.
  - apply rmap_ok in P as ([v x] & P & ->). apply rmap_ok in P' as ([v' x'] & P' & ->).
    apply matches_quiet in P, P'. cbn [snd]. apply Same; auto; [symmetry; apply P|symmetry; apply P'].
  - injection P as <-. injection P' as <-. apply Same; auto;
      unfold enableBadFp; [destruct (c_badfp c)|destruct (c_badfp c')]; reflexivity.
Qed.

(** ** Whole lives *)
Lemma calls_of_app a b : calls_of (a ++ b) = calls_of a ++ calls_of b.
Proof. induction a as [|[k|nc nh r d] a IH]; cbn; auto. now rewrite IH. Qed.

Lemma life_snoc E es e : life E (es ++ [e]) = (c <- life E es ;; happen E c e).
Proof.
  unfold life. generalize client0. induction es as [|x es IH]; intros c; cbn [app foldM].
  - cbn. now destruct (happen E c e).
  - destruct (happen E c x); cbn [bind]; auto.
Qed.

Lemma mates_refl_new : mates client0 client0.
Proof.
  unfold mates. cbn. split; [intros [] _ _; constructor|].
  repeat (split; [first [reflexivity|exact I|auto]|]). reflexivity.
Qed.

Lemma life_alike E es : forall c,
  history (calls_of es) -> restarts_ok es -> after E (calls_of es) = Ok c ->
  exists c', life E es = Ok c' /\ alike (calls_of es) (saves_all es) c c'.
Proof.
  induction es as [|e es IH] using rev_ind; intros c Hc R A.
  - injection A as <-. exists client0. split; auto. split; [exact mates_refl_new|].
    split; [intros [] f []|intros _ []; constructor].
  - rewrite calls_of_app in *. apply Forall_app in Hc as [Hc Hk].
    assert (restarts_ok es) as R1.
    { intros a nc nh r d b ->. apply (R a nc nh r d (b ++ [e])). now rewrite <- app_assoc. }
    rewrite life_snoc. destruct e as [k|nc nh r d]; cbn [calls_of] in *.
    + rewrite after_snoc in A. apply bind_ok in A as (c0 & A0 & A).
      destruct (IH c0 Hc R1 A0) as (c' & L & X). rewrite L. cbn [bind happen].
      inversion Hk as [|? ? Hk1 _]; subst.
      destruct (perform_ref E c0 c' k Hk1 (proj1 X) c A) as (c1 & P & M).
      exists c1. split; auto.
      destruct (call_lists E (calls_of es) (saves_all es) c0 c' k c c1 Hk1 A P X M) as (Y1 & Y2 & Y3).
      split; auto. split; auto. intros S. apply Y3. intros nc nh r d I. apply (S nc nh r d).
      apply in_or_app. auto.
    + rewrite app_nil_r in *. destruct (IH c Hc R1 A) as (c' & L & X). rewrite L. cbn [bind happen].
      destruct (R es nc nh r d [] eq_refl) as [St T].
      destruct (hist_view E _ c Hc A) as (rs & V).
      destruct (restart_alike E (calls_of es) (saves_all es) c c' nc nh r d Hc A X St) as (c2 & P & Y).
      { intros t. apply Bool.eq_iff_eq_true. rewrite T. symmetry. apply (w_tags _ _ _ _ V). }
      exists c2. split; auto. destruct Y as (Y1 & Y2 & Y3). split; auto. split; auto.
      intros S. apply Y3. destruct (S nc nh r d) as [-> ->]; [apply in_or_app; cbn; auto|].
      split; auto. intros nc' nh' r' d' I. apply (S nc' nh' r' d'). apply in_or_app. auto.
Qed.

(** ** C65: restarts are unobservable *)
Lemma life_decides E es c :
  history (calls_of es) -> restarts_ok es -> after E (calls_of es) = Ok c ->
  exists c', life E es = Ok c' /\
    (forall url context dom v c2, matches E c url context dom = Ok (v, c2) ->
       exists w c2', matches E c' url context dom = Ok (w, c2') /\ same_verdict v w) /\
    (forall url context dom v, findMatchingFilters E c url context dom = Ok v ->
       exists w, findMatchingFilters E c' url context dom = Ok w /\ same_verdict v w) /\
    (saves_all es -> forall nc nh, serialize c' nc nh = serialize c nc nh).
Proof.
  intros Hc R A. destruct (life_alike E es c Hc R A) as (c' & L & M & K & F).
  exists c'. split; auto. split; [|split].
  - intros url context dom v c2 Q.
    destruct (matches_ref E c c' url context dom M (v, c2) Q) as ([w c2'] & Q' & V & _).
    exists w, c2'. split; auto. now apply vrel_same.
  - intros url context dom v Q.
    destruct (find_ref E c c' url context dom M v Q) as (w & Q' & V).
    exists w. split; auto. now apply vrel_same.
  - intros S nc nh. pose proof (hist_shaped E _ c Hc A) as Sh.
    destruct Sh as (Sh1 & CF & HP).
    destruct (mates_blobs (of_line (calls_of es)) c c' HP CF M) as [CB EB].
    rewrite serialize_gen; auto.
    2:{ intros k. apply Forall_forall. intros f I. apply (K k f I). }
    rewrite (serialize_ok (of_line (calls_of es))) by (split; auto). f_equal.
    pose proof M as (_ & M2 & M3 & _).
    apply (ser_same_arrays c' c _ _ nc nh eq_refl eq_refl); auto.
    intros k. specialize (F S k). split; [|symmetry; apply (F2_len _ _ _ F)].
    symmetry. induction F; auto. cbn [flat_map]. rewrite IHF. f_equal. now apply ext_record.
Qed.
