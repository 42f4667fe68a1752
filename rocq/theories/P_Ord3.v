(** The reported rule is determined by the loaded lines and the tags. *)
From Verif Require Import Base Flags Protocol Url Sets FilterM ParseM ClientM Spec SpecM
  P_Base P_Protocol P_Url P_Match P_Rule P_Parse P_List P_Shape P_Fp P_Line P_Line2
  P_Fp2 P_Props1 P_Props2 P_Props3 P_Opt P_Opt2 P_Set P_Client P_Decide P_Hist P_Dec2 P_Dec3
  P_Dec4 P_Ord P_Ord2 SpecC SpecOrd.

Lemma same_sym f g : same_content f g -> same_content g f.
Proof. intros (H1 & H2 & H3 & H4 & H5 & H6 & H7 & H8). repeat split; congruence. Qed.
Lemma same_trans f g h : same_content f g -> same_content g h -> same_content f h.
Proof.
  intros (H1 & H2 & H3 & H4 & H5 & H6 & H7 & H8) (K1 & K2 & K3 & K4 & K5 & K6 & K7 & K8).
  repeat split; congruence.
Qed.

Lemma parses_fun p l f f' : parses_to p l f -> parses_to p l f' -> f = f'.
Proof. intros (b & H) (b' & H'). congruence. Qed.

Lemma split_cases {A} (a b a' b' : list A) x x' :
  a ++ x :: b = a' ++ x' :: b' -> (a = a' /\ x = x') \/ In x a' \/ In x' a.
Proof.
  intros H. apply app_eq_app in H as (m & [[-> H]|[-> H]]); destruct m as [|y m];
    cbn [app] in H; injection H as <- _.
  - left. split; auto. now rewrite app_nil_r.
  - right. right. apply in_or_app. cbn; auto.
  - left. split; auto. now rewrite app_nil_r.
  - right. left. apply in_or_app. cbn; auto.
Qed.

Lemma first_line_unique E calls e grp url context dom f f' :
  in_group E calls e grp f -> in_group E calls e grp f' ->
  applies E calls f url context dom -> applies E calls f' url context dom ->
  first_line E calls e grp url context dom f -> first_line E calls e grp url context dom f' ->
  f = f'.
Proof.
  intros G G' A A' (a & p & l & b & L & P & N) (a' & p' & l' & b' & L' & P' & N').
  rewrite L in L'. apply split_cases in L' as [[_ X]|[X|X]].
  - injection X as <- <-. now apply (parses_fun p l).
  - exfalso. now apply (N' p l f).
  - exfalso. now apply (N p' l' f').
Qed.

Lemma suffix_len (h a b x y : bytes) :
  h = x ++ a -> h = y ++ b -> length a = length b -> a = b.
Proof.
  intros -> H L. assert (length x = length y) as Lx.
  { apply (f_equal (@length ascii)) in H. rewrite !app_length in H. lia. }
  apply (f_equal (skipn (length x))) in H. rewrite Lx in H at 2.
  now rewrite !skipn_app, !skipn_all, !Nat.sub_diag in H.
Qed.

Lemma looked_up_suffix host h : looked_up host h -> exists x, host = x ++ h.
Proof.
  intros [->|[[->|(p & ->)] _]]; [now exists []|now exists []|].
  exists (p ++ B "."). now rewrite <- app_assoc.
Qed.

Lemma first_host_unique calls e f f' h :
  first_host_rule calls e f -> first_host_rule calls e f' ->
  f_host f = Some h -> f_host f' = Some h -> f = f'.
Proof.
  intros [R (a & p & l & b & h1 & L & P & H1 & N)] [R' (a' & p' & l' & b' & h2 & L' & P' & H2 & N')]
    Hh Hh'.
  assert (h1 = h) as -> by congruence. assert (h2 = h) as -> by congruence.
  rewrite L in L'. apply split_cases in L' as [[_ X]|[X|X]].
  - injection X as <- <-. now apply (parses_fun p l).
  - exfalso. now apply (N' p l f).
  - exfalso. now apply (N p' l' f').
Qed.

(** Host rules that a query takes into account. *)
Definition hosted (E : env) (calls : list call) (e : bool) (url : bytes) (P : filter -> Prop) : Prop :=
  forall f, P f -> in_group E calls e Hosts f ->
    first_host_rule calls e f /\ exists h, f_host f = Some h /\ looked_up (hostOf url) h.

Lemma heeded_hosted E calls e url dom : hosted E calls e url (heeded E calls e url dom).
Proof.
  intros f X G. unfold in_group in G. cbn [group_class] in G.
  destruct X as [f X|f X|f X N|f X N|f host h X1 X2 X3 X4];
    try (pose proof (class_unique E calls _ _ f G X) as C; now destruct e).
  split; auto. exists h. split; auto. apply hostOf_spec in X2 as ->. auto.
Qed.

Lemma visible_hosted E calls e url : nonul url -> hosted E calls e url (visible E calls e url).
Proof.
  intros Hu f X G. unfold in_group in G. cbn [group_class] in G.
  destruct X as [(k & X & C)|(host & h & X1 & X2 & X3 & X4)].
  { pose proof (class_unique E calls _ _ f G X) as D. discriminate D. }
  split; auto. exists h. split; auto. rewrite getUrlHost_cstr in X2 by auto.
  assert (host = hostOf url) as -> by congruence. auto.
Qed.

Lemma first_report_unique E calls e order url context dom P g g' :
  hosted E calls e url P ->
  first_report E calls e order url context dom P g ->
  first_report E calls e order url context dom P g' -> same_content g g'.
Proof.
  intros HP (a & grp & b & f & L & G & Pf & A & S & N & T)
    (a' & grp' & b' & f' & L' & G' & Pf' & A' & S' & N' & T').
  assert (f = f') as <-.
  { rewrite L in L'. apply split_cases in L' as [[_ <-]|[X|X]].
    2:{ exfalso. now apply (N' grp f). }
    2:{ exfalso. now apply (N grp' f'). }
    assert (grp = Hosts \/ grp <> Hosts) as [->|NH] by (destruct grp; auto; right; discriminate).
    - destruct T as (h & Hh & M), T' as (h' & Hh' & M').
      destruct (HP f Pf G) as (FR & h1 & X1 & X2), (HP f' Pf' G') as (FR' & h2 & Y1 & Y2).
      assert (h1 = h) as -> by congruence. assert (h2 = h') as -> by congruence.
      assert (h = h') as ->.
      { apply looked_up_suffix in X2 as (x & X2). apply looked_up_suffix in Y2 as (y & Y2).
        apply (suffix_len (hostOf url) h h' x y); auto.
        pose proof (M f' h' Pf' G' Hh' A'). pose proof (M' f h Pf G Hh A). lia. }
      now apply (first_host_unique calls e f f' h').
    - apply (first_line_unique E calls e grp url context dom); auto; destruct grp; easy. }
  apply (same_trans _ f); auto. now apply same_sym.
Qed.

(** The same lines and tags, other Bloom filter hash functions. *)
Section Same.
  Context (E : env) (h h2 : list (bytes -> N)) (calls1 calls2 : list call) (e : bool)
    (url : bytes) (context : N) (dom : option bytes).
  Notation E2 := (with_bloom_hashes E h h2).
  Context (L : loaded_lines calls1 = loaded_lines calls2).
  Context (T : forall t, tag_enabled calls1 t <-> tag_enabled calls2 t).

  Lemma same_loaded k f : loaded_in E calls1 k f <-> loaded_in E2 calls2 k f.
  Proof. unfold loaded_in. rewrite L. setoid_rewrite classify_hashes. tauto. Qed.

  Lemma same_first_host f : first_host_rule calls1 e f <-> first_host_rule calls2 e f.
  Proof. unfold first_host_rule. now rewrite L. Qed.

  Lemma same_applies f : applies E calls1 f url context dom <-> applies E2 calls2 f url context dom.
  Proof.
    unfold applies, matches_alone, tag_on. rewrite T. setoid_rewrite filter_matches_hashes. tauto.
  Qed.

  Lemma same_page : page_excluded E calls1 e dom <-> page_excluded E2 calls2 e dom.
  Proof. unfold page_excluded. setoid_rewrite same_loaded. cbn [with_bloom_hashes e_hash]. tauto. Qed.

  Lemma same_heeded f : heeded E calls1 e url dom f <-> heeded E2 calls2 e url dom f.
  Proof.
    split; intros X; destruct X as [f X|f X|f X N|f X N|f host k X1 X2 X3 X4].
    1,6: apply heeded_fingerprint; now apply same_loaded.
    1,5: apply heeded_plain; now apply same_loaded.
    1,4: apply heeded_listed; auto; now apply same_loaded.
    1,3: apply heeded_excluded; [now apply same_loaded|pose proof same_page; tauto].
    1,2: apply (heeded_host _ _ e url dom f host k); auto; now apply same_first_host.
  Qed.

  Lemma same_visible f : visible E calls1 e url f <-> visible E2 calls2 e url f.
  Proof.
    unfold visible. setoid_rewrite same_loaded. setoid_rewrite same_first_host. tauto.
  Qed.

  Lemma same_first order P1 P2 g :
    (forall f, P1 f <-> P2 f) ->
    first_report E calls1 e order url context dom P1 g ->
    first_report E2 calls2 e order url context dom P2 g.
  Proof.
    intros HP (a & grp & b & f & Lo & G & Pf & A & S & N & R).
    exists a, grp, b, f. split; auto. split; [now apply same_loaded|]. split; [now apply HP|].
    split; [now apply same_applies|]. split; auto. split.
    - intros grp' f' I G' Pf'. rewrite <- same_applies. apply (N grp'); auto;
        [now apply same_loaded|now apply HP].
    - assert (grp = Hosts \/ grp <> Hosts) as [->|NH] by (destruct grp; auto; right; discriminate).
      + destruct R as (k & Hk & M). exists k. split; auto. intros f' k' Pf' G' Hk' A'.
        apply (M f'); [now apply HP|now apply same_loaded|auto|now apply same_applies].
      + assert (first_line E calls1 e grp url context dom f) as FL by (destruct grp; easy).
        assert (first_line E2 calls2 e grp url context dom f) as FL'.
        { destruct FL as (x & p & l & y & Lx & Px & Nx). exists x, p, l, y.
          split; [congruence|]. split; auto. intros p' l' f' I' P' G' A'.
          apply (Nx p' l' f'); auto; [now apply same_loaded|now apply same_applies]. }
        destruct grp; easy.
  Qed.

  Lemma same_both order P1 P2 o1 o2 :
    (forall f, P1 f <-> P2 f) -> hosted E2 calls2 e url P2 ->
    (forall g, o1 = Some g -> first_report E calls1 e order url context dom P1 g) ->
    (forall g, o2 = Some g -> first_report E2 calls2 e order url context dom P2 g) ->
    (o1 = None -> forall f, P1 f -> ~ applies E calls1 f url context dom) ->
    (o2 = None -> forall f, P2 f -> ~ applies E2 calls2 f url context dom) ->
    same_report o1 o2.
  Proof.
    intros HP HH F1 F2 N1 N2. destruct o1 as [g1|], o2 as [g2|]; cbn [same_report]; auto.
    - apply (first_report_unique E2 calls2 e order url context dom P2); auto.
      apply (same_first order P1 P2 g1 HP). auto.
    - specialize (F1 g1 eq_refl). apply (same_first order P1 P2 g1 HP) in F1.
      destruct F1 as (a & grp & b & f & _ & _ & Pf & A & _). now apply (N2 eq_refl f).
    - specialize (F2 g2 eq_refl).
      destruct F2 as (a & grp & b & f & _ & _ & Pf & A & _).
      apply (N1 eq_refl f); [now apply HP|now apply same_applies].
  Qed.
End Same.

Lemma matches_exc_none E calls c url context dom v c' :
  history calls -> after E calls = Ok c -> nonul url ->
  matches E c (cstr url) context dom = Ok (v, c') ->
  (~ web_url url \/ v_filter v = None) -> v_filter v = None /\ v_exc v = None.
Proof.
  intros H A Hu M W. destruct (hist_view E calls c H A) as (rs & V).
  destruct (c_host c) as [hs|] eqn:N.
  2:{ now apply (asked_none E calls c rs url context dom v c'). }
  assert (c_host c <> None) as N' by congruence.
  pose proof (w_rep _ _ _ _ V) as R. unfold matches in M.
  rewrite strlen_cstr in M by auto. cbn [bind] in M.
  destruct (isBlockableProtocol_spec url Hu) as (b & E1 & E2).
  rewrite E1 in M. cbn [bind] in M. destruct b; cbn [negb] in M.
  2:{ injection M as <- <-. auto. }
  assert (web_url url) as Hw by (now apply E2). destruct W as [W|W]; [easy|].
  rewrite mkQuery_cstr in M by auto. cbn [bind] in M. cbv zeta in M.
  change (q_url (the_query url context dom)) with url in M.
  apply bind_ok in M as ([[hit mf] c1] & HB & M).
  destruct (block_phase_spec E c rs url context dom _ hit mf c1 R Hu (covers_inputBloom E url) N' HB)
    as (Q1 & _ & ->).
  destruct mf as [g|]; cbn [negb] in M.
  - apply bind_ok in M as ([[block me] c2] & HX & M). injection M as <- <-. discriminate W.
  - injection M as <- <-. auto.
Qed.

Theorem matches_same E h h2 calls1 calls2 c1 c2 url context dom v1 v2 c1' c2' :
  history calls1 -> after E calls1 = Ok c1 ->
  history calls2 -> after (with_bloom_hashes E h h2) calls2 = Ok c2 -> nonul url ->
  loaded_lines calls1 = loaded_lines calls2 ->
  (forall t, tag_enabled calls1 t <-> tag_enabled calls2 t) ->
  matches E c1 (cstr url) context dom = Ok (v1, c1') ->
  matches (with_bloom_hashes E h h2) c2 (cstr url) context dom = Ok (v2, c2') ->
  same_report (v_filter v1) (v_filter v2) /\ same_report (v_exc v1) (v_exc v2).
Proof.
  intros H1 A1 H2 A2 Hu L T M1 M2.
  destruct (isBlockableProtocol_spec url Hu) as (b & _ & Wb).
  pose proof (matches_exc_none _ _ _ _ _ _ _ _ H1 A1 Hu M1) as X1.
  pose proof (matches_exc_none _ _ _ _ _ _ _ _ H2 A2 Hu M2) as X2.
  destruct b.
  2:{ assert (~ web_url url) as NW by (intros W; apply Wb in W; discriminate).
      destruct (X1 (or_introl NW)) as [-> ->], (X2 (or_introl NW)) as [-> ->]. now split. }
  assert (web_url url) as Hw by (now apply Wb).
  destruct (matches_reports _ _ _ _ _ _ _ _ H1 A1 Hu Hw M1) as (R1 & R1' & _).
  destruct (matches_reports _ _ _ _ _ _ _ _ H2 A2 Hu Hw M2) as (R2 & R2' & _).
  destruct (matches_first _ _ _ _ _ _ _ _ H1 A1 Hu M1) as [F1 F1'].
  destruct (matches_first _ _ _ _ _ _ _ _ H2 A2 Hu M2) as [F2 F2'].
  assert (same_report (v_filter v1) (v_filter v2)) as K.
  { apply (same_both E h h2 calls1 calls2 false url context dom L T asked_order
      (heeded E calls1 false url dom) (heeded (with_bloom_hashes E h h2) calls2 false url dom)); auto.
    - intros f. now apply same_heeded.
    - apply heeded_hosted.
    - intros X. now rewrite X in R1.
    - intros X. now rewrite X in R2. }
  split; auto. destruct (v_filter v1) as [g1|] eqn:V1, (v_filter v2) as [g2|] eqn:V2; try easy.
  2:{ destruct (X1 (or_intror eq_refl)) as [_ ->], (X2 (or_intror eq_refl)) as [_ ->]. easy. }
  specialize (R1' ltac:(discriminate)). specialize (R2' ltac:(discriminate)).
  apply (same_both E h h2 calls1 calls2 true url context dom L T asked_order
      (heeded E calls1 true url dom) (heeded (with_bloom_hashes E h h2) calls2 true url dom)); auto.
  - intros f. now apply same_heeded.
  - apply heeded_hosted.
  - intros X. now rewrite X in R1'.
  - intros X. now rewrite X in R2'.
Qed.

Theorem find_same E h h2 calls1 calls2 c1 c2 url context dom v1 v2 :
  history calls1 -> after E calls1 = Ok c1 ->
  history calls2 -> after (with_bloom_hashes E h h2) calls2 = Ok c2 -> nonul url ->
  loaded_lines calls1 = loaded_lines calls2 ->
  (forall t, tag_enabled calls1 t <-> tag_enabled calls2 t) ->
  findMatchingFilters E c1 (cstr url) context dom = Ok v1 ->
  findMatchingFilters (with_bloom_hashes E h h2) c2 (cstr url) context dom = Ok v2 ->
  same_report (v_filter v1) (v_filter v2) /\ same_report (v_exc v1) (v_exc v2).
Proof.
  intros H1 A1 H2 A2 Hu L T M1 M2.
  assert (forall E calls c v, history calls -> after E calls = Ok c ->
    findMatchingFilters E c (cstr url) context dom = Ok v -> v_filter v = None -> v_exc v = None) as XN.
  { intros E' calls c v H A M. destruct (hist_view E' calls c H A) as (rs & V).
    now destruct (find_spec E' c rs url context dom v (w_rep _ _ _ _ V) Hu M) as (_ & _ & S3 & _). }
  pose proof (XN _ _ _ _ H1 A1 M1) as X1. pose proof (XN _ _ _ _ H2 A2 M2) as X2.
  destruct (find_reports _ _ _ _ _ _ _ H1 A1 Hu M1) as (R1 & R1' & _).
  destruct (find_reports _ _ _ _ _ _ _ H2 A2 Hu M2) as (R2 & R2' & _).
  destruct (find_first _ _ _ _ _ _ _ H1 A1 Hu M1) as [F1 F1'].
  destruct (find_first _ _ _ _ _ _ _ H2 A2 Hu M2) as [F2 F2'].
  assert (same_report (v_filter v1) (v_filter v2)) as K.
  { apply (same_both E h h2 calls1 calls2 false url context dom L T (found_order false)
      (visible E calls1 false url) (visible (with_bloom_hashes E h h2) calls2 false url)); auto.
    - intros f. now apply same_visible.
    - now apply visible_hosted.
    - intros X. now rewrite X in R1.
    - intros X. now rewrite X in R2. }
  split; auto. destruct (v_filter v1) as [g1|] eqn:V1, (v_filter v2) as [g2|] eqn:V2; try easy.
  2:{ rewrite X1, X2; auto. }
  specialize (R1' ltac:(discriminate)). specialize (R2' ltac:(discriminate)).
  apply (same_both E h h2 calls1 calls2 true url context dom L T (found_order true)
      (visible E calls1 true url) (visible (with_bloom_hashes E h h2) calls2 true url)); auto.
  - intros f. now apply same_visible.
  - now apply visible_hosted.
  - intros X. now rewrite X in R1'.
  - intros X. now rewrite X in R2'.
Qed.
