(** Which rule is reported. *)
From Verif Require Import Base Flags Protocol Url Sets FilterM ParseM ClientM Spec SpecM
  P_Base P_Protocol P_Url P_Match P_Rule P_Parse P_List P_Shape P_Fp P_Line P_Line2
  P_Fp2 P_Props1 P_Props2 P_Props3 P_Opt P_Opt2 P_Set P_Client P_Decide P_Hist P_Dec2 P_Dec3
  SpecC SpecOrd.

Section Ord.
  Context (E : env) (c : client) (url : bytes) (context : N) (dom : option bytes).
  Notation fires := (fires E c url context dom).

  Definition firstin (fs : list filter) (o : option filter) : Prop :=
    match o with
    | Some f => exists a b, fs = a ++ f :: b /\ fires f /\ forall g, In g a -> ~ fires g
    | None => forall f, In f fs -> ~ fires f
    end.

  Lemma hasMatching_first fs bf host o :
    nonul url -> (forall f, In f fs -> wf_rule f) ->
    (forall b, bf = Some b -> covers (e_hash2 E) b url) ->
    host = [] \/ host = hostOf url ->
    hasMatchingFilters E c fs (cstr url) (length url) (ctx_of url context dom) dom bf host = Ok o ->
    firstin fs o.
  Proof.
    intros Hu W C Hh. induction fs as [|f fs IH]; intros H.
    - cbn in H. injection H as <-. intros f [].
    - assert (hasMatchingFilters E c [f] (cstr url) (length url) (ctx_of url context dom)
        dom bf host = Ok (Some f) /\ o = Some f \/
        hasMatchingFilters E c [f] (cstr url) (length url) (ctx_of url context dom)
        dom bf host = Ok None /\
        hasMatchingFilters E c fs (cstr url) (length url) (ctx_of url context dom)
        dom bf host = Ok o) as K.
      { cbn [hasMatchingFilters] in *. apply bind_ok in H as (m & M & H). rewrite M. cbn [bind].
        destruct (m && tag_ok c f); [injection H as <-|]; auto. }
      destruct K as [[K ->]|[K H1]]; apply hasMatching_spec in K; auto.
      2,4: intros g [<-|[]]; apply W; now left.
      + exists [], fs. split; auto. split; [apply K|]. intros g [].
      + assert (~ fires f) as N by (apply K; now left).
        apply IH in H1; [|intros; apply W; now right]. destruct o as [g|].
        * destruct H1 as (a & b & -> & F & Na). exists (f :: a), b. split; auto. split; auto.
          intros x [<-|I]; auto.
        * intros x [<-|I]; auto.
  Qed.

  Lemma scan_first rs k bf o :
    rep E c rs -> nonul url ->
    (forall b, bf = Some b -> covers (e_hash2 E) b url) ->
    scan E c k (the_query url context dom) bf = Ok o ->
    firstin (rules_in k rs) o.
  Proof.
    intros R Hu C H. unfold scan in H. cbn [the_query q_input q_len q_context q_dom q_host] in H.
    rewrite (rep_lists E c rs) in H by auto.
    apply hasMatching_first in H; auto.
    intros f I. apply in_rules_in in I as (b & I). apply (rep_wf E c rs _ R I).
  Qed.

  Definition firsthost (pr : bytes -> Prop) (hs : list filter) (o : option filter) : Prop :=
    match o with
    | Some g => exists x f, pr x /\ pick x hs = Some f /\ fires f /\ g = copyFilter f /\
                  forall x' f', pr x' -> pick x' hs = Some f' -> fires f' -> length x <= length x'
    | None => forall x f, pr x -> pick x hs = Some f -> ~ fires f
    end.

  Lemma host_walk_first s hs h k o :
    hs_rep hkey (e_hash E) s (map copyFilter hs) -> k <= length h ->
    host_walk E c s h k (cstr url) (length url) (ctx_of url context dom) dom = Ok o ->
    firsthost (walked h k) hs o.
  Proof.
    intros R. revert o. induction k as [|k IH]; intros o L H.
    - cbn [host_walk] in H. apply (probe_spec E c s hs) in H; auto. destruct o as [g|].
      + destruct H as (f & H1 & H2 & H3). exists h, f. split; [now left|]. split; auto.
        split; auto. split; auto. intros x' f' [->|(j & J & _)] P F; lia.
      + intros x f [->|(j & J & _)] P; auto. lia.
    - cbn [host_walk] in H. apply bind_ok in H as (r & H1 & H).
      destruct (nth_error h k) as [c0|] eqn:N.
      2:{ apply nth_error_None in N. lia. }
      rewrite (nth_error_nth h k NUL N) in H1.
      assert (firsthost (walked h k) hs o ->
        (nth_error h k = Some "."%char -> forall f, pick (skipn (S k) h) hs = Some f -> ~ fires f) ->
        firsthost (walked h (S k)) hs o) as Up.
      { clear. intros Ho NF.
        assert (forall x f, walked h (S k) x -> pick x hs = Some f -> fires f ->
                walked h k x) as Dn.
        { intros x f [->|(j & J & Hd & ->)] P F; [now left|].
          destruct (Nat.eq_dec j k) as [->|]; [now apply NF in P|].
          right. exists j. split; [lia|auto]. }
        destruct o as [g|].
        - destruct Ho as (x & f & X & P & F & -> & M). exists x, f.
          split; [destruct X as [->|(j & J & X)]; [now left|right; exists j; split; [lia|auto]]|].
          split; auto. split; auto. split; auto. intros x' f' X' P' F'. eauto.
        - intros x f X P F. apply (Ho x f); eauto. }
      destruct (ceq c0 "."%char) eqn:C0.
      + apply ceq_eq in C0. rewrite C0 in N. apply (probe_spec E c s hs) in H1; auto.
        destruct r as [g|].
        * injection H as <-. destruct H1 as (f & P1 & P2 & P3).
          exists (skipn (S k) h), f. split; [right; exists k; auto|]. split; auto. split; auto.
          split; auto. intros x' f' [->|(j & J & _ & ->)] _ _; rewrite !skipn_length; lia.
        * apply Up; [apply IH; auto; lia|]. intros _. exact H1.
      + injection H1 as <-. apply Up; [apply IH; auto; lia|]. intros X. exfalso.
        assert (c0 = "."%char) as -> by congruence. discriminate C0.
  Qed.

  Lemma lookup_first s hs h r :
    hs_rep hkey (e_hash E) s (map copyFilter hs) ->
    hostLookup E c (Some s) h (cstr url) (length url) (ctx_of url context dom) dom = Ok r ->
    match r with
    | HNoSet => False
    | HHit g => firsthost (probed h) hs (Some g)
    | HMiss => firsthost (probed h) hs None
    end.
  Proof.
    intros R H. unfold hostLookup in H. apply bind_ok in H as (o & H1 & H).
    apply (host_walk_first s hs) in H1; auto.
    2:{ destruct (skip_tld_spec h (length h) (Nat.le_refl _)) as [K|K]; lia. }
    assert (firsthost (probed h) hs o) as K.
    { destruct o as [g|].
      - destruct H1 as (x & f & X & P & F & G & M). exists x, f.
        split; [now apply walked_probed|]. split; auto. split; auto. split; auto.
        intros x' f' X'. apply M. now apply walked_probed.
      - intros x f X. apply H1. now apply walked_probed. }
    injection H as <-. destruct o; auto.
  Qed.

  (** Several stages, one after the other. *)
  Definition stage := option filter -> Prop.
  Definition stages (l : list (group * stage)) (o : option filter) : Prop :=
    match o with
    | Some g => exists a grp T b, l = a ++ (grp, T) :: b /\ T (Some g) /\
                  Forall (fun x => snd x None) a
    | None => Forall (fun x => snd x None) l
    end.

  Lemma stages_cons grp (T : stage) l x o :
    T x -> (x = None -> stages l o) -> (forall g, x = Some g -> o = Some g) ->
    stages ((grp, T) :: l) o.
  Proof.
    intros Hx Hn Hs. destruct x as [g|].
    - rewrite (Hs g eq_refl). exists [], grp, T, l. auto.
    - specialize (Hn eq_refl). destruct o as [g|]; cbn [stages] in *.
      + destruct Hn as (a & grp' & T' & b & -> & K & F). exists ((grp, T) :: a), grp', T', b.
        auto.
      + constructor; auto.
  Qed.

  Lemma stages_or grp (T : stage) l a b o :
    orelse a b = Ok o -> (forall x, a = Ok x -> T x) ->
    (forall x, b = Ok x -> stages l x) -> stages ((grp, T) :: l) o.
  Proof.
    unfold orelse. intros H HA HB. apply bind_ok in H as (x & H1 & H).
    apply (stages_cons grp T l x o); auto.
    - intros ->. auto.
    - intros g ->. congruence.
  Qed.

  Lemma stages_one grp (T : stage) o : T o -> stages [(grp, T)] o.
  Proof.
    intros H. apply (stages_cons grp T [] o o); auto. intros ->. constructor.
  Qed.

  (** A scan of a list that happens under the condition [B]. *)
  Definition scanT (fs : list filter) (B : Prop) : stage := fun o =>
    match o with Some f => B /\ firstin fs (Some f) | None => B -> firstin fs None end.

  Lemma scanT_when rs k bf (b : bool) (B : Prop) o :
    rep E c rs -> nonul url ->
    (forall b, bf = Some b -> covers (e_hash2 E) b url) ->
    (b = true <-> B) ->
    when b (scan E c k (the_query url context dom) bf) = Ok o -> scanT (rules_in k rs) B o.
  Proof.
    intros R Hu C Hb H. unfold when in H. destruct b.
    - apply (scan_first rs) in H; auto. assert B by (now apply Hb).
      destruct o as [f|]; cbn [scanT]; auto.
    - injection H as <-. intros HB. apply Hb in HB. discriminate.
  Qed.

  Lemma scanT_always rs k bf o :
    rep E c rs -> nonul url ->
    (forall b, bf = Some b -> covers (e_hash2 E) b url) ->
    scan E c k (the_query url context dom) bf = Ok o -> scanT (rules_in k rs) True o.
  Proof. intros R Hu C H. apply (scanT_when rs k bf true); auto. tauto. Qed.

  Definition asked_stages (rs : list prule) (e : bool) : list (group * stage) :=
    [(Listed, scanT (rules_in (kDom e) rs) (gate_hit E 1000 (items (kDom e) rs) dom));
     (Excluded, scanT (rules_in (kAnti e) rs) (~ gate_hit E 100 (items (kAnti e) rs) dom));
     (Plain, scanT (rules_in (kNo e) rs) True);
     (Hosts, firsthost (probed (hostOf url)) (hosts_in e rs));
     (Fingerprinted, scanT (rules_in (kFp e) rs) True)].

  Definition found_stages (rs : list prule) (e : bool) : list (group * stage) :=
    (Plain, scanT (rules_in (kNo e) rs) True) ::
    (Listed, scanT (rules_in (kDom e) rs) True) ::
    (Excluded, scanT (rules_in (kAnti e) rs) True) ::
    (if e then [(Hosts, firsthost (probed (hostOf url)) (hosts_in e rs));
                (Fingerprinted, scanT (rules_in (kFp e) rs) True)]
     else [(Fingerprinted, scanT (rules_in (kFp e) rs) True);
           (Hosts, firsthost (probed (hostOf url)) (hosts_in e rs))]).

  Lemma asked_first rs e bf nfd nfa hs bl (m o : option filter) :
    rep E c rs -> nonul url -> covers (e_hash2 E) bf url ->
    gate_rep E 1000 nfd (items (kDom e) rs) -> gate_rep E 100 nfa (items (kAnti e) rs) ->
    hs_rep hkey (e_hash E) hs (map copyFilter (hosts_in e rs)) ->
    (forall r fp, In r rs -> fp_stored E e r fp -> bl_exists (e_hashes E) bl fp = true) ->
    orelse (when (negb (nfMiss E (Some nfd) dom))
               (scan E c (kDom e) (the_query url context dom) (Some bf)))
      (orelse (when (nfMiss E (Some nfa) dom)
                  (scan E c (kAnti e) (the_query url context dom) (Some bf)))
              (scan E c (kNo e) (the_query url context dom) (Some bf))) = Ok m ->
    (forall g, m = Some g -> o = Some g) ->
    (m = None -> exists h, lookup E c (Some hs) (the_query url context dom) = Ok h /\
       match h with
       | HNoSet => True
       | HHit g => o = Some g
       | HMiss => if bloomMiss E (Some bl) url then o = None
                  else scan E c (kFp e) (the_query url context dom) (Some bf) = Ok o
       end) ->
    stages (asked_stages rs e) o.
  Proof.
    intros R Hu C G1 G2 G3 G4 H Hs Hn.
    assert (forall b, Some bf = Some b -> covers (e_hash2 E) b url) as C' by (intros b [= <-]; auto).
    unfold orelse in H. apply bind_ok in H as (x & H1 & H).
    apply (stages_cons _ _ _ x).
    { eapply scanT_when; [exact R|exact Hu|exact C'| |exact H1].
      rewrite negb_true_iff. apply (nfMiss_rep E 1000 nfd _ dom G1). }
    2:{ intros g ->. apply Hs. congruence. }
    intros ->. apply bind_ok in H as (y & H2 & H).
    apply (stages_cons _ _ _ y).
    { eapply scanT_when; [exact R|exact Hu|exact C'| |exact H2].
      apply (nfMiss_rep E 100 nfa _ dom G2). }
    2:{ intros g ->. apply Hs. congruence. }
    intros ->. apply (stages_cons _ _ _ m).
    { eapply scanT_always; eauto. }
    2:{ exact Hs. }
    intros ->. destruct (Hn eq_refl) as (h & L1 & L2).
    unfold lookup in L1. cbn [the_query q_input q_len q_context q_dom q_host] in L1.
    apply (lookup_first hs (hosts_in e rs)) in L1; auto.
    destruct h as [| |g]; [easy| |].
    - apply (stages_cons _ _ _ None); [exact L1| |discriminate]. intros _.
      apply stages_one. destruct (bloomMiss E (Some bl) url) eqn:BM.
      + rewrite L2. intros _ f I. eapply (bloomMiss_spec E c rs e bl); eauto.
      + eapply scanT_always; eauto.
    - apply (stages_cons _ _ _ (Some g)); [exact L1|discriminate|]. intros g' [= <-]. auto.
  Qed.

  Lemma block_first rs bf hit mf c1 :
    rep E c rs -> nonul url -> covers (e_hash2 E) bf url -> c_host c <> None ->
    block_phase E c (the_query url context dom) (Some bf) = Ok (hit, mf, c1) ->
    stages (asked_stages rs false) mf.
  Proof.
    intros R Hu C N H. destruct (rep_sets E c rs R N) as
      (s & G & S1 & S2 & S3 & S4 & S5 & S6 & S7 & S8).
    unfold block_phase in H. apply bind_ok in H as (m & M & H).
    rewrite S5, S6 in M. cbn [the_query q_dom] in M.
    apply (asked_first rs false bf _ _ (x_host s) (x_bloom s) m mf R Hu C (g_nfd _ _ _ G)
      (g_nfa _ _ _ G) (g_host _ _ _ G) (g_bloom _ _ _ G) M).
    - intros g ->. congruence.
    - intros ->. cbv zeta in H. apply bind_ok in H as (h & L & H). rewrite S3 in L.
      exists h. split; auto. rewrite S1 in H. cbn [the_query q_url] in H.
      destruct h as [| |g]; auto; [|congruence].
      destruct (bloomMiss E (Some (x_bloom s)) url) in H |- *; [congruence|].
      apply bind_ok in H as (r & S9 & H). cbn [kFp]. destruct r as [g|]; [congruence|].
      apply bind_ok in H as (bad & _ & H). rewrite S9. congruence.
  Qed.

  Lemma exc_first rs bf hit mf c1 :
    rep E c rs -> nonul url -> covers (e_hash2 E) bf url -> c_host c <> None ->
    exc_phase E c (the_query url context dom) (Some bf) = Ok (hit, mf, c1) ->
    stages (asked_stages rs true) mf.
  Proof.
    intros R Hu C N H. destruct (rep_sets E c rs R N) as
      (s & G & S1 & S2 & S3 & S4 & S5 & S6 & S7 & S8).
    unfold exc_phase in H. apply bind_ok in H as (m & M & H).
    rewrite S7, S8 in M. cbn [the_query q_dom] in M.
    apply (asked_first rs true bf _ _ (x_ehost s) (x_ebloom s) m mf R Hu C (g_nfdexc _ _ _ G)
      (g_nfaexc _ _ _ G) (g_ehost _ _ _ G) (g_ebloom _ _ _ G) M).
    - intros g ->. congruence.
    - intros ->. cbv zeta in H. apply bind_ok in H as (h & L & H). rewrite S4 in L.
      exists h. split; auto. rewrite S2 in H. cbn [the_query q_url] in H.
      destruct h as [| |g]; auto; [|congruence].
      destruct (bloomMiss E (Some (x_ebloom s)) url) in H |- *; [congruence|].
      apply bind_ok in H as (r & S9 & H). cbn [kFp]. destruct r as [g|]; [congruence|].
      apply bind_ok in H as (bad & _ & H). rewrite S9. congruence.
  Qed.

  Lemma found_first rs v :
    rep E c rs -> nonul url -> c_host c <> None ->
    findMatchingFilters E c (cstr url) context dom = Ok v ->
    stages (found_stages rs false) (v_filter v) /\
    (v_filter v <> None -> stages (found_stages rs true) (v_exc v)).
  Proof.
    intros R Hu N H. destruct (rep_sets E c rs R N) as
      (s & G & S1 & S2 & S3 & S4 & S5 & S6 & S7 & S8).
    unfold findMatchingFilters in H. rewrite strlen_cstr in H by auto.
    cbn [bind] in H. rewrite mkQuery_cstr in H by auto. cbn [bind] in H.
    apply bind_ok in H as (m & M & H).
    assert (forall k o, scan E c k (the_query url context dom) None = Ok o ->
      scanT (rules_in k rs) True o) as SC.
    { intros k o. apply scanT_always; auto. discriminate. }
    assert (forall e o st, hs_rep hkey (e_hash E) st (map copyFilter (hosts_in e rs)) ->
      lookup_filter E c (Some st) (the_query url context dom) = Ok o ->
      firsthost (probed (hostOf url)) (hosts_in e rs) o) as LC.
    { intros e o st G1 X. unfold lookup_filter in X. apply bind_ok in X as (h & X1 & X).
      unfold lookup in X1. cbn [the_query q_input q_len q_context q_dom q_host] in X1.
      apply (lookup_first st (hosts_in e rs)) in X1; auto.
      destruct h; [easy| |]; assert (o = _) as -> by (symmetry; injection X as X; exact X);
        exact X1. }
    rewrite S3 in M. rewrite S4 in H.
    assert (stages (found_stages rs false) m) as FM.
    { eapply stages_or; [exact M|apply SC|]. intros x X.
      eapply stages_or; [exact X|apply SC|]. intros y Y.
      eapply stages_or; [exact Y|apply SC|]. intros z Z. cbv iota.
      eapply stages_or; [exact Z|apply SC|]. intros w W.
      apply stages_one. apply (LC false w _ (g_host _ _ _ G) W). }
    destruct m as [g|].
    - apply bind_ok in H as (x & X & H). injection H as <-. cbn [v_filter v_exc].
      split; auto. intros _.
      eapply stages_or; [exact X|apply SC|]. intros x1 X1.
      eapply stages_or; [exact X1|apply SC|]. intros y Y.
      eapply stages_or; [exact Y|apply SC|]. intros z Z. cbv iota.
      eapply stages_or; [exact Z| |].
      + intros w W. apply (LC true w _ (g_ehost _ _ _ G) W).
      + intros w W. apply stages_one. now apply SC in W.
    - injection H as <-. cbn [v_filter v_exc]. split; auto. easy.
  Qed.
End Ord.
