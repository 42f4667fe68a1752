(** Which rules a query consults, and the decision. *)
From Verif Require Import Base Flags Protocol Url Sets FilterM ParseM ClientM Spec SpecM
  P_Base P_Protocol P_Url P_Match P_Rule P_Parse P_List P_Shape P_Fp P_Line P_Line2 P_Fp2
  P_Props1 P_Props2 P_Opt P_Opt2 P_Set P_Client.

Definition kFp (e : bool) : kind := if e then KException else KFilters.
Definition kNo (e : bool) : kind := if e then KNoFpExc else KNoFp.
Definition kDom (e : bool) : kind := if e then KNoFpDomExc else KNoFpDom.
Definition kAnti (e : bool) : kind := if e then KNoFpAntiExc else KNoFpAnti.

Definition consulted (E : env) (rs : list prule) (e : bool) (dom : option bytes)
    (host : bytes) (f : filter) : Prop :=
  In f (rules_in (kFp e) rs) \/
  In f (rules_in (kNo e) rs) \/
  (In f (rules_in (kDom e) rs) /\ gate_hit E 1000 (items (kDom e) rs) dom) \/
  (In f (rules_in (kAnti e) rs) /\ ~ gate_hit E 100 (items (kAnti e) rs) dom) \/
  (exists s, probed host s /\ pick s (hosts_in e rs) = Some f).

Lemma class_fp E f b e :
  prule_ok E (f, b, CList (kFp e)) ->
  exists fp, fp_stored E e (f, b, CList (kFp e)) fp.
Proof.
  intros [RO K].
  assert (exists fp, getFingerprint E f = Ok (Some fp) /\ has (f_type f) FTHostOnly = false /\
    if e then N.land (f_type f) FTListTypesMask = FTException
    else N.land (f_type f) FTListTypesMask <> FTException /\
         N.land (f_type f) FTListTypesMask <> FTElementHiding /\
         N.land (f_type f) FTListTypesMask <> FTElementHidingException)
    as (fp & G & HO & T).
  { unfold classify, classify_tail in K. destruct (hasUnsupportedOptions f); [now destruct e|].
    destruct (N.eqb_spec (N.land (f_type f) FTListTypesMask) FTException) as [e1|n1].
    { destruct (has (f_type f) FTHostOnly); [now destruct e|].
      apply bind_ok in K as (o & G & K). destruct o as [fp|].
      - exists fp. destruct e; [auto|discriminate].
      - destruct (isDomainOnlyFilter f), (isAntiDomainOnlyFilter f), e; discriminate. }
    destruct (N.eqb_spec (N.land (f_type f) FTListTypesMask) FTElementHiding) as [e2|n2];
      [now destruct e|].
    destruct (N.eqb_spec (N.land (f_type f) FTListTypesMask) FTElementHidingException) as [e3|n3];
      [now destruct e|].
    destruct (_ =? FTHTMLFiltering)%N; [now destruct e|].
    destruct (_ =? FTEmpty)%N; [now destruct e|].
    destruct (_ =? FTComment)%N; [now destruct e|].
    destruct (has (f_type f) FTHostOnly); [now destruct e|].
    apply bind_ok in K as (o & G & K). destruct o as [fp|].
    - exists fp. destruct e; [discriminate|auto].
    - destruct (isDomainOnlyFilter f), (isAntiDomainOnlyFilter f), e; discriminate. }
  exists fp. destruct (wf_fp E f fp) as (NR & d & Hd & _); [now exists b|auto|].
  assert (b = true) as ->.
  { destruct b; auto. destruct RO as (_ & _ & _ & _ & [[X _]|(d' & _ & _ & X)]).
    - congruence.
    - rewrite X in NR. discriminate. }
  destruct RO as (_ & _ & _ & _ & _ & I).
  assert (is_cosmetic f = false /\ has (f_type f) FTException = e) as [C1 C2].
  { clear -I T. rewrite <- memN_In in I. unfold memN in I.
    apply existsb_exists in I as (t & I & X). apply N.eqb_eq in X.
    unfold is_cosmetic. rewrite X in *.
    assert (forallb (fun t =>
      let m := N.land t FTListTypesMask in
      let cos := (t =? FTElementHiding)%N || (t =? FTElementHidingException)%N in
      if (m =? FTException)%N then negb cos && has t FTException
      else if (m =? FTElementHiding)%N || (m =? FTElementHidingException)%N then true
      else negb cos && negb (has t FTException)) (net_types ++ only_types) = true) as A
      by (vm_compute; reflexivity).
    rewrite forallb_forall in A. apply A in I. cbv zeta in I. destruct e.
    - rewrite (proj2 (N.eqb_eq _ _) T) in I. apply andb_prop in I as [I1 I2].
      apply negb_true_iff in I1. auto.
    - destruct T as (T1 & T2 & T3).
      rewrite (proj2 (N.eqb_neq _ _) T1), (proj2 (N.eqb_neq _ _) T2),
        (proj2 (N.eqb_neq _ _) T3) in I. cbn [orb] in I.
      apply andb_prop in I as [I1 I2].
      apply negb_true_iff in I1, I2. auto. }
  repeat split; auto.
Qed.

Lemma windows_sub k s p : length p = k -> 0 < k -> substring p s -> In p (windows k s).
Proof.
  intros L K (a & b & ->). revert p L. induction a as [|c a IH]; intros p L.
  - cbn [app]. destruct p as [|c p]; [cbn in L; lia|]. cbn [windows app].
    destruct (length (c :: p ++ b) <? k) eqn:X.
    { apply Nat.ltb_lt in X. rewrite <- L in X. cbn in X. rewrite app_length in X. lia. }
    left. change (c :: p ++ b) with ((c :: p) ++ b). rewrite <- L.
    now rewrite firstn_app, firstn_all, Nat.sub_diag, app_nil_r.
  - cbn [app windows].
    destruct (length (c :: a ++ p ++ b) <? k) eqn:X.
    { apply Nat.ltb_lt in X. rewrite <- L in X. cbn in X. rewrite !app_length in X. lia. }
    right. now apply IH.
Qed.

Lemma bloomMiss_spec E c rs e bl url context dom f :
  rep E c rs -> nonul url -> In f (rules_in (kFp e) rs) ->
  (forall r fp, In r rs -> fp_stored E e r fp -> bl_exists (e_hashes E) bl fp = true) ->
  bloomMiss E (Some bl) url = true -> ~ fires E c url context dom f.
Proof.
  intros R Hu I G BM [F _]. apply in_rules_in in I as (b & I).
  pose proof R as (PO & _). rewrite Forall_forall in PO. pose proof (PO _ I) as PI.
  destruct (class_fp E f b e PI) as (fp & S1).
  pose proof (G _ _ I S1) as BE. destruct S1 as (_ & _ & _ & _ & GF).
  pose proof (rep_wf E c rs _ R I) as W. cbn [fst] in W.
  assert (substring fp url) as SU.
  { eapply (wf_match_fp E f url _ dom None []); eauto. }
  destruct (wf_fp E f fp W GF) as (_ & _ & _ & _ & _ & GFp).
  destruct GFp as (L & _).
  unfold bloomMiss, bl_substringExists in BM. apply negb_true_iff in BM.
  apply not_true_iff_false in BM. apply BM. apply existsb_exists.
  exists fp. split; auto. apply windows_sub; auto. unfold kFingerprintSize. lia.
Qed.

(** ** Outcomes of the scans *)
Section Found.
  Context (E : env) (c : client) (url : bytes) (context : N) (dom : option bytes).

  Definition found (P : filter -> Prop) (o : option filter) : Prop :=
    match o with
    | Some g => exists f, P f /\ fires E c url context dom f /\ (g = f \/ g = copyFilter f)
    | None => forall f, P f -> ~ fires E c url context dom f
    end.

  Lemma found_iff (P Q : filter -> Prop) o :
    (forall f, P f <-> Q f) -> found P o -> found Q o.
  Proof.
    intros H. destruct o as [g|]; cbn [found].
    - intros (f & H1 & H2). exists f. split; auto. now apply H.
    - intros H1 f Qf. apply H1. now apply H.
  Qed.

  Lemma found_or P Q a b o :
    orelse a b = Ok o -> (forall x, a = Ok x -> found P x) ->
    (forall x, b = Ok x -> found Q x) -> found (fun f => P f \/ Q f) o.
  Proof.
    unfold orelse. intros H HA HB. apply bind_ok in H as (x & H1 & H).
    apply HA in H1. destruct x as [g|].
    - injection H as <-. destruct H1 as (f & F1 & F2). exists f. split; auto.
    - apply HB in H. destruct o as [g|].
      + destruct H as (f & F1 & F2). exists f. split; auto.
      + intros f [F|F]; auto.
  Qed.

  Lemma found_when (b : bool) (B : Prop) P r o :
    (b = true <-> B) -> when b r = Ok o -> (forall x, r = Ok x -> found P x) ->
    found (fun f => P f /\ B) o.
  Proof.
    unfold when. intros Hb H HR. destruct b.
    - apply HR in H. eapply found_iff; [|exact H]. intros f. cbv beta.
      assert B by (now apply Hb). tauto.
    - injection H as <-. intros f [_ HB]. apply Hb in HB. discriminate.
  Qed.
End Found.

Definition the_query (url : bytes) (context : N) (dom : option bytes) : query :=
  mkQ (cstr url) (length url) url (ctx_of url context dom) dom (hostOf url).

Lemma mkQuery_cstr url context dom :
  nonul url -> mkQuery (cstr url) (length url) context dom = Ok (the_query url context dom).
Proof.
  intros Hu. unfold mkQuery. rewrite (bind_Ok_eq _ _ _ (getUrlHost_cstr url Hu)).
  unfold the_query, ctx_of. now rewrite firstn_cstr.
Qed.

Lemma rep_lists E c rs k : rep E c rs -> tget (c_lists c) k = rules_in k rs.
Proof.
  intros R. pose proof (g_lists _ _ _ (rep_st_of E c rs R) k) as G. exact G.
Qed.

Lemma scan_found E c rs k url context dom bf o :
  rep E c rs -> nonul url ->
  (forall b, bf = Some b -> covers (e_hash2 E) b url) ->
  scan E c k (the_query url context dom) bf = Ok o ->
  found E c url context dom (fun f => In f (rules_in k rs)) o.
Proof.
  intros R Hu C H. unfold scan in H. cbn [the_query q_input q_len q_context q_dom q_host] in H.
  rewrite (rep_lists E c rs) in H by auto.
  apply hasMatching_spec in H; auto.
  - destruct o as [f|]; [|auto]. exists f. split; [apply H|]. split; [apply H|auto].
  - intros f I. apply in_rules_in in I as (b & I). apply (rep_wf E c rs _ R I).
Qed.

Lemma rep_sets E c rs :
  rep E c rs -> c_host c <> None ->
  exists s, st_good E rs (s, c_lists c, c_numHA c, c_numHAE c) /\
    c_bloom c = Some (x_bloom s) /\ c_ebloom c = Some (x_ebloom s) /\
    c_host c = Some (x_host s) /\ c_ehost c = Some (x_ehost s) /\
    c_nfd c = Some (x_nfd s) /\ c_nfa c = Some (x_nfa s) /\
    c_nfdexc c = Some (x_nfdexc s) /\ c_nfaexc c = Some (x_nfaexc s).
Proof.
  intros (_ & [[-> H]|(a & G & Hc)]) N.
  - exfalso. apply N. apply H.
  - destruct a as [[[s w] ha] hae]. exists s. rewrite Hc. cbn. auto 10.
Qed.

Lemma rep_fresh E c rs : rep E c rs -> c_host c = None -> rs = [] /\ fresh c.
Proof.
  intros (_ & [H|(a & G & Hc)]) N; auto. exfalso. rewrite Hc in N.
  now destruct a as [[[s w] ha] hae].
Qed.

Lemma nfMiss_rep E n s xs dom :
  gate_rep E n s xs -> (nfMiss E (Some s) dom = false <-> gate_hit E n xs dom) /\
                       (nfMiss E (Some s) dom = true <-> ~ gate_hit E n xs dom).
Proof.
  intros [H L]. pose proof (nfMiss_spec E s xs n dom H L) as K. split; auto.
  rewrite <- K. now destruct (nfMiss E (Some s) dom).
Qed.

Definition quiet (c c' : client) : Prop := same_rules c c' /\ c_tags c = c_tags c'.

Lemma quiet_refl c : quiet c c.
Proof. repeat split. Qed.
Lemma quiet_set c s b : quiet c (set_stats c s b).
Proof. repeat split. Qed.
Lemma quiet_trans a b c : quiet a b -> quiet b c -> quiet a c.
Proof.
  unfold quiet, same_rules.
  intros [(A1&A2&A3&A4&A5&A6&A7&A8&A9&A10&A11) A] [(B1&B2&B3&B4&B5&B6&B7&B8&B9&B10&B11) B].
  repeat split; congruence.
Qed.

Lemma phase_orders E c rs e url context dom bf m nfd nfa :
  rep E c rs -> nonul url ->
  (forall b, bf = Some b -> covers (e_hash2 E) b url) ->
  gate_rep E 1000 nfd (items (kDom e) rs) -> gate_rep E 100 nfa (items (kAnti e) rs) ->
  orelse (when (negb (nfMiss E (Some nfd) dom))
               (scan E c (kDom e) (the_query url context dom) bf))
    (orelse (when (nfMiss E (Some nfa) dom)
                  (scan E c (kAnti e) (the_query url context dom) bf))
            (scan E c (kNo e) (the_query url context dom) bf)) = Ok m ->
  found E c url context dom (fun f =>
    (In f (rules_in (kDom e) rs) /\ gate_hit E 1000 (items (kDom e) rs) dom) \/
    (In f (rules_in (kAnti e) rs) /\ ~ gate_hit E 100 (items (kAnti e) rs) dom) \/
    In f (rules_in (kNo e) rs)) m.
Proof.
  intros R Hu C G1 G2 H.
  apply (found_or E c url context dom _ _ _ _ _ H).
  - intros x Hx. eapply found_when; [|exact Hx|].
    + rewrite negb_true_iff. apply (nfMiss_rep E 1000 nfd _ dom G1).
    + intros y. now apply scan_found.
  - intros x Hx. apply (found_or E c url context dom _ _ _ _ _ Hx).
    + intros y Hy. eapply found_when; [|exact Hy|].
      * apply (nfMiss_rep E 100 nfa _ dom G2).
      * intros z. now apply scan_found.
    + intros y. now apply scan_found.
Qed.

(** The phase on the block rules. *)
Lemma block_phase_spec E c rs url context dom bf hit mf c1 :
  rep E c rs -> nonul url -> covers (e_hash2 E) bf url -> c_host c <> None ->
  block_phase E c (the_query url context dom) (Some bf) = Ok (hit, mf, c1) ->
  quiet c c1 /\ found E c url context dom (consulted E rs false dom (hostOf url)) mf /\
  hit = match mf with Some _ => true | None => false end.
Proof.
  intros R Hu C N H. destruct (rep_sets E c rs R N) as
    (s & G & S1 & S2 & S3 & S4 & S5 & S6 & S7 & S8).
  assert (forall b, Some bf = Some b -> covers (e_hash2 E) b url) as C' by (intros b [= <-]; auto).
  unfold block_phase in H. apply bind_ok in H as (m & M & H).
  rewrite S5, S6 in M. cbn [the_query q_dom] in M.
  apply (phase_orders E c rs false) in M; auto; [|apply (g_nfd _ _ _ G)|apply (g_nfa _ _ _ G)].
  destruct m as [g|].
  { injection H as <- <- <-. split; [apply quiet_refl|]. split; auto.
    destruct M as (f & M1 & M2). exists f. split; auto.
    unfold consulted. destruct M1 as [M1|[M1|M1]]; auto. }
  cbv zeta in H. apply bind_ok in H as (h & L & H).
  unfold lookup in L. cbn [the_query q_input q_len q_context q_dom q_host] in L.
  rewrite S3 in L. apply (hostLookup_spec E c _ (hosts_in false rs)) in L;
    [|apply (g_host _ _ _ G)].
  destruct h as [| |g]; [easy| |].
  2:{ injection H as <- <- <-. split; [apply quiet_refl|]. split; auto.
      destruct L as (x & f & L1 & L2 & L3 & L4). exists f. split; [|auto].
      unfold consulted. do 4 right. eauto. }
  assert (forall f, In f (rules_in (kDom false) rs) /\ gate_hit E 1000 (items (kDom false) rs) dom \/
     In f (rules_in (kAnti false) rs) /\ ~ gate_hit E 100 (items (kAnti false) rs) dom \/
     In f (rules_in (kNo false) rs) \/
     (exists x, probed (hostOf url) x /\ pick x (hosts_in false rs) = Some f) ->
     ~ fires E c url context dom f) as NF.
  { intros f [X|[X|[X|(x & X1 & X2)]]]; [apply M; auto|apply M; auto|apply M; auto|].
    now apply (L x f). }
  destruct (bloomMiss E (c_bloom c) _) eqn:BM.
  - injection H as <- <- <-. split; [apply quiet_set|]. split; auto.
    intros f [I|[I|[I|[I|I]]]]; try (apply NF; auto 6; fail).
    rewrite S1 in BM. apply (bloomMiss_spec E c rs false (x_bloom s)); auto.
    apply (g_bloom _ _ _ G).
  - apply bind_ok in H as (r & S9 & H).
    apply (scan_found E c rs) in S9; auto.
    destruct r as [g|].
    + injection H as <- <- <-. split; [apply quiet_refl|]. split; auto.
      destruct S9 as (f & F1 & F2). exists f. split; auto. now left.
    + apply bind_ok in H as (bad & _ & H). injection H as <- <- <-.
      split; [apply quiet_set|]. split; auto.
      intros f [I|[I|[I|[I|I]]]]; try (apply NF; auto 6; fail). now apply S9.
Qed.

Lemma exc_phase_spec E c rs url context dom bf block me c1 :
  rep E c rs -> nonul url -> covers (e_hash2 E) bf url -> c_host c <> None ->
  exc_phase E c (the_query url context dom) (Some bf) = Ok (block, me, c1) ->
  quiet c c1 /\ found E c url context dom (consulted E rs true dom (hostOf url)) me /\
  block = match me with Some _ => false | None => true end.
Proof.
  intros R Hu C N H. destruct (rep_sets E c rs R N) as
    (s & G & S1 & S2 & S3 & S4 & S5 & S6 & S7 & S8).
  assert (forall b, Some bf = Some b -> covers (e_hash2 E) b url) as C' by (intros b [= <-]; auto).
  unfold exc_phase in H. apply bind_ok in H as (m & M & H).
  rewrite S7, S8 in M. cbn [the_query q_dom] in M.
  apply (phase_orders E c rs true) in M; auto; [|apply (g_nfdexc _ _ _ G)|apply (g_nfaexc _ _ _ G)].
  destruct m as [g|].
  { injection H as <- <- <-. split; [apply quiet_refl|]. split; auto.
    destruct M as (f & M1 & M2). exists f. split; auto.
    unfold consulted. destruct M1 as [M1|[M1|M1]]; auto. }
  cbv zeta in H. apply bind_ok in H as (h & L & H).
  unfold lookup in L. cbn [the_query q_input q_len q_context q_dom q_host] in L.
  rewrite S4 in L. apply (hostLookup_spec E c _ (hosts_in true rs)) in L;
    [|apply (g_ehost _ _ _ G)].
  destruct h as [| |g]; [easy| |].
  2:{ injection H as <- <- <-. split; [apply quiet_set|]. split; auto.
      destruct L as (x & f & L1 & L2 & L3 & L4). exists f. split; [|auto].
      unfold consulted. do 4 right. eauto. }
  assert (forall f, In f (rules_in (kDom true) rs) /\ gate_hit E 1000 (items (kDom true) rs) dom \/
     In f (rules_in (kAnti true) rs) /\ ~ gate_hit E 100 (items (kAnti true) rs) dom \/
     In f (rules_in (kNo true) rs) \/
     (exists x, probed (hostOf url) x /\ pick x (hosts_in true rs) = Some f) ->
     ~ fires E c url context dom f) as NF.
  { intros f [X|[X|[X|(x & X1 & X2)]]]; [apply M; auto|apply M; auto|apply M; auto|].
    now apply (L x f). }
  destruct (bloomMiss E (c_ebloom c) _) eqn:BM.
  - injection H as <- <- <-. split; [apply quiet_set|]. split; auto.
    intros f [I|[I|[I|[I|I]]]]; try (apply NF; auto 6; fail).
    rewrite S2 in BM. apply (bloomMiss_spec E c rs true (x_ebloom s)); auto.
    apply (g_ebloom _ _ _ G).
  - apply bind_ok in H as (r & S9 & H).
    apply (scan_found E c rs) in S9; auto.
    destruct r as [g|].
    + injection H as <- <- <-. split; [apply quiet_refl|]. split; auto.
      destruct S9 as (f & F1 & F2). exists f. split; auto. now left.
    + apply bind_ok in H as (bad & _ & H). injection H as <- <- <-.
      split; [apply quiet_set|]. split; auto.
      intros f [I|[I|[I|[I|I]]]]; try (apply NF; auto 6; fail). now apply S9.
Qed.

(** A client nothing was loaded into. *)
Lemma fresh_matches E c url context dom v c' :
  nonul url -> fresh c -> matches E c (cstr url) context dom = Ok (v, c') ->
  v = mkV false None None /\ quiet c c'.
Proof.
  intros Hu (F1 & F2 & F3 & F4 & F5 & F6 & F7 & F8 & F9 & _) H. unfold matches in H.
  rewrite strlen_cstr in H by auto. cbn [bind] in H.
  destruct (isBlockableProtocol_spec url Hu) as (b & E1 & _). rewrite E1 in H. cbn [bind] in H.
  destruct b; cbn [negb] in H.
  2:{ injection H as <- <-. split; auto. apply quiet_refl. }
  rewrite mkQuery_cstr in H by auto. cbn [bind] in H.
  destruct c as [c1 c2 c3 c4 c5 c6 c7 c8 c9 c10 c11 c12 c13 c14]. cbn in F1, F4, F5, F6, F7, F8, F9.
  rewrite F1, F4, F5, F6, F7, F8, F9 in *.
  unfold block_phase, exc_phase, scan, lookup, hostLookup in H. cbn in H.
  injection H as <- <-. split; auto. apply quiet_set.
Qed.

Lemma matches_spec E c rs url context dom v c' :
  rep E c rs -> nonul url -> web_url url ->
  matches E c (cstr url) context dom = Ok (v, c') ->
  quiet c c' /\
  found E c url context dom (consulted E rs false dom (hostOf url)) (v_filter v) /\
  (v_filter v <> None ->
   found E c url context dom (consulted E rs true dom (hostOf url)) (v_exc v)) /\
  v_block v = match v_filter v, v_exc v with Some _, None => true | _, _ => false end.
Proof.
  intros R Hu Hw H. destruct (c_host c) as [hs|] eqn:N.
  2:{ destruct (rep_fresh E c rs R N) as [-> F].
      destruct (fresh_matches E c url context dom v c' Hu F H) as [-> Q].
      split; auto. cbn [v_filter v_exc v_block]. split; [|split; [easy|reflexivity]].
      intros f [[]|[[]|[[[] _]|[[[] _]|(s & _ & X)]]]]. discriminate. }
  assert (c_host c <> None) as N' by congruence.
  unfold matches in H.
  rewrite strlen_cstr in H by auto. cbn [bind] in H.
  destruct (isBlockableProtocol_spec url Hu) as (b & E1 & E2).
  assert (b = true) as -> by (now apply E2).
  rewrite E1 in H. cbn [bind negb] in H.
  rewrite mkQuery_cstr in H by auto. cbn [bind] in H. cbv zeta in H.
  change (q_url (the_query url context dom)) with url in H.
  apply bind_ok in H as ([[hit mf] c1] & HB & H).
  apply (block_phase_spec E c rs) in HB; auto; [|apply covers_inputBloom].
  destruct HB as (Q1 & F1 & ->). destruct mf as [g|]; cbn [negb] in H.
  - apply bind_ok in H as ([[block me] c2] & HX & H).
    apply (exc_phase_spec E c1 rs) in HX; auto; try apply covers_inputBloom.
    + destruct HX as (Q2 & F2 & ->). injection H as <- <-. cbn [v_filter v_exc v_block].
      split; [eapply quiet_trans; eauto|]. split; auto. split.
      * intros _. destruct Q1 as [_ Q1].
        assert (forall f, fires E c1 url context dom f <-> fires E c url context dom f) as FE.
        { intros f. unfold fires, tag_ok, tagExists. now rewrite Q1. }
        destruct me as [g'|].
        -- destruct F2 as (f & X1 & X2 & X3). exists f. split; auto. split; auto. now apply FE.
        -- intros f X. rewrite <- FE. now apply F2.
      * now destruct me.
    + eapply rep_same; [apply Q1|auto].
    + destruct Q1 as [(_ & _ & _ & _ & _ & Q & _) _]. congruence.
  - injection H as <- <-. cbn [v_filter v_exc v_block]. split; auto. split; auto. split; auto.
    easy.
Qed.

(** The decision in terms of rules. *)
Lemma decide E c rs url context dom v c' :
  rep E c rs -> nonul url -> web_url url ->
  matches E c (cstr url) context dom = Ok (v, c') ->
  v_block v = true <->
  (exists f, consulted E rs false dom (hostOf url) f /\ fires E c url context dom f) /\
  ~ (exists f, consulted E rs true dom (hostOf url) f /\ fires E c url context dom f).
Proof.
  intros R Hu Hw H. destruct (matches_spec E c rs url context dom v c' R Hu Hw H)
    as (_ & F1 & F2 & ->).
  destruct (v_filter v) as [g|].
  - destruct F1 as (f & X1 & X2 & _).
    specialize (F2 ltac:(discriminate)). destruct (v_exc v) as [g'|].
    + destruct F2 as (f' & Y1 & Y2 & _). split; [discriminate|]. intros [_ N].
      exfalso. apply N. eauto.
    + split; auto. intros _. split; [eauto|]. intros (f' & Y1 & Y2). now apply (F2 f').
  - split; [discriminate|]. intros [(f & X1 & X2) _]. exfalso. now apply (F1 f).
Qed.

(** findMatchingFilters looks at everything. *)
Definition present (E : env) (rs : list prule) (e : bool) (host : bytes) (f : filter) : Prop :=
  In f (rules_in (kFp e) rs) \/
  In f (rules_in (kNo e) rs) \/
  In f (rules_in (kDom e) rs) \/
  In f (rules_in (kAnti e) rs) \/
  (exists s, probed host s /\ pick s (hosts_in e rs) = Some f).

Lemma lookup_found E c rs (e : bool) url context dom o :
  rep E c rs ->
  lookup_filter E c (if e then c_ehost c else c_host c) (the_query url context dom) = Ok o ->
  found E c url context dom
    (fun f => exists s, probed (hostOf url) s /\ pick s (hosts_in e rs) = Some f) o.
Proof.
  intros R H. unfold lookup_filter in H. apply bind_ok in H as (h & L & H).
  unfold lookup in L. cbn [the_query q_input q_len q_context q_dom q_host] in L.
  destruct (c_host c) as [hs|] eqn:N.
  - destruct (rep_sets E c rs R) as (s & G & S1 & S2 & S3 & S4 & _); [congruence|].
    assert (hostLookup E c (Some (if e then x_ehost s else x_host s)) (hostOf url) (cstr url)
        (length url) (ctx_of url context dom) dom = Ok h) as L'.
    { destruct e; congruence. }
    apply (hostLookup_spec E c _ (hosts_in e rs)) in L'.
    2:{ destruct e; [apply (g_ehost _ _ _ G)|apply (g_host _ _ _ G)]. }
    destruct h as [| |g]; [easy| |].
    + injection H as <-. intros f (x & X1 & X2). now apply (L' x).
    + injection H as <-. destruct L' as (x & f & L1 & L2 & L3 & L4).
      exists f. split; eauto.
  - destruct (rep_fresh E c rs R N) as [-> F].
    assert (h = HNoSet) as ->.
    { destruct F as (_ & _ & _ & _ & F & _). destruct e; [rewrite F in L|]; cbn in L; congruence. }
    injection H as <-. intros f (x & _ & X). discriminate.
Qed.

Lemma find_spec E c rs url context dom v :
  rep E c rs -> nonul url ->
  findMatchingFilters E c (cstr url) context dom = Ok v ->
  found E c url context dom (present E rs false (hostOf url)) (v_filter v) /\
  (v_filter v <> None ->
   found E c url context dom (present E rs true (hostOf url)) (v_exc v)) /\
  (v_filter v = None -> v_exc v = None) /\
  v_block v = match v_filter v, v_exc v with Some _, None => true | _, _ => false end.
Proof.
  intros R Hu H. unfold findMatchingFilters in H. rewrite strlen_cstr in H by auto.
  cbn [bind] in H. rewrite mkQuery_cstr in H by auto. cbn [bind] in H.
  apply bind_ok in H as (m & M & H).
  assert (forall k o, scan E c k (the_query url context dom) None = Ok o ->
    found E c url context dom (fun f => In f (rules_in k rs)) o) as SC.
  { intros k o. apply scan_found; auto. discriminate. }
  assert (found E c url context dom (present E rs false (hostOf url)) m) as FM.
  { eapply found_iff; [|eapply (found_or E c url context dom); [exact M|apply SC|]].
    2:{ intros x X. eapply (found_or E c url context dom); [exact X|apply SC|].
        intros y Y. eapply (found_or E c url context dom); [exact Y|apply SC|].
        intros z Z. eapply (found_or E c url context dom); [exact Z|apply SC|].
        intros w. apply (lookup_found E c rs false); auto. }
    intros f. unfold present. cbn [kFp kNo kDom kAnti]. cbv beta. tauto. }
  destruct m as [g|].
  - apply bind_ok in H as (x & X & H). injection H as <-. cbn [v_filter v_exc v_block].
    split; auto. split; [intros _|split; [discriminate|now destruct x]].
    eapply found_iff; [|eapply (found_or E c url context dom); [exact X|apply SC|]].
    2:{ intros x1 X1. eapply (found_or E c url context dom); [exact X1|apply SC|].
        intros y Y. eapply (found_or E c url context dom); [exact Y|apply SC|].
        intros z Z. eapply (found_or E c url context dom); [exact Z| |apply SC].
        intros w. apply (lookup_found E c rs true); auto. }
    intros f. unfold present. cbn [kFp kNo kDom kAnti]. cbv beta. tauto.
  - injection H as <-. cbn [v_filter v_exc v_block]. split; auto. split; [easy|]. auto.
Qed.
