(** Matching statistics and bad fingerprint detection. *)
From Verif Require Import Base Flags Protocol Url Sets FilterM ParseM ClientM Spec SpecM
  SpecC SpecT P_Base P_Protocol P_Url P_Match P_Rule P_Parse P_List P_Shape P_Fp P_Line P_Line2
  P_Fp2 P_Props1 P_Props2 P_Props3 P_Opt P_Opt2 P_Set P_Client P_Decide P_Hist P_Dec2.

(** ** One query *)
Definition add_stats (s : stats) (fp efp b eb h eh : N) : stats :=
  (mkStats (st_fp s + fp) (st_efp s + efp) (st_bloom s + b) (st_ebloom s + eb)
           (st_hash s + h) (st_ehash s + eh))%N.

Lemma set_self c : set_stats c (add_stats (c_stats c) 0 0 0 0 0 0)%N (c_badfp c) = c.
Proof. destruct c, c_stats. unfold set_stats, add_stats. cbn. now rewrite !N.add_0_r. Qed.

Lemma block_stats E c q bf hit mf c1 :
  c_host c <> None -> block_phase E c q bf = Ok (hit, mf, c1) ->
  (mf <> None /\ hit = true /\ c1 = c) \/
  (mf = None /\ hit = false /\
   c1 = set_stats c (add_stats (c_stats c) 0 0 1 0 1 0)%N (c_badfp c)) \/
  (mf = None /\ hit = false /\ bloomMiss E (c_bloom c) (q_url q) = false /\
   exists bad, discover E (c_badfp c) (q_url q) (c_bloom c) = Ok bad /\
     c1 = set_stats c (add_stats (c_stats c) 1 0 0 0 0 0)%N bad).
Proof.
  intros N H. unfold block_phase in H. apply bind_ok in H as (m & _ & H).
  destruct m as [g|]. { injection H as <- <- <-. left. now split. }
  cbv zeta in H. apply bind_ok in H as (h & L & H).
  destruct h as [| |g].
  - exfalso. unfold lookup, hostLookup in L. destruct (c_host c); [|easy].
    apply bind_ok in L as ([?|] & _ & L); discriminate.
  - destruct (bloomMiss E (c_bloom c) _) eqn:BM.
    + injection H as <- <- <-. right; left. split; auto. split; auto.
      unfold add_stats. now rewrite !N.add_0_r.
    + apply bind_ok in H as (r & _ & H). destruct r as [g|].
      * injection H as <- <- <-. left. now split.
      * apply bind_ok in H as (bad & D & H). injection H as <- <- <-. right; right.
        split; auto. split; auto. split; auto. exists bad. split; auto.
        unfold add_stats. now rewrite !N.add_0_r.
  - injection H as <- <- <-. left. now split.
Qed.

Lemma exc_stats E c q bf block me c1 :
  c_ehost c <> None -> exc_phase E c q bf = Ok (block, me, c1) ->
  (block = false /\ (c1 = c \/
     c1 = set_stats c (add_stats (c_stats c) 0 0 0 0 0 1)%N (c_badfp c))) \/
  (block = true /\ c1 = set_stats c (add_stats (c_stats c) 0 0 0 1 0 1)%N (c_badfp c)) \/
  (block = true /\ bloomMiss E (c_ebloom c) (q_url q) = false /\
   exists bad, discover E (c_badfp c) (q_url q) (c_ebloom c) = Ok bad /\
     c1 = set_stats c (add_stats (c_stats c) 0 1 0 0 0 0)%N bad).
Proof.
  intros N H. unfold exc_phase in H. apply bind_ok in H as (m & _ & H).
  destruct m as [g|]. { injection H as <- <- <-. left. auto. }
  cbv zeta in H. apply bind_ok in H as (h & L & H).
  destruct h as [| |g].
  - injection H as <- <- <-. left. split; auto. right. unfold add_stats. now rewrite !N.add_0_r.
  - destruct (bloomMiss E (c_ebloom c) _) eqn:BM.
    + injection H as <- <- <-. right; left. split; auto.
      unfold add_stats. now rewrite !N.add_0_r.
    + apply bind_ok in H as (r & _ & H). destruct r as [g|].
      * injection H as <- <- <-. left. auto.
      * apply bind_ok in H as (bad & D & H). injection H as <- <- <-. right; right.
        split; auto. split; auto. exists bad. split; auto.
        unfold add_stats. now rewrite !N.add_0_r.
  - injection H as <- <- <-. left. split; auto. right. unfold add_stats. now rewrite !N.add_0_r.
Qed.

(** What one query does to the counters and to the bad fingerprints. *)
Definition spotted E (c : client) (url : bytes) (b : option bloom) (bad : option (list bytes)) : Prop :=
  bloomMiss E b url = false /\ discover E (c_badfp c) url b = Ok bad.

Inductive counts E (c : client) (url : bytes) (v : verdict) : client -> Prop :=
| counts_quick :                                    (* no list or not a web URL *)
    v_block v = false -> ~ web_url url \/ c_host c = None -> v_filter v = None -> forall n : N,
    counts E c url v (set_stats c (add_stats (c_stats c) 0 0 0 0 0 n)%N (c_badfp c))
| counts_bloom : web_url url -> c_host c <> None -> v_block v = false -> v_filter v = None ->
    counts E c url v (set_stats c (add_stats (c_stats c) 0 0 1 0 1 0)%N (c_badfp c))
| counts_fp bad : web_url url -> c_host c <> None -> v_block v = false -> v_filter v = None ->
    spotted E c url (c_bloom c) bad ->
    counts E c url v (set_stats c (add_stats (c_stats c) 1 0 0 0 0 0)%N bad)
| counts_exempt (n : N) : web_url url -> c_host c <> None -> v_block v = false -> v_filter v <> None ->
    counts E c url v (set_stats c (add_stats (c_stats c) 0 0 0 0 0 n)%N (c_badfp c))
| counts_ebloom : web_url url -> c_host c <> None -> v_block v = true -> v_filter v <> None ->
    counts E c url v (set_stats c (add_stats (c_stats c) 0 0 0 1 0 1)%N (c_badfp c))
| counts_efp bad : web_url url -> c_host c <> None -> v_block v = true -> v_filter v <> None ->
    spotted E c url (c_ebloom c) bad ->
    counts E c url v (set_stats c (add_stats (c_stats c) 0 1 0 0 0 0)%N bad).

Lemma fresh_stats E c url context dom v c' :
  nonul url -> fresh c -> matches E c (cstr url) context dom = Ok (v, c') ->
  v = mkV false None None /\
  exists n : N, c' = set_stats c (add_stats (c_stats c) 0 0 0 0 0 n)%N (c_badfp c).
Proof.
  intros Hu F H. unfold matches in H.
  rewrite strlen_cstr in H by auto. cbn [bind] in H.
  destruct (isBlockableProtocol_spec url Hu) as (b & E1 & E2).
  rewrite E1 in H. cbn [bind] in H. destruct b; cbn [negb] in H.
  2:{ injection H as <- <-. split; auto. exists 0%N. now rewrite set_self. }
  rewrite mkQuery_cstr in H by auto. cbn [bind] in H. cbv zeta in H.
  destruct F as (F1 & F2 & F3 & F4 & F5 & F6 & F7 & F8 & F9 & _).
  assert (forall k q bf, scan E c k q bf = Ok None) as SC.
  { intros k q bf. unfold scan. rewrite F1. now destruct k. }
  unfold block_phase in H. rewrite F6, F7 in H. cbn [nfMiss negb when] in H.
  rewrite !SC in H. cbn [orelse bind] in H. unfold lookup in H. rewrite F4 in H.
  cbn [hostLookup bind negb] in H. unfold exc_phase in H. rewrite F8, F9 in H.
  cbn [nfMiss negb when] in H. rewrite !SC in H. cbn [orelse bind] in H.
  unfold lookup in H. rewrite F5 in H. cbn [hostLookup bind] in H. injection H as <- <-.
  split; auto. exists 1%N. unfold add_stats. now rewrite !N.add_0_r.
Qed.

Lemma matches_counts E c rs url context dom v c' :
  rep E c rs -> nonul url -> matches E c (cstr url) context dom = Ok (v, c') ->
  counts E c url v c'.
Proof.
  intros R Hu H. destruct (c_host c) as [hs|] eqn:N.
  2:{ destruct (rep_fresh E c rs R N) as [-> F].
      destruct (fresh_stats E c url context dom v c' Hu F H) as (-> & n & ->).
      apply counts_quick; auto. }
  assert (c_host c <> None) as N1 by congruence.
  destruct (rep_sets E c rs R N1) as (s & _ & _ & _ & _ & S4 & _).
  unfold matches in H.
  rewrite strlen_cstr in H by auto. cbn [bind] in H.
  destruct (isBlockableProtocol_spec url Hu) as (b & E1 & E2).
  rewrite E1 in H. cbn [bind] in H. destruct b; cbn [negb] in H.
  2:{ injection H as <- <-. rewrite <- (set_self c) at 2. apply counts_quick; auto.
      left. intros W. apply E2 in W. discriminate. }
  assert (web_url url) as W by now apply E2.
  rewrite mkQuery_cstr in H by auto. cbn [bind] in H. cbv zeta in H.
  apply bind_ok in H as ([[hit mf] c1] & HB & H).
  apply block_stats in HB as [(M & -> & ->)|[(-> & -> & ->)|(-> & -> & B & bad & D & ->)]]; auto;
    cbn [negb] in H.
  - apply bind_ok in H as ([[block me] c2] & HX & H). injection H as <- <-.
    apply exc_stats in HX as [(-> & [->| ->])|[(-> & ->)|(-> & B & bad & D & ->)]];
      [| | | |congruence].
    + rewrite <- (set_self c) at 2. now apply counts_exempt.
    + now apply counts_exempt.
    + now apply counts_ebloom.
    + apply counts_efp; auto. split; auto.
  - injection H as <- <-. now apply counts_bloom.
  - injection H as <- <-. apply counts_fp; auto. split; auto.
Qed.

(** ** Which sets exist *)
Lemma has_list_snoc calls k :
  has_list (calls ++ [k]) <->
  match k with Parse _ _ => True | Clear => False | _ => has_list calls end.
Proof.
  assert (forall a p t b, calls ++ [k] = a ++ Parse p t :: b ->
          (b = [] /\ k = Parse p t /\ calls = a) \/
          exists b', b = b' ++ [k] /\ calls = a ++ Parse p t :: b') as Cut.
  { intros a p t b X. destruct b as [|y b] using rev_ind.
    - apply app_inj_tail in X as [-> ->]. auto.
    - right. rewrite app_comm_cons, app_assoc in X. apply app_inj_tail in X as [-> ->]. eauto. }
  assert (k <> Clear -> has_list calls -> has_list (calls ++ [k])) as Keep.
  { intros K (a & p & t & b & -> & NC). exists a, p, t, (b ++ [k]).
    rewrite <- app_assoc. split; auto. rewrite in_app_iff. cbn [In]. tauto. }
  split.
  - intros (a & p & t & b & X & NC). destruct (Cut a p t b X) as [(-> & -> & ->)|(b' & -> & ->)].
    + exact I.
    + assert (has_list (a ++ Parse p t :: b')) as HL.
      { exists a, p, t, b'. split; auto. intros I. apply NC, in_or_app. auto. }
      destruct k; auto. apply NC, in_or_app. cbn. auto.
  - destruct k as [p t| | | | |]; try (apply Keep; discriminate); [|easy].
    intros _. exists calls, p, t, []. auto.
Qed.

Lemma hist_sets E calls c :
  history calls -> after E calls = Ok c -> (has_list calls <-> c_host c <> None).
Proof.
  revert c. induction calls as [|k calls IH] using rev_ind; intros c Hc H.
  - injection H as <-. split; [|now intros []]. intros ([|? ?] & p & t & b & X & _); discriminate.
  - apply Forall_app in Hc as [Hc Hk]. inversion Hk as [|? ? Kk _]; subst.
    rewrite after_snoc in H. apply bind_ok in H as (c0 & H0 & H).
    rewrite has_list_snoc. specialize (IH c0 Hc H0).
    destruct k as [pres t| |t|t|url context dom|]; cbn [perform call_ok] in *.
    + rewrite parse_normal in H by auto. apply rmap_ok in H as (rs & H & ->).
      unfold with_st, install. destruct (fold_left _ _ _) as [[[s w] ha] hae]. cbn. split; auto; discriminate.
    + injection H as <-. cbn. tauto.
    + injection H as <-. unfold addTag. destruct (tagExists c0 t); exact IH.
    + injection H as <-. exact IH.
    + apply rmap_ok in H as ([v c'] & H & ->). cbn [snd]. apply matches_quiet in H.
      destruct H as [(Q1 & Q2 & Q3 & Q4 & Q5 & Q6 & _) _].
      rewrite IH. destruct (c_host c0), (c_host c'); split; congruence.
    + injection H as <-. unfold enableBadFp. destruct (c_badfp c0); exact IH.
Qed.

(** ** The counters over a history *)
Lemma stat_tallies E calls c :
  history calls -> after E calls = Ok c ->
  tally E (no_rule_applied E) calls (N.to_nat (st_fp (c_stats c) + st_bloom (c_stats c))) /\
  tally E was_blocked calls (N.to_nat (st_efp (c_stats c) + st_ebloom (c_stats c))) /\
  st_hash (c_stats c) = st_bloom (c_stats c) /\ (st_ebloom (c_stats c) <= st_ehash (c_stats c))%N.
Proof.
  revert c. induction calls as [|k calls IH] using rev_ind; intros c Hc H.
  - injection H as <-. split; [apply tally_new|]. split; [apply tally_new|]. split; [reflexivity|apply N.le_refl].
  - apply Forall_app in Hc as [Hc Hk]. inversion Hk as [|? ? Kk _]; subst.
    rewrite after_snoc in H. apply bind_ok in H as (c0 & H0 & H).
    destruct (IH c0 Hc H0) as (I1 & I2 & I3 & I4).
    assert (plain_call k -> c_stats c = c_stats c0 ->
            tally E (no_rule_applied E) (calls ++ [k]) (N.to_nat (st_fp (c_stats c) + st_bloom (c_stats c))) /\
            tally E was_blocked (calls ++ [k]) (N.to_nat (st_efp (c_stats c) + st_ebloom (c_stats c))) /\
            st_hash (c_stats c) = st_bloom (c_stats c) /\
            (st_ebloom (c_stats c) <= st_ehash (c_stats c))%N) as Same.
    { intros PC ->. split; [now apply tally_other|]. split; [now apply tally_other|]. auto. }
    destruct k as [pres t| |t|t|url context dom|]; cbn [perform call_ok] in *.
    + rewrite parse_normal in H by auto. apply rmap_ok in H as (rs & H & ->).
      apply Same; [exact I|]. unfold install, with_st.
      destruct (fold_left _ _ _) as [[[s w] ha] hae]. reflexivity.
    + injection H as <-. split; [apply tally_clear|]. split; [apply tally_clear|].
      split; [reflexivity|apply N.le_refl].
    + injection H as <-. apply Same; [exact I|]. unfold addTag. now destruct (tagExists c0 t).
    + injection H as <-. apply Same; [exact I|reflexivity].
    + apply rmap_ok in H as ([v c'] & H & ->). cbn [snd].
      destruct (hist_view E calls c0 Hc H0) as (rs & V).
      pose proof (matches_counts E c0 rs url context dom v c' (w_rep _ _ _ _ V) Kk H) as M.
      pose proof (hist_sets E calls c0 Hc H0) as HS.
      assert (web_url url -> v_filter v = None -> c_host c0 <> None ->
              no_rule_applied E calls url context dom v) as Y.
      { intros W F N. split; auto. split; [now apply HS|]. intros (f & F1 & F2).
        destruct (matches_reports E calls c0 url context dom v c' Hc H0 Kk W H) as (R & _).
        rewrite F in R. exact (R f F1 F2). }
      assert (v_filter v <> None -> ~ no_rule_applied E calls url context dom v) as NY.
      { intros F (W & _ & N). apply N.
        destruct (matches_reports E calls c0 url context dom v c' Hc H0 Kk W H) as (R & _).
        destruct (v_filter v) as [g|]; [|easy]. destruct R as (f & _ & A & P & _). eauto. }
      assert (forall P m n, tally E P calls m -> P calls url context dom v -> S m = n ->
                tally E P (calls ++ [Ask url context dom]) n) as Yes.
      { intros P m n T PV <-. eapply tally_yes; eauto. }
      assert (forall P m n, tally E P calls m -> ~ P calls url context dom v -> m = n ->
                tally E P (calls ++ [Ask url context dom]) n) as No.
      { intros P m n T PV <-. eapply tally_no; eauto. }
      assert (v_block v = false -> ~ was_blocked calls url context dom v) as NB
        by (unfold was_blocked; congruence).
      destruct M as [VB W VF n|W N VB VF|bad W N VB VF Sp|n W N VB VF|W N VB VF|bad W N VB VF Sp];
        cbn [set_stats c_stats add_stats st_fp st_efp st_bloom st_ebloom st_hash st_ehash].
      * split; [|split; [|lia]].
        { eapply No; [exact I1| |lia]. intros (W' & L & _). destruct W as [W|W]; [auto|].
          apply HS in L. now apply L. }
        { eapply No; [exact I2|auto|lia]. }
      * split; [|split; [|lia]]; [eapply Yes; [exact I1|auto|lia]|eapply No; [exact I2|auto|lia]].
      * split; [|split; [|lia]]; [eapply Yes; [exact I1|auto|lia]|eapply No; [exact I2|auto|lia]].
      * split; [|split; [|lia]]; [eapply No; [exact I1|auto|lia]|eapply No; [exact I2|auto|lia]].
      * split; [|split; [|lia]]; [eapply No; [exact I1|auto|lia]|eapply Yes; [exact I2|auto|lia]].
      * split; [|split; [|lia]]; [eapply No; [exact I1|auto|lia]|eapply Yes; [exact I2|auto|lia]].
    + injection H as <-. apply Same; [exact I|]. unfold enableBadFp. now destruct (c_badfp c0).
Qed.

(** ** Bad fingerprints *)
Lemma windows_in k s w : 0 < k -> In w (windows k s) -> length w = k /\ exists x y, s = x ++ w ++ y.
Proof.
  intros K. induction s as [|a s IH]; cbn [windows].
  - destruct (_ <? _) eqn:L; [easy|]. apply Nat.ltb_ge in L. cbn in L. lia.
  - destruct (_ <? _) eqn:L; [easy|]. apply Nat.ltb_ge in L. intros [<-|I].
    + split; [apply firstn_length_le; exact L|]. exists [], (skipn k (a :: s)).
      symmetry. apply firstn_skipn.
    + destruct (IH I) as (H & x & y & ->). split; auto. now exists (a :: x), y.
Qed.

Lemma bad_add_in l w x : In x (bad_add l w) <-> In x l \/ x = w.
Proof.
  unfold bad_add. destruct (memb w l) eqn:M.
  - apply memb_In in M. split; auto. intros [H| ->]; auto.
  - rewrite in_app_iff. cbn [In]. split; [intros [H|[H|[]]]; auto|intros [H|H]; auto].
Qed.

Lemma NoDup_snoc {A} (l : list A) x : NoDup l -> ~ In x l -> NoDup (l ++ [x]).
Proof.
  intros H N. induction H as [|y l Y H IH]; cbn.
  - constructor; [easy|constructor].
  - constructor; [rewrite in_app_iff; cbn; intros [I|[I|[]]]; [easy|subst; apply N; now left]|].
    apply IH. intros I. apply N. now right.
Qed.

Lemma bad_add_nodup l w : NoDup l -> NoDup (bad_add l w).
Proof.
  intros H. unfold bad_add. destruct (memb w l) eqn:M; auto. apply NoDup_snoc; auto.
  intros I. apply memb_In in I. congruence.
Qed.

Lemma bads_spec bs : forall l, NoDup l ->
  NoDup (fold_left bad_add bs l) /\ forall w, In w (fold_left bad_add bs l) <-> In w l \/ In w bs.
Proof.
  induction bs as [|b bs IH]; intros l H; cbn [fold_left].
  - split; auto. cbn. tauto.
  - destruct (IH (bad_add l b) (bad_add_nodup l b H)) as [I1 I2]. split; auto.
    intros w. rewrite I2, bad_add_in. cbn [In]. split; [intros [[X|X]|X]; auto|intros [X|[X|X]]; auto].
Qed.

(** What a search adds. *)
Lemma discover_spec E url b bad bad' :
  discover E bad url b = Ok bad' ->
  (bad = None /\ bad' = None) \/
  exists l l', bad = Some l /\ bad' = Some l' /\
    (l' = l \/ exists w, length w = kFingerprintSize /\ (exists x y, url = x ++ w ++ y) /\ l' = bad_add l w) /\
    (bloomMiss E b url = false -> b <> None ->
     exists w, length w = kFingerprintSize /\ (exists x y, url = x ++ w ++ y) /\ In w l').
Proof.
  intros D. unfold discover in D. destruct bad as [l|]; [|injection D as <-; auto]. right.
  destruct b as [bl|].
  - exists l. injection D as <-. destruct (find _ _) as [w|] eqn:F.
    + apply find_some in F as [F1 F2]. apply windows_in in F1 as [F1 F3]; [|unfold kFingerprintSize; lia].
      exists (bad_add l w). split; auto. split; auto. split; [right; now exists w|].
      intros _ _. exists w. split; auto. split; auto. apply bad_add_in. auto.
    + exists l. split; auto. split; auto. split; auto. intros BM _. exfalso.
      unfold bloomMiss, bl_substringExists in BM. apply negb_false_iff, existsb_exists in BM as (w & W1 & W2).
      now rewrite (find_none _ _ F w W1) in W2.
  - destruct (_ <? _); [|discriminate]. injection D as <-. exists l, l. split; auto. split; auto.
    split; auto. now intros _ [].
Qed.

Lemma counts_bad E c url v c' :
  counts E c url v c' ->
  c_badfp c' = c_badfp c \/
  exists b, (b = c_bloom c \/ b = c_ebloom c) /\ spotted E c url b (c_badfp c').
Proof. intros M. destruct M; cbn; eauto. Qed.

Definition bad_ok (E : env) (calls : list call) (l : list bytes) : Prop :=
  NoDup l /\ (forall w, In w (e_bads E) -> In w l) /\ (forall w, In w l -> collected_from E calls w).

Lemma bad_ok_mono E calls k l : bad_ok E calls l -> bad_ok E (calls ++ [k]) l.
Proof.
  intros (H1 & H2 & H3). split; auto. split; auto. intros w I. destruct (H3 w I) as [X|(u & x & d & X & Y)].
  - now left.
  - right. exists u, x, d. split; auto. apply in_or_app. auto.
Qed.

Lemma detecting_snoc calls k :
  detecting (calls ++ [k]) <->
  match k with DetectBad => True | Clear => False | _ => detecting calls end.
Proof.
  assert (forall a b, calls ++ [k] = a ++ DetectBad :: b ->
          (b = [] /\ k = DetectBad /\ calls = a) \/
          exists b', b = b' ++ [k] /\ calls = a ++ DetectBad :: b') as Cut.
  { intros a b X. destruct b as [|y b] using rev_ind.
    - apply app_inj_tail in X as [-> ->]. auto.
    - right. rewrite app_comm_cons, app_assoc in X. apply app_inj_tail in X as [-> ->]. eauto. }
  assert (k <> Clear -> detecting calls -> detecting (calls ++ [k])) as Keep.
  { intros K (a & b & -> & NC). exists a, (b ++ [k]).
    rewrite <- app_assoc. split; auto. rewrite in_app_iff. cbn [In]. tauto. }
  split.
  - intros (a & b & X & NC). destruct (Cut a b X) as [(-> & -> & ->)|(b' & -> & ->)].
    + exact I.
    + assert (detecting (a ++ DetectBad :: b')) as HL.
      { exists a, b'. split; auto. intros I. apply NC, in_or_app. auto. }
      destruct k; auto. apply NC, in_or_app. cbn. auto.
  - destruct k; try (apply Keep; discriminate); [easy|].
    intros _. exists calls, []. auto.
Qed.

Lemma hist_bad E calls c :
  history calls -> after E calls = Ok c ->
  (detecting calls <-> c_badfp c <> None) /\
  (forall l, c_badfp c = Some l -> bad_ok E calls l).
Proof.
  revert c. induction calls as [|k calls IH] using rev_ind; intros c Hc H.
  - injection H as <-. split; [|discriminate]. split; [|now intros []].
    intros ([|? ?] & b & X & _); discriminate.
  - apply Forall_app in Hc as [Hc Hk]. inversion Hk as [|? ? Kk _]; subst.
    rewrite after_snoc in H. apply bind_ok in H as (c0 & H0 & H).
    destruct (IH c0 Hc H0) as [I1 I2]. rewrite detecting_snoc.
    assert (forall l, c_badfp c0 = Some l -> bad_ok E (calls ++ [k]) l) as Mono
      by (intros l X; apply bad_ok_mono; auto).
    destruct k as [pres t| |t|t|url context dom|]; cbn [perform call_ok] in *.
    + rewrite parse_normal in H by auto. apply rmap_ok in H as (rs & H & ->).
      assert (c_badfp (install E rs c0) = c_badfp c0) as ->; auto.
      unfold install, with_st. destruct (fold_left _ _ _) as [[[s w] ha] hae]. reflexivity.
    + injection H as <-. cbn. split; [tauto|discriminate].
    + injection H as <-. assert (c_badfp (addTag c0 t) = c_badfp c0) as ->; auto.
      unfold addTag. now destruct (tagExists c0 t).
    + injection H as <-. change (c_badfp (removeTag c0 t)) with (c_badfp c0). auto.
    + apply rmap_ok in H as ([v c'] & H & ->). cbn [snd].
      destruct (hist_view E calls c0 Hc H0) as (rs & V).
      pose proof (matches_counts E c0 rs url context dom v c' (w_rep _ _ _ _ V) Kk H) as M.
      apply counts_bad in M as [->|(b & _ & _ & D)]; auto.
      apply discover_spec in D as [[D1 D2]|(l & l' & D1 & D2 & D3 & _)].
      * rewrite D1 in *. rewrite D2. auto.
      * rewrite D1 in I1. rewrite D2. split; [rewrite I1; split; discriminate|].
        intros l0 [= <-]. specialize (Mono l D1). destruct D3 as [->|(w & W1 & W2 & ->)]; auto.
        destruct Mono as (N1 & N2 & N3). split; [now apply bad_add_nodup|].
        split; [intros x X; apply bad_add_in; auto|]. intros x X.
        apply bad_add_in in X as [X| ->]; auto. right. exists url, context, dom.
        split; [apply in_or_app; cbn; auto|]. auto.
    + injection H as <-. unfold enableBadFp. destruct (c_badfp c0) as [l|] eqn:B.
      * rewrite B. split; [split; [discriminate|auto]|exact Mono].
      * cbn. split; [split; [discriminate|auto]|]. intros l [= <-].
        destruct (bads_spec (e_bads E) [] (NoDup_nil _)) as [S1 S2].
        split; auto. split; [intros w I; apply S2; auto|]. intros w I.
        apply S2 in I as [[]|I]. now left.
Qed.

(** A counted false positive leaves a trace. *)
Lemma false_positive_recorded E calls c url context dom v c' :
  history calls -> after E calls = Ok c -> detecting calls -> nonul url ->
  matches E c (cstr url) context dom = Ok (v, c') ->
  (st_fp (c_stats c') + st_efp (c_stats c') <> st_fp (c_stats c) + st_efp (c_stats c))%N ->
  exists l w, c_badfp c' = Some l /\ In w l /\ length w = kFingerprintSize /\
    exists x y, url = x ++ w ++ y.
Proof.
  intros Hc A D Hu H N. destruct (hist_view E calls c Hc A) as (rs & V).
  pose proof (matches_counts E c rs url context dom v c' (w_rep _ _ _ _ V) Hu H) as M.
  destruct (hist_bad E calls c Hc A) as [B _]. apply B in D.
  assert (forall b bad, spotted E c url b bad -> b <> None ->
            exists l w, bad = Some l /\ In w l /\ length w = kFingerprintSize /\
              exists x y, url = x ++ w ++ y) as K.
  { intros b bad [BM DS] NB. apply discover_spec in DS as [[DS _]|(l & l' & _ & -> & _ & X)]; [easy|].
    destruct (X BM NB) as (w & W1 & W2 & W3). exists l', w. auto. }
  destruct M as [VB W VF n|W NN VB VF|bad W NN VB VF Sp|n W NN VB VF|W NN VB VF|bad W NN VB VF Sp];
    cbn [set_stats c_stats add_stats st_fp st_efp] in N |- *; try lia.
  - cbn [c_badfp set_stats]. apply (K (c_bloom c)); auto.
    destruct (rep_sets E c rs (w_rep _ _ _ _ V) NN) as (s & _ & -> & _). discriminate.
  - cbn [c_badfp set_stats]. apply (K (c_ebloom c)); auto.
    destruct (rep_sets E c rs (w_rep _ _ _ _ V) NN) as (s & _ & _ & -> & _). discriminate.
Qed.

(** ** Detection changes nothing else *)
Definition settled (c : client) : Prop :=
  (c_host c <> None -> c_bloom c <> None) /\ (c_ehost c <> None -> c_ebloom c <> None).

Lemma scan_any E c s b k q bf : scan E (set_stats c s b) k q bf = scan E c k q bf.
Proof.
  unfold scan. change (c_lists (set_stats c s b)) with (c_lists c).
  induction (tget (c_lists c) k) as [|f fs IH]; [reflexivity|]. cbn [hasMatchingFilters].
  change (tag_ok (set_stats c s b) f) with (tag_ok c f).
  destruct (filter_matches _ _ _ _ _ _ _ _) as [m|]; [|reflexivity]. cbn [bind].
  destruct (m && tag_ok c f); auto.
Qed.

Lemma probe_any E c s b hs h i n x d :
  host_probe E (set_stats c s b) hs h i n x d = host_probe E c hs h i n x d.
Proof. reflexivity. Qed.

Lemma walk_any E c s b hs h k i n x d :
  host_walk E (set_stats c s b) hs h k i n x d = host_walk E c hs h k i n x d.
Proof.
  induction k as [|k IH]; cbn [host_walk]; [reflexivity|].
  destruct (ceq _ _); rewrite ?probe_any.
  - destruct (host_probe _ _ _ _ _ _ _ _) as [[f|]|]; cbn [bind]; auto.
  - cbn [bind]. auto.
Qed.

Lemma lookup_any E c s b hs q : lookup E (set_stats c s b) hs q = lookup E c hs q.
Proof. unfold lookup, hostLookup. destruct hs; [|reflexivity]. now rewrite walk_any. Qed.

Lemma discover_any E bad url b : b <> None -> exists bad', discover E bad url b = Ok bad'.
Proof.
  intros N. unfold discover. destruct bad; [|eauto]. destruct b; [eauto|easy].
Qed.

Lemma lookup_miss E c hs q : lookup E c hs q = Ok HMiss -> hs <> None.
Proof. intros H ->. discriminate. Qed.

Lemma block_any E c s b q bf hit mf c1 :
  settled c -> block_phase E c q bf = Ok (hit, mf, c1) ->
  exists s1 b1, block_phase E (set_stats c s b) q bf = Ok (hit, mf, set_stats c1 s1 b1) /\
    (s = c_stats c -> s1 = c_stats c1).
Proof.
  intros [ST _] H. unfold block_phase in *.
  cbn [set_stats c_nfd c_nfa c_bloom c_host c_stats c_badfp] in *. rewrite !scan_any, lookup_any.
  destruct (orelse _ _) as [[g|]|]; cbn [bind] in *; [| |discriminate].
  { injection H as <- <- <-. exists s, b. auto. }
  destruct (lookup E c (c_host c) q) as [[| |g]|] eqn:L; cbn [bind] in *; [| | |discriminate].
  - injection H as <- <- <-. exists s, b. auto.
  - destruct (bloomMiss E (c_bloom c) (q_url q)).
    + injection H as <- <- <-. do 2 eexists. split; [reflexivity|]. cbn. now intros ->.
    + destruct (scan E c KFilters q bf) as [[g|]|]; cbn [bind] in *; [| |discriminate].
      * injection H as <- <- <-. exists s, b. auto.
      * apply bind_ok in H as (bad & D & H). injection H as <- <- <-.
        destruct (discover_any E b (q_url q) (c_bloom c)) as (bad' & ->).
        { apply ST. now apply lookup_miss in L. }
        cbn [bind]. do 2 eexists. split; [reflexivity|]. cbn. now intros ->.
  - injection H as <- <- <-. exists s, b. auto.
Qed.

Lemma exc_any E c s b q bf hit mf c1 :
  settled c -> exc_phase E c q bf = Ok (hit, mf, c1) ->
  exists s1 b1, exc_phase E (set_stats c s b) q bf = Ok (hit, mf, set_stats c1 s1 b1) /\
    (s = c_stats c -> s1 = c_stats c1).
Proof.
  intros [_ ST] H. unfold exc_phase in *.
  cbn [set_stats c_nfdexc c_nfaexc c_ebloom c_ehost c_stats c_badfp] in *. rewrite !scan_any, lookup_any.
  destruct (orelse _ _) as [[g|]|]; cbn [bind] in *; [| |discriminate].
  { injection H as <- <- <-. exists s, b. auto. }
  cbv zeta in *.
  destruct (lookup E c (c_ehost c) q) as [[| |g]|] eqn:L; cbn [bind] in *; [| | |discriminate].
  - injection H as <- <- <-. do 2 eexists. split; [reflexivity|]. cbn. now intros ->.
  - destruct (bloomMiss E (c_ebloom c) (q_url q)).
    + injection H as <- <- <-. do 2 eexists. split; [reflexivity|]. cbn. now intros ->.
    + destruct (scan E c KException q bf) as [[g|]|]; cbn [bind] in *; [| |discriminate].
      * injection H as <- <- <-. exists s, b. auto.
      * apply bind_ok in H as (bad & D & H). injection H as <- <- <-.
        destruct (discover_any E b (q_url q) (c_ebloom c)) as (bad' & ->).
        { apply ST. now apply lookup_miss in L. }
        cbn [bind]. do 2 eexists. split; [reflexivity|]. cbn. now intros ->.
  - injection H as <- <- <-. do 2 eexists. split; [reflexivity|]. cbn. now intros ->.
Qed.

Lemma quiet_settled c c' : quiet c c' -> settled c -> settled c'.
Proof.
  intros [(Q1 & Q2 & Q3 & Q4 & Q5 & Q6 & Q7 & _) _] [S1 S2]. unfold settled.
  now rewrite <- Q4, <- Q5, <- Q6, <- Q7.
Qed.

Lemma matches_any E c s b i x d v c1 :
  settled c -> matches E c i x d = Ok (v, c1) ->
  exists s1 b1, matches E (set_stats c s b) i x d = Ok (v, set_stats c1 s1 b1) /\
    (s = c_stats c -> s1 = c_stats c1).
Proof.
  intros ST H. unfold matches in *.
  destruct (strlen i) as [n|]; cbn [bind] in *; [|discriminate].
  destruct (isBlockableProtocol i n) as [w|]; cbn [bind] in *; [|discriminate].
  destruct w; cbn [negb] in *.
  2:{ injection H as <- <-. exists s, b. auto. }
  destruct (mkQuery i n x d) as [q|]; cbn [bind] in *; [|discriminate]. cbv zeta in *.
  apply bind_ok in H as ([[hit mf] c2] & HB & H).
  destruct (block_any E c s b q _ hit mf c2 ST HB) as (s2 & b2 & -> & K2). cbn [bind].
  destruct hit; cbn [negb] in *.
  - apply bind_ok in H as ([[block me] c3] & HX & H). injection H as <- <-.
    apply block_phase_quiet in HB. pose proof (quiet_settled _ _ HB ST) as ST2.
    destruct (exc_any E c2 s2 b2 q _ block me c3 ST2 HX) as (s3 & b3 & -> & K3). cbn [bind].
    exists s3, b3. split; auto.
  - injection H as <- <-. exists s2, b2. auto.
Qed.

Lemma set_set c s b s' b' : set_stats (set_stats c s b) s' b' = set_stats c s' b'.
Proof. reflexivity. Qed.
Lemma set_same c : set_stats c (c_stats c) (c_badfp c) = c.
Proof. now destruct c. Qed.

Lemma find_any E c s b i x d :
  findMatchingFilters E (set_stats c s b) i x d = findMatchingFilters E c i x d.
Proof.
  unfold findMatchingFilters, lookup_filter.
  destruct (strlen i) as [n|]; cbn [bind]; [|reflexivity].
  destruct (mkQuery i n x d) as [q|]; cbn [bind]; [|reflexivity].
  now rewrite !scan_any, !lookup_any.
Qed.

(** Two clients that differ in the counters and bad fingerprints only. *)
Definition twin (same : Prop) (c c' : client) : Prop :=
  exists s b, c' = set_stats c s b /\ (same -> s = c_stats c).

Lemma twin_sym same c c' : twin same c c' -> twin same c' c.
Proof.
  intros (s & b & -> & H). exists (c_stats c), (c_badfp c). rewrite set_set, set_same.
  split; auto. cbn. intros X. symmetry. auto.
Qed.

Lemma twin_settled same c c' : twin same c c' -> settled c -> settled c'.
Proof. intros (s & b & -> & _) H. exact H. Qed.

Lemma twin_matches E same c c' i x d v c1 :
  twin same c c' -> settled c -> matches E c i x d = Ok (v, c1) ->
  exists c1', matches E c' i x d = Ok (v, c1') /\ twin same c1 c1'.
Proof.
  intros (s & b & -> & H) ST M.
  destruct (matches_any E c s b i x d v c1 ST M) as (s1 & b1 & -> & K).
  exists (set_stats c1 s1 b1). split; auto. exists s1, b1. auto.
Qed.

Lemma twin_perform E same c c' k c1 :
  call_ok k -> settled c -> twin same c c' -> perform E c k = Ok c1 ->
  exists c1', perform E c' k = Ok c1' /\ twin same c1 c1'.
Proof.
  intros Hk ST T P. pose proof T as (s & b & Ec & H).
  destruct k as [pres t| |t|t|url context dom|]; cbn [perform call_ok] in *.
  - rewrite parse_normal in P |- * by auto. apply rmap_ok in P as (rs & P & ->). rewrite P.
    cbn [rmap bind]. eexists. split; [reflexivity|]. subst c'. exists s, b.
    unfold install. change (st_of (set_stats c s b)) with (st_of c).
    destruct (fold_left (store E) rs (st_of c)) as [[[s0 w] ha] hae]. split; [reflexivity|exact H].
  - injection P as <-. eexists. split; [reflexivity|]. subst c'. exists stats0, None. split; auto.
  - injection P as <-. eexists. split; [reflexivity|]. subst c'. exists s, b.
    unfold addTag. change (tagExists (set_stats c s b) t) with (tagExists c t).
    destruct (tagExists c t); split; auto.
  - injection P as <-. eexists. split; [reflexivity|]. subst c'. exists s, b. split; auto.
  - apply rmap_ok in P as ([v c2] & P & ->). destruct (twin_matches E same c c' _ _ _ v c2 T ST P) as (c2' & -> & K).
    exists c2'. split; auto.
  - injection P as <-. eexists. split; [reflexivity|]. subst c'.
    exists s, (c_badfp (enableBadFp E (set_stats c s b))). split.
    + unfold enableBadFp. cbn [set_stats c_badfp]. destruct (c_badfp c), b; reflexivity.
    + unfold enableBadFp. destruct (c_badfp c); exact H.
Qed.

Lemma hist_settled E calls c : history calls -> after E calls = Ok c -> settled c.
Proof.
  intros Hc A. destruct (hist_view E calls c Hc A) as (rs & V). pose proof (w_rep _ _ _ _ V) as R.
  destruct (c_host c) as [hs|] eqn:N.
  - assert (c_host c <> None) as N1 by congruence.
    destruct (rep_sets E c rs R N1) as (s & _ & S1 & S2 & _). unfold settled. rewrite S1, S2.
    split; discriminate.
  - destruct (rep_fresh E c rs R N) as [_ (_ & _ & _ & F4 & F5 & _)]. unfold settled.
    rewrite F4, F5. split; now intros [].
Qed.

(** Continuing on either side. *)
Lemma twin_continue E same a : forall b c c' c1,
  history (a ++ b) -> after E a = Ok c -> twin same c c' ->
  foldM (perform E) c b = Ok c1 -> exists c1', foldM (perform E) c' b = Ok c1' /\ twin same c1 c1'.
Proof.
  intros b. revert a. induction b as [|k b IH]; intros a c c' c1 Hc A T H.
  - injection H as <-. exists c'. split; auto.
  - cbn [foldM] in *. apply bind_ok in H as (c2 & P & H).
    pose proof Hc as Hc'. apply Forall_app in Hc' as [Ha Hb]. inversion Hb as [|? ? Hk Hb']; subst.
    destruct (twin_perform E same c c' k c2 Hk (hist_settled E a c Ha A) T P) as (c2' & -> & T2).
    cbn [bind]. apply (IH (a ++ [k]) c2); auto.
    + rewrite <- app_assoc. exact Hc.
    + rewrite after_snoc, A. exact P.
Qed.
