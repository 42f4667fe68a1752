(** Proofs for the measuring program: C94. *)
From Verif Require Import Base Flags Protocol Url Sets FilterM ParseM ClientM SerialM JsM DataM ListsM ToolM
  CatalogM PublishM PerfM Spec SpecM SpecC SpecS SpecJ SpecL SpecX SpecT SpecTool SpecP SpecA
  P_Base P_Protocol P_Url P_Match P_Rule P_Props1 P_Props2 P_Set P_Parse P_List P_Line P_Line2 P_Line4
  P_Line5 P_Fp2 P_Opt P_Opt2 P_Shape P_Match2 P_Client P_Hist P_Decide P_Dec2 P_Dec3
  P_Dec4 P_Dec5 P_Dec6 P_Dec7 P_Dec8 P_Like P_Js P_Js2 P_Ex P_Data P_Tool P_Pub SpecC.
From Verif Require P_Stat P_Ser3 P_Ser4 P_Ser6 P_Ser7 P_Life2.

(** ** Words *)
Lemma space_white a : space a = true <-> white a.
Proof.
  unfold white. cbn [In].
  destruct a as [b0 b1 b2 b3 b4 b5 b6 b7].
  destruct b0, b1, b2, b3, b4, b5, b6, b7; split; intros H; try reflexivity; try (vm_compute in H; discriminate);
    try (vm_compute; auto 10); try (exfalso; repeat (destruct H as [H|H]; [discriminate|]); exact H).
Qed.

Lemma space_no a : space a = false <-> ~ white a.
Proof. rewrite <- space_white. destruct (space a); split; congruence. Qed.

Lemma words_gap g s : (forall a, In a g -> white a) -> words_from [] (g ++ s) = words_from [] s.
Proof.
  induction g as [|a g IH]; intros H; cbn [app words_from]; auto.
  rewrite (proj2 (space_white a)); [|apply H; cbn; auto]. apply IH. intros b I. apply H. cbn; auto.
Qed.

Lemma words_word w : forall v s, (forall a, In a w -> ~ white a) ->
  words_from v (w ++ s) = words_from (v ++ w) s.
Proof.
  induction w as [|a w IH]; intros v s H; cbn [app words_from]; [now rewrite app_nil_r|].
  rewrite (proj2 (space_no a)); [|apply H; cbn; auto]. rewrite IH, <- app_assoc; auto.
  intros b I. apply H. cbn; auto.
Qed.

Lemma words_flush w t : w <> [] -> (t = [] \/ white (hd NUL t)) ->
  words_from w t = w :: words_from [] t.
Proof.
  intros N [->|H]; destruct w as [|x w]; try easy.
  destruct t as [|a t]; [reflexivity|]. cbn [hd] in H. cbn [words_from].
  now rewrite (proj2 (space_white a)).
Qed.

Lemma words_spec t ws : words_of t ws -> words t = ws.
Proof.
  unfold words. induction 1 as [g G|g w t ws G (N & W) F _ IH].
  - rewrite <- (app_nil_r g), words_gap; auto.
  - rewrite words_gap, words_word; auto. cbn [app]. rewrite words_flush, IH; auto.
Qed.

Lemma words_exist_from : forall s w, (forall a, In a w -> ~ white a) ->
  words_of (w ++ s) (words_from w s).
Proof.
  induction s as [|a s IH]; intros w W; cbn [words_from].
  - rewrite app_nil_r. destruct w as [|x w]; [constructor; easy|].
    rewrite <- (app_nil_r (x :: w)) at 1. change ((x :: w) ++ []) with ([] ++ (x :: w) ++ []).
    constructor; [easy|split; [discriminate|exact W]|auto|constructor; easy].
  - destruct (space a) eqn:Q.
    + apply space_white in Q. specialize (IH [] ltac:(easy)). cbn [app] in IH.
      assert (words_of (a :: s) (words_from [] s)) as K.
      { clear -IH Q. destruct IH as [g G|g w t ws G W F K].
        - constructor. intros b [<-|I]; auto.
        - change (a :: g ++ w ++ t) with ((a :: g) ++ w ++ t). constructor; auto.
          intros b [<-|I]; auto. }
      destruct w as [|x w]; [exact K|].
      change ((x :: w) ++ a :: s) with ([] ++ (x :: w) ++ a :: s).
      constructor; [easy|split; [discriminate|exact W]|right; exact Q|exact K].
    + apply space_no in Q. specialize (IH (w ++ [a])). rewrite <- app_assoc in IH. apply IH.
      intros b I. apply in_app_iff in I as [I|[<-|[]]]; auto.
Qed.

Lemma words_exist t : words_of t (words t).
Proof. apply (words_exist_from t []). easy. Qed.

Lemma words_nonul t : nonul t -> Forall nonul (words t).
Proof.
  intros N. pose proof (words_exist t) as H. revert N.
  induction H as [g G|g w t ws G W F H IH]; intros N; constructor.
  - intros I. apply N. rewrite !in_app_iff. auto.
  - apply IH. intros I. apply N. rewrite !in_app_iff. auto.
Qed.

(** ** The loop *)
Lemma measured_alike E c d us bs : alike c d -> measured E c us bs -> measured E d us bs.
Proof.
  intros A F. induction F as [|u b us' bs'' (v & c' & M & V) F IH]; constructor; auto.
  destruct (answers_alike E c d (cstr u) 0%N (Some (B "brianbondy.com")) A) as [X _].
  rewrite M in X. cbn [rmap fst] in X.
  destruct (matches E d (cstr u) 0%N (Some (B "brianbondy.com"))) as [[w e]|]; [|discriminate].
  injection X as <-. eauto.
Qed.

Lemma measured_same E c c' us bs :
  (forall url context dom v c1, matches E c url context dom = Ok (v, c1) ->
     exists w c1', matches E c' url context dom = Ok (w, c1') /\ same_verdict v w) ->
  measured E c us bs -> measured E c' us bs.
Proof.
  intros H F. induction F as [|u b us' bs' (v & c1 & M & V) F IH]; constructor; auto.
  destruct (H _ _ _ _ _ M) as (w & c1' & M' & S). exists w, c1'. split; auto.
  destruct S as (S & _). congruence.
Qed.

Lemma how_many_cons x b bs : how_many x (b :: bs) = (if Bool.eqb x b then 1 else 0) + how_many x bs.
Proof. unfold how_many. destruct x, b; reflexivity. Qed.

Lemma how_many_last x bs b : how_many x (bs ++ [b]) = how_many x bs + (if Bool.eqb x b then 1 else 0).
Proof.
  unfold how_many. induction bs as [|a bs IH]; cbn [app count_occ].
  - destruct x, b; reflexivity.
  - destruct (Bool.bool_dec a x); rewrite IH; reflexivity.
Qed.

Definition count_step (E : env) := fun (s : nat * nat * client) url =>
  let '(m, k, c) := s in
  r <- matches E c (cstr url) FONoFilterOption (Some (B "brianbondy.com")) ;;
  if v_block (fst r) then Ok (S m, k, snd r) else Ok (m, S k, snd r).

Lemma count_gen E us : forall c bs m k, measured E c us bs ->
  exists c', foldM (count_step E) (m, k, c) us = Ok (m + how_many true bs, k + how_many false bs, c') /\
    continue E c (site_asks us) = Ok c' /\ alike c c'.
Proof.
  induction us as [|u us IH]; intros c bs m k F; inversion F as [|u' b us' bs' (v & d & M & V) F']; subst.
  - exists c. cbn. rewrite !Nat.add_0_r. split; [reflexivity|]. split; [reflexivity|apply alike_refl].
  - pose proof (asked_alike _ _ _ _ _ _ _ M) as L.
    assert (measured E d us bs') as F2 by (eapply measured_alike; eauto).
    cbn [foldM]. unfold count_step at 1. change FONoFilterOption with 0%N. rewrite M. cbn [bind fst snd].
    destruct (v_block v) eqn:Q; cbn [bind].
    + destruct (IH d bs' (S m) k F2) as (c' & R & C & A). exists c'.
      split; [rewrite R, !how_many_cons; cbn [Bool.eqb]; apply f_equal, f_equal2; [apply f_equal2; lia|reflexivity]|].
      split; [|eapply alike_trans; eauto].
      unfold site_asks in *. cbn [map]. unfold continue in *. cbn [foldM perform]. rewrite M.
      cbn [bind rmap snd]. exact C.
    + destruct (IH d bs' m (S k) F2) as (c' & R & C & A). exists c'.
      split; [rewrite R, !how_many_cons; cbn [Bool.eqb]; apply f_equal, f_equal2; [apply f_equal2; lia|reflexivity]|].
      split; [|eapply alike_trans; eauto].
      unfold site_asks in *. cbn [map]. unfold continue in *. cbn [foldM perform]. rewrite M.
      cbn [bind rmap snd]. exact C.
Qed.

Lemma count_back E us : forall c m k r, foldM (count_step E) (m, k, c) us = Ok r ->
  exists bs, measured E c us bs.
Proof.
  induction us as [|u us IH]; intros c m k r H; [exists []; constructor|].
  cbn [foldM] in H. unfold count_step at 1 in H.
  apply bind_ok in H as ([[m1 k1] d] & H1 & H). apply bind_ok in H1 as ([v d'] & M & H1).
  cbn [fst snd] in H1.
  assert (d' = d) as -> by (destruct (v_block v); congruence).
  apply IH in H as (bs & F). pose proof (asked_alike _ _ _ _ _ _ _ M) as L.
  exists (v_block v :: bs). constructor; [exists v, d; auto|].
  eapply measured_alike; [|exact F].
  destruct L as ((Q1 & Q2 & Q3 & Q4 & Q5 & Q6 & Q7 & Q8 & Q9 & Q10 & Q11) & T & N).
  unfold alike, same_rules. rewrite Q1, Q2, Q3, Q4, Q5, Q6, Q7, Q8, Q9, Q10, Q11.
  split; [repeat split|]. split; [intros t; now rewrite T|]. intuition congruence.
Qed.

Lemma how_many_total bs : how_many true bs + how_many false bs = length bs.
Proof. unfold how_many. induction bs as [|[|] bs IH]; cbn; lia. Qed.

Lemma site_list E c t ws bs : words_of t ws -> measured E c ws bs ->
  exists r c', doSiteList E c t = Ok (r, c') /\
    rp_blocks r = how_many true bs /\ rp_skips r = how_many false bs /\
    rp_blocks r + rp_skips r = length ws /\
    continue E c (site_asks ws) = Ok c' /\ alike c c' /\
    r = mkReport (rp_blocks r) (rp_skips r) (st_fp (c_stats c')) (st_efp (c_stats c'))
          (st_bloom (c_stats c')) (st_ebloom (c_stats c')).
Proof.
  intros W F. unfold doSiteList, countSites. rewrite (words_spec _ _ W).
  destruct (count_gen E ws c bs 0 0 F) as (c' & R & C & A). cbn [Nat.add] in R.
  fold (count_step E). rewrite R. cbn [bind]. eexists _, c'. split; [reflexivity|].
  cbn [rp_blocks rp_skips]. repeat (split; [reflexivity|]). split.
  - rewrite how_many_total. clear -F. induction F; cbn; auto.
  - auto.
Qed.

Lemma parse_all E texts c : parseAll E c texts = continue E c (map (Parse false) texts).
Proof.
  unfold parseAll, continue. rewrite P_Life2.foldM_map. reflexivity.
Qed.

(** ** The counters *)
Lemma tally_last E P calls url context dom n : tally E P (calls ++ [Ask url context dom]) n ->
  exists m c v c', tally E P calls m /\ after E calls = Ok c /\
    matches E c (cstr url) context dom = Ok (v, c') /\
    ((P calls url context dom v /\ n = S m) \/ (~ P calls url context dom v /\ n = m)).
Proof.
  intros T. inversion T as [X Y|calls' X Y|calls' k n' T' K X Y|calls' n' u x d c v c' T' A M Q X Y|calls' n' u x d c v c' T' A M Q X Y].
  - destruct calls; discriminate.
  - apply app_inj_tail in X as [_ X]. discriminate.
  - apply app_inj_tail in X as [_ X]. subst k. destruct K.
  - apply app_inj_tail in X as [-> X]. injection X as -> -> ->. exists n', c, v, c'. repeat (split; auto).
  - apply app_inj_tail in X as [-> X]. injection X as -> -> ->. exists n', c, v, c'. subst n'. do 3 (split; [assumption|]). right; split; [assumption|reflexivity].
Qed.

Lemma tally_parses E P ts : forall n, tally E P (map (Parse false) ts) n -> n = 0.
Proof.
  induction ts as [|t ts IH] using rev_ind; intros n T.
  - inversion T as [X Y|calls' X Y|calls' k n' T' K X Y|calls' n' u x d c v c' T' A M Q X Y|calls' n' u x d c v c' T' A M Q X Y];
      auto; try (destruct calls'; discriminate).
  - rewrite map_app in T. cbn [map] in T.
    inversion T as [X Y|calls' X Y|calls' k n' T' K X Y|calls' n' u x d c v c' T' A M Q X Y|calls' n' u x d c v c' T' A M Q X Y];
      try (apply app_inj_tail in X as [_ X]; discriminate).
    + destruct (map (Parse false) ts); discriminate.
    + apply app_inj_tail in X as [X _]. subst. auto.
Qed.

Lemma tally_blocked E ts c : after E (map (Parse false) ts) = Ok c -> forall us bs n,
  measured E c us bs -> tally E was_blocked (map (Parse false) ts ++ site_asks us) n ->
  n = how_many true bs.
Proof.
  intros A. induction us as [|u us IH] using rev_ind; intros bs n F T.
  - inversion F. subst. cbn [site_asks map] in T. rewrite app_nil_r in T. now apply tally_parses in T.
  - apply Forall2_app_inv_l in F as (bs1 & bs2 & F & G & ->).
    inversion G as [|u' b us' bs' (v & d & M & V) G']; subst. inversion G'; subst.
    unfold site_asks in T. rewrite map_app, app_assoc in T. cbn [map] in T. fold (site_asks us) in T.
    apply tally_last in T as (m & c2 & w & d2 & T & A2 & M2 & O).
    apply IH with (bs := bs1) in T; auto.
    destruct (count_gen E us c bs1 0 0 F) as (c3 & _ & C & L).
    unfold after in A2, A. rewrite foldM_app, A in A2. cbn [bind] in A2. unfold continue in C.
    rewrite C in A2. injection A2 as <-.
    destruct (answers_alike E c c3 (cstr u) 0%N (Some (B "brianbondy.com")) L) as [X _].
    rewrite M, M2 in X. cbn [rmap fst] in X. injection X as <-.
    rewrite how_many_last. unfold was_blocked in O.
    destruct (v_block v); cbn [Bool.eqb]; destruct O as [[O ->]|[O ->]]; try congruence; lia.
Qed.

Lemma parses_history ts : Forall nonul ts -> history (map (Parse false) ts).
Proof.
  intros H. apply Forall_forall. intros k I. apply in_map_iff in I as (t & <- & I).
  rewrite Forall_forall in H. now apply H.
Qed.

Lemma asks_history us : Forall nonul us -> history (site_asks us).
Proof.
  intros H. apply Forall_forall. intros k I. apply in_map_iff in I as (t & <- & I).
  rewrite Forall_forall in H. now apply H.
Qed.

(** What the second report says. *)
Lemma fresh_report E ts t ws c bs :
  Forall nonul ts -> nonul t -> words_of t ws ->
  after E (map (Parse false) ts) = Ok c -> measured E c ws bs ->
  exists r c', doSiteList E c t = Ok (r, c') /\
    rp_blocks r = how_many true bs /\ rp_skips r = how_many false bs /\
    N.to_nat (rp_efp r + rp_ebloom r) = rp_blocks r /\
    tally E (no_rule_applied E) (map (Parse false) ts ++ site_asks ws) (N.to_nat (rp_fp r + rp_bloom r)).
Proof.
  intros Ht Hn W A F.
  destruct (site_list E c t ws bs W F) as (r & c' & D & B1 & B2 & _ & C & L & R).
  exists r, c'. split; auto. split; auto. split; auto.
  assert (history (map (Parse false) ts ++ site_asks ws)) as H.
  { apply Forall_app. split; [now apply parses_history|]. apply asks_history.
    rewrite <- (words_spec _ _ W). now apply words_nonul. }
  assert (after E (map (Parse false) ts ++ site_asks ws) = Ok c') as A'.
  { unfold after in *. rewrite foldM_app, A. exact C. }
  destruct (matching_stats E _ _ H A') as (fp & efp & bl & ebl & hs & ehs & G & T1 & T2 & _).
  unfold getMatchingStats in G. injection G as G1 G2 G3 G4 _ _.
  rewrite R. cbn [rp_blocks rp_fp rp_efp rp_bloom rp_ebloom]. rewrite G1, G2, G3, G4. split; auto.
  rewrite B1. eapply tally_blocked; eauto.
Qed.

(** The client that reads its own data back answers like one that does not, if
    the rules survive saving. *)
Lemma reread E ts c : Forall nonul ts -> after E (map (Parse false) ts) = Ok c ->
  exists data d, serialize c true true = Ok data /\ deserialize data c = Ok (d, true) /\
    (forall us bs, measured E (restarted c c) us bs -> measured E d us bs) /\
    (all_storable (map (Parse false) ts) ->
       forall us bs, measured E c us bs -> measured E d us bs).
Proof.
  intros Ht A. pose proof (parses_history _ Ht) as H.
  destruct (P_Life2.saved_again E _ c true true [] c H A) as (data & d & S & D & Q & _).
  rewrite app_nil_r in D. exists data, d. split; auto. split; auto. split.
  - intros us bs. now apply measured_same.
  - intros St us bs. apply measured_same.
    destruct (P_Ser6.restored_decides E _ _ H A true true data c [] St S) as (d' & D' & R); [auto|].
    rewrite app_nil_r, D in D'. injection D' as <-.
    destruct (R [] c) as (d2 & C & K & _); [constructor|reflexivity|]. now injection C as <-.
Qed.

(** What the third part collects. *)
Lemma collecting E ts t ws c bs :
  Forall nonul ts -> nonul t -> words_of t ws ->
  after E (map (Parse false) ts) = Ok c -> measured E c ws bs ->
  exists c3 r c' l, parseAll E (enableBadFp E client0) ts = Ok c3 /\
    doSiteList E c3 t = Ok (r, c') /\ generateHeader c' = Ok (headerText l) /\
    NoDup l /\ (forall w, In w (e_bads E) -> In w l) /\
    (forall w, In w l -> ~ In w (e_bads E) ->
       length w = kFingerprintSize /\ exists url x y, In url ws /\ url = x ++ w ++ y) /\
    (Forall plain_text (e_bads E) -> Forall plain_text ws ->
       exists text, headerText l = header_head ++ text ++ header_tail /\ array_of l text).
Proof.
  intros Ht Hn W A F. pose proof (parses_history _ Ht) as H.
  pose proof (detection_inert E [] (map (Parse false) ts) H) as I. cbn [app] in I. rewrite A in I.
  destruct (after E (DetectBad :: map (Parse false) ts)) as [c3|] eqn:A3; [|destruct I].
  destruct I as (_ & _ & Sa & _).
  assert (measured E c3 ws bs) as F3.
  { clear -F Sa. induction F as [|u b us bs (v & c' & M & V) F IH]; constructor; auto.
    destruct (proj1 (Sa _ _ _ _) (ex_intro _ c' M)) as (c1 & M1). eauto. }
  destruct (site_list E c3 t ws bs W F3) as (r & c' & D & _ & _ & _ & C & _ & _).
  set (calls := (DetectBad :: map (Parse false) ts) ++ site_asks ws).
  assert (history calls) as H3.
  { apply Forall_app. split; [constructor; [exact I|exact H]|]. apply asks_history.
    rewrite <- (words_spec _ _ W). now apply words_nonul. }
  assert (after E calls = Ok c') as A'.
  { unfold calls. unfold after in *. rewrite foldM_app, A3. exact C. }
  destruct (P_Stat.hist_bad E calls c' H3 A') as (Q1 & Q2).
  destruct (c_badfp c') as [l|] eqn:L.
  - exists c3, r, c', l. split; [rewrite parse_all; exact A3|]. split; auto.
    split; [unfold generateHeader; now rewrite L|].
    destruct (Q2 l eq_refl) as (N & In1 & In2). split; auto. split; auto. split.
    + intros w I Nb. destruct (In2 w I) as [X|(url & x & dom & J & K & a & b & ->)]; [easy|].
      split; auto. exists (a ++ w ++ b), a, b. split; auto.
      unfold calls in J. cbn [app] in J. destruct J as [J|J]; [discriminate|].
      apply in_app_iff in J as [J|J]; apply in_map_iff in J as (u & J & Iu); [discriminate|].
      injection J as -> _ _. exact Iu.
    + intros P1 P2. apply (header_ok E calls c' l); auto.
      intros url x dom J. unfold calls in J. cbn [app] in J. destruct J as [J|J]; [discriminate|].
      apply in_app_iff in J as [J|J]; apply in_map_iff in J as (u & J & Iu); [discriminate|].
      injection J as -> _ _. rewrite Forall_forall in P2. now apply P2.
  - exfalso. apply (proj1 Q1); auto. exists [], (map (Parse false) ts ++ site_asks ws). split; [reflexivity|].
    intros I. apply in_app_iff in I as [I|I]; apply in_map_iff in I as (u & J & _); discriminate.
Qed.

(** ** C94 *)
Lemma perf_gen E easy priv ub bu spam disc sites ws c1 bs1 c2 bs2 c3 bs3 :
  Forall nonul [easy; priv; ub; bu; spam; disc; sites] -> words_of sites ws ->
  after E (map (Parse false) [easy; priv; ub; bu]) = Ok c1 ->
  (measured E (restarted c1 c1) ws bs1 \/
   (all_storable (map (Parse false) [easy; priv; ub; bu]) /\ measured E c1 ws bs1)) ->
  after E (map (Parse false) [spam; disc]) = Ok c2 -> measured E c2 ws bs2 ->
  after E (map (Parse false) [easy; priv; ub; bu; spam; disc]) = Ok c3 -> measured E c3 ws bs3 ->
  exists r1 r2 l, perfMain E easy priv ub bu spam disc sites = Ok (r1, r2, headerText l) /\
    (rp_blocks r1 = how_many true bs1 /\ rp_skips r1 = how_many false bs1) /\
    (rp_blocks r2 = how_many true bs2 /\ rp_skips r2 = how_many false bs2 /\
     N.to_nat (rp_efp r2 + rp_ebloom r2) = rp_blocks r2 /\
     tally E (no_rule_applied E) (map (Parse false) [spam; disc] ++ site_asks ws)
       (N.to_nat (rp_fp r2 + rp_bloom r2))) /\
    NoDup l /\ (forall w, In w (e_bads E) -> In w l) /\
    (forall w, In w l -> ~ In w (e_bads E) ->
       length w = kFingerprintSize /\ exists url x y, In url ws /\ url = x ++ w ++ y) /\
    (Forall plain_text (e_bads E) -> Forall plain_text ws ->
       exists text, headerText l = header_head ++ text ++ header_tail /\ array_of l text).
Proof.
  intros Hn W A1 F1 A2 F2 A3 F3.
  assert (Forall nonul [easy; priv; ub; bu]) as N1 by (repeat (apply Forall_cons_iff in Hn as [? Hn]; constructor; auto)).
  assert (Forall nonul [spam; disc] /\ nonul sites) as [N2 Ns].
  { do 4 apply Forall_inv_tail in Hn. apply Forall_cons_iff in Hn as [? Hn].
    apply Forall_cons_iff in Hn as [? Hn]. apply Forall_cons_iff in Hn as [? _]. auto. }
  assert (Forall nonul [easy; priv; ub; bu; spam; disc]) as N3 by (apply (Forall_app nonul [easy; priv; ub; bu] [spam; disc]); auto).
  destruct (reread E _ c1 N1 A1) as (data & d & S & D & Q1 & Q2).
  assert (measured E d ws bs1) as F by (destruct F1 as [F1|[St F1]]; auto).
  destruct (site_list E d sites ws bs1 W F) as (r1 & d1 & D1 & B1 & B2 & _).
  destruct (fresh_report E _ sites ws c2 bs2 N2 Ns W A2 F2) as (r2 & d2 & D2 & R2).
  destruct (collecting E _ sites ws c3 bs3 N3 Ns W A3 F3) as (e & r & e' & l & P3 & D3 & G & R3).
  exists r1, r2, l. split; [|auto].
  unfold perfMain. rewrite parse_all. unfold after in A1, A2. unfold continue.
  rewrite A1. cbn [bind]. rewrite S. cbn [bind]. rewrite D. cbn [bind fst]. rewrite D1. cbn [bind].
  rewrite parse_all. unfold continue. rewrite A2. cbn [bind]. rewrite D2. cbn [bind].
  rewrite P3. cbn [bind]. rewrite D3. cbn [bind snd]. rewrite G. reflexivity.
Qed.

(** Whenever the program ends, every word of the site list was counted. *)
Lemma perf_total E easy priv ub bu spam disc sites ws r1 r2 h : words_of sites ws ->
  perfMain E easy priv ub bu spam disc sites = Ok (r1, r2, h) ->
  rp_blocks r1 + rp_skips r1 = length ws /\ rp_blocks r2 + rp_skips r2 = length ws.
Proof.
  intros W R. unfold perfMain in R.
  apply bind_ok in R as (c & _ & R). apply bind_ok in R as (data & _ & R).
  apply bind_ok in R as (d & _ & R). apply bind_ok in R as ([q1 e1] & D1 & R).
  apply bind_ok in R as (c2 & _ & R). apply bind_ok in R as ([q2 e2] & D2 & R).
  apply bind_ok in R as (c3 & _ & R). apply bind_ok in R as ([q3 e3] & _ & R).
  apply bind_ok in R as (h' & _ & R). injection R as <- <- <-.
  assert (forall c q e, doSiteList E c sites = Ok (q, e) -> rp_blocks q + rp_skips q = length ws) as K.
  { intros x q e Q. pose proof Q as Q0. unfold doSiteList, countSites in Q. fold (count_step E) in Q.
    rewrite (words_spec _ _ W) in Q. apply bind_ok in Q as (y & Q & _). apply count_back in Q as (bs & F).
    destruct (site_list E x sites ws bs W F) as (q' & e' & Q' & _ & _ & T & _).
    rewrite Q0 in Q'. now injection Q' as <- <-. }
  split; eapply K; eauto.
Qed.

(** For examples. *)
Fixpoint answers (E : env) (c : client) (us : list bytes) : res (list bool) :=
  match us with
  | [] => Ok []
  | u :: us' =>
      r <- matches E c (cstr u) 0 (Some (B "brianbondy.com")) ;;
      bs <- answers E c us' ;; Ok (v_block (fst r) :: bs)
  end.

Lemma answers_measured E c us : forall bs, answers E c us = Ok bs -> measured E c us bs.
Proof.
  induction us as [|u us IH]; intros bs H; cbn [answers] in H.
  - injection H as <-. constructor.
  - apply bind_ok in H as ([v d] & M & H). apply bind_ok in H as (bs' & A & H). injection H as <-.
    constructor; [exists v, d; auto|]. now apply IH.
Qed.

Lemma measured_after E calls us bs :
  (c <- after E calls ;; answers E c us) = Ok bs ->
  exists c, after E calls = Ok c /\ measured E c us bs.
Proof. intros H. apply bind_ok in H as (c & A & H). apply answers_measured in H. eauto. Qed.
