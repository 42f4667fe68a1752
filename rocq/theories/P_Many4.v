From Coq Require Import Lia.
From Verif Require Import Base Flags Sets FilterM ParseM ClientM OwnM SpecO P_Base P_List
  P_Own P_Own2 P_Own3 P_Own5 ManyM SpecMany P_Many P_Many2 P_Many3.

(** ** Copies of clients that hold nothing *)

Lemma idle_own w : idle w -> ownW w = [].
Proof.
  intros H. apply idle_eq in H. rewrite H. unfold ownW.
  cbn [w_arrs w_bloom w_ebloom w_host w_ehost w_gates w_bad own0].
  rewrite !ownT_none by reflexivity. reflexivity.
Qed.

Lemma idle_set w h : idle w -> idle (set_heap w h).
Proof. intros H h'. apply (H h'). Qed.

Lemma idle_tracked w : idle w -> tracked w None.
Proof. intros H. apply idle_eq in H. rewrite H. apply tracked0. Qed.

Lemma copy_fine s bk lost occ src i cur :
  minv s bk lost -> trk s src -> occs s occ ->
  nth_error bk i = Some (Some cur) -> occ i = false ->
  exists s', mstep s (MCopy i) = Ok s' /\ minv s' (book_after bk (MCopy i)) lost /\
    trk s' src /\ occs s' occ.
Proof.
  intros V T O B Oc. destruct (minv_client _ _ _ _ _ V B) as (w & Ew & S).
  cbn [mstep book_after]. rewrite (client_at_ok _ _ _ Ew), B. cbn [bind].
  pose proof (proj1 O i w Ew) as Id. rewrite Oc in Id.
  eexists. split; [reflexivity|]. split; [|split].
  - destruct (push_ok (Some (set_heap w (cr_heap s))) (Some cur) _ _ (m_len _ _ _ V) (m_ok _ _ _ V))
      as [A1 A2].
    { cbn [okC]. now apply shaped_set. }
    split; cbn [cr_heap cr_all cr_app]; auto.
    eapply holds_eq; [|apply (m_holds _ _ _ V)]. intro x. rewrite flat_map_app. cbn [flat_map ownC].
    rewrite set_heap_ownW, (idle_own w Id). rewrite !cnt_app. cbn [Datatypes.app]. rewrite cnt_nil. lia.
  - destruct T as [T1 T2]. split; cbn [cr_all].
    + intros j v Ej. destruct (Nat.lt_ge_cases j (length (cr_all s))) as [H|H].
      * rewrite nth_error_app1 in Ej by exact H. now apply T1.
      * rewrite nth_error_app2 in Ej by exact H. rewrite T2 by exact H.
        destruct (j - length (cr_all s)) as [|n]; [|destruct n; discriminate].
        injection Ej as <-. now apply idle_tracked, idle_set.
    + intros j. rewrite app_length. cbn. intros H. apply T2. lia.
  - destruct O as [O1 O2]. split; cbn [cr_all].
    + intros j v Ej. destruct (Nat.lt_ge_cases j (length (cr_all s))) as [H|H].
      * rewrite nth_error_app1 in Ej by exact H. now apply O1.
      * rewrite nth_error_app2 in Ej by exact H. rewrite O2 by exact H.
        destruct (j - length (cr_all s)) as [|n]; [|destruct n; discriminate].
        injection Ej as <-. now apply idle_set.
    + intros j. rewrite app_length. cbn. intros H. apply O2. lia.
Qed.

Lemma copy_lost s bk lost occ i cur : minv s bk lost -> occs s occ ->
  nth_error bk i = Some (Some cur) -> occ i = true ->
  exists s', mstep s (MCopy i) = Ok s' /\ lost_cause s'.
Proof.
  intros V O B Oc. destruct (minv_client _ _ _ _ _ V B) as (w & Ew & _).
  pose proof (proj1 O i w Ew) as Oi. rewrite Oc in Oi. destruct Oi as (n & Hn).
  cbn [mstep]. rewrite (client_at_ok _ _ _ Ew). cbn [bind]. eexists. split; [reflexivity|].
  exists n. cbn [cr_heap cr_all]. split.
  - destruct (m_holds _ _ _ V) as (H1 & _ & H3). apply H3. rewrite H1.
    destruct (put_split _ _ _ Ew) as (l1 & l2 & El & _). rewrite El, flat_map_app.
    cbn [flat_map ownC]. rewrite !cnt_app.
    apply held_own, (count_occ_In Nat.eq_dec) in Hn. lia.
  - left. exists i, (length (cr_all s)).
    assert (Len : i < length (cr_all s)) by (apply nth_error_Some; congruence).
    split; [lia|]. split.
    + exists w. cbn [cr_all]. now rewrite nth_error_app1.
    + exists (set_heap w (cr_heap s)). cbn [cr_all]. rewrite nth_error_app2 by lia.
      rewrite Nat.sub_diag. now split.
Qed.

Definition copies_ok (occ : nat -> bool) (es : list mevent) : Prop :=
  forall es1 i es2, es = es1 ++ MCopy i :: es2 ->
    fold_left occupied_after (calls_on i es1) (occ i) = false.

Lemma copies_cons occ e es : copies_ok occ (e :: es) <->
  (forall i, e = MCopy i -> occ i = false) /\ copies_ok (occ_m occ e) es.
Proof.
  split.
  - intros H. split.
    + intros i ->. exact (H [] i es eq_refl).
    + intros es1 i es2 E. rewrite <- occupied_cons. apply (H (e :: es1) i es2).
      cbn [Datatypes.app]. now rewrite E.
  - intros [H1 H2] es1 i es2 E. destruct es1 as [|e1 es1]; cbn [Datatypes.app] in E.
    + injection E as E1 E2. exact (H1 i E1).
    + injection E as E1 E2. subst e1. rewrite occupied_cons. exact (H2 es1 i es2 E2).
Qed.

Lemma copying_dec e : (exists i, e = MCopy i) \/ ~ copying e.
Proof. destruct e; cbn; eauto. Qed.

(** ** All histories *)

Lemma life_m es : forall s bk lost src occ,
  minv s bk lost -> trk s src -> occs s occ -> used_well_m s bk es ->
  ((forall i, parses_fine (src i) (calls_on i es)) -> copies_ok occ es ->
     exists s' X, (s <- mrun s es ;; mend s) = Ok s' /\
       length X = lost_total (all_calls es) /\ holds (cr_heap s') (cr_app s' ++ X ++ lost)) /\
  (forall s', (s <- mrun s es ;; mend s) = Ok s' ->
     (forall i, parses_fine (src i) (calls_on i es)) /\ copies_ok occ es).
Proof.
  induction es as [|e es IH]; intros s bk lost src occ V T O U.
  - unfold mrun; cbn [foldM bind]. split.
    + intros _ _. destruct (mend_ok _ _ _ V) as (s' & -> & A & H & _). exists s', []. auto.
    + intros s' _. split; [intros i; exact I|]. intros es1 i es2 E. now destruct es1.
  - cbn [used_well_m] in U. destruct U as [P U].
    unfold mrun; cbn [foldM].
    assert (EA : lost_total (all_calls (e :: es)) = lost_in_m e + lost_total (all_calls es)).
    { unfold all_calls; cbn [flat_map]. destruct e; reflexivity. }
    rewrite EA.
    destruct (copying_dec e) as [(i & ->)|Ce].
    + cbn [polite_m] in P. destruct P as (cur & B). cbn [lost_in_m Nat.add].
      destruct (occ i) eqn:Oc.
      * destruct (copy_lost _ _ _ _ _ _ V O B Oc) as (s1 & E1 & K).
        rewrite E1. cbn [bind]. fold (mrun s1 es). rewrite (run_lost es s1 K). split.
        -- intros _ Co. apply copies_cons in Co. destruct Co as [Co _].
           rewrite (Co i eq_refl) in Oc. discriminate.
        -- intros s' X. discriminate X.
      * destruct (copy_fine _ _ _ _ _ _ _ V T O B Oc) as (s1 & E1 & V1 & T1 & O1).
        rewrite E1. cbn [bind]. fold (mrun s1 es).
        destruct (IH s1 _ _ src occ V1 T1 O1 (U s1 E1)) as [A1 A2]. split.
        -- intros F Co. apply copies_cons in Co. destruct Co as [_ Co]. exact (A1 F Co).
        -- intros s' E2. destruct (A2 s' E2) as [F Co]. split; [exact F|].
           apply copies_cons. split; [|exact Co]. intros j [= <-]. exact Oc.
    + assert (K : over s e \/ exists i ls w, e = MCall i (EParse ls) /\
                nth_error (cr_all s) i = Some (Some w) /\ pointing w).
      { destruct e as [|i [ls| |t| |b d| | |b]|i|i| |b]; cbn [over]; auto.
        destruct (nth_error (cr_all s) i) as [[w|]|] eqn:Ew; try (left; intros v; discriminate).
        pose proof (proj1 T i w Ew) as Tr. unfold tracked in Tr.
        destruct (src i) as [d|] eqn:Es.
        - destruct (textless_dec d) as [Y|Y].
          + left. intros v [= <-]. rewrite Tr. intros (d' & [= <-] & N). now apply N.
          + right. exists i, ls, w. repeat split; auto. rewrite Tr. exists d.
            split; [reflexivity|]. intros X. now apply textless_not in X.
        - left. intros v [= <-]. rewrite Tr. intros (d' & X & _). discriminate X. }
      assert (NC : forall i, e = MCopy i -> occ i = false).
      { intros i ->. now destruct Ce. }
      destruct K as [N|(i & ls & w & -> & Ew & Pw)].
      * destruct (mstep_fine _ _ _ _ V P Ce N) as (s1 & X & E1 & EX & V1).
        rewrite E1. cbn [bind]. fold (mrun s1 es).
        destruct (IH s1 _ _ (restored_m src e) (occ_m occ e) V1 (mstep_trk _ _ _ _ Ce E1 T)
                    (mstep_occs _ _ _ _ Ce E1 O) (U s1 E1)) as [A1 A2].
        split.
        -- intros F Co. apply calls_fine in F. apply copies_cons in Co.
           destruct (A1 (proj2 F) (proj2 Co)) as (s2 & Y & E2 & EY & H2).
           exists s2, (Y ++ X). split; [exact E2|]. split; [rewrite app_length; lia|].
           eapply holds_eq; [|exact H2]. cnt.
        -- intros s' E2. destruct (A2 s' E2) as [F Co].
           assert (F0 : fine_now src e).
           { destruct e as [|j [ls| |t| |b d| | |b]|j|j| |b]; cbn [fine_now]; auto.
             cbn [over] in N. intros d Ed. destruct (textless_dec d) as [Y|Y]; [exact Y|].
             cbn [polite_m] in P. destruct P as (cur & Eb & _).
             destruct (minv_client _ _ _ _ _ V Eb) as (w & Ew & _). destruct (N w Ew).
             apply (proj1 T j w Ew). exists d. split; [exact Ed|].
             intros Q. now apply textless_not in Q. }
           split; [apply calls_fine; now split|apply copies_cons; now split].
      * split.
        -- intros F _. exfalso. apply calls_fine in F. destruct F as [F _].
           cbn [fine_now] in F. apply (proj1 T i w Ew) in Pw.
           destruct Pw as (d & Ed & N). exact (N (F d Ed)).
        -- intros s' E2. exfalso.
           destruct (mstep s (MCall i (EParse ls))) as [s1|] eqn:E1; [cbn [bind] in E2|discriminate].
           fold (mrun s1 es) in E2. rewrite (mrun_doomed es s1 i) in E2; [discriminate|].
           cbn [mstep] in E1. rewrite (client_at_ok _ _ _ Ew) in E1. cbn [bind step] in E1.
           destruct (oparse (set_heap w (cr_heap s)) ls) as [w1|] eqn:Eo; [|discriminate].
           cbn [rmap bind fst snd] in E1. injection E1 as <-. exists w1. cbn [cr_all].
           split; [exact (put_same _ _ _ _ Ew)|].
           eapply moved_doomed; [eapply parse_moved; eauto|exact Pw].
Qed.

Lemma occs0 : occs crowd0 (fun _ => false).
Proof. split; [|auto]. intros [|j] v Ej; discriminate. Qed.

Lemma whole_exactly es : used_well_m crowd0 [] es ->
  ((exists s, whole_run es = Ok s) <->
   (forall i, parses_fine None (calls_on i es)) /\ copies_empty es).
Proof.
  intros U.
  destruct (life_m es crowd0 [] [] (fun _ => None) (fun _ => false) minv0 trk0 occs0 U) as [A B].
  split.
  - intros (s & E). exact (B s E).
  - intros [F C]. destruct (A F C) as (s & X & E & _). eauto.
Qed.

Lemma whole_left es s : used_well_m crowd0 [] es -> whole_run es = Ok s ->
  exists lost, length lost = lost_total (all_calls es) /\ NoDup (cr_app s ++ lost) /\
    NoDup (h_live (cr_heap s)) /\
    forall b, In b (h_live (cr_heap s)) <-> In b (cr_app s ++ lost).
Proof.
  intros U E0.
  destruct (life_m es crowd0 [] [] (fun _ => None) (fun _ => false) minv0 trk0 occs0 U) as [A B].
  destruct (B _ E0) as [F C]. destruct (A F C) as (s1 & X & E & EX & H).
  unfold whole_run in E0. rewrite E0 in E. injection E as <-. rewrite app_nil_r in H.
  exists X. split; [exact EX|]. destruct H as (H1 & H2 & _).
  split; [|split].
  - apply (NoDup_count_occ Nat.eq_dec). intro x. rewrite <- H1. apply H2.
  - apply (NoDup_count_occ Nat.eq_dec). exact H2.
  - intro b. rewrite !(count_occ_In Nat.eq_dec), H1. reflexivity.
Qed.
