(** Proofs about schedules of queries. *)
From Verif Require Import Base Flags Protocol Url Sets FilterM ParseM ClientM Spec SpecM
  SpecC SpecT ConcM SpecConc P_Base P_Protocol P_List P_Client P_Decide P_Hist P_Dec2 P_Stat P_Conc.

Section RUN.
Context (E : env) (c : client) (filled : list memo) (prog : nat -> list question).
Context (Nb : c_badfp c = None) (An : answerable E c prog).

Definition upd {A} (f : nat -> A) (i : nat) (x : A) : nat -> A := fun j => if j =? i then x else f j.

Lemma upd_same {A} (f : nat -> A) i x : upd f i x i = x.
Proof. unfold upd. now rewrite Nat.eqb_refl. Qed.
Lemma upd_other {A} (f : nat -> A) i j x : j <> i -> upd f i x j = f j.
Proof. intros H. unfold upd. apply Nat.eqb_neq in H. now rewrite H. Qed.

Lemma thread_same s n l i t : sc_thread (with_thread s n l i t) i = t.
Proof. cbn [with_thread sc_thread]. now rewrite Nat.eqb_refl. Qed.
Lemma thread_other s n l i j t : j <> i -> sc_thread (with_thread s n l i t) j = sc_thread s j.
Proof. intros H. cbn [with_thread sc_thread]. apply Nat.eqb_neq in H. now rewrite H. Qed.

(** Thread [i] has asked [a] and made the accesses [d]. *)
Definition stage (i : nat) (a : list question) (d : list access) (t : thread) : Prop :=
  prog i = a ++ t_todo t /\ Forall2 (says E c) a (t_said t) /\
  prices E c a = d ++ t_due t /\ (t_loaded t <> None -> t_due t <> []).

Lemma stage0 i : stage i [] [] (mkThread (prog i) [] None []).
Proof. repeat split; auto. constructor. Qed.

(** ** One step *)
Inductive stepped (s : scene) (i : nat) (d : list access) : scene -> list access -> Prop :=
| st_idle : stepped s i d s d
| st_ask q qs v ks : t_due (sc_thread s i) = [] -> t_todo (sc_thread s i) = q :: qs ->
    costs E c q v ks ->
    stepped s i d (with_thread s (sc_counts s) (sc_filled s) i
                     (mkThread qs ks None (t_said (sc_thread s i) ++ [v]))) d
| st_load k ks : t_due (sc_thread s i) = Inc k :: ks -> t_loaded (sc_thread s i) = None ->
    stepped s i d (with_thread s (sc_counts s) (sc_filled s) i
       (mkThread (t_todo (sc_thread s i)) (Inc k :: ks) (Some (count_of (sc_counts s) k))
                 (t_said (sc_thread s i)))) d
| st_store k ks n : t_due (sc_thread s i) = Inc k :: ks -> t_loaded (sc_thread s i) = Some n ->
    stepped s i d (with_thread s (with_count (sc_counts s) k (n + 1)) (sc_filled s) i
       (mkThread (t_todo (sc_thread s i)) ks None (t_said (sc_thread s i)))) (d ++ [Inc k])
| st_hit m ks : t_due (sc_thread s i) = Memo m :: ks -> t_loaded (sc_thread s i) = None ->
    In m (sc_filled s) ->
    stepped s i d (with_thread s (sc_counts s) (sc_filled s) i
       (mkThread (t_todo (sc_thread s i)) ks None (t_said (sc_thread s i)))) (d ++ [Memo m])
| st_miss m ks : t_due (sc_thread s i) = Memo m :: ks -> t_loaded (sc_thread s i) = None ->
    ~ In m (sc_filled s) ->
    stepped s i d (with_thread s (sc_counts s) (sc_filled s) i
       (mkThread (t_todo (sc_thread s i)) (Memo m :: ks) (Some 0%N) (t_said (sc_thread s i)))) d
| st_fill m ks n : t_due (sc_thread s i) = Memo m :: ks -> t_loaded (sc_thread s i) = Some n ->
    stepped s i d (with_thread s (sc_counts s) (m :: sc_filled s) i
       (mkThread (t_todo (sc_thread s i)) ks None (t_said (sc_thread s i)))) (d ++ [Memo m]).

Ltac stages Q := rewrite thread_same; unfold stage; cbn [t_todo t_said t_due t_loaded];
  rewrite <- ?app_assoc; repeat split; auto; try discriminate; try (now intros []).

Lemma turn_step s i s' a d :
  stage i a d (sc_thread s i) -> turn E c s i = Ok s' ->
  exists a' d', stepped s i d s' d' /\ stage i a' d' (sc_thread s' i) /\
    (forall j, j <> i -> sc_thread s' j = sc_thread s j).
Proof.
  intros (P & S1 & Q & L) T. unfold turn in T. cbv zeta in T.
  destruct (t_due (sc_thread s i)) as [|[m|k] ks] eqn:Ei.
  - destruct (t_todo (sc_thread s i)) as [|q qs] eqn:Et.
    + assert (s' = s) as -> by congruence. exists a, d. split; [constructor|]. split; auto.
      unfold stage. rewrite Ei, Et. auto.
    + destruct (An i q) as (v & Sv). { rewrite P. apply in_or_app. right. now left. }
      destruct (says_costs E c q v Nb Sv) as (ks & K). pose proof K as [A _]. rewrite A in T.
      cbn [bind fst snd] in T. injection T as <-.
      exists (a ++ [q]), d. split; [eapply st_ask; eauto|]. split; [|intros; now apply thread_other].
      rewrite thread_same. unfold stage. cbn [t_todo t_said t_due t_loaded].
      split; [now rewrite P, <- app_assoc|]. split; [apply Forall2_app; auto|].
      split; [|now intros []]. unfold prices in *. rewrite flat_map_app, Q. cbn [flat_map].
      rewrite (price_costs _ _ _ _ _ K), !app_nil_r. reflexivity.
  - destruct (t_loaded (sc_thread s i)) as [n|] eqn:El; [injection T as <-|].
    + exists a, (d ++ [Memo m]). split; [eapply st_fill; eauto|].
      split; [|intros; now apply thread_other]. stages Q.
    + destruct (in_dec memo_dec m (sc_filled s)) as [I|N]; injection T as <-.
      * exists a, (d ++ [Memo m]). split; [eapply st_hit; eauto|].
        split; [|intros; now apply thread_other]. stages Q.
      * exists a, d. split; [eapply st_miss; eauto|].
        split; [|intros; now apply thread_other]. stages Q.
  - destruct (t_loaded (sc_thread s i)) as [n|] eqn:El; injection T as <-.
    + exists a, (d ++ [Inc k]). split; [eapply st_store; eauto|].
      split; [|intros; now apply thread_other]. stages Q.
    + exists a, d. split; [eapply st_load; eauto|].
      split; [|intros; now apply thread_other]. stages Q.
Qed.

(** ** Any invariant *)
Definition staged (A : nat -> list question) (D : nat -> list access) (s : scene) : Prop :=
  forall i, stage i (A i) (D i) (sc_thread s i).

Lemma run_invariant (I : (nat -> list access) -> scene -> Prop) :
  I (fun _ => []) (begin c filled prog) ->
  (forall A D s i s' d', staged A D s -> I D s -> stepped s i (D i) s' d' ->
     (forall j, j <> i -> sc_thread s' j = sc_thread s j) -> I (upd D i d') s') ->
  forall turns s, run E c filled prog turns = Ok s -> exists A D, staged A D s /\ I D s.
Proof.
  intros I0 IS turns. unfold run.
  assert (G : forall turns s0 A D s, staged A D s0 -> I D s0 -> foldM (turn E c) s0 turns = Ok s ->
              exists A D, staged A D s /\ I D s).
  { clear turns. induction turns as [|i turns IH]; intros s0 A D s SG ID R; cbn [foldM] in R.
    - assert (s0 = s) as -> by congruence. eauto.
    - apply bind_ok in R as (s1 & T & R).
      destruct (turn_step s0 i s1 (A i) (D i) (SG i) T) as (a' & d' & St & Sg & Ot).
      apply (IH s1 (upd A i a') (upd D i d') s); auto.
      + intros j. destruct (Nat.eq_dec j i) as [->|Nj].
        * now rewrite !upd_same.
        * rewrite !upd_other, Ot by auto. apply SG.
      + eapply IS; eauto. }
  intros s R. apply (G turns (begin c filled prog) (fun _ => []) (fun _ => [])); auto.
  intros i. apply stage0.
Qed.

(** ** Answers *)
Theorem answers turns s i : run E c filled prog turns = Ok s ->
  exists asked, prog i = asked ++ t_todo (sc_thread s i) /\
    Forall2 (says E c) asked (t_said (sc_thread s i)).
Proof.
  intros R. destruct (run_invariant (fun _ _ => True) I) with (turns := turns) (s := s) as (A & D & SG & _); auto.
  destruct (SG i) as (P & Q & _). eauto.
Qed.

Theorem run_defined turns : exists s, run E c filled prog turns = Ok s.
Proof.
  unfold run.
  assert (G : forall s0 A D, staged A D s0 -> exists s, foldM (turn E c) s0 turns = Ok s).
  { induction turns as [|i l IH]; intros s0 A D SG; cbn [foldM]; [eauto|].
    assert (exists s1, turn E c s0 i = Ok s1) as (s1 & T).
    { unfold turn. cbv zeta. destruct (SG i) as (P & _ & _).
      destruct (t_due (sc_thread s0 i)) as [|[m|k] ks].
      - destruct (t_todo (sc_thread s0 i)) as [|q qs] eqn:Et; [eauto|].
        destruct (An i q) as (v & Sv). { rewrite P. apply in_or_app. right. now left. }
        destruct (says_costs E c q v Nb Sv) as (ks & K & _). rewrite K. cbn [bind]. eauto.
      - destruct (t_loaded _); [eauto|]. destruct (in_dec _ _ _); eauto.
      - destruct (t_loaded _); eauto. }
    rewrite T. cbn [bind].
    destruct (turn_step s0 i s1 (A i) (D i) (SG i) T) as (a' & d' & St & Sg & Ot).
    apply (IH s1 (upd A i a') (upd D i d')).
    intros j. destruct (Nat.eq_dec j i) as [->|Nj].
    - now rewrite !upd_same.
    - rewrite !upd_other, Ot by auto. apply SG. }
  apply (G (begin c filled prog) (fun _ => []) (fun _ => [])). intros i. apply stage0.
Qed.

(** ** Memos *)
Definition made (D : nat -> list access) (s : scene) : Prop :=
  incl filled (sc_filled s) /\
  (forall i m, In (Memo m) (D i) -> In m (sc_filled s)) /\
  (forall i m, hd_error (t_due (sc_thread s i)) = Some (Memo m) -> t_loaded (sc_thread s i) <> None ->
     ~ In m filled).

Lemma made_step A D s i s' d' :
  staged A D s -> made D s -> stepped s i (D i) s' d' ->
  (forall j, j <> i -> sc_thread s' j = sc_thread s j) -> made (upd D i d') s'.
Proof.
  intros SG (M1 & M2 & M3) St Ot.
  assert (G : forall l, incl (sc_filled s) l ->
    (forall m, In (Memo m) d' -> In m l) ->
    forall j m, In (Memo m) (upd D i d' j) -> In m l).
  { intros l Hl Hd j m. destruct (Nat.eq_dec j i) as [->|Nj].
    - rewrite upd_same. apply Hd.
    - rewrite upd_other by auto. intros I. apply Hl. eapply M2; eauto. }
  inversion St as [|q qs v ks Ei Et K|k0 ks Ei El|k0 ks m0 Ei El|m0 ks Ei El Im|m0 ks Ei El Nm|m0 ks n0 Ei El];
    subst s' d'; unfold made; cbn [with_thread sc_filled sc_thread] in *.
  1:{ split; auto. split; auto. apply G; [apply incl_refl|]. intros m Im. eapply M2; eauto. }
  all: split; [auto using incl_tl|]; split;
    [apply G; [auto using incl_refl, incl_tl|];
     intros m Im'; try (apply in_app_or in Im' as [Im'|[Im'|[]]]; [|try discriminate]);
     try (assert (m0 = m) as <- by congruence); cbn [In]; eauto|].
  all: intros j m; cbn [sc_thread]; destruct (j =? i); cbn [t_due t_loaded]; try apply M3; try (now intros _ []).
  intros H _. assert (m0 = m) as <- by (cbn in H; congruence). intros X. apply Nm. now apply M1.
Qed.

Lemma made_run turns s : run E c filled prog turns = Ok s -> exists A D, staged A D s /\ made D s.
Proof.
  intros R. apply (run_invariant made) with (turns := turns); auto.
  - split; [cbn; apply incl_refl|]. split; [intros ? ? []|]. intros i m. cbn. discriminate.
  - intros. eapply made_step; eauto.
Qed.

(** ** Counting *)
Definition occ (l : list access) (k : counter) : N := N.of_nat (count_occ counter_dec (incs l) k).

Fixpoint total (n : nat) (D : nat -> list access) (k : counter) : N :=
  match n with 0 => 0%N | S m => (total m D k + occ (D m) k)%N end.

Lemma total_upd n D i d k :
  total n (upd D i d) k = (if (i <? n)%nat then total n D k - occ (D i) k + occ d k else total n D k)%N
  /\ (i < n -> (occ (D i) k <= total n D k)%N).
Proof.
  induction n as [|m [IH1 IH2]]; cbn [total]; [split; [reflexivity|lia]|].
  destruct (Nat.eq_dec i m) as [->|Nm].
  - rewrite upd_same. rewrite Nat.ltb_irrefl in IH1. rewrite IH1.
    replace (m <? S m) with true by (symmetry; apply Nat.ltb_lt; lia). lia.
  - rewrite upd_other by auto. rewrite IH1.
    destruct (Nat.ltb_spec i m), (Nat.ltb_spec i (S m)); try lia; split; try lia.
Qed.

Lemma total_same n D D' k : (forall i, i < n -> occ (D i) k = occ (D' i) k) -> total n D k = total n D' k.
Proof. induction n as [|m IH]; intros H; cbn [total]; auto. rewrite IH, H by auto. reflexivity. Qed.

Lemma occ_app a b k : occ (a ++ b) k = (occ a k + occ b k)%N.
Proof. unfold occ. rewrite incs_app, count_occ_app. lia. Qed.
Lemma occ_one k k' : occ [Inc k] k' = (if counter_dec k k' then 1 else 0)%N.
Proof. unfold occ. cbn. now destruct (counter_dec k k'). Qed.

Lemma total_step n D i k k' : i < n ->
  total n (upd D i (D i ++ [Inc k])) k' = (total n D k' + if counter_dec k k' then 1 else 0)%N.
Proof.
  intros L. destruct (total_upd n D i (D i ++ [Inc k]) k') as [-> B].
  apply Nat.ltb_lt in L as L'. rewrite L'. rewrite occ_app, occ_one. specialize (B L). lia.
Qed.

Lemma total_id n D i k : total n (upd D i (D i)) k = total n D k.
Proof.
  apply total_same. intros j _. destruct (Nat.eq_dec j i) as [->|N]; [now rewrite upd_same|now rewrite upd_other].
Qed.

Lemma total_memo n D i m k : total n (upd D i (D i ++ [Memo m])) k = total n D k.
Proof.
  apply total_same. intros j _. destruct (Nat.eq_dec j i) as [->|N].
  - rewrite upd_same, occ_app. unfold occ at 2. cbn. lia.
  - now rewrite upd_other.
Qed.

Context (n : nat) (Few : forall i, n <= i -> prog i = []).

Lemma active A D s i : staged A D s -> t_due (sc_thread s i) <> [] -> i < n.
Proof.
  intros SG Ni. destruct (Nat.lt_ge_cases i n) as [L|L]; auto. exfalso.
  destruct (SG i) as (P & _ & Q & _). rewrite (Few i L) in P.
  symmetry in P. apply app_eq_nil in P as [P1 _]. rewrite P1 in Q. cbn in Q. symmetry in Q.
  apply app_eq_nil in Q. tauto.
Qed.

(** The counters never exceed what was counted. *)
Definition bounded (D : nat -> list access) (s : scene) : Prop :=
  forall k, (count_of (c_stats c) k <= count_of (sc_counts s) k
             <= count_of (c_stats c) k + total n D k)%N /\
    forall i m, hd_error (t_due (sc_thread s i)) = Some (Inc k) -> t_loaded (sc_thread s i) = Some m ->
      (count_of (c_stats c) k <= m <= count_of (c_stats c) k + total n D k)%N.

Lemma total_zero m k : total m (fun _ => []) k = 0%N.
Proof. induction m as [|m IH]; cbn [total]; auto. rewrite IH. reflexivity. Qed.

Lemma bounded_step A D s i s' d' :
  staged A D s -> bounded D s -> stepped s i (D i) s' d' ->
  (forall j, j <> i -> sc_thread s' j = sc_thread s j) -> bounded (upd D i d') s'.
Proof.
  intros SG Bd St Ot k. destruct (Bd k) as [B1 B2].
  inversion St as [|q qs v ks Ei Et K|k0 ks Ei El|k0 ks m0 Ei El|m0 ks Ei El Im|m0 ks Ei El Nm|m0 ks n0 Ei El]; subst s' d'.
  - rewrite total_id. auto.
  - rewrite total_id. split; auto. intros j m. cbn [with_thread sc_thread].
    destruct (j =? i); cbn [t_loaded]; [discriminate|apply B2].
  - rewrite total_id. split; auto. intros j m. cbn [with_thread sc_thread].
    destruct (j =? i); cbn [t_due t_loaded hd_error]; [|apply B2].
    intros [= ->] [= <-]. exact B1.
  - assert (i < n) as L by (eapply active; eauto; congruence).
    rewrite total_step by auto. cbn [with_thread sc_counts sc_thread]. split.
    + destruct (counter_dec k0 k) as [->|N0].
      * rewrite count_with_same. specialize (B2 i m0). rewrite Ei, El in B2. specialize (B2 eq_refl eq_refl). lia.
      * rewrite count_with_other by auto. lia.
    + intros j m. destruct (j =? i); cbn [t_loaded]; [discriminate|].
      intros X Y. specialize (B2 j m X Y). destruct (counter_dec k0 k); lia.
  - rewrite total_memo. split; auto. intros j m. cbn [with_thread sc_thread].
    destruct (j =? i); cbn [t_loaded]; [discriminate|apply B2].
  - rewrite total_id. split; auto. intros j m. cbn [with_thread sc_thread].
    destruct (j =? i); cbn [t_due t_loaded hd_error]; [discriminate|apply B2].
  - rewrite total_memo. split; auto. intros j m. cbn [with_thread sc_thread].
    destruct (j =? i); cbn [t_loaded]; [discriminate|apply B2].
Qed.

(** All questions one after the other. *)
Lemma in_turn_run m : m <= n -> forall s,
  foldM (perform E) (set_stats c s None) (in_turn m prog)
  = Ok (set_stats c (bumps s (incs (flat_map (fun i => prices E c (prog i)) (seq 0 m)))) None).
Proof.
  induction m as [|m IH]; intros L s; [reflexivity|].
  unfold in_turn. rewrite seq_S. rewrite !flat_map_app. cbn [flat_map plus]. rewrite !app_nil_r, foldM_app.
  fold (in_turn m prog). rewrite IH by lia. cbn [bind]. rewrite asks_run; auto.
  - unfold bumps. now rewrite incs_app, fold_left_app.
  - intros q I. apply (An m q I).
Qed.

Lemma occ_total m k :
  occ (flat_map (fun i => prices E c (prog i)) (seq 0 m)) k = total m (fun i => prices E c (prog i)) k.
Proof.
  induction m as [|m IH]; [reflexivity|]. rewrite seq_S, flat_map_app. cbn [flat_map plus total].
  now rewrite app_nil_r, occ_app, IH.
Qed.

Lemma sequential c' : foldM (perform E) c (in_turn n prog) = Ok c' ->
  c' = set_stats c (c_stats c') None /\
  forall k, count_of (c_stats c') k =
            (count_of (c_stats c) k + total n (fun i => prices E c (prog i)) k)%N.
Proof.
  intros H. rewrite <- (set_same c) in H. rewrite Nb in H. rewrite in_turn_run in H by auto.
  injection H as <-. split; [reflexivity|]. intros k. cbn [set_stats c_stats].
  rewrite count_bumps. now rewrite <- occ_total.
Qed.

Theorem sequential_defined : exists c', foldM (perform E) c (in_turn n prog) = Ok c'.
Proof. rewrite <- (set_same c), Nb, in_turn_run by auto. eauto. Qed.

Lemma total_le D k :
  (forall i, i < n -> (occ (D i) k <= occ (prices E c (prog i)) k)%N) ->
  (total n D k <= total n (fun i => prices E c (prog i)) k)%N.
Proof.
  clear Few. induction n as [|m IH]; intros H; cbn [total]; [lia|].
  assert (total m D k <= total m (fun i => prices E c (prog i)) k)%N by (apply IH; auto).
  specialize (H m (Nat.lt_succ_diag_r m)). lia.
Qed.

Lemma staged_le A D s i k : staged A D s -> (occ (D i) k <= occ (prices E c (prog i)) k)%N.
Proof.
  intros SG. destruct (SG i) as (P & _ & Q & _). rewrite P. unfold prices in *.
  rewrite flat_map_app, Q, !occ_app. lia.
Qed.

Theorem counts_bounded turns s c' k :
  run E c filled prog turns = Ok s -> foldM (perform E) c (in_turn n prog) = Ok c' ->
  (count_of (c_stats c) k <= count_of (sc_counts s) k <= count_of (c_stats c') k)%N.
Proof.
  intros R H. destruct (sequential c' H) as [_ ->].
  destruct (run_invariant bounded) with (turns := turns) (s := s) as (A & D & SG & Bd); auto.
  - intros k'. rewrite total_zero. cbn. split; [lia|]. discriminate.
  - intros. eapply bounded_step; eauto.
  - destruct (Bd k) as [B _].
    pose proof (total_le D k (fun i _ => staged_le A D s i k SG)). lia.
Qed.

(** ** No two threads share a counter or an empty memo *)
Definition apart : Prop :=
  forall i j a, i <> j -> In a (prices E c (prog i)) -> In a (prices E c (prog j)) ->
    exists m, a = Memo m /\ In m filled.

Definition exact (D : nat -> list access) (s : scene) : Prop :=
  forall k, count_of (sc_counts s) k = (count_of (c_stats c) k + total n D k)%N /\
    forall i m, hd_error (t_due (sc_thread s i)) = Some (Inc k) -> t_loaded (sc_thread s i) = Some m ->
      m = count_of (sc_counts s) k.

Lemma staged_in A D s i a : staged A D s -> hd_error (t_due (sc_thread s i)) = Some a ->
  In a (prices E c (prog i)).
Proof.
  intros SG H. destruct (SG i) as (P & _ & Q & _). rewrite P. unfold prices in *.
  rewrite flat_map_app, Q. apply in_or_app. left. apply in_or_app. right.
  destruct (t_due (sc_thread s i)); [discriminate|]. injection H as ->. now left.
Qed.

Lemma exact_step A D s i s' d' : apart ->
  staged A D s -> exact D s -> stepped s i (D i) s' d' ->
  (forall j, j <> i -> sc_thread s' j = sc_thread s j) -> exact (upd D i d') s'.
Proof.
  intros Ap SG Bd St Ot k. destruct (Bd k) as [B1 B2].
  inversion St as [|q qs v ks Ei Et K|k0 ks Ei El|k0 ks m0 Ei El|m0 ks Ei El Im|m0 ks Ei El Nm|m0 ks n0 Ei El]; subst s' d'.
  - rewrite total_id. auto.
  - rewrite total_id. split; auto. intros j m. cbn [with_thread sc_thread].
    destruct (j =? i); cbn [t_loaded]; [discriminate|apply B2].
  - rewrite total_id. split; auto. intros j m. cbn [with_thread sc_thread].
    destruct (j =? i); cbn [t_due t_loaded hd_error sc_counts]; [|apply B2].
    intros [= ->] [= <-]. reflexivity.
  - assert (i < n) as L by (eapply active; eauto; congruence).
    rewrite total_step by auto. cbn [with_thread sc_counts sc_thread]. split.
    + destruct (counter_dec k0 k) as [->|N0].
      * rewrite count_with_same. specialize (B2 i m0). rewrite Ei, El in B2. specialize (B2 eq_refl eq_refl). lia.
      * rewrite count_with_other by auto. lia.
    + intros j m. destruct (Nat.eqb_spec j i) as [->|Nj]; cbn [t_loaded]; [discriminate|].
      intros X Y. specialize (B2 j m X Y).
      destruct (counter_dec k0 k) as [->|N0].
      * exfalso. destruct (Ap j i (Inc k) Nj) as (m1 & [=] & _); eapply staged_in; eauto. now rewrite Ei.
      * now rewrite count_with_other.
  - rewrite total_memo. split; auto. intros j m. cbn [with_thread sc_thread].
    destruct (j =? i); cbn [t_loaded]; [discriminate|apply B2].
  - rewrite total_id. split; auto. intros j m. cbn [with_thread sc_thread].
    destruct (j =? i); cbn [t_due t_loaded hd_error]; [discriminate|apply B2].
  - rewrite total_memo. split; auto. intros j m. cbn [with_thread sc_thread].
    destruct (j =? i); cbn [t_loaded]; [discriminate|apply B2].
Qed.

Theorem counts_exact turns s c' : apart -> run E c filled prog turns = Ok s -> finished s ->
  foldM (perform E) c (in_turn n prog) = Ok c' -> c' = set_stats c (sc_counts s) (c_badfp c).
Proof.
  intros Ap R Fin H. destruct (sequential c' H) as [Ec C]. rewrite Nb.
  destruct (run_invariant exact) with (turns := turns) (s := s) as (A & D & SG & Bd); auto.
  - intros k'. rewrite total_zero. cbn. split; [lia|]. discriminate.
  - intros. eapply exact_step; eauto.
  - rewrite Ec. f_equal. apply stats_ext. intros k. rewrite C. destruct (Bd k) as [-> _]. f_equal.
    apply total_same. intros i _. destruct (SG i) as (P & _ & Q & _). destruct (Fin i) as [F1 F2].
    rewrite F1, app_nil_r in P. rewrite F2, app_nil_r in Q. now rewrite P, Q.
Qed.

(** ** Races *)
Lemma access_dec (a b : access) : {a = b} + {a <> b}.
Proof. decide equality; [apply memo_dec|apply counter_dec]. Defined.

(** An access can be made. *)
Lemma pass s i t a l :
  sc_thread s i = mkThread t (a :: l) None (t_said (sc_thread s i)) ->
  exists turns s', foldM (turn E c) s turns = Ok s' /\
    sc_thread s' i = mkThread t l None (t_said (sc_thread s i)) /\
    (forall m, In m (sc_filled s') -> In m (sc_filled s) \/ a = Memo m) /\
    (forall j, j <> i -> sc_thread s' j = sc_thread s j).
Proof.
  intros Th. destruct a as [m|k].
  - destruct (in_dec memo_dec m (sc_filled s)) as [I|N].
    + eexists [i], _. split.
      { cbn [foldM]. unfold turn at 1. cbv zeta. rewrite Th. cbn [t_due t_loaded].
        destruct (in_dec memo_dec m (sc_filled s)) as [_|N]; [|contradiction]. cbn [bind]. reflexivity. }
      rewrite thread_same. cbn [t_todo t_said]. split; auto. split; [auto|]. intros. now apply thread_other.
    + pose (s1 := with_thread s (sc_counts s) (sc_filled s) i
        (mkThread t (Memo m :: l) (Some 0%N) (t_said (sc_thread s i)))).
      assert (T1 : turn E c s i = Ok s1).
      { unfold turn. cbv zeta. rewrite Th. cbn [t_due t_loaded].
        destruct (in_dec memo_dec m (sc_filled s)) as [I|_]; [contradiction|]. reflexivity. }
      assert (A1 : sc_thread s1 i = mkThread t (Memo m :: l) (Some 0%N) (t_said (sc_thread s i)))
        by apply thread_same.
      eexists [i; i], _. split.
      { cbn [foldM]. rewrite T1. cbn [bind]. unfold turn at 1. cbv zeta. rewrite A1.
        cbn [t_due t_loaded bind]. reflexivity. }
      rewrite thread_same. cbn [t_todo t_said]. split; auto. split.
      * intros m'. cbn. intros [->|J]; auto.
      * intros j Nj. rewrite thread_other by auto. now apply thread_other.
  - pose (s1 := with_thread s (sc_counts s) (sc_filled s) i
      (mkThread t (Inc k :: l) (Some (count_of (sc_counts s) k)) (t_said (sc_thread s i)))).
    assert (T1 : turn E c s i = Ok s1) by (unfold turn; cbv zeta; rewrite Th; reflexivity).
    assert (A1 : sc_thread s1 i =
        mkThread t (Inc k :: l) (Some (count_of (sc_counts s) k)) (t_said (sc_thread s i)))
      by apply thread_same.
    eexists [i; i], _. split.
    { cbn [foldM]. rewrite T1. cbn [bind]. unfold turn at 1. cbv zeta. rewrite A1.
      cbn [t_due t_loaded bind]. reflexivity. }
    rewrite thread_same. cbn [t_todo t_said]. split; auto. split; [auto|].
    intros j Nj. rewrite thread_other by auto. now apply thread_other.
Qed.

(** A thread gets to any of its accesses. *)
Lemma reach a : forall t l s i,
  sc_thread s i = mkThread t l None (t_said (sc_thread s i)) ->
  (forall q, In q t -> exists v, says E c q v) ->
  In a (l ++ prices E c t) ->
  exists turns s', foldM (turn E c) s turns = Ok s' /\
    hd_error (t_due (sc_thread s' i)) = Some a /\ t_loaded (sc_thread s' i) = None /\
    (forall m, a = Memo m -> In m (sc_filled s') -> In m (sc_filled s)) /\
    (forall j, j <> i -> sc_thread s' j = sc_thread s j).
Proof.
  induction t as [|q t IHt]; intros l; induction l as [|b l IHl]; intros s i Th At I.
  { destruct I. }
  2:{ destruct (At q) as (v & Sv); [now left|].
    destruct (says_costs E c q v Nb Sv) as (ks & K). pose proof (price_costs _ _ _ _ _ K) as Pq.
    destruct K as [K _].
    pose (s1 := with_thread s (sc_counts s) (sc_filled s) i (mkThread t ks None (t_said (sc_thread s i) ++ [v]))).
    assert (T1 : turn E c s i = Ok s1).
    { unfold turn. cbv zeta. rewrite Th. cbn [t_due t_todo]. rewrite K. reflexivity. }
    destruct (IHt ks s1 i) as (turns & s' & R & H1 & H2 & H3 & H4); auto.
    + unfold s1. rewrite thread_same. reflexivity.
    + intros q' I'. apply At. now right.
    + cbn [app] in I. unfold prices in I. cbn [flat_map] in I. now rewrite Pq in I.
    + exists (i :: turns), s'. cbn [foldM]. rewrite T1. cbn [bind]. repeat split; auto.
      intros j Nj. rewrite H4 by auto. now apply thread_other. }
  all: destruct (access_dec b a) as [->|N0];
    [exists [], s; split; [reflexivity|]; rewrite Th; cbn; auto|];
    destruct I as [I|I]; [congruence|];
    destruct (pass s i _ b l Th) as (t1 & s1 & R1 & A1 & F1 & O1);
    destruct (IHl s1 i) as (t2 & s2 & R2 & H1 & H2 & H3 & H4);
    [rewrite A1; reflexivity|auto|auto|];
    exists (t1 ++ t2), s2; rewrite foldM_app, R1; cbn [bind]; split; [auto|]; split; [auto|]; split; [auto|];
    split; [intros m Em J; destruct (F1 m (H3 m Em J)); [auto|congruence]|];
    intros j Nj; rewrite H4 by auto; auto.
Qed.

Lemma turn_loads s i a l : t_due (sc_thread s i) = a :: l -> t_loaded (sc_thread s i) = None ->
  (forall m, a = Memo m -> ~ In m (sc_filled s)) ->
  exists s', turn E c s i = Ok s' /\ hd_error (t_due (sc_thread s' i)) = Some a /\
    t_loaded (sc_thread s' i) <> None /\ (forall j, j <> i -> sc_thread s' j = sc_thread s j).
Proof.
  intros H1 H2 H3. unfold turn. cbv zeta. rewrite H1, H2. destruct a as [m|k].
  - destruct (in_dec memo_dec m (sc_filled s)) as [I|N]; [now apply (H3 m) in I|].
    eexists. split; [reflexivity|]. rewrite thread_same. cbn [t_due t_loaded hd_error].
    split; auto. split; [discriminate|]. intros. now apply thread_other.
  - eexists. split; [reflexivity|]. rewrite thread_same. cbn [t_due t_loaded hd_error].
    split; auto. split; [discriminate|]. intros. now apply thread_other.
Qed.

Theorem race_free_iff_apart : race_free E c filled prog <-> apart.
Proof.
  clear n Few. split.
  - intros H i j a Nij Ii Ij.
    assert (Dec : (exists m, a = Memo m /\ In m filled) \/ (forall m, a = Memo m -> ~ In m filled)).
    { destruct a as [m|k].
      - destruct (in_dec memo_dec m filled); [left; eauto|]. right. intros m' [= <-]. auto.
      - right. intros m [=]. }
    destruct Dec as [D|D]; auto. exfalso.
    destruct (reach a (prog i) [] (begin c filled prog) i) as (t1 & s1 & R1 & H1 & L1 & F1 & O1); auto.
    { intros q I. apply (An i q I). }
    destruct (reach a (prog j) [] s1 j) as (t2 & s2 & R2 & H2 & L2 & F2 & O2); auto.
    { rewrite O1 by auto. reflexivity. }
    { intros q I. apply (An j q I). }
    assert (Ti : sc_thread s2 i = sc_thread s1 i) by (apply O2; auto).
    destruct (t_due (sc_thread s1 i)) as [|a0 l] eqn:Ei; [discriminate|]. injection H1 as ->.
    destruct (turn_loads s2 i a l) as (s3 & T3 & H3 & L3 & O3).
    { now rewrite Ti. } { now rewrite Ti. }
    { intros m Em J. apply (D m Em). apply (F1 m Em). now apply F2. }
    apply (H ((t1 ++ t2) ++ [i]) s3).
    + unfold run. rewrite !foldM_app, R1. cbn [bind]. rewrite R2. cbn [bind foldM]. now rewrite T3.
    + exists i, j, a. split; auto. split; auto. split; auto. rewrite O3; auto.
  - intros Ap turns s R (i & j & a & Nij & H1 & L1 & H2).
    destruct (made_run turns s R) as (A & D & SG & _ & _ & M3).
    destruct (Ap i j a Nij) as (m & -> & I); try (eapply staged_in; eauto).
    now apply (M3 i m H1 L1).
Qed.

Lemma in_prices i a : In a (prices E c (prog i)) <->
  exists q, In q (prog i) /\ match a with Inc k => changes E c q k | Memo m => consults E c q m end.
Proof.
  unfold prices. rewrite in_flat_map. split; intros (q & I & H); exists q; split; auto;
    destruct (An i q I) as (v & Sv); destruct (says_costs E c q v Nb Sv) as (ks & K).
  - rewrite (price_costs _ _ _ _ _ K) in H. destruct a as [m|k].
    + now apply (proj1 (proj2 K)).
    + now apply (costs_changes E c q v ks k Nb K).
  - rewrite (price_costs _ _ _ _ _ K). destruct a as [m|k].
    + now apply (proj1 (proj2 K)).
    + now apply (costs_changes E c q v ks k Nb K).
Qed.

Theorem race_free_iff : race_free E c filled prog <->
  memos_apart E c filled prog /\
  forall i j q q' k, i <> j -> In q (prog i) -> In q' (prog j) ->
    changes E c q k -> ~ changes E c q' k.
Proof.
  rewrite race_free_iff_apart. unfold apart, memos_apart. split.
  - intros H. split.
    + intros i j q q' m Nij I I' C C'. destruct (H i j (Memo m) Nij) as (m' & Em & J).
      * apply in_prices; eauto.
      * apply in_prices; eauto.
      * assert (m' = m) as -> by congruence. auto.
    + intros i j q q' k Nij I I' C C'. destruct (H i j (Inc k) Nij) as (m' & [=] & _); apply in_prices; eauto.
  - intros [Hm Hk] i j a Nij Ii Ij. apply in_prices in Ii as (q & I & C), Ij as (q' & I' & C').
    destruct a as [m|k]; [eauto 10|]. exfalso. now apply (Hk i j q q' k).
Qed.

(** ** When all is done, every memo consulted is filled. *)
Theorem warmed turns s i q m : run E c filled prog turns = Ok s -> finished s ->
  In q (prog i) -> consults E c q m -> In m (sc_filled s).
Proof.
  intros R Fin I C. destruct (made_run turns s R) as (A & D & SG & _ & M2 & _).
  apply (M2 i). destruct (SG i) as (P & _ & Q & _). destruct (Fin i) as [F1 F2].
  rewrite F1, app_nil_r in P. rewrite F2, app_nil_r in Q. rewrite <- Q, <- P.
  apply in_prices. eauto.
Qed.
End RUN.

(** ** Which questions change a counter *)
Lemma changes_web E c q k : c_badfp c = None ->
  match q with Matches url _ _ => nonul url | _ => True end -> changes E c q k ->
  exists url context dom, q = Matches url context dom /\ web_url url.
Proof.
  intros Nb Hu H. destruct q as [url x d|]; [|destruct H]. exists url, x, d. split; auto.
  destruct H as (v & c' & H & N). destruct (isBlockableProtocol_spec url Hu) as (b & E1 & E2).
  apply E2. destruct b; auto. exfalso. apply N. unfold matches in H.
  rewrite strlen_cstr in H by auto. cbn [bind] in H. rewrite E1 in H. cbn [bind negb] in H. congruence.
Qed.

Lemma counted_changes E calls c url context dom v c' :
  history calls -> after E calls = Ok c -> nonul url -> web_url url -> has_list calls ->
  matches E c (cstr url) context dom = Ok (v, c') ->
  v_block v = true \/ v_filter v = None ->
  exists k, changes E c (Matches url context dom) k.
Proof.
  intros Hc H Hu W HL M B.
  destruct (hist_view E calls c Hc H) as (rs & V).
  pose proof (matches_counts E c rs url context dom v c' (w_rep _ _ _ _ V) Hu M) as C.
  apply (hist_sets E calls c Hc H) in HL.
  cbn [changes].
  assert (G : (exists k, count_of (c_stats c') k <> count_of (c_stats c) k) ->
    exists k v0 c'0, matches E c (cstr url) context dom = Ok (v0, c'0) /\
      count_of (c_stats c'0) k <> count_of (c_stats c) k).
  { intros (k & N). exists k, v, c'. auto. }
  apply G. clear G.
  destruct C as [VB W' VF m|_ N VB VF|bad _ N VB VF Sp|m _ N VB VF|_ N VB VF|bad _ N VB VF Sp].
  - destruct W'; [easy|]. now apply HL in H0.
  - exists BloomSaves. cbn. lia.
  - exists FalsePositives. cbn. lia.
  - destruct B; congruence.
  - exists ExceptionBloomSaves. cbn. lia.
  - exists ExceptionFalsePositives. cbn. lia.
Qed.
