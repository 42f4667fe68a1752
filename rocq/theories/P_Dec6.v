(** Clients that cannot be told apart. *)
From Coq Require Import Permutation.
From Verif Require Import Base Flags Protocol Url Sets FilterM ParseM ClientM Spec SpecM
  P_Base P_Protocol P_Url P_Match P_Rule P_Parse P_List P_Shape P_Fp P_Line P_Line2
  P_Line3 P_Line4 P_Line5 P_Fp2 P_Match2 P_Props1 P_Props2 P_Props3 P_Opt P_Opt2 SpecC
  P_Set P_Client P_Decide P_Hist P_Dec2 P_Dec3 P_Dec4 P_Dec5.

(** Same rules, same tags in any order; the counters and the bad fingerprints
    found so far may differ. *)
Definition alike (c c' : client) : Prop :=
  same_rules c c' /\ (forall t, tagExists c t = tagExists c' t) /\
  (c_badfp c = None <-> c_badfp c' = None).

Lemma alike_refl c : alike c c.
Proof. unfold alike, same_rules. repeat split; auto. Qed.

Lemma alike_trans a b c : alike a b -> alike b c -> alike a c.
Proof.
  intros (A1 & A2 & A3) (B1 & B2 & B3). split; [|split].
  - unfold same_rules in *. intuition congruence.
  - intros t. now rewrite A2.
  - now rewrite A3.
Qed.

Lemma alike_sym a b : alike a b -> alike b a.
Proof.
  intros (A1 & A2 & A3). split; [|split].
  - unfold same_rules in *. intuition congruence.
  - intros t. now rewrite A2.
  - now rewrite A3.
Qed.

(** Same outcome up to a relation on what is returned. *)
Definition res_rel {A} (R : A -> A -> Prop) (a b : res A) : Prop :=
  match a, b with Ok x, Ok y => R x y | UB, UB => True | _, _ => False end.

Lemma res_rel_bind {A C} (R : A -> A -> Prop) (Q : C -> C -> Prop) a b f g :
  res_rel R a b -> (forall x y, R x y -> res_rel Q (f x) (g y)) ->
  res_rel Q (bind a f) (bind b g).
Proof. destruct a, b; cbn; auto; try easy. Qed.

Lemma res_rel_eq {A} (a b : res A) : res_rel eq a b <-> a = b.
Proof. destruct a, b; cbn; split; try easy; try congruence. Qed.

Lemma tag_ok_alike c c' f : alike c c' -> tag_ok c f = tag_ok c' f.
Proof. intros (_ & T & _). unfold tag_ok. destruct (f_tag f); auto. Qed.

Lemma hasMatching_alike E c c' fs input n context dom bf host :
  alike c c' ->
  hasMatchingFilters E c fs input n context dom bf host =
  hasMatchingFilters E c' fs input n context dom bf host.
Proof.
  intros A. induction fs as [|f fs IH]; [reflexivity|]. cbn [hasMatchingFilters].
  destruct (filter_matches E f input n context dom bf host); [|reflexivity]. cbn [bind].
  rewrite (tag_ok_alike c c' f A), IH. reflexivity.
Qed.

Lemma scan_alike E c c' k q bf : alike c c' -> scan E c k q bf = scan E c' k q bf.
Proof.
  intros A. unfold scan. destruct A as [S1 T]. pose proof S1 as (-> & _).
  apply hasMatching_alike. now split.
Qed.

Lemma host_probe_alike E c c' s h input n context dom :
  alike c c' ->
  host_probe E c s h input n context dom = host_probe E c' s h input n context dom.
Proof.
  intros A. unfold host_probe. destruct (hs_find _ _ _ _) as [f|]; auto.
  destruct (filter_matches E f input n context dom None []); [|reflexivity]. cbn [bind].
  now rewrite (tag_ok_alike c c' f A).
Qed.

Lemma host_walk_alike E c c' s h k input n context dom :
  alike c c' ->
  host_walk E c s h k input n context dom = host_walk E c' s h k input n context dom.
Proof.
  intros A. induction k as [|k IH]; cbn [host_walk].
  - now apply host_probe_alike.
  - rewrite IH. now rewrite (host_probe_alike E c c' s (skipn (S k) h) input n context dom A).
Qed.

Lemma lookup_alike E c c' s q : alike c c' -> lookup E c s q = lookup E c' s q.
Proof.
  intros A. unfold lookup, hostLookup. destruct s; auto. now rewrite (host_walk_alike E c c').
Qed.

Lemma discover_alike E b b' url bl :
  (b = None <-> b' = None) ->
  res_rel (fun x y => x = None <-> y = None) (discover E b url bl) (discover E b' url bl).
Proof.
  intros H. unfold discover. destruct b as [l|], b' as [l'|]; try (exfalso; intuition discriminate).
  - destruct bl as [bl|].
    + cbn. split; discriminate.
    + destruct (length url <? kFingerprintSize); cbn; auto.
  - cbn. tauto.
Qed.

Lemma alike_stats c c' s s' b b' :
  alike c c' -> (b = None <-> b' = None) -> alike (set_stats c s b) (set_stats c' s' b').
Proof. intros (A1 & A2 & A3) H. split; [|split]; auto. Qed.

Definition phase_rel (x y : bool * option filter * client) : Prop :=
  fst x = fst y /\ alike (snd x) (snd y).

Lemma block_phase_alike E c c' q bf :
  alike c c' -> res_rel phase_rel (block_phase E c q bf) (block_phase E c' q bf).
Proof.
  intros A. unfold block_phase. rewrite !(scan_alike E c c' _ q bf A), (lookup_alike E c c' _ q A).
  pose proof A as ((S1 & S2 & S3 & S4 & S5 & S6 & S7 & S8 & S9 & S10 & S11) & _ & Bd).
  rewrite S4, S6, S8, S9.
  destruct (orelse _ _) as [m|]; [|exact I]. cbn [bind].
  destruct m as [f|]; [split; auto|].
  destruct (lookup E c' (c_host c') q) as [h|]; [|exact I]. cbn [bind]. cbv zeta.
  destruct h as [| |f]; [split; auto| |split; auto].
  destruct (bloomMiss E (c_bloom c') (q_url q)).
  - split; [auto|now apply alike_stats].
  - destruct (scan E c' KFilters q bf) as [o|]; [|exact I]. cbn [bind].
    destruct o as [f|]; [split; auto|].
    apply (res_rel_bind (fun x y => x = None <-> y = None)); [now apply discover_alike|].
    intros x y H. split; [auto|now apply alike_stats].
Qed.

Lemma exc_phase_alike E c c' q bf :
  alike c c' -> res_rel phase_rel (exc_phase E c q bf) (exc_phase E c' q bf).
Proof.
  intros A. unfold exc_phase. rewrite !(scan_alike E c c' _ q bf A), (lookup_alike E c c' _ q A).
  pose proof A as ((S1 & S2 & S3 & S4 & S5 & S6 & S7 & S8 & S9 & S10 & S11) & _ & Bd).
  rewrite S5, S7, S10, S11.
  destruct (orelse _ _) as [m|]; [|exact I]. cbn [bind].
  destruct m as [f|]; [split; auto|].
  destruct (lookup E c' (c_ehost c') q) as [h|]; [|exact I]. cbn [bind]. cbv zeta.
  destruct h as [| |f]; [split; [auto|now apply alike_stats]| |split; [auto|now apply alike_stats]].
  destruct (bloomMiss E (c_ebloom c') (q_url q)).
  - split; [auto|now apply alike_stats].
  - destruct (scan E c' KException q bf) as [o|]; [|exact I]. cbn [bind].
    destruct o as [f|]; [split; auto|].
    apply (res_rel_bind (fun x y => x = None <-> y = None)); [now apply discover_alike|].
    intros x y H. split; [auto|now apply alike_stats].
Qed.

Lemma matches_alike E c c' input context dom :
  alike c c' ->
  res_rel (fun x y => fst x = fst y /\ alike (snd x) (snd y))
    (matches E c input context dom) (matches E c' input context dom).
Proof.
  intros A. unfold matches. destruct (strlen input) as [n|]; [|exact I]. cbn [bind].
  destruct (isBlockableProtocol input n) as [w|]; [|exact I]. cbn [bind].
  destruct (negb w); [split; auto|].
  destruct (mkQuery input n context dom) as [q|]; [|exact I]. cbn [bind]. cbv zeta.
  apply (res_rel_bind phase_rel); [now apply block_phase_alike|].
  intros [[h m] c1] [[h' m'] c1'] [E1 A1]. cbn [fst snd] in E1, A1.
  assert (h = h') as <- by congruence. assert (m = m') as <- by congruence.
  destruct (negb h); [split; auto|].
  apply (res_rel_bind phase_rel); [now apply exc_phase_alike|].
  intros [[b x] c2] [[b' x'] c2'] [E2 A2]. cbn [fst snd] in E2, A2.
  assert (b = b') as <- by congruence. assert (x = x') as <- by congruence.
  split; auto.
Qed.

Lemma find_alike E c c' input context dom :
  alike c c' ->
  findMatchingFilters E c input context dom = findMatchingFilters E c' input context dom.
Proof.
  intros A. unfold findMatchingFilters. destruct (strlen input) as [n|]; [|reflexivity]. cbn [bind].
  destruct (mkQuery input n context dom) as [q|]; [|reflexivity]. cbn [bind].
  unfold lookup_filter. rewrite !(scan_alike E c c' _ q None A), !(lookup_alike E c c' _ q A).
  pose proof A as ((S1 & S2 & S3 & S4 & S5 & S6 & S7 & _) & _). now rewrite S6, S7.
Qed.

Lemma answers_alike E c c' input context dom :
  alike c c' ->
  rmap fst (matches E c input context dom) = rmap fst (matches E c' input context dom) /\
  findMatchingFilters E c input context dom = findMatchingFilters E c' input context dom.
Proof.
  intros A. split; [|now apply find_alike].
  pose proof (matches_alike E c c' input context dom A) as M.
  destruct (matches E c input context dom) as [[v d]|], (matches E c' input context dom) as [[v' d']|];
    cbn in *; try easy. destruct M as [-> _]. reflexivity.
Qed.

(** ** C33 *)
Lemma phase_badfp E c q bf h m c1 :
  block_phase E c q bf = Ok (h, m, c1) \/ exc_phase E c q bf = Ok (h, m, c1) ->
  c_badfp c = None <-> c_badfp c1 = None.
Proof.
  assert (forall url bl bad, discover E (c_badfp c) url bl = Ok bad ->
    c_badfp c = None <-> bad = None) as D.
  { intros url bl bad. unfold discover. destruct (c_badfp c) as [l|].
    - destruct bl as [bl|].
      + intros [= <-]. split; discriminate.
      + destruct (length url <? kFingerprintSize); [|discriminate]. intros [= <-]. split; discriminate.
    - intros [= <-]. tauto. }
  intros [H|H].
  - unfold block_phase in H. apply bind_ok in H as (m0 & _ & H).
    destruct m0 as [f|]; [assert (c1 = c) as -> by congruence; tauto|].
    cbv zeta in H. apply bind_ok in H as (r & _ & H). destruct r as [| |f].
    + assert (c1 = c) as -> by congruence; tauto.
    + destruct (bloomMiss _ _ _).
      * injection H as _ _ <-. cbn. tauto.
      * apply bind_ok in H as (o & _ & H). destruct o as [f|].
        { assert (c1 = c) as -> by congruence; tauto. }
        apply bind_ok in H as (bad & B & H). injection H as _ _ <-. cbn. eapply D; eauto.
    + assert (c1 = c) as -> by congruence; tauto.
  - unfold exc_phase in H. apply bind_ok in H as (m0 & _ & H).
    destruct m0 as [f|]; [assert (c1 = c) as -> by congruence; tauto|].
    cbv zeta in H. apply bind_ok in H as (r & _ & H). destruct r as [| |f].
    + injection H as _ _ <-. cbn. tauto.
    + destruct (bloomMiss _ _ _).
      * injection H as _ _ <-. cbn. tauto.
      * apply bind_ok in H as (o & _ & H). destruct o as [f|].
        { assert (c1 = c) as -> by congruence; tauto. }
        apply bind_ok in H as (bad & B & H). injection H as _ _ <-. cbn. eapply D; eauto.
    + injection H as _ _ <-. cbn. tauto.
Qed.

Lemma asked_alike E c input context dom v c' :
  matches E c input context dom = Ok (v, c') -> alike c c'.
Proof.
  intros M. pose proof (matches_quiet _ _ _ _ _ _ _ M) as [Q1 Q2].
  split; auto. split; [intros t; unfold tagExists; now rewrite Q2|].
  unfold matches in M. apply bind_ok in M as (n & _ & M). apply bind_ok in M as (w & _ & M).
  destruct (negb w); [assert (c' = c) as -> by congruence; tauto|].
  apply bind_ok in M as (q & _ & M). cbv zeta in M.
  apply bind_ok in M as ([[h m] c1] & B & M).
  assert (c_badfp c = None <-> c_badfp c1 = None) as K1 by (eapply phase_badfp; eauto).
  destruct (negb h); [assert (c' = c1) as -> by congruence; auto|].
  apply bind_ok in M as ([[b x] c2] & X & M).
  assert (c_badfp c1 = None <-> c_badfp c2 = None) as K2 by (eapply phase_badfp; eauto).
  assert (c' = c2) as -> by congruence. tauto.
Qed.

Lemma asks_alike E calls c c' :
  Forall asks calls -> foldM (perform E) c calls = Ok c' -> alike c c'.
Proof.
  revert c. induction calls as [|k calls IH]; intros c F H.
  - injection H as <-. apply alike_refl.
  - inversion F as [|? ? K F']; subst. cbn [foldM] in H. apply bind_ok in H as (c1 & H1 & H).
    destruct k as [| | | |url context dom|]; try easy. cbn [perform] in H1.
    apply rmap_ok in H1 as ([v d] & M & ->). apply asked_alike in M. cbn [snd] in *.
    eapply alike_trans; eauto.
Qed.

Lemma queries_inert E calls qs c c' input context dom :
  Forall asks qs -> after E calls = Ok c -> after E (calls ++ qs) = Ok c' ->
  rmap fst (matches E c' input context dom) = rmap fst (matches E c input context dom) /\
  findMatchingFilters E c' input context dom = findMatchingFilters E c input context dom.
Proof.
  intros F A1 A2. apply answers_alike, alike_sym. eapply asks_alike; eauto.
  unfold after in *. rewrite foldM_app, A1 in A2. exact A2.
Qed.

(** ** C43 *)
Lemma parse_alike E pres t c c' :
  alike c c' -> res_rel alike (parse E pres t c) (parse E pres t c').
Proof.
  intros A. pose proof A as ((S1 & S2 & S3 & S4 & S5 & S6 & S7 & S8 & S9 & S10 & S11) & T & Bd).
  unfold parse, initSets. rewrite S1, S2, S3, S4, S5, S6, S7, S8, S9, S10, S11.
  destruct (lines_of t) as [ls|]; [|exact I]. cbn [bind].
  destruct (foldM (count1 E) counts0 ls) as [n|]; [|exact I]. cbn [bind]. cbv zeta.
  destruct (foldM (line2 _ _ _) _ ls) as [[s w]|]; [|exact I]. cbn [bind].
  split; [|split].
  - unfold same_rules. cbn. auto 20.
  - exact T.
  - exact Bd.
Qed.

Lemma perform_alike E c c' k :
  alike c c' -> res_rel alike (perform E c k) (perform E c' k).
Proof.
  intros A. destruct k as [pres t| |t|t|url context dom|]; cbn [perform].
  - now apply parse_alike.
  - destruct A as (A1 & A2 & A3). split; [|split]; cbn.
    + unfold same_rules. cbn. auto 20.
    + exact A2.
    + tauto.
  - destruct A as (A1 & A2 & A3). split; [|split].
    + unfold addTag. destruct (tagExists c t), (tagExists c' t); exact A1.
    + intros u. apply Bool.eq_true_iff_eq. rewrite !tagExists_add. now rewrite A2.
    + unfold addTag. destruct (tagExists c t), (tagExists c' t); exact A3.
  - destruct A as (A1 & A2 & A3). split; [|split].
    + exact A1.
    + intros u. apply Bool.eq_true_iff_eq. rewrite !tagExists_remove. now rewrite A2.
    + exact A3.
  - pose proof (matches_alike E c c' (cstr url) context dom A) as M.
    destruct (matches E c (cstr url) context dom) as [[v d]|],
             (matches E c' (cstr url) context dom) as [[v' d']|]; try easy. apply M.
  - destruct A as (A1 & A2 & A3). unfold enableBadFp.
    destruct (c_badfp c) eqn:X, (c_badfp c') eqn:Y; try (exfalso; intuition discriminate).
    + split; [|split]; auto. rewrite X, Y. exact A3.
    + split; [|split]; auto. cbn. split; discriminate.
Qed.

Lemma foldM_alike E calls c c' :
  alike c c' -> res_rel alike (foldM (perform E) c calls) (foldM (perform E) c' calls).
Proof.
  revert c c'. induction calls as [|k calls IH]; intros c c' A; [exact A|].
  cbn [foldM]. apply (res_rel_bind alike); [now apply perform_alike|]. intros x y. apply IH.
Qed.

Lemma tags_alike E ts c :
  same_rules c client0 -> c_badfp c = None ->
  (forall t, tagExists c t = true <-> In t ts) ->
  exists c', after E (map AddTag ts) = Ok c' /\ alike c c'.
Proof.
  intros S1 Bd T.
  assert (exists c', after E (map AddTag ts) = Ok c' /\ same_rules client0 c' /\ c_badfp c' = None /\
    forall t, tagExists c' t = true <-> In t ts) as (c' & A & S2 & B2 & T2).
  { clear. induction ts as [|t ts IH] using rev_ind.
    - exists client0. split; auto. split; [apply alike_refl|]. split; auto.
      intros t. split; [discriminate|easy].
    - destruct IH as (c' & A & S2 & B2 & T2). rewrite map_app. cbn [map].
      exists (addTag c' t). rewrite after_snoc, A. cbn [bind perform]. split; auto.
      split; [|split].
      + unfold addTag. destruct (tagExists c' t); exact S2.
      + unfold addTag. destruct (tagExists c' t); exact B2.
      + intros u. rewrite tagExists_add, T2, in_app_iff. cbn [In].
        split; [intros [->|X]; auto|intros [X|[->|[]]]; auto]. }
  exists c'. split; auto. split; [|split].
  - unfold same_rules in *. intuition congruence.
  - intros t. apply Bool.eq_true_iff_eq. now rewrite T, T2.
  - rewrite Bd, B2. tauto.
Qed.

Lemma clear_fresh E calls c ts later :
  history calls -> after E calls = Ok c ->
  (forall t, In t ts <-> tag_enabled calls t) ->
  res_rel alike (after E (calls ++ Clear :: later)) (after E (map AddTag ts ++ later)).
Proof.
  intros H A T. unfold after. rewrite !foldM_app.
  change (foldM (perform E) client0 calls) with (after E calls).
  change (foldM (perform E) client0 (map AddTag ts)) with (after E (map AddTag ts)).
  rewrite A. cbn [bind foldM perform].
  destruct (tags_alike E ts (clear c)) as (c' & A' & AL).
  - unfold same_rules. cbn. auto 20.
  - reflexivity.
  - intros t. rewrite T. exact (tag_state E calls c t H A).
  - rewrite A'. cbn [bind]. now apply foldM_alike.
Qed.

Lemma clear_like_new E calls c ts later input context dom :
  history calls -> after E calls = Ok c ->
  (forall t, In t ts <-> tag_enabled calls t) ->
  (after E (calls ++ Clear :: later) = UB <-> after E (map AddTag ts ++ later) = UB) /\
  forall c1 c2, after E (calls ++ Clear :: later) = Ok c1 ->
    after E (map AddTag ts ++ later) = Ok c2 ->
    rmap fst (matches E c1 input context dom) = rmap fst (matches E c2 input context dom) /\
    findMatchingFilters E c1 input context dom = findMatchingFilters E c2 input context dom /\
    (forall t, tagExists c1 t = tagExists c2 t) /\ c_lists c1 = c_lists c2.
Proof.
  intros H A T. pose proof (clear_fresh E calls c ts later H A T) as R.
  destruct (after E (calls ++ Clear :: later)) as [d1|], (after E (map AddTag ts ++ later)) as [d2|];
    cbn in R; try easy.
  split; [split; discriminate|]. intros c1 c2 E1 E2.
  assert (d1 = c1) as -> by congruence. assert (d2 = c2) as -> by congruence.
  destruct (answers_alike E c1 c2 input context dom R) as [X1 X2].
  split; auto. split; auto. destruct R as ((R & _) & T' & _). auto.
Qed.
