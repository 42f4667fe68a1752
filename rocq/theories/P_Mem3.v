(** Counting the blocks of a client. *)
From Coq Require Import Lia Permutation.
From Verif Require Import P_Client.
From Verif Require Import Base Flags Sets FilterM ParseM ClientM SerialM OwnM OwnT
  Spec SpecM SpecC SpecE SpecO SpecU P_Base P_Parse P_List P_Set P_OwnT P_Own P_Own2
  P_Own3 P_Own4 P_Own5 P_OwnT2 P_Mem P_Mem2 SpecMem.

Definition base (r : bool) (f : filter) : nat := if r then 0 else texts f.

Lemma owning_len p : owning p -> length (blks p) = if isNull p then 0 else 1.
Proof. destruct p; cbn; intros H; try reflexivity; contradiction. Qed.

Lemma excluded_anti d : excluded d = is_anti d.
Proof.
  destruct d as [|c d]; [reflexivity|]. unfold excluded, is_anti, B. cbn [prefixb list_ascii_of_string].
  rewrite andb_true_r. apply Ascii.eqb_sym.
Qed.

Lemma nonempty_filter {A} (P : A -> bool) l :
  nonempty (List.filter P l) = existsb P l.
Proof. induction l as [|x l IH]; [reflexivity|]. cbn. destruct (P x); [reflexivity|exact IH]. Qed.

Lemma extras_are f : extras f = when (some_plain f) + when (some_not f) + (if nonempty (f_tag f) then 0 else 1).
Proof.
  unfold extras, some_plain, some_not, f_domains, f_antiDomains, domainsOf, antiDomainsOf.
  destruct (f_dom f) as [dl|]; [|destruct (f_tag f); reflexivity].
  assert (M : forall l : list bytes, nonempty (map (skipn 1) l) = nonempty l) by now intros [].
  rewrite M, !nonempty_filter. clear M.
  assert (X : forall l, existsb excluded l = existsb is_anti l /\
    existsb (fun d => negb (excluded d)) l = existsb (fun d => negb (is_anti d)) l).
  { induction l as [|d l [I1 I2]]; [auto|]. cbn [existsb]. now rewrite I1, I2, excluded_anti. }
  destruct (X (split_on "|" dl)) as [-> ->]. f_equal. destruct (f_tag f); reflexivity.
Qed.

Lemma own_len cur r f o : stored f o -> okO cur o -> o_borrowed o = r ->
  base r f <= length (ownO o) <= base r f + extras f.
Proof.
  intros ((S1 & S2 & S3 & S4) & (S5 & S6) & _ & S7 & S8) (O1 & O2 & O3) Br.
  unfold ownO. rewrite !app_length, (owning_len _ O1), (owning_len _ O2), extras_are, Br in *.
  assert (D1 : (if isNull (o_domains o) then 0 else 1) <= when (some_plain f)).
  { destruct (isNull (o_domains o)); [lia|]. now rewrite S7. }
  assert (D2 : (if isNull (o_anti o) then 0 else 1) <= when (some_not f)).
  { destruct (isNull (o_anti o)); [lia|]. now rewrite S8. }
  unfold base. destruct r; cbn [length]; [lia|].
  unfold fields in *. apply Forall_cons_iff in O3 as [P1 O3]. apply Forall_cons_iff in O3 as [P2 O3].
  apply Forall_cons_iff in O3 as [P3 O3]. apply Forall_cons_iff in O3 as [P4 O3].
  apply Forall_cons_iff in O3 as [P5 _]. cbn [flat_map].
  rewrite !app_length, (owning_len _ P1), (owning_len _ P2), (owning_len _ P3), (owning_len _ P4), (owning_len _ P5).
  cbn [length]. rewrite S1, S2, S3, S4. unfold texts, number.
  assert (T : (match f_tag f with [] => 0 | _ => 1 end) <= (if isNull (o_tag o) then 0 else 1) <=
     (match f_tag f with [] => 0 | _ => 1 end) + (if nonempty (f_tag f) then 0 else 1)).
  { rewrite S5 in S6. destruct (f_tag f) as [|z t]; cbn in *; [destruct (isNull (o_tag o)); lia|].
    rewrite S6 by reflexivity. lia. }
  destruct (f_data f), (f_rule f), (f_dom f), (f_host f); cbn [isSome negb]; lia.
Qed.

Lemma own_all cur r fs os : Forall2 stored fs os -> Forall (okO cur) os ->
  Forall (fun o => o_borrowed o = r) os ->
  total (base r) fs <= length (ownL os) <= total (base r) fs + total extras fs.
Proof.
  intros F. induction F as [|f o fs os S F IH]; intros O Bo; [cbn; lia|].
  apply Forall_cons_iff in O as [O1 O]. apply Forall_cons_iff in Bo as [B1 Bo].
  pose proof (own_len cur r f o S O1 B1). specialize (IH O Bo).
  unfold ownL. cbn [flat_map]. rewrite app_length. fold (ownL os). cbn [total fold_right].
  fold (total (base r) fs). fold (total extras fs). lia.
Qed.

Lemma total_app {A} (f : A -> nat) a b : total f (a ++ b) = total f a + total f b.
Proof. induction a as [|x a IH]; [reflexivity|]. cbn [app total fold_right]. fold (total f (a ++ b)). rewrite IH.
  unfold total. lia. Qed.

Lemma total_perm {A} (f : A -> nat) a b : Permutation a b -> total f a = total f b.
Proof. induction 1; unfold total in *; cbn [fold_right]; try lia; congruence. Qed.

Lemma arr_len cur r a l w : Forall2 stored l (items w) -> Forall (okO cur) (items w) ->
  Forall (fun o => o_borrowed o = r) (items w) -> isSome w = a ->
  when a + total (base r) l <= length (ownA w) <= when a + total (base r) l + total extras l.
Proof.
  intros F O Bo <-. pose proof (own_all _ _ _ _ F O Bo) as L.
  destruct w as [[b os]|]; cbn [ownA isSome items] in *; unfold when; [change (length (b :: ownL os)) with (1 + length (ownL os))|change (length (ownL [])) with 0 in L; change (length (@nil nat)) with 0]; lia.
Qed.

Lemma oset_len cur r s w : tied_oset r s w -> Forall (okO cur) (items w) ->
  number s + total (base r) (in_set s) <= length (ownA w) <= number s + total (base r) (in_set s) + total extras (in_set s).
Proof.
  intros T O. destruct s as [s|], w as [[b l]|]; cbn [tied_oset] in T; try contradiction;
    cbn [number in_set ownA items length] in *; [|cbn; lia].
  destruct T as (fs & P & F & Bo). pose proof (own_all _ _ _ _ F O Bo) as L.
  rewrite <- (total_perm (base r) _ _ P), <- (total_perm extras _ _ P). lia.
Qed.

Lemma ogate_len s w : tied_ogate s w -> length (ownG w) = number s.
Proof. now destruct s as [s|], w as [[b l]|]. Qed.

Lemma total_base r l : total (base r) l = if r then 0 else total texts l.
Proof.
  destruct r; [|reflexivity]. induction l as [|x l IH]; [reflexivity|].
  cbn [total fold_right] in *. exact IH.
Qed.

Lemma own_total cur a r c o : tied a r c o -> (forall k, Forall (okO cur) (items (tget (w_arrs o) k))) ->
  Forall (okO cur) (items (w_host o)) -> Forall (okO cur) (items (w_ehost o)) ->
  10 * when a + containers c + total (base r) (held c) <= length (ownW o)
    <= 10 * when a + containers c + total (base r) (held c) + total extras (held c).
Proof.
  intros [TA TX TY (TB1 & TB2 & TB3) TG TS] OA OX OY.
  assert (LA : forall k, when a + total (base r) (tget (c_lists c) k) <= length (ownA (tget (w_arrs o) k)) <=
     when a + total (base r) (tget (c_lists c) k) + total extras (tget (c_lists c) k)).
  { intros k. destruct (TA k) as (F & Bo & Q). eapply arr_len; eauto. }
  pose proof (oset_len cur r _ _ TX OX) as LX. pose proof (oset_len cur r _ _ TY OY) as LY.
  assert (LB : forall (A : Type) (x : option A) w, isSome x = isSome w -> length (ownB w) = number x).
  { intros A x w Q. destruct x, w; try discriminate Q; reflexivity. }
  unfold held. rewrite !total_app. unfold flat_map. rewrite !total_app. change (total (base r) []) with 0.
  change (total extras []) with 0.
  unfold ownW. rewrite !app_length. unfold ownT, kinds, gated, flat_map. rewrite !app_length.
  change (length (@nil nat)) with 0.
  rewrite (LB _ _ _ TB1), (LB _ _ _ TB2), (LB _ _ _ TB3).
  rewrite (ogate_len _ _ (TG KNoFpDom)), (ogate_len _ _ (TG KNoFpAnti)), (ogate_len _ _ (TG KNoFpDomExc)),
    (ogate_len _ _ (TG KNoFpAntiExc)).
  cbn [set_of]. unfold containers.
  pose proof (LA KFilters). pose proof (LA KCosmetic). pose proof (LA KHtml). pose proof (LA KException).
  pose proof (LA KNoFp). pose proof (LA KNoFpExc). pose proof (LA KNoFpDom). pose proof (LA KNoFpAnti).
  pose proof (LA KNoFpDomExc). pose proof (LA KNoFpAntiExc). lia.
Qed.

Lemma holds_len h L : holds h L -> length (h_live h) = length L.
Proof.
  intros (H1 & H2 & _).
  assert (D1 : NoDup (h_live h)) by (apply (NoDup_count_occ Nat.eq_dec); exact H2).
  assert (D2 : NoDup L).
  { apply (NoDup_count_occ Nat.eq_dec). intro x. rewrite <- H1. apply H2. }
  apply Nat.le_antisymm; apply NoDup_incl_length; auto;
    intros b; rewrite !(count_occ_In Nat.eq_dec), H1; auto.
Qed.

Lemma tied0 : tied false false client0 (wr_own wrap0).
Proof. apply tied_empty; try reflexivity. now intros []. Qed.

Lemma story_state E xs es c : story E client0 xs es c -> apart false xs ->
  exists s r X, foldM wstep wrap0 es = Ok s /\ length X = lost_total_w es /\ winv s r X /\
    tied (has_arrays xs) (restored xs) c (wr_own s) /\ isSome (wr_buf s) = existsb loads xs.
Proof.
  intros S A. destruct (wlife_ok es wrap0 false [] inv0 (story_apart _ _ _ _ _ S _ A)) as (s & r & X & W & L & V).
  rewrite app_nil_r in V. exists s, r, X.
  destruct (story_tied _ _ _ _ _ S false false wrap0 s A tied0 W) as [T B].
  rewrite orb_false_r in B. auto 6.
Qed.

Lemma story_blocks E xs es c : story E client0 xs es c -> apart false xs ->
  exists s x, foldM wstep wrap0 es = Ok s /\
    in_use s = lost_total_w es + footprint xs c + x /\ x <= total extras (held c).
Proof.
  intros S A. destruct (story_state E xs es c S A) as (s & r & X & W & L & V & T & B).
  destruct V as [H VA VX VY _]. cbn [fst snd] in *. apply holds_len in H. rewrite !app_length in H.
  pose proof (own_total _ _ _ _ _ T VA VX VY) as K.
  assert (LB : length (ownB (wr_buf s)) = when (existsb loads xs)).
  { rewrite <- B. now destruct (wr_buf s). }
  rewrite total_base in K.
  exists s, (in_use s - (lost_total_w es + footprint xs c)). split; [exact W|].
  unfold in_use, footprint. lia.
Qed.

Lemma story_footprint E xs es c n : story E client0 xs es c -> apart false xs ->
  repeats_in line_repeats xs n -> exists s x, foldM wstep wrap0 es = Ok s /\
    in_use s = 2 * n + footprint xs c + x /\ x <= total extras (held c).
Proof.
  intros S A P. destruct (story_blocks E xs es c S A) as (s & x & W & U & L).
  exists s, x. split; [exact W|]. split; [|exact L].
  destruct (story_lost line_repeats eq E client0 xs es c) with (n := n) as (m & Em & ->); auto; [|lia].
  intros pres l t r op k Hl T D E1. eapply usual_lost; eauto.
Qed.

Lemma story_footprint_bound E xs es c n : story E client0 xs es c -> apart false xs ->
  repeats_in dollar_repeats xs n -> exists s, foldM wstep wrap0 es = Ok s /\
    footprint xs c <= in_use s <= 2 * n + footprint xs c + total extras (held c).
Proof.
  intros S A P. destruct (story_blocks E xs es c S A) as (s & x & W & U & L).
  exists s. split; [exact W|].
  destruct (story_lost dollar_repeats le E client0 xs es c) with (n := n) as (m & Em & Le); auto; try lia.
  intros pres l t r op k Hl T D E1. eapply dollar_lost; eauto.
Qed.

(** ** Calls that load nothing *)

Lemma quiet_story E xs : Forall loads_nothing xs -> forall c es c', story E c xs es c' ->
  still c c' /\ lost_total_w es = 0.
Proof.
  induction 1 as [|x xs Q F IH]; intros c es c' S; inversion S as [|c0 x0 xs0 e es0 c1 c2 O A H S1]; subst.
  - split; [apply still_refl|reflexivity].
  - destruct (IH _ _ _ S1) as [K1 K2]. split; [eapply still_trans; [eapply quiet_still; eauto|exact K1]|].
    rewrite lost_app, K2, (other_lost _ _ _ _ H); [reflexivity|]. intros pres t ->. exact Q.
Qed.

Lemma quiet_flags xs : Forall loads_nothing xs -> forall a r,
  fold_left arrays_after xs a = a /\ fold_left restored_by xs r = r /\ existsb loads xs = false.
Proof.
  induction 1 as [|x xs Q F IH]; intros a r; [auto|]. cbn [fold_left existsb].
  destruct x as [[]| |]; try contradiction Q; cbn [arrays_after restored_by loads orb]; apply IH.
Qed.

Lemma apart_app a b : forall r, apart r (a ++ b) -> apart r a.
Proof.
  induction a as [|x a IH]; intros r P; [exact I|]. cbn [app] in P.
  destruct x as [[]| |]; cbn [apart] in *; intuition eauto.
Qed.

Lemma still_holds c c' : still c c' -> held c' = held c /\ containers c' = containers c.
Proof.
  intros ((S1 & S2 & S3 & S4 & S5 & S6 & S7 & S8 & S9 & S10 & S11) & S12).
  unfold held, containers. rewrite <- S1, <- S4, <- S5, <- S6, <- S7, <- S8, <- S9, <- S10, <- S11.
  split; [reflexivity|]. f_equal. now destruct (c_badfp c), (c_badfp c').
Qed.

Lemma story_quiet E a b ea eb ca c s1 : story E client0 a ea ca -> story E ca b eb c ->
  apart false (a ++ b) -> Forall loads_nothing b -> foldM wstep wrap0 ea = Ok s1 ->
  exists s2, foldM wstep s1 eb = Ok s2 /\ in_use s2 <= in_use s1 + total extras (held ca) /\
    in_use s1 <= in_use s2 + total extras (held ca) /\ held c = held ca.
Proof.
  intros Sa Sb A Q W1.
  assert (S : story E client0 (a ++ b) (ea ++ eb) c).
  { clear -Sa Sb. induction Sa as [c0|c0 x xs e es c1 c2 O A H S IH]; [exact Sb|].
    cbn [app]. rewrite <- app_assoc. econstructor; eauto. }
  destruct (story_blocks E _ _ _ Sa (apart_app _ _ _ A)) as (s & x & W & U & L).
  assert (s = s1) as -> by congruence.
  destruct (story_blocks E _ _ _ S A) as (s2 & x2 & W2 & U2 & L2).
  rewrite foldM_app, W1 in W2. cbn [bind] in W2.
  destruct (quiet_story E b Q _ _ _ Sb) as [K Z]. destruct (still_holds _ _ K) as [H1 H2].
  rewrite lost_app, Z in U2. unfold footprint, has_arrays, restored in U2.
  destruct (quiet_flags b Q (fold_left arrays_after a false) (fold_left restored_by a false)) as (F1 & F2 & F3).
  rewrite !fold_left_app, F1, F2, existsb_app, F3, orb_false_r, H1, H2 in U2. rewrite H1 in L2.
  fold (has_arrays a) in U2. fold (restored a) in U2.
  exists s2. unfold footprint in U. split; [exact W2|]. split; [lia|]. split; [lia|exact H1].
Qed.

(** ** Rule by rule *)

Lemma stored_keeps f o : stored f o -> keeps_rule f o.
Proof.
  intros ((S1 & S2 & S3 & S4) & (S5 & S6) & _).
  assert (X : forall p (A : Type) (x : option A), isNull p = negb (isSome x) -> (p <> Null <-> x <> None)).
  { intros p A x. destruct p, x; cbn; intuition congruence. }
  repeat split; try (eapply X; eassumption).
  intros N Q. rewrite S5, Q in S6. destruct (f_tag f); [congruence|]. discriminate (S6 eq_refl).
Qed.

Lemma story_each E xs es c : story E client0 xs es c -> apart false xs ->
  exists s, foldM wstep wrap0 es = Ok s /\
    (forall k, Forall2 keeps_rule (tget (c_lists c) k) (items (tget (w_arrs (wr_own s)) k))) /\
    keeps_set (c_host c) (w_host (wr_own s)) /\ keeps_set (c_ehost c) (w_ehost (wr_own s)) /\
    (forall k, match set_of c k, tget (w_gates (wr_own s)) k with
      | Some d, Some (_, l) => length l = length (concat d)
      | None, None => True | _, _ => False end).
Proof.
  intros S A. destruct (story_state E xs es c S A) as (s & r & X & W & L & V & T & B).
  exists s. split; [exact W|]. destruct T as [TA TX TY TB TG TS].
  assert (K : forall q a, tied_oset (restored xs) q a -> keeps_set q a).
  { intros q a T. destruct q as [q|], a as [[b l]|]; cbn in *; try contradiction; auto.
    destruct T as (fs & P & F & _). split; [|split].
    - rewrite <- (Permutation_length P). clear -F. induction F; cbn [length]; congruence.
    - intros f I. apply (Permutation_in f (Permutation_sym P)) in I.
      destruct (F2_in _ _ _ _ F I) as (o & I2 & S2). eauto using stored_keeps.
    - intros o I. assert (Z : exists f, In f fs /\ stored f o).
      { clear -F I. induction F as [|f o' fs l S F IH]; [destruct I|]. destruct I as [->|I].
        - exists f. split; [now left|exact S].
        - destruct (IH I) as (g & G1 & G2). exists g. split; [now right|exact G2]. }
      destruct Z as (f & I1 & S2). exists f. split; [eapply Permutation_in; eauto|now apply stored_keeps]. }
  split; [|split; [now apply K|split; [now apply K|exact TG]]].
  intros k. destruct (TA k) as (F & _). clear -F.
  induction F; constructor; auto using stored_keeps.
Qed.

(** ** After clear() *)

Lemma story_clear E a es c n : story E client0 (a ++ [Call Clear]) es c -> apart false (a ++ [Call Clear]) ->
  repeats_in line_repeats (a ++ [Call Clear]) n ->
  exists s, foldM wstep wrap0 es = Ok s /\ in_use s = 2 * n + when (existsb loads a).
Proof.
  intros S A P. destruct (story_footprint _ _ _ _ _ S A P) as (s & x & W & U & L).
  exists s. split; [exact W|].
  destruct (story_split _ _ _ _ _ _ S) as (ea & eb & ca & _ & _ & S2).
  inversion S2 as [|c0 x0 xs0 e es0 c1 c2 O Ac H S3]; subst. inversion S3; subst.
  cbn [act perform] in Ac. injection Ac as <-.
  change (held (clear ca)) with (@nil filter) in *. change (total extras []) with 0 in L.
  unfold footprint, has_arrays in U. rewrite fold_left_app, existsb_app in U.
  cbn [fold_left arrays_after existsb loads orb] in U. rewrite !orb_false_r in U.
  change (containers (clear ca)) with 0 in U. change (held (clear ca)) with (@nil filter) in U.
  change (total texts []) with 0 in U. destruct (restored _); cbn [when] in U; lia.
Qed.
