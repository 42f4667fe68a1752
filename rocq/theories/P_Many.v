From Coq Require Import Lia.
From Verif Require Import Base Flags Sets FilterM ParseM ClientM OwnM SpecO P_Base P_List
  P_Own P_Own2 P_Own3 P_Own5 ManyM SpecMany.

(** ** [put] *)

Lemma put_length {A} (x : A) : forall l i, length (put i x l) = length l.
Proof.
  induction l as [|y l IH]; intros [|i]; cbn [put length]; auto.
Qed.

Lemma put_other {A} (x : A) : forall l i j, i <> j -> nth_error (put i x l) j = nth_error l j.
Proof.
  induction l as [|y l IH]; intros [|i] [|j] N; cbn [put nth_error]; auto; try congruence.
Qed.

Lemma put_same {A} (x : A) : forall l i y, nth_error l i = Some y -> nth_error (put i x l) i = Some x.
Proof.
  induction l as [|z l IH]; intros [|i] y E; cbn [put nth_error] in *; auto; try discriminate.
  now apply (IH i y).
Qed.

Lemma put_split {A} : forall (l : list A) i x, nth_error l i = Some x ->
  exists l1 l2, l = l1 ++ x :: l2 /\ forall y, put i y l = l1 ++ y :: l2.
Proof.
  induction l as [|z l IH]; intros [|i] x E; cbn [put nth_error] in *; try discriminate.
  - injection E as ->. exists [], l. auto.
  - destruct (IH i x E) as (l1 & l2 & -> & P). exists (z :: l1), l2.
    split; [reflexivity|]. intro y. now rewrite P.
Qed.

(** ** The invariant *)

Record shaped (w : own) (cur : option nat) : Prop := mkShaped {
  sh_arrs : forall k, Forall (okO cur) (items (tget (w_arrs w) k));
  sh_host : Forall (okO cur) (items (w_host w));
  sh_ehost : Forall (okO cur) (items (w_ehost w));
  sh_gates : forall k, Forall (okG cur (w_arrs w)) (items (tget (w_gates w) k))
}.

Lemma inv_shaped w app cur lost : inv (w, app) cur lost <->
  holds (w_heap w) (ownW w ++ app ++ lost) /\ shaped w cur.
Proof. split; [intros [? ? ? ? ?]|intros [? [? ? ? ?]]]; split; auto; now split. Qed.

Lemma shaped_set w cur h : shaped w cur -> shaped (set_heap w h) cur.
Proof. now intros [? ? ? ?]. Qed.

Definition ownC (c : option own) : list nat :=
  match c with Some w => ownW w | None => [] end.
Definition okC (c : option own) (b : option (option nat)) : Prop :=
  match c, b with
  | Some w, Some cur => shaped w cur
  | None, None => True
  | _, _ => False
  end.

Record minv (s : crowd) (bk : books) (lost : list nat) : Prop := mkMinv {
  m_holds : holds (cr_heap s) (flat_map ownC (cr_all s) ++ cr_app s ++ lost);
  m_len : length bk = length (cr_all s);
  m_ok : forall i c b, nth_error (cr_all s) i = Some c -> nth_error bk i = Some b -> okC c b
}.

Lemma minv0 : minv crowd0 [] [].
Proof.
  split; cbn; [|reflexivity|intros [|i]; discriminate].
  unfold holds, heap0; cbn. repeat split; intros; lia.
Qed.

(** The client the books say exists. *)
Lemma minv_client s bk lost i cur : minv s bk lost -> nth_error bk i = Some (Some cur) ->
  exists w, nth_error (cr_all s) i = Some (Some w) /\ shaped w cur.
Proof.
  intros V E. destruct (nth_error (cr_all s) i) as [c|] eqn:Ec.
  - pose proof (m_ok _ _ _ V i c _ Ec E) as K. destruct c as [w|]; [|destruct K]. eauto.
  - apply nth_error_None in Ec. rewrite <- (m_len _ _ _ V) in Ec.
    apply nth_error_None in Ec. congruence.
Qed.

(** Seen from one client, the blocks of the others are just somebody else's. *)
Lemma minv_inv s bk lost i w cur : minv s bk lost -> nth_error (cr_all s) i = Some (Some w) ->
  shaped w cur ->
  exists R, inv (set_heap w (cr_heap s), cr_app s) cur (R ++ lost) /\
    forall c, (forall x, cnt x (flat_map ownC (put i c (cr_all s))) = cnt x (ownC c) + cnt x R).
Proof.
  intros V E S. destruct (put_split _ _ _ E) as (l1 & l2 & El & P).
  exists (flat_map ownC l1 ++ flat_map ownC l2). split.
  - apply inv_shaped. split; [|now apply shaped_set].
    cbn [set_heap w_heap]. rewrite set_heap_ownW.
    eapply holds_eq; [|apply (m_holds _ _ _ V)]. rewrite El, flat_map_app. cbn [flat_map ownC]. cnt.
  - intros c x. rewrite P, flat_map_app. cbn [flat_map]. rewrite !cnt_app. lia.
Qed.

Lemma put_ok i c b cs bk :
  length bk = length cs ->
  (forall i c b, nth_error cs i = Some c -> nth_error bk i = Some b -> okC c b) ->
  okC c b ->
  length (put i b bk) = length (put i c cs) /\
  (forall j c' b', nth_error (put i c cs) j = Some c' -> nth_error (put i b bk) j = Some b' -> okC c' b').
Proof.
  intros L K O. split; [now rewrite !put_length|].
  intros j c' b'. destruct (Nat.eq_dec i j) as [<-|N].
  - destruct (nth_error cs i) as [y|] eqn:E1.
    + destruct (nth_error bk i) as [z|] eqn:E2.
      * rewrite (put_same _ _ _ _ E1), (put_same _ _ _ _ E2). congruence.
      * apply nth_error_None in E2. rewrite L in E2. apply nth_error_None in E2. congruence.
    + intros E. apply nth_error_None in E1. rewrite <- (put_length c cs i) in E1.
      apply nth_error_None in E1. congruence.
  - rewrite !put_other by exact N. apply K.
Qed.

Lemma push_ok c b cs bk :
  length bk = length cs ->
  (forall i c b, nth_error cs i = Some c -> nth_error bk i = Some b -> okC c b) ->
  okC c b ->
  length (bk ++ [b]) = length (cs ++ [c]) /\
  (forall j c' b', nth_error (cs ++ [c]) j = Some c' -> nth_error (bk ++ [b]) j = Some b' -> okC c' b').
Proof.
  intros L K O. split; [rewrite !app_length; cbn; lia|].
  intros j c' b'. destruct (Nat.lt_ge_cases j (length cs)) as [H|H].
  - rewrite !nth_error_app1 by lia. apply K.
  - rewrite !nth_error_app2 by lia. rewrite L.
    destruct (j - length cs) as [|n]; cbn; [congruence|]. destruct n; discriminate.
Qed.

Definition restored_m (src : nat -> option dshape) (e : mevent) (i : nat) : option dshape :=
  match e with
  | MCall j e => if Nat.eqb i j then restored_now (src i) e else src i
  | _ => src i
  end.

Definition trk (s : crowd) (src : nat -> option dshape) : Prop :=
  (forall i w, nth_error (cr_all s) i = Some (Some w) -> tracked w (src i)) /\
  (forall i, length (cr_all s) <= i -> src i = None).

Definition lost_in_m (e : mevent) : nat := match e with MCall _ e => lost_in e | _ => 0 end.

Definition over (s : crowd) (e : mevent) : Prop :=
  match e with
  | MCall i (EParse _) => forall w, nth_error (cr_all s) i = Some (Some w) -> ~ pointing w
  | _ => True
  end.

Definition copying (e : mevent) : Prop := match e with MCopy _ => True | _ => False end.

Lemma client_at_ok s i w : nth_error (cr_all s) i = Some (Some w) ->
  client_at s i = Ok (set_heap w (cr_heap s)).
Proof. unfold client_at. now intros ->. Qed.

Lemma mstep_fine s bk lost e :
  minv s bk lost -> polite_m (cr_app s) bk e -> ~ copying e -> over s e ->
  exists s' X, mstep s e = Ok s' /\ length X = lost_in_m e /\
    minv s' (book_after bk e) (X ++ lost).
Proof.
  intros V P C N. destruct e as [|i e|i|i| |b]; cbn [polite_m over mstep book_after lost_in_m] in *.
  - eexists _, []. split; [reflexivity|]. split; [reflexivity|].
    destruct (push_ok (Some (own0 (cr_heap s))) (Some None) _ _ (m_len _ _ _ V) (m_ok _ _ _ V))
      as [A B].
    { cbn [okC]. split; cbn [own0 w_arrs w_host w_ehost w_gates items]; try constructor;
        intro k; rewrite tget_tall; constructor. }
    split; cbn [cr_heap cr_all cr_app Datatypes.app]; auto.
    eapply holds_eq; [|apply (m_holds _ _ _ V)]. intro x. rewrite flat_map_app. cbn [flat_map ownC].
    unfold ownW; cbn [w_arrs w_bloom w_ebloom w_host w_ehost w_gates w_bad own0].
    rewrite !ownT_none by reflexivity. cbn [ownA ownB ownG Datatypes.app]. rewrite !cnt_app, cnt_nil. lia.
  - destruct P as (cur & Eb & P). destruct (minv_client _ _ _ _ _ V Eb) as (w & Ew & S).
    rewrite (client_at_ok _ _ _ Ew), Eb. cbn [bind].
    destruct (minv_inv _ _ _ _ _ _ V Ew S) as (R & I1 & I2).
    destruct (step_fine (set_heap w (cr_heap s), cr_app s) cur (R ++ lost) e I1 P)
      as ([w' app'] & X & -> & EX & I3).
    { destruct e; auto. cbn [fst]. exact (N w Ew). }
    cbn [bind fst snd]. eexists _, X. split; [reflexivity|]. split; [exact EX|].
    apply inv_shaped in I3. destruct I3 as [H3 S3].
    destruct (put_ok i (Some w') (Some (buffer_after cur e)) _ _ (m_len _ _ _ V) (m_ok _ _ _ V) S3)
      as [A B].
    split; cbn [cr_heap cr_all cr_app]; auto.
    eapply holds_eq; [|exact H3]. intro x. rewrite !cnt_app, I2. cbn [ownC]. lia.
  - destruct P as (cur & Eb). destruct (minv_client _ _ _ _ _ V Eb) as (w & Ew & S).
    rewrite (client_at_ok _ _ _ Ew). cbn [bind].
    destruct (minv_inv _ _ _ _ _ _ V Ew S) as (R & I1 & I2).
    destruct (clear_ok _ _ _ _ I1) as (h & -> & H3). cbn [bind own0 w_heap].
    eexists _, []. split; [reflexivity|]. split; [reflexivity|].
    destruct (put_ok i None None _ _ (m_len _ _ _ V) (m_ok _ _ _ V) I) as [A B].
    split; cbn [cr_heap cr_all cr_app Datatypes.app]; auto.
    eapply holds_eq; [|exact H3]. intro x. rewrite !cnt_app, I2. cbn [ownC]. rewrite cnt_nil. lia.
  - now destruct C.
  - destruct (alloc (cr_heap s)) as [b h] eqn:E.
    eexists _, []. split; [reflexivity|]. split; [reflexivity|].
    pose proof (alloc_holds _ _ _ _ E (m_holds _ _ _ V)) as H1.
    split; cbn [cr_heap cr_all cr_app Datatypes.app]; try apply V.
    eapply holds_eq; [|exact H1]. cnt.
  - pose proof (m_holds _ _ _ V) as H.
    assert (H' : holds (cr_heap s) (b :: flat_map ownC (cr_all s) ++
                                    List.remove Nat.eq_dec b (cr_app s) ++ lost)).
    { eapply holds_eq; [|exact H]. intro z. cbn [count_occ].
      rewrite !cnt_app, cnt_remove.
      destruct H as (HA & HB & _). specialize (HA b). specialize (HB b).
      rewrite HA in HB. rewrite !cnt_app in HB.
      apply (count_occ_In Nat.eq_dec) in P.
      destruct (Nat.eq_dec b z) as [<-|Ez]; lia. }
    destruct (free_holds _ _ _ H') as (h & -> & H1). cbn [bind].
    eexists _, []. split; [reflexivity|]. split; [reflexivity|].
    split; cbn [cr_heap cr_all cr_app Datatypes.app]; auto; try apply V.
Qed.

Lemma mstep_trk s e s' src : ~ copying e ->
  mstep s e = Ok s' -> trk s src -> trk s' (restored_m src e).
Proof.
  intros C E [T1 T2]. destruct e as [|i e|i|i| |b]; cbn [mstep] in E.
  - injection E as <-. split; cbn [cr_all restored_m].
    + intros j w Ej. destruct (Nat.lt_ge_cases j (length (cr_all s))) as [H|H].
      * rewrite nth_error_app1 in Ej by exact H. now apply T1.
      * rewrite nth_error_app2 in Ej by exact H. rewrite T2 by exact H.
        destruct (j - length (cr_all s)) as [|n]; [|destruct n; discriminate].
        injection Ej as <-. apply tracked0.
    + intros j. rewrite app_length. cbn. intros H. apply T2. lia.
  - unfold client_at in E. destruct (nth_error (cr_all s) i) as [[w|]|] eqn:Ew; try discriminate.
    cbn [bind] in E.
    destruct (step (set_heap w (cr_heap s), cr_app s) e) as [[w' app']|] eqn:Es; [|discriminate].
    cbn [bind fst snd] in E. injection E as <-. split; cbn [cr_all restored_m].
    + intros j v Ej. destruct (Nat.eqb j i) eqn:Eji.
      * apply Nat.eqb_eq in Eji. subst j. rewrite (put_same _ _ _ _ Ew) in Ej.
        injection Ej as <-. eapply step_tracked; [exact Es|]. exact (T1 i w Ew).
      * apply Nat.eqb_neq in Eji. rewrite put_other in Ej by congruence. now apply T1.
    + intros j H. rewrite put_length in H. destruct (Nat.eqb j i) eqn:Eji; [|now apply T2].
      apply Nat.eqb_eq in Eji. subst j. apply nth_error_None in H. congruence.
  - unfold client_at in E. destruct (nth_error (cr_all s) i) as [[w|]|] eqn:Ew; try discriminate.
    cbn [bind] in E. destruct (oclear (set_heap w (cr_heap s))) as [w'|]; [|discriminate].
    cbn [bind] in E. injection E as <-. split; cbn [cr_all restored_m].
    + intros j v Ej. destruct (Nat.eq_dec i j) as [<-|Nj].
      * rewrite (put_same _ _ _ _ Ew) in Ej. discriminate.
      * rewrite put_other in Ej by exact Nj. now apply T1.
    + intros j H. rewrite put_length in H. now apply T2.
  - now destruct C.
  - destruct (alloc (cr_heap s)) as [b h]. injection E as <-. now split.
  - destruct (free (cr_heap s) (At b)) as [h|]; [|discriminate]. cbn [bind] in E.
    injection E as <-. now split.
Qed.

(** ** The end *)

Definition gone (s : crowd) (i : nat) : Prop :=
  forall w, nth_error (cr_all s) i <> Some (Some w).

Lemma mend_all ks : forall s bk lost, minv s bk lost ->
  exists s' bk', foldM mend_one s ks = Ok s' /\ minv s' bk' lost /\
    cr_app s' = cr_app s /\ length (cr_all s') = length (cr_all s) /\
    forall i, In i ks \/ gone s i -> gone s' i.
Proof.
  induction ks as [|k ks IH]; intros s bk lost V.
  - exists s, bk. cbn [foldM]. repeat split; auto; try apply V. intros i [[]|G]; exact G.
  - cbn [foldM]. unfold mend_one at 1.
    destruct (nth_error (cr_all s) k) as [[w|]|] eqn:Ew.
    + assert (Ec : exists cur, nth_error bk k = Some (Some cur)).
      { destruct (nth_error bk k) as [b|] eqn:Eb.
        - pose proof (m_ok _ _ _ V k _ _ Ew Eb) as K. destruct b; [eauto|destruct K].
        - apply nth_error_None in Eb. rewrite (m_len _ _ _ V) in Eb.
          apply nth_error_None in Eb. congruence. }
      destruct (mstep_fine s bk lost (MDestroy k) V Ec) as (s1 & X & E1 & EX & V1); [auto|exact I|].
      rewrite E1. cbn [bind lost_in_m] in *. apply length_zero_iff_nil in EX. subst X.
      destruct (IH s1 _ _ V1) as (s2 & bk2 & -> & V2 & A2 & L2 & G2).
      cbn [mstep] in E1. rewrite (client_at_ok _ _ _ Ew) in E1. cbn [bind] in E1.
      destruct (oclear (set_heap w (cr_heap s))) as [w'|]; [cbn [bind] in E1|discriminate].
      assert (Es : s1 = mkCr (w_heap w') (put k None (cr_all s)) (cr_app s)) by congruence.
      exists s2, bk2. split; [reflexivity|]. split; [exact V2|].
      split; [rewrite A2, Es; reflexivity|].
      split; [rewrite L2, Es; cbn [cr_all]; apply put_length|].
      intros i H. apply G2. destruct (Nat.eq_dec k i) as [<-|Nk].
      * right. intros v. rewrite Es. cbn [cr_all]. rewrite (put_same _ _ _ _ Ew). discriminate.
      * destruct H as [[H|H]|H]; [contradiction|now left|]. right. intros v. rewrite Es.
        cbn [cr_all]. rewrite put_other by exact Nk. apply H.
    + cbn [bind]. destruct (IH s bk lost V) as (s2 & bk2 & -> & V2 & A2 & L2 & G2).
      exists s2, bk2. repeat split; auto; try apply V2. intros i [[<-|H]|H]; apply G2; auto.
      right. intros v. congruence.
    + cbn [bind]. destruct (IH s bk lost V) as (s2 & bk2 & -> & V2 & A2 & L2 & G2).
      exists s2, bk2. repeat split; auto; try apply V2. intros i [[<-|H]|H]; apply G2; auto.
      right. intros v. congruence.
Qed.

Lemma mend_ok s bk lost : minv s bk lost ->
  exists s', mend s = Ok s' /\ cr_app s' = cr_app s /\ holds (cr_heap s') (cr_app s' ++ lost) /\
    forall i, gone s' i.
Proof.
  intros V. unfold mend.
  destruct (mend_all (seq 0 (length (cr_all s))) s bk lost V) as (s' & bk' & -> & V' & A & L & G).
  exists s'. split; [reflexivity|]. split; [exact A|].
  assert (G' : forall i, gone s' i).
  { intros i. destruct (Nat.lt_ge_cases i (length (cr_all s))) as [H|H].
    - apply G. left. apply in_seq. lia.
    - intros w E. rewrite <- L in H. apply nth_error_None in H. congruence. }
  split; [|exact G'].
  assert (Z : flat_map ownC (cr_all s') = []).
  { clear -G'. unfold gone in G'. induction (cr_all s') as [|c l IH]; [reflexivity|].
    cbn [flat_map]. rewrite IH by (intros i; exact (G' (S i))).
    destruct c as [w|]; [now destruct (G' 0 w)|reflexivity]. }
  pose proof (m_holds _ _ _ V') as H. now rewrite Z in H.
Qed.

(** ** Doomed clients *)

Definition doomed_at (s : crowd) (i : nat) : Prop :=
  exists w, nth_error (cr_all s) i = Some (Some w) /\ doomed w.

Lemma mstep_doomed s e s' i : doomed_at s i -> mstep s e = Ok s' -> doomed_at s' i.
Proof.
  intros (w & Ew & D) E. destruct e as [|j e|j|j| |b]; cbn [mstep] in E.
  - injection E as <-. exists w. split; [|exact D]. cbn [cr_all].
    rewrite nth_error_app1; [exact Ew|]. apply nth_error_Some. congruence.
  - unfold client_at in E. destruct (nth_error (cr_all s) j) as [[v|]|] eqn:Ev; try discriminate.
    cbn [bind] in E. destruct (Nat.eq_dec j i) as [->|Nj].
    + assert (v = w) as -> by congruence.
      destruct (step_doomed (set_heap w (cr_heap s)) (cr_app s) e (doomed_set_heap w _ D))
        as [Z|(w' & app' & Z & D')]; rewrite Z in E; cbn [bind fst snd] in E; [discriminate|].
      injection E as <-. exists w'. split; [|exact D']. cbn [cr_all]. exact (put_same _ _ _ _ Ev).
    + destruct (step (set_heap v (cr_heap s), cr_app s) e) as [r|]; [cbn [bind] in E|discriminate].
      injection E as <-. exists w. split; [|exact D]. cbn [cr_all]. now rewrite put_other.
  - unfold client_at in E. destruct (nth_error (cr_all s) j) as [[v|]|] eqn:Ev; try discriminate.
    cbn [bind] in E. destruct (Nat.eq_dec j i) as [->|Nj].
    + assert (v = w) as -> by congruence.
      rewrite (clear_doomed _ (doomed_set_heap w _ D)) in E. discriminate.
    + destruct (oclear (set_heap v (cr_heap s))) as [r|]; [cbn [bind] in E|discriminate].
      injection E as <-. exists w. split; [|exact D]. cbn [cr_all]. now rewrite put_other.
  - destruct (client_at s j) as [v|]; [cbn [bind] in E|discriminate].
    injection E as <-. exists w. split; [|exact D]. cbn [cr_all].
    rewrite nth_error_app1; [exact Ew|]. apply nth_error_Some. congruence.
  - destruct (alloc (cr_heap s)) as [b h]. injection E as <-. exists w. auto.
  - destruct (free (cr_heap s) (At b)) as [h|]; [|discriminate]. cbn [bind] in E.
    injection E as <-. exists w. auto.
Qed.

Lemma mend_doomed ks : forall s i, In i ks -> doomed_at s i -> foldM mend_one s ks = UB.
Proof.
  induction ks as [|k ks IH]; intros s i I0 D; [destruct I0|]. cbn [foldM].
  destruct (Nat.eq_dec k i) as [->|N].
  - destruct D as (w & Ew & D). unfold mend_one. rewrite Ew. cbn [mstep].
    rewrite (client_at_ok _ _ _ Ew). cbn [bind].
    now rewrite (clear_doomed _ (doomed_set_heap w _ D)).
  - destruct I0 as [I0|I0]; [contradiction|].
    destruct (mend_one s k) as [s1|] eqn:E; [cbn [bind]|reflexivity].
    apply (IH s1 i I0). unfold mend_one in E.
    destruct (nth_error (cr_all s) k) as [[v|]|]; try (injection E as <-; exact D).
    eapply mstep_doomed; eauto.
Qed.

Lemma mrun_doomed es : forall s i, doomed_at s i -> (s <- mrun s es ;; mend s) = UB.
Proof.
  induction es as [|e es IH]; intros s i D; unfold mrun; cbn [foldM].
  - cbn [bind]. unfold mend. apply (mend_doomed _ s i); [|exact D].
    apply in_seq. destruct D as (w & Ew & _).
    assert (i < length (cr_all s)) by (apply nth_error_Some; congruence). lia.
  - destruct (mstep s e) as [s1|] eqn:E; [cbn [bind]|reflexivity].
    apply (IH s1 i). eapply mstep_doomed; eauto.
Qed.

(** ** Whole runs *)

Definition fine_now (src : nat -> option dshape) (e : mevent) : Prop :=
  match e with
  | MCall i (EParse _) => forall d, src i = Some d -> textless d
  | _ => True
  end.

Lemma calls_fine src e es :
  (forall i, parses_fine (src i) (calls_on i (e :: es))) <->
  fine_now src e /\ forall i, parses_fine (restored_m src e i) (calls_on i es).
Proof.
  unfold calls_on; cbn [flat_map]. destruct e as [|j e|j|j| |b]; cbn [fine_now restored_m Datatypes.app];
    try (split; [intros H; split; [exact I|exact H]|now intros [_ H]]).
  split.
  - intros H. split.
    + specialize (H j). rewrite Nat.eqb_refl in H. cbn [Datatypes.app parses_fine] in H.
      destruct H as [H _]. destruct e; auto.
    + intros i. specialize (H i). destruct (Nat.eqb i j); cbn [Datatypes.app parses_fine] in H; tauto.
  - intros [H1 H2] i. specialize (H2 i). destruct (Nat.eqb i j) eqn:E; cbn [Datatypes.app parses_fine].
    + apply Nat.eqb_eq in E. subst i. split; [|exact H2]. destruct e; auto.
    + exact H2.
Qed.

Lemma run_iff es : forall s bk lost src,
  minv s bk lost -> trk s src -> used_well_m s bk es -> no_copy es ->
  ((forall i, parses_fine (src i) (calls_on i es)) ->
     exists s' X, (s <- mrun s es ;; mend s) = Ok s' /\
       length X = lost_total (all_calls es) /\ holds (cr_heap s') (cr_app s' ++ X ++ lost)) /\
  (forall s', (s <- mrun s es ;; mend s) = Ok s' -> forall i, parses_fine (src i) (calls_on i es)).
Proof.
  induction es as [|e es IH]; intros s bk lost src V T U C.
  - unfold mrun; cbn [foldM bind]. split; [|intros s' _ i; exact I]. intros _.
    destruct (mend_ok _ _ _ V) as (s' & -> & A & H & _). exists s', []. auto.
  - cbn [used_well_m] in U. destruct U as [P U].
    assert (Ce : ~ copying e).
    { destruct e; cbn; auto. intros _. apply (C i). now left. }
    assert (Cs : no_copy es) by (intros i Hi; apply (C i); now right).
    assert (K : over s e \/ exists i ls w, e = MCall i (EParse ls) /\
                nth_error (cr_all s) i = Some (Some w) /\ pointing w).
    { destruct e as [|i [ls| |t| |b d| | |b]|i|i| |b]; cbn [over]; auto.
      destruct (nth_error (cr_all s) i) as [[w|]|] eqn:Ew; try (left; intros v; discriminate).
      pose proof (proj1 T i w Ew) as Tr. unfold tracked in Tr.
      destruct (src i) as [d|] eqn:Es.
      - destruct (textless_dec d) as [Y|Y].
        + left. intros v [= <-]. rewrite Tr. intros (d' & [= <-] & N). now apply N.
        + right. exists i, ls, w. repeat split; auto. rewrite Tr. exists d.
          split; [reflexivity|]. intros X. now apply textless_not in X.
      - left. intros v [= <-]. rewrite Tr. intros (d' & X & _). discriminate X. }
    unfold mrun; cbn [foldM]. fold (mrun s es).
    setoid_rewrite (calls_fine src e es).
    assert (EA : lost_total (all_calls (e :: es)) = lost_in_m e + lost_total (all_calls es)).
    { unfold all_calls; cbn [flat_map]. destruct e; reflexivity. }
    rewrite EA.
    destruct K as [N|(i & ls & w & -> & Ew & Pw)].
    + destruct (mstep_fine _ _ _ _ V P Ce N) as (s1 & X & E1 & EX & V1).
      rewrite E1. cbn [bind]. fold (mrun s1 es).
      destruct (IH s1 _ _ (restored_m src e) V1 (mstep_trk _ _ _ _ Ce E1 T) (U s1 E1) Cs) as [A1 A2].
      split.
      * intros [_ F]. destruct (A1 F) as (s2 & Y & E2 & EY & H2).
        exists s2, (Y ++ X). split; [exact E2|]. split; [rewrite app_length; lia|].
        eapply holds_eq; [|exact H2]. cnt.
      * intros s' E2.
        assert (F : fine_now src e).
        { destruct e as [|j [ls| |t| |b d| | |b]|j|j| |b]; cbn [fine_now]; auto.
          cbn [over] in N. intros d Ed. destruct (textless_dec d) as [Y|Y]; [exact Y|].
          cbn [polite_m] in P. destruct P as (cur & Eb & _).
          destruct (minv_client _ _ _ _ _ V Eb) as (w & Ew & _). destruct (N w Ew).
          apply (proj1 T j w Ew). exists d. split; [exact Ed|].
          intros Q. now apply textless_not in Q. }
        exact (conj F (A2 s' E2)).
    + split.
      * intros [F _]. exfalso. cbn [fine_now] in F. apply (proj1 T i w Ew) in Pw.
        destruct Pw as (d & Ed & N). exact (N (F d Ed)).
      * intros s' E2. exfalso.
        destruct (mstep s (MCall i (EParse ls))) as [s1|] eqn:E1; [cbn [bind] in E2|discriminate].
        fold (mrun s1 es) in E2. rewrite (mrun_doomed es s1 i) in E2; [discriminate|].
        cbn [mstep] in E1. rewrite (client_at_ok _ _ _ Ew) in E1. cbn [bind step] in E1.
        destruct (oparse (set_heap w (cr_heap s)) ls) as [w1|] eqn:Eo; [|discriminate].
        cbn [rmap bind fst snd] in E1. injection E1 as <-. exists w1. cbn [cr_all].
        split; [exact (put_same _ _ _ _ Ew)|].
        eapply moved_doomed; [eapply parse_moved; eauto|exact Pw].
Qed.

Lemma trk0 : trk crowd0 (fun _ => None).
Proof. split; [|auto]. intros [|i] w E; discriminate. Qed.

Lemma whole_run_iff es : used_well_m crowd0 [] es -> no_copy es ->
  ((exists s, whole_run es = Ok s) <-> forall i, parses_fine None (calls_on i es)).
Proof.
  intros U C. destruct (run_iff es crowd0 [] [] (fun _ => None) minv0 trk0 U C) as [A B]. split.
  - intros (s & E). exact (B s E).
  - intros F. destruct (A F) as (s & X & E & _). eauto.
Qed.

Lemma whole_run_leak es s : used_well_m crowd0 [] es -> no_copy es -> whole_run es = Ok s ->
  exists lost, length lost = lost_total (all_calls es) /\ NoDup (cr_app s ++ lost) /\
    NoDup (h_live (cr_heap s)) /\
    forall b, In b (h_live (cr_heap s)) <-> In b (cr_app s ++ lost).
Proof.
  intros U C E0. destruct (run_iff es crowd0 [] [] (fun _ => None) minv0 trk0 U C) as [A B].
  destruct (A (B _ E0)) as (s1 & X & E & EX & H).
  unfold whole_run in E0. rewrite E0 in E. injection E as <-. rewrite app_nil_r in H.
  exists X. split; [exact EX|]. destruct H as (H1 & H2 & _).
  split; [|split].
  - apply (NoDup_count_occ Nat.eq_dec). intro x. rewrite <- H1. apply H2.
  - apply (NoDup_count_occ Nat.eq_dec). exact H2.
  - intro b. rewrite !(count_occ_In Nat.eq_dec), H1. reflexivity.
Qed.
