From Coq Require Import Lia.
From Verif Require Import Base Flags Sets FilterM ParseM ClientM OwnM Spec SpecM SpecO P_Base P_List P_Own.

Lemma kinds_nodup : NoDup kinds.
Proof. repeat constructor; cbn; intuition discriminate. Qed.
Lemma kinds_all k : In k kinds.
Proof. destruct k; cbn; tauto. Qed.
Lemma gated_nodup : NoDup gated.
Proof. repeat constructor; cbn; intuition discriminate. Qed.
Lemma gated_is k : In k gated <-> is_gated k = true.
Proof. destruct k; cbn; intuition discriminate. Qed.

Lemma ownT_ext {A} (f : arr A -> list nat) t t' ks :
  (forall k, In k ks -> tget t' k = tget t k) -> ownT f t' ks = ownT f t ks.
Proof.
  intros H. unfold ownT. induction ks as [|k ks IH]; cbn [flat_map]; [reflexivity|].
  rewrite H by now left. f_equal. apply IH. intros k' I. apply H. now right.
Qed.

Lemma ownT_tset {A} (f : arr A -> list nat) t k x ks z :
  NoDup ks -> In k ks ->
  cnt z (ownT f (tset t k x) ks) + cnt z (f (tget t k)) =
  cnt z (ownT f t ks) + cnt z (f x).
Proof.
  induction 1 as [|k' ks N D IH]; [easy|].
  intros I. unfold ownT in *. cbn [flat_map]. rewrite !cnt_app.
  destruct I as [->|I].
  - rewrite tget_tset_same.
    fold (ownT f (tset t k x) ks). rewrite (ownT_ext f t).
    { unfold ownT. lia. }
    intros k' I. apply tget_tset_other. intros ->. contradiction.
  - rewrite tget_tset_other by (intros ->; contradiction).
    specialize (IH I). lia.
Qed.

(** ** Reading a line *)

Lemma lose_ok n : forall h L, holds h L ->
  exists X, length X = n /\ holds (lose n h) (X ++ L).
Proof.
  induction n as [|n IH]; cbn [lose]; intros h L H.
  - now exists [].
  - destruct (alloc h) as [b h1] eqn:E. cbn [snd].
    pose proof (alloc_holds _ _ _ _ E H) as H1.
    destruct (IH h1 (b :: L) H1) as (X & E1 & H2).
    exists (b :: X). split; [cbn; now rewrite E1|].
    eapply holds_eq; [|exact H2]. cnt.
Qed.

Lemma read_line_ok s h o h' L :
  read_line h s = (o, h') -> holds h L ->
  exists X, length X = l_lost s /\ holds h' (ownO o ++ X ++ L) /\ okO None o /\
            o_borrowed o = false.
Proof.
  unfold read_line. intros E H.
  destruct (lose_ok (l_lost s) h L H) as (X & EX & H0).
  destruct (new_if (l_data s) (lose (l_lost s) h)) as [d h1] eqn:E1.
  destruct (new_if (l_rule s) h1) as [r h2] eqn:E2.
  destruct (new_if (l_dom s) h2) as [m h3] eqn:E3.
  destruct (new_if (l_tag s) h3) as [t h4] eqn:E4.
  destruct (new_if (l_host s) h4) as [x h5] eqn:E5.
  injection E as <- <-.
  destruct (new_if_holds _ _ _ _ _ E1 H0) as [H1 W1].
  destruct (new_if_holds _ _ _ _ _ E2 H1) as [H2 W2].
  destruct (new_if_holds _ _ _ _ _ E3 H2) as [H3 W3].
  destruct (new_if_holds _ _ _ _ _ E4 H3) as [H4 W4].
  destruct (new_if_holds _ _ _ _ _ E5 H4) as [H5 W5].
  exists X. split; [auto|]. split; [|split; [|reflexivity]].
  - eapply holds_eq; [|exact H5].
    unfold ownO, fields; cbn [o_domains o_anti o_borrowed o_data o_rule o_dom o_tag o_host].
    cnt.
  - split; [exact I|]. split; [exact I|]. cbn. repeat constructor; auto.
Qed.

Lemma pass1_ok s h L :
  holds h L -> exists h' X, pass1 h s = Ok h' /\ length X = l_lost s /\ holds h' (X ++ L).
Proof.
  intros H. unfold pass1.
  destruct (read_line h s) as [o h1] eqn:E1.
  destruct (read_line_ok _ _ _ _ _ E1 H) as (X & EX & H1 & O & Bo).
  destruct (ask_if (l_asks s) h1 o) as [o2 h2] eqn:E2.
  destruct (ask_if_ok _ _ _ _ _ _ _ E2 O H1) as (O2 & H2 & _).
  destruct (destroy_ok _ _ _ _ O2 H2) as (h3 & -> & H3). eauto.
Qed.

Lemma pass1_all ls : forall h L,
  holds h L -> exists h' X, foldM pass1 h ls = Ok h' /\ length X = sum_lost ls /\
                            holds h' (X ++ L).
Proof.
  induction ls as [|s ls IH]; cbn [foldM sum_lost fold_right]; intros h L H.
  - exists h, []. auto.
  - destruct (pass1_ok s h L H) as (h1 & X & -> & E & H1). cbn [bind].
    destruct (IH h1 _ H1) as (h2 & Y & -> & E2 & H2).
    exists h2, (Y ++ X). split; [auto|]. split.
    + rewrite app_length. fold (sum_lost ls) in *. lia.
    + eapply holds_eq; [|exact H2]. cnt.
Qed.

(** ** Growing the arrays *)

Definition taken (o : fobj) : fobj := fst (swapData obj0 o).
Definition left_over (o : fobj) : fobj := borrow (snd (swapData obj0 o)).

Lemma taken_ok o : okO None o ->
  okO None (taken o) /\ ownO (taken o) = ownO o /\ o_borrowed (taken o) = false /\
  o_dom (taken o) = o_dom o.
Proof.
  intros (A & B & C). unfold taken, swapData; cbn [fst].
  split; [|split; [|split; reflexivity]].
  - split; [exact A|]. split; [exact B|]. cbn [o_borrowed obj0 fields o_data o_rule o_dom o_tag o_host].
    destruct (o_borrowed o); [|exact C].
    eapply Forall_impl; [|exact C]. intros p. now destruct p.
  - unfold ownO, fields in *; cbn [o_domains o_anti o_borrowed obj0 o_data o_rule o_dom o_tag o_host].
    destruct (o_borrowed o); [|reflexivity].
    do 2 f_equal.
    revert C. intros C.
    assert (Z : forall l, Forall (borrowing None) l -> flat_map blks l = []).
    { induction 1 as [|p l P F IH]; cbn [flat_map]; [reflexivity|].
      rewrite IH. now destruct p. }
    apply (Z _ C).
Qed.

Lemma left_over_ok o : okO None (left_over o) /\ ownO (left_over o) = [].
Proof.
  split; [|reflexivity].
  split; [exact I|]. split; [exact I|]. cbn. repeat constructor.
Qed.

Lemma ownL_taken l : Forall (okO None) l -> ownL (map taken l) = ownL l.
Proof.
  induction 1 as [|o l O F IH]; cbn [map ownL flat_map]; [reflexivity|].
  destruct (taken_ok _ O) as (_ & -> & _). f_equal. exact IH.
Qed.

Lemma ownL_left l : ownL (map left_over l) = [].
Proof. induction l as [|o l IH]; cbn [map ownL flat_map]; auto. Qed.

Lemma regrow_ok h a n o h' L :
  regrow h a = (n, o, h') -> Forall (okO None) (items a) -> holds h (ownA a ++ L) ->
  snd n = map taken (items a) /\ items o = map left_over (items a) /\
  holds h' (ownA (Some n) ++ ownA o ++ L).
Proof.
  unfold regrow. intros E F H. destruct (alloc h) as [b h1] eqn:Eb.
  pose proof (alloc_holds _ _ _ _ Eb H) as H1.
  injection E as <- <- <-. cbn [snd].
  rewrite !map_map. split; [reflexivity|]. split.
  - destruct a as [[b0 l]|]; reflexivity.
  - cbn [ownA]. eapply holds_eq; [|exact H1].
    change (fun x => fst (swapData obj0 x)) with taken.
    rewrite (ownL_taken _ F).
    destruct a as [[b0 l]|]; cbn [items ownA].
    + change (fun x => borrow (snd (swapData obj0 x))) with left_over.
      rewrite ownL_left. cnt.
    + cnt.
Qed.

Lemma regrow_all_ok ks : forall h t news olds news' olds' h' L,
  NoDup ks ->
  regrow_all h ks t news olds = (news', olds', h') ->
  (forall k, In k ks -> Forall (okO None) (items (tget t k))) ->
  holds h (ownT ownA t ks ++ L) ->
  holds h' (ownT ownA news' ks ++ ownT ownA olds' ks ++ L) /\
  (forall k, ~ In k ks -> tget news' k = tget news k /\ tget olds' k = tget olds k) /\
  (forall k, In k ks -> exists b, tget news' k = Some (b, map taken (items (tget t k))) /\
                                  items (tget olds' k) = map left_over (items (tget t k))).
Proof.
  induction ks as [|k ks IH]; cbn [regrow_all ownT flat_map app]; intros * D E F H.
  - injection E as <- <- <-. split; [exact H|]. split; [auto|easy].
  - apply NoDup_cons_iff in D. destruct D as [N D].
    rewrite <- app_assoc in H.
    destruct (regrow h (tget t k)) as [[n o] h1] eqn:E1.
    destruct (regrow_ok _ _ _ _ _ _ E1 (F k (or_introl eq_refl)) H) as (A1 & A2 & H1).
    edestruct (IH h1 t _ _ _ _ _ (ownA (Some n) ++ ownA o ++ L) D E) as (H2 & K1 & K2).
    { intros k' I. apply F. now right. }
    { eapply holds_eq; [|exact H1]. unfold ownT. cnt. }
    destruct (K1 k N) as [Kn Ko]. rewrite tget_tset_same in Kn, Ko.
    split; [|split].
    + rewrite Kn, Ko. eapply holds_eq; [|exact H2]. unfold ownT. cnt.
    + intros k' I. destruct (K1 k') as [Q1 Q2]; [intros ?; apply I; now right|].
      rewrite Q1, Q2. rewrite !tget_tset_other; [auto| |]; intros ->; apply I; now left.
    + intros k' [<-|I].
      * exists (fst n). rewrite Kn, Ko, <- A1, A2. destruct n; auto.
      * apply K2, I.
Qed.

Lemma new_gates_ok ks : forall h t t' h' L,
  NoDup ks -> new_gates h ks t = (t', h') -> holds h (ownT ownG t ks ++ L) ->
  holds h' (ownT ownG t' ks ++ L) /\
  (forall k, items (tget t' k) = items (tget t k)) /\
  (forall k, ~ In k ks -> tget t' k = tget t k).
Proof.
  induction ks as [|k ks IH]; cbn [new_gates ownT flat_map app]; intros * D E H.
  - injection E as <- <-. auto.
  - apply NoDup_cons_iff in D. destruct D as [N D].
    rewrite <- app_assoc in H.
    destruct (new_opt (tget t k) h) as [[b l] h1] eqn:E1.
    assert (H1 : holds h1 (b :: ownT ownG t ks ++ L) /\ l = items (tget t k)).
    { unfold new_opt in E1. destruct (tget t k) as [[b0 l0]|].
      - injection E1 as <- <- <-. split; [exact H|reflexivity].
      - destruct (alloc h) as [b0 h0] eqn:E0. injection E1 as <- <- <-.
        split; [|reflexivity]. exact (alloc_holds _ _ _ _ E0 H). }
    destruct H1 as [H1 ->].
    edestruct (IH h1 _ _ _ (b :: L) D E) as (H2 & K1 & K2).
    { rewrite (ownT_ext ownG t).
      - eapply holds_eq; [|exact H1]. cnt.
      - intros k' I. apply tget_tset_other. intros ->. contradiction. }
    assert (Kk : tget t' k = Some (b, items (tget t k))).
    { rewrite (K2 k N). apply tget_tset_same. }
    split; [|split].
    + rewrite Kk. cbn [ownG]. eapply holds_eq; [|exact H2]. unfold ownT. cnt.
    + intro k'. rewrite K1. rewrite tget_tset. destruct (kind_eq_dec k k') as [<-|Ek]; [|reflexivity]. reflexivity.
    + intros k' I. rewrite K2 by (intros ?; apply I; now right).
      apply tget_tset_other. intros ->. apply I. now left.
Qed.

(** ** The second pass *)

Definition full (w : own) : Prop :=
  (forall k, tget (w_arrs w) k <> None) /\ w_host w <> None /\ w_ehost w <> None.

Lemma push_items {A} (a : arr A) x : a <> None -> items (push a x) = items a ++ [x].
Proof. destruct a as [[b l]|]; [reflexivity|congruence]. Qed.
Lemma push_some {A} (a : arr A) x : a <> None -> push a x <> None.
Proof. destruct a as [[b l]|]; cbn; congruence. Qed.
Lemma ownA_push a o z : a <> None -> cnt z (ownA (push a o)) = cnt z (ownA a) + cnt z (ownO o).
Proof.
  destruct a as [[b l]|]; [|congruence]. intros _. cbn [push ownA].
  rewrite ownL_app. revert z. unfold ownL at 2. cnt.
Qed.

Lemma insert_host_ok cur h o i x y x' y' h' L :
  insert_host h o i x y = (x', y', h') -> okO None o -> x <> None -> y <> None ->
  holds h (ownA x ++ ownA y ++ L) -> Forall (okO cur) (items x) -> Forall (okO cur) (items y) ->
  holds h' (ownA x' ++ ownA y' ++ L) /\ Forall (okO cur) (items x') /\
  Forall (okO cur) (items y') /\ x' <> None /\ y' <> None.
Proof.
  intros E O Nx Ny H Fx Fy. unfold insert_host in E.
  destruct i as [[e new]|]; [destruct new|].
  - destruct (copyObj h o) as [c h1] eqn:Ec.
    destruct (copyObj_ok _ _ _ _ _ _ Ec O H) as (Oc & Hc & _).
    apply (okO_none _ cur) in Oc.
    destruct e; injection E as <- <- <-; (split; [|split; [|split; [|split]]]); auto;
      try (rewrite push_items by auto; apply Forall_app; auto);
      try (apply push_some; auto).
    + eapply holds_eq; [|exact Hc]. intro z. rewrite !cnt_app, ownA_push by auto. lia.
    + eapply holds_eq; [|exact Hc]. intro z. rewrite !cnt_app, ownA_push by auto. lia.
  - injection E as <- <- <-. auto.
  - injection E as <- <- <-. auto.
Qed.

Lemma add_entries_ok n : forall h dom l,
  add_entries h n dom l = (l ++ repeat (gobj_of dom) n, h).
Proof.
  induction n as [|n IH]; intros; cbn [add_entries repeat].
  - now rewrite app_nil_r.
  - cbn [copyG gobj_of g_borrowed g_data]. rewrite IH. now rewrite <- app_assoc.
Qed.

Lemma okG_mono cur t t' g :
  (forall k o, In o (items (tget t k)) -> o_borrowed o = false ->
     exists k' o', In o' (items (tget t' k')) /\ o_borrowed o' = false /\ o_dom o' = o_dom o) ->
  okG cur t g -> okG cur t' g.
Proof.
  intros M [A B]. split; [auto|]. destruct (g_data g); auto.
  destruct B as [->|(k & o & I & Bo & E)]; [now left|right].
  destruct (M k o I Bo) as (k' & o' & I' & Bo' & E'). exists k', o'. rewrite E'. auto.
Qed.

Lemma pass2_ok cur w app lost s :
  inv (w, app) cur lost -> full w ->
  exists w' X, pass2 w s = Ok w' /\ length X = l_lost s /\
    inv (w', app) cur (X ++ lost) /\ full w'.
Proof.
  intros [H A Hx Hy G] (Fa & Fx & Fy); cbn [fst snd] in *. unfold pass2.
  destruct (read_line (w_heap w) s) as [o h1] eqn:E1.
  destruct (read_line_ok _ _ _ _ _ E1 H) as (X & EX & H1 & O & Bo).
  destruct (insert_host h1 o (l_insert s) (w_host w) (w_ehost w)) as [[x y] h2] eqn:E2.
  set (rest := ownT ownA (w_arrs w) kinds ++ ownB (w_bloom w) ++ ownB (w_ebloom w) ++
               ownT ownG (w_gates w) gated ++ ownB (w_bad w) ++ app ++ lost).
  edestruct (insert_host_ok cur _ _ _ _ _ _ _ _ (ownO o ++ X ++ rest) E2 O Fx Fy)
    as (H2 & Ox & Oy & Nx & Ny); auto.
  { eapply holds_eq; [|exact H1]. unfold ownW, rest. cnt. }
  destruct (ask_if (l_asks s) h2 o) as [o3 h3] eqn:E3.
  edestruct (ask_if_ok _ _ _ _ _ _ (ownA x ++ ownA y ++ X ++ rest) E3 O) as (O3 & H3 & B3 & F3).
  { eapply holds_eq; [|exact H2]. cnt. }
  rewrite Bo in B3.
  destruct (l_dest s) as [k|].
  - set (n := if isNull (o_dom o3) then 0 else l_entries s).
    set (gs := if is_gated k
               then tset (w_gates w) k (set_items (tget (w_gates w) k)
                      (items (tget (w_gates w) k) ++ repeat (gobj_of (o_dom o3)) n))
               else w_gates w).
    assert (Eg : (if is_gated k
         then let '(l, h) := add_entries h3 n (o_dom o3) (items (tget (w_gates w) k)) in
              (tset (w_gates w) k (set_items (tget (w_gates w) k) l), h)
         else (w_gates w, h3)) = (gs, h3)).
    { unfold gs. destruct (is_gated k); [|reflexivity]. now rewrite add_entries_ok. }
    fold n. rewrite Eg.
    destruct (swapData obj0 o3) as [slot o4] eqn:E4.
    assert (Es : slot = taken o3) by (unfold taken; now rewrite E4).
    assert (E4' : o4 = mkO false Null Null Null Null Null Null Null false false false false).
    { unfold swapData in E4. rewrite B3 in E4. injection E4 as _ <-. reflexivity. }
    destruct (taken_ok _ O3) as (Ot & Et & Bt & Dt). rewrite <- Es in Ot, Et, Bt, Dt.
    rewrite E4'. cbn [destroy free bind o_domains o_anti o_borrowed o_data o_rule o_dom o_tag o_host].
    eexists _, X. split; [reflexivity|]. split; [auto|].
    apply (okO_none _ cur) in Ot.
    set (arrs' := tset (w_arrs w) k (push (tget (w_arrs w) k) slot)).
    assert (Old : forall k' o', In o' (items (tget (w_arrs w) k')) -> In o' (items (tget arrs' k'))).
    { intros k' o' I. unfold arrs'. rewrite tget_tset.
      destruct (kind_eq_dec k k') as [<-|Ek]; [|auto].
      rewrite push_items by auto. apply in_or_app. now left. }
    assert (Cg : forall z, cnt z (ownT ownG gs gated) = cnt z (ownT ownG (w_gates w) gated)).
    { intro z. unfold gs. destruct (is_gated k) eqn:Eq; [|reflexivity].
      apply gated_is in Eq.
      pose proof (ownT_tset ownG (w_gates w) k (set_items (tget (w_gates w) k)
        (items (tget (w_gates w) k) ++ repeat (gobj_of (o_dom o3)) n)) gated z gated_nodup Eq) as Q.
      destruct (tget (w_gates w) k) as [[b l]|]; cbn [ownG set_items] in Q |- *; lia. }
    split; [split; cbn [fst snd w_heap w_arrs w_host w_ehost w_gates]|].
    + eapply holds_eq; [|exact H3].
      unfold ownW, rest; cbn [w_heap w_arrs w_bloom w_ebloom w_host w_ehost w_gates w_bad].
      intro z. fold arrs'.
      pose proof (ownT_tset ownA (w_arrs w) k (push (tget (w_arrs w) k) slot) kinds z
                    kinds_nodup (kinds_all k)) as Q. fold arrs' in Q.
      rewrite ownA_push in Q by auto. rewrite Et in Q.
      rewrite !cnt_app, Cg. lia.
    + intro k'. fold arrs'. unfold arrs'. rewrite tget_tset.
      destruct (kind_eq_dec k k') as [<-|Ek]; [|apply A].
      rewrite push_items by auto. apply Forall_app. auto.
    + exact Ox.
    + exact Oy.
    + intro k'. fold arrs'.
      assert (K0 : Forall (okG cur arrs') (items (tget (w_gates w) k'))).
      { eapply Forall_impl; [|apply G]. intros g. apply okG_mono.
        intros k1 o1 I1 B1. exists k1, o1. auto. }
      unfold gs. destruct (is_gated k) eqn:Eq; [|exact K0].
      rewrite tget_tset. destruct (kind_eq_dec k k') as [<-|Ek]; [|exact K0].
      destruct (tget (w_gates w) k) as [[b l]|] eqn:Eg'; cbn [set_items items] in K0 |- *; [|constructor].
      apply Forall_app. split; [exact K0|].
      apply Forall_forall. intros g Ig. unfold n in Ig. destruct O3 as (_ & _ & O3). rewrite B3 in O3. unfold fields in O3.
      apply Forall_cons_iff in O3. destruct O3 as [_ O3].
      apply Forall_cons_iff in O3. destruct O3 as [_ O3].
      apply Forall_cons_iff in O3. destruct O3 as [O3 _].
      destruct (o_dom o3) as [|b1|b1] eqn:Ed; cbn [owning] in O3; [| |easy].
      * destruct Ig.
      * apply repeat_spec in Ig. subst g. split; [reflexivity|]. cbn [gobj_of g_data].
        right. exists k, slot. split; [|split; [exact Bt|exact Dt]].
        unfold arrs'. rewrite tget_tset_same, push_items by auto. apply in_or_app. right. now left.
    + split; [|split; cbn; auto]. intro k'. cbn [w_arrs]. fold arrs'. unfold arrs'. rewrite tget_tset.
      destruct (kind_eq_dec k k'); [apply push_some|]; apply Fa.
  - destruct (destroy_ok _ _ _ _ O3 H3) as (h4 & -> & H4). cbn [bind].
    eexists _, X. split; [reflexivity|]. split; [auto|].
    split; [split; cbn [fst snd w_heap w_arrs w_host w_ehost w_gates]; auto|].
    + eapply holds_eq; [|exact H4].
      unfold ownW, rest; cbn [w_heap w_arrs w_bloom w_ebloom w_host w_ehost w_gates w_bad]. cnt.
    + split; [|split]; auto.
Qed.
