From Coq Require Import Lia.
From Verif Require Import Base Flags Sets FilterM ParseM ClientM OwnM Spec SpecM SpecO
  P_Base P_List P_Own P_Own2.

Lemma pass2_all cur ls : forall w app lost,
  inv (w, app) cur lost -> full w ->
  exists w' X, foldM pass2 w ls = Ok w' /\ length X = sum_lost ls /\
    inv (w', app) cur (X ++ lost).
Proof.
  induction ls as [|s ls IH]; cbn [foldM]; intros w app lost H F.
  - exists w, []. auto.
  - destruct (pass2_ok cur w app lost s H F) as (w1 & X & -> & E & H1 & F1). cbn [bind].
    destruct (IH w1 app _ H1 F1) as (w2 & Y & -> & E2 & H2).
    exists w2, (Y ++ X). split; [auto|]. split.
    + rewrite app_length. cbn [sum_lost fold_right]. fold (sum_lost ls). lia.
    + now rewrite <- app_assoc.
Qed.

Lemma new_blk_ok o h b h' L :
  new_blk o h = (b, h') -> holds h (ownB o ++ L) -> holds h' (ownB (Some b) ++ L).
Proof.
  destruct o as [b0|]; cbn [new_blk ownB app].
  - now intros [= <- <-].
  - intros E H. exact (alloc_holds _ _ _ _ E H).
Qed.

Lemma new_opt_ok a h (b : nat) (l : list fobj) h' L :
  new_opt a h = (b, l, h') -> holds h (ownA a ++ L) ->
  holds h' (ownA (Some (b, l)) ++ L) /\ l = items a.
Proof.
  destruct a as [[b0 l0]|]; cbn [new_opt ownA app items].
  - now intros [= <- <- <-].
  - destruct (alloc h) as [b1 h1] eqn:E. intros [= <- <- <-] H.
    split; [|reflexivity]. exact (alloc_holds _ _ _ _ E H).
Qed.

Lemma parse_over_ok cur w app lost ls :
  inv (w, app) cur lost -> (forall k, Forall (okO None) (items (tget (w_arrs w) k))) ->
  exists w' X, oparse w ls = Ok w' /\ length X = 2 * sum_lost ls /\
    inv (w', app) cur (X ++ lost).
Proof.
  intros [H _ Hx Hy G] A; cbn [fst snd] in *. unfold oparse.
  destruct (new_blk (w_bloom w) (w_heap w)) as [b1 h1] eqn:E1.
  set (T := ownT ownA (w_arrs w) kinds).
  set (Gs := ownT ownG (w_gates w) gated).
  assert (H1 : holds h1 (ownB (Some b1) ++ ownB (w_ebloom w) ++ ownA (w_host w) ++
                         ownA (w_ehost w) ++ Gs ++ T ++ ownB (w_bad w) ++ app ++ lost)).
  { eapply new_blk_ok; [exact E1|]. eapply holds_eq; [|exact H]. unfold ownW, T, Gs. cnt. }
  destruct (new_blk (w_ebloom w) h1) as [b2 h2] eqn:E2.
  assert (H2 : holds h2 (ownB (Some b2) ++ ownB (Some b1) ++ ownA (w_host w) ++
                         ownA (w_ehost w) ++ Gs ++ T ++ ownB (w_bad w) ++ app ++ lost)).
  { eapply new_blk_ok; [exact E2|]. eapply holds_eq; [|exact H1]. cnt. }
  destruct (new_opt (w_host w) h2) as [[n1 l1] h3] eqn:E3.
  edestruct (new_opt_ok _ _ _ _ _ (ownB (Some b2) ++ ownB (Some b1) ++ ownA (w_ehost w) ++
               Gs ++ T ++ ownB (w_bad w) ++ app ++ lost) E3) as [H3 El1].
  { eapply holds_eq; [|exact H2]. cnt. }
  destruct (new_opt (w_ehost w) h3) as [[n2 l2] h4] eqn:E4.
  edestruct (new_opt_ok _ _ _ _ _ (ownA (Some (n1, l1)) ++ ownB (Some b2) ++ ownB (Some b1) ++
               Gs ++ T ++ ownB (w_bad w) ++ app ++ lost) E4) as [H4 El2].
  { eapply holds_eq; [|exact H3]. cnt. }
  destruct (new_gates h4 gated (w_gates w)) as [gs h5] eqn:E5.
  edestruct (new_gates_ok gated _ _ _ _ (ownA (Some (n2, l2)) ++ ownA (Some (n1, l1)) ++
               ownB (Some b2) ++ ownB (Some b1) ++ T ++ ownB (w_bad w) ++ app ++ lost)
               gated_nodup E5) as (H5 & Ig & _).
  { eapply holds_eq; [|exact H4]. fold Gs. cnt. }
  destruct (pass1_all ls _ _ H5) as (h6 & X & -> & EX & H6). cbn [bind].
  destruct (regrow_all h6 kinds (w_arrs w) (tall None) (tall None)) as [[news olds] h7] eqn:E7.
  set (R := X ++ ownT ownG gs gated ++ ownA (Some (n2, l2)) ++ ownA (Some (n1, l1)) ++
            ownB (Some b2) ++ ownB (Some b1) ++ ownB (w_bad w) ++ app ++ lost).
  edestruct (regrow_all_ok kinds _ _ _ _ _ _ _ R kinds_nodup E7) as (H7 & _ & K7).
  { intros k _. apply A. }
  { eapply holds_eq; [|exact H6]. fold T. unfold R. cnt. }
  edestruct (destroyTab_ok None olds kinds h7 (ownT ownA news kinds ++ R)) as (h8 & -> & H8).
  { intros k I. destruct (K7 k I) as (b & _ & ->).
    apply Forall_forall. intros o Io. apply in_map_iff in Io. destruct Io as (o1 & <- & _).
    apply left_over_ok. }
  { eapply holds_eq; [|exact H7]. cnt. }
  cbn [bind].
  edestruct (pass2_all cur ls (mkW h8 news (Some b1) (Some b2) (Some (n1, l1)) (Some (n2, l2)) gs
                               (w_bad w)) app (X ++ lost)) as (w' & Y & -> & EY & H9).
  - split; cbn [fst snd w_heap w_arrs w_host w_ehost w_gates items].
    + eapply holds_eq; [|exact H8].
      unfold ownW, R; cbn [w_arrs w_bloom w_ebloom w_host w_ehost w_gates w_bad]. cnt.
    + intro k. destruct (K7 k (kinds_all k)) as (b & -> & _). cbn [items].
      apply Forall_forall. intros o Io. apply in_map_iff in Io. destruct Io as (o1 & <- & I1).
      apply okO_none, taken_ok. specialize (A k). rewrite Forall_forall in A. auto.
    + now subst l1.
    + now subst l2.
    + intro k. rewrite Ig. eapply Forall_impl; [|apply G]. intros g. apply okG_mono.
      intros k1 o1 I1 B1. exists k1, (taken o1).
      destruct (K7 k1 (kinds_all k1)) as (b & -> & _). cbn [items].
      split; [now apply in_map|]. split; reflexivity.
  - split; [|split; cbn; congruence]. intro k. cbn [w_arrs].
    destruct (K7 k (kinds_all k)) as (b & -> & _). congruence.
  - exists w', (Y ++ X). split; [reflexivity|]. split.
    + rewrite app_length. lia.
    + now rewrite <- app_assoc.
Qed.

Lemma parse_ok w app lost ls :
  inv (w, app) None lost ->
  exists w' X, oparse w ls = Ok w' /\ length X = 2 * sum_lost ls /\
    inv (w', app) None (X ++ lost).
Proof. intros V. apply parse_over_ok; [exact V|]. apply (i_arrs _ _ _ V). Qed.

(** ** Queries *)

Lemma live_in h L b : holds h L -> In b L -> live h b = true.
Proof.
  intros (A & _) I. apply live_cnt. rewrite A. now apply (count_occ_In Nat.eq_dec).
Qed.

Lemma use_ok h p b : p = At b \/ p = Inside b -> live h b = true -> use h p = Ok tt.
Proof. intros [-> | ->] H; cbn; now rewrite H. Qed.

Lemma use_field h L cur o p :
  holds h L -> okO cur o -> (forall b, In b (ownO o) -> In b L) ->
  (forall b, cur = Some b -> In b L) -> In p (fields o) -> use h p = Ok tt.
Proof.
  intros H (_ & _ & F) I1 I2 Ip. rewrite Forall_forall in F. specialize (F p Ip).
  destruct p as [|b|b]; [reflexivity| |].
  - apply (use_ok _ _ b); [auto|]. eapply live_in; [exact H|]. apply I1.
    unfold ownO. destruct (o_borrowed o); [easy|].
    apply in_or_app. right. apply in_or_app. right.
    apply in_flat_map. exists (At b). split; [auto|now left].
  - apply (use_ok _ _ b); [auto|]. eapply live_in; [exact H|].
    destruct (o_borrowed o); [auto|easy].
Qed.

Lemma use_obj_ok h L cur o :
  holds h L -> okO cur o -> (forall b, In b (ownO o) -> In b L) ->
  (forall b, cur = Some b -> In b L) -> use_obj h o = Ok tt.
Proof.
  intros H O I1 I2. unfold use_obj.
  assert (U : forall p, In p (fields o) -> use h p = Ok tt)
    by (intros; eapply use_field; eauto).
  unfold fields in U.
  rewrite !U by (cbn; tauto). reflexivity.
Qed.

Lemma use_all_ok {A} (u : heap -> A -> res unit) h l :
  (forall x, In x l -> u h x = Ok tt) -> use_all u h l = Ok tt.
Proof.
  induction l as [|x l IH]; cbn [use_all]; intros H; [reflexivity|].
  rewrite H by now left. cbn [bind]. apply IH. intros; apply H; now right.
Qed.

(** Same pointers, possibly with the domain list parsed. *)
Definition alike (o c : fobj) : Prop := o_borrowed c = o_borrowed o /\ fields c = fields o.

Lemma touch_ok cur l : forall h t l' h' L,
  touch h l t = (l', h') -> Forall (okO cur) l -> holds h (ownL l ++ L) ->
  Forall (okO cur) l' /\ holds h' (ownL l' ++ L) /\ Forall2 alike l l'.
Proof.
  induction l as [|o l IH]; cbn [touch]; intros h t l' h' L E F H.
  - injection E as <- <-. auto.
  - apply Forall_cons_iff in F. destruct F as [F1 F].
    destruct (ask_if (t 0) h o) as [o1 h1] eqn:E1.
    destruct (touch h1 l (fun i => t (S i))) as [l1 h2] eqn:E2.
    injection E as <- <-.
    cbn [ownL flat_map] in H. rewrite <- app_assoc in H.
    destruct (ask_if_ok _ _ _ _ _ _ _ E1 F1 H) as (O1 & H1 & B1 & Fi).
    edestruct (IH h1 _ _ _ (ownO o1 ++ L) E2 F) as (F2 & H2 & A2).
    { eapply holds_eq; [|exact H1]. unfold ownL. cnt. }
    split; [now constructor|]. split.
    + eapply holds_eq; [|exact H2]. unfold ownL; cbn [flat_map]. cnt.
    + constructor; [now split|auto].
Qed.

Lemma touch_arr_ok cur a h t a' h' L :
  touch_arr h a t = (a', h') -> Forall (okO cur) (items a) -> holds h (ownA a ++ L) ->
  Forall (okO cur) (items a') /\ holds h' (ownA a' ++ L) /\ Forall2 alike (items a) (items a').
Proof.
  destruct a as [[b l]|]; cbn [touch_arr items ownA]; intros E F H.
  - destruct (touch h l t) as [l1 h1] eqn:E1. injection E as <- <-. cbn [items ownA].
    edestruct (touch_ok cur l _ _ _ _ (b :: L) E1 F) as (F1 & H1 & A1).
    { eapply holds_eq; [|exact H]. cnt. }
    split; [auto|]. split; [|auto]. eapply holds_eq; [|exact H1]. cnt.
  - injection E as <- <-. split; [constructor|]. split; [exact H|constructor].
Qed.

Lemma alike_refl l : Forall2 alike l l.
Proof. induction l; constructor; [now split|auto]. Qed.

Lemma touch_tab_ok cur ks : forall h a t a' h' L,
  NoDup ks -> touch_tab h ks a t = (a', h') ->
  (forall k, Forall (okO cur) (items (tget a k))) ->
  holds h (ownT ownA a ks ++ L) ->
  (forall k, Forall (okO cur) (items (tget a' k))) /\
  holds h' (ownT ownA a' ks ++ L) /\
  (forall k, Forall2 alike (items (tget a k)) (items (tget a' k))) /\
  (forall k, ~ In k ks -> tget a' k = tget a k).
Proof.
  induction ks as [|k ks IH]; cbn [touch_tab]; intros h a t a' h' L D E F H.
  - injection E as <- <-. split; [auto|]. split; [auto|]. split; [|auto].
    intro. apply alike_refl.
  - apply NoDup_cons_iff in D. destruct D as [N D].
    cbn [ownT flat_map] in H. rewrite <- app_assoc in H.
    destruct (touch_arr h (tget a k) (t k)) as [x h1] eqn:E1.
    destruct (touch_arr_ok _ _ _ _ _ _ _ E1 (F k) H) as (F1 & H1 & A1).
    edestruct (IH h1 _ _ _ _ (ownA x ++ L) D E) as (F2 & H2 & A2 & K2).
    { intro k'. rewrite tget_tset. destruct (kind_eq_dec k k'); auto. }
    { rewrite (ownT_ext ownA a).
      - eapply holds_eq; [|exact H1]. unfold ownT. cnt.
      - intros k' I. apply tget_tset_other. intros ->. contradiction. }
    split; [auto|]. split; [|split].
    + unfold ownT; cbn [flat_map]. rewrite (K2 k N), tget_tset_same.
      eapply holds_eq; [|exact H2]. unfold ownT. cnt.
    + intro k'. specialize (A2 k'). rewrite tget_tset in A2.
      destruct (kind_eq_dec k k') as [<-|]; [|exact A2].
      rewrite (K2 k N), tget_tset_same. exact A1.
    + intros k' I. rewrite K2 by (intros ?; apply I; now right).
      apply tget_tset_other. intros ->. apply I. now left.
Qed.

Lemma alike_in l l' o : Forall2 alike l l' -> In o l -> exists o', In o' l' /\ alike o o'.
Proof.
  induction 1 as [|x y l l' A F IH]; [easy|]. intros [->|I].
  - exists y. split; [now left|auto].
  - destruct (IH I) as (o' & I' & A'). exists o'. split; [now right|auto].
Qed.

Lemma in_ownL o l b : In o l -> In b (ownO o) -> In b (ownL l).
Proof. intros I Ib. unfold ownL. apply in_flat_map. eauto. Qed.

Lemma in_ownA o a b : In o (items a) -> In b (ownO o) -> In b (ownA a).
Proof.
  destruct a as [[b0 l]|]; cbn [items ownA]; [|easy].
  intros I Ib. right. eapply in_ownL; eauto.
Qed.

Lemma in_ownW_arr w k o b : In o (items (tget (w_arrs w) k)) -> In b (ownO o) -> In b (ownW w).
Proof.
  intros I Ib. unfold ownW. apply in_or_app. left. unfold ownT. apply in_flat_map.
  exists k. split; [apply kinds_all|]. eapply in_ownA; eauto.
Qed.

Lemma in_ownW_host w o b : In o (items (w_host w)) -> In b (ownO o) -> In b (ownW w).
Proof.
  intros I Ib. unfold ownW. do 3 (apply in_or_app; right). apply in_or_app; left.
  eapply in_ownA; eauto.
Qed.

Lemma in_ownW_ehost w o b : In o (items (w_ehost w)) -> In b (ownO o) -> In b (ownW w).
Proof.
  intros I Ib. unfold ownW. do 4 (apply in_or_app; right). apply in_or_app; left.
  eapply in_ownA; eauto.
Qed.

Lemma ask_ok w app lost cur t :
  inv (w, app) cur lost -> keeps app cur ->
  exists w', oask w t = Ok w' /\ inv (w', app) cur lost.
Proof.
  intros [H A Hx Hy G] K; cbn [fst snd] in *. unfold oask.
  set (L := ownW w ++ app ++ lost) in *.
  assert (KL : forall b, cur = Some b -> In b L).
  { intros b E. unfold L. apply in_or_app. right. apply in_or_app. left. now apply K. }
  assert (WL : forall b, In b (ownW w) -> In b L).
  { intros b I. unfold L. apply in_or_app. now left. }
  rewrite use_all_ok; cbn [bind].
  2:{ intros k _. apply use_all_ok. intros o I.
      specialize (A k). rewrite Forall_forall in A.
      eapply use_obj_ok; [exact H|apply A, I| |exact KL].
      intros b Ib. apply WL. eapply in_ownW_arr; eauto. }
  rewrite Forall_forall in Hx, Hy.
  rewrite (use_all_ok use_obj); cbn [bind].
  2:{ intros o I. eapply use_obj_ok; [exact H|apply Hx, I| |exact KL].
      intros b Ib. apply WL. eapply in_ownW_host; eauto. }
  rewrite (use_all_ok use_obj); cbn [bind].
  2:{ intros o I. eapply use_obj_ok; [exact H|apply Hy, I| |exact KL].
      intros b Ib. apply WL. eapply in_ownW_ehost; eauto. }
  rewrite use_all_ok; cbn [bind].
  2:{ intros k _. apply use_all_ok. intros g I.
      specialize (G k). rewrite Forall_forall in G. destruct (G g I) as [_ Gg].
      destruct (g_data g) as [|b|b]; try easy.
      apply (use_ok _ _ b); [now right|]. eapply live_in; [exact H|].
      destruct Gg as [E|(k' & o & Io & Bo & Ed)]; [auto|].
      apply WL. eapply in_ownW_arr; [exact Io|]. unfold ownO. rewrite Bo.
      apply in_or_app. right. apply in_or_app. right. apply in_flat_map.
      exists (At b). split; [|now left]. rewrite <- Ed. cbn. tauto. }
  rewrite <- Forall_forall in Hx, Hy.
  destruct (touch_tab (w_heap w) kinds (w_arrs w) (t_arrs t)) as [a h1] eqn:E1.
  set (R := ownB (w_bloom w) ++ ownB (w_ebloom w) ++ ownT ownG (w_gates w) gated ++
            ownB (w_bad w) ++ app ++ lost).
  edestruct (touch_tab_ok cur kinds _ _ _ _ _ (ownA (w_host w) ++ ownA (w_ehost w) ++ R)
              kinds_nodup E1 A) as (A1 & H1 & S1 & _).
  { eapply holds_eq; [|exact H]. unfold L, R, ownW. cnt. }
  destruct (touch_arr h1 (w_host w) (t_host t)) as [x h2] eqn:E2.
  edestruct (touch_arr_ok cur _ _ _ _ _ (ownT ownA a kinds ++ ownA (w_ehost w) ++ R) E2 Hx)
    as (A2 & H2 & S2).
  { eapply holds_eq; [|exact H1]. cnt. }
  destruct (touch_arr h2 (w_ehost w) (t_ehost t)) as [y h3] eqn:E3.
  edestruct (touch_arr_ok cur _ _ _ _ _ (ownT ownA a kinds ++ ownA x ++ R) E3 Hy)
    as (A3 & H3 & S3).
  { eapply holds_eq; [|exact H2]. cnt. }
  eexists. split; [reflexivity|].
  split; cbn [fst snd w_heap w_arrs w_host w_ehost w_gates]; auto.
  - eapply holds_eq; [|exact H3]. unfold ownW, R;
      cbn [w_arrs w_bloom w_ebloom w_host w_ehost w_gates w_bad]. cnt.
  - intro k. eapply Forall_impl; [|apply G]. intros g. apply okG_mono.
    intros k1 o1 I1 B1. destruct (alike_in _ _ _ (S1 k1) I1) as (o2 & I2 & Eb & Ef).
    exists k1, o2. split; [auto|]. split; [congruence|]. unfold fields in Ef. congruence.
Qed.

Lemma serialize_ok w app lost cur :
  inv (w, app) cur lost -> keeps app cur ->
  exists w' b, oserialize w = Ok (w', b) /\ inv (w', b :: app) cur lost.
Proof.
  intros V K. unfold oserialize.
  edestruct (ask_ok w app lost cur) as (w1 & -> & _); [exact V|exact K|]. cbn [bind].
  destruct (alloc (w_heap w)) as [b h] eqn:E.
  destruct V as [H A Hx Hy G]; cbn [fst snd] in *.
  pose proof (alloc_holds _ _ _ _ E H) as H1.
  eexists _, b. split; [reflexivity|].
  split; cbn [fst snd w_heap w_arrs w_host w_ehost w_gates]; auto.
  eapply holds_eq; [|exact H1]. unfold ownW;
    cbn [w_arrs w_bloom w_ebloom w_host w_ehost w_gates w_bad]. cnt.
Qed.

(** ** deserialize *)

Lemma obj_in_ok b s : okO (Some b) (obj_in b s) /\ ownO (obj_in b s) = [].
Proof.
  split; [|reflexivity].
  split; [exact I|]. split; [exact I|]. cbn.
  assert (W : forall c, borrowing (Some b) (within c b)) by (intros []; cbn; auto).
  repeat (constructor; [apply W || exact I|]). constructor.
Qed.

Lemma objs_in_ok b l : Forall (okO (Some b)) (map (obj_in b) l) /\ ownL (map (obj_in b) l) = [].
Proof.
  induction l as [|s l [IH1 IH2]]; cbn [map ownL flat_map]; [now split|].
  destruct (obj_in_ok b s) as [O1 O2]. split; [now constructor|].
  rewrite O2. exact IH2.
Qed.

Lemma new_arrs_ok b f ks : forall h t t' h' L,
  NoDup ks -> new_arrs h ks b f t = (t', h') -> holds h L ->
  (forall k, Forall (okO (Some b)) (items (tget t k))) ->
  (forall k, Forall (okO (Some b)) (items (tget t' k))) /\
  holds h' (ownT ownA t' ks ++ L) /\ (forall k, ~ In k ks -> tget t' k = tget t k).
Proof.
  induction ks as [|k ks IH]; cbn [new_arrs]; intros * D E H F.
  - injection E as <- <-. auto.
  - apply NoDup_cons_iff in D. destruct D as [N D].
    destruct (alloc h) as [n h1] eqn:E1.
    pose proof (alloc_holds _ _ _ _ E1 H) as H1.
    edestruct (IH h1 _ _ _ (n :: L) D E H1) as (F2 & H2 & K2).
    { intro k'. rewrite tget_tset. destruct (kind_eq_dec k k'); [|auto].
      cbn [items]. apply objs_in_ok. }
    split; [auto|]. split.
    + unfold ownT; cbn [flat_map]. rewrite (K2 k N), tget_tset_same. cbn [ownA].
      rewrite (proj2 (objs_in_ok _ _)).
      eapply holds_eq; [|exact H2]. unfold ownT. cnt.
    + intros k' I. rewrite K2 by (intros ?; apply I; now right).
      apply tget_tset_other. intros ->. apply I. now left.
Qed.

Lemma new_oblk_ok c h o h' L : new_oblk c h = (o, h') -> holds h L -> holds h' (ownB o ++ L).
Proof.
  destruct c; cbn [new_oblk].
  - destruct (alloc h) as [b h1] eqn:E. intros [= <- <-] H. exact (alloc_holds _ _ _ _ E H).
  - now intros [= <- <-].
Qed.

Lemma new_set_ok b h o x h' L :
  new_set h (option_map (map (obj_in b)) o) = (x, h') -> holds h L ->
  Forall (okO (Some b)) (items x) /\ holds h' (ownA x ++ L).
Proof.
  destruct o as [l|]; cbn [option_map new_set].
  - destruct (alloc h) as [n h1] eqn:E. intros [= <- <-] H. cbn [items ownA].
    destruct (objs_in_ok b l) as [O1 O2]. split; [auto|]. rewrite O2.
    exact (alloc_holds _ _ _ _ E H).
  - intros [= <- <-] H. split; [constructor|exact H].
Qed.

Lemma new_sets_ok b f ks : forall h t t' h' L,
  NoDup ks -> new_sets h ks b f t = (t', h') -> holds h L ->
  (forall k, Forall (fun g => g = mkG true (Inside b)) (items (tget t k))) ->
  (forall k, Forall (fun g => g = mkG true (Inside b)) (items (tget t' k))) /\
  holds h' (ownT ownG t' ks ++ L) /\ (forall k, ~ In k ks -> tget t' k = tget t k).
Proof.
  induction ks as [|k ks IH]; cbn [new_sets]; intros * D E H F.
  - injection E as <- <-. auto.
  - apply NoDup_cons_iff in D. destruct D as [N D].
    destruct (new_set h (option_map (repeat (mkG true (Inside b))) (f k))) as [x h1] eqn:E1.
    assert (H1 : holds h1 (ownG x ++ L) /\ Forall (fun g => g = mkG true (Inside b)) (items x)).
    { destruct (f k) as [n|]; cbn [option_map new_set] in E1.
      - destruct (alloc h) as [n0 h0] eqn:E0. injection E1 as <- <-. split.
        + exact (alloc_holds _ _ _ _ E0 H).
        + cbn [items]. apply Forall_forall. intros g. apply repeat_spec.
      - injection E1 as <- <-. split; [exact H|constructor]. }
    destruct H1 as [H1 F1].
    edestruct (IH h1 _ _ _ (ownG x ++ L) D E H1) as (F2 & H2 & K2).
    { intro k'. rewrite tget_tset. destruct (kind_eq_dec k k'); auto. }
    split; [auto|]. split.
    + unfold ownT; cbn [flat_map]. rewrite (K2 k N), tget_tset_same.
      eapply holds_eq; [|exact H2]. unfold ownT. cnt.
    + intros k' I. rewrite K2 by (intros ?; apply I; now right).
      apply tget_tset_other. intros ->. apply I. now left.
Qed.

Lemma deserialize_ok w app lost cur b d :
  inv (w, app) cur lost -> In b app ->
  exists w', odeserialize w b d = Ok w' /\ inv (w', app) (Some b) lost.
Proof.
  intros V Ib. unfold odeserialize.
  destruct (clear_ok _ _ _ _ V) as (h0 & -> & H0). cbn [bind own0 w_heap].
  rewrite (use_ok h0 (Inside b) b); [cbn [bind]|now right|].
  2:{ eapply live_in; [exact H0|]. apply in_or_app. now left. }
  destruct (new_arrs h0 kinds b (d_arrs d) (tall None)) as [a h1] eqn:E1.
  edestruct (new_arrs_ok b _ kinds _ _ _ _ _ kinds_nodup E1 H0) as (A1 & H1 & _).
  { intro k. rewrite tget_tall. constructor. }
  destruct (new_oblk (d_bloom d) h1) as [b1 h2] eqn:E2.
  pose proof (new_oblk_ok _ _ _ _ _ E2 H1) as H2.
  destruct (new_oblk (d_ebloom d) h2) as [b2 h3] eqn:E3.
  pose proof (new_oblk_ok _ _ _ _ _ E3 H2) as H3.
  destruct (new_set h3 (option_map (map (obj_in b)) (d_host d))) as [x h4] eqn:E4.
  destruct (new_set_ok _ _ _ _ _ _ E4 H3) as [F4 H4].
  destruct (new_set h4 (option_map (map (obj_in b)) (d_ehost d))) as [y h5] eqn:E5.
  destruct (new_set_ok _ _ _ _ _ _ E5 H4) as [F5 H5].
  destruct (new_sets h5 gated b (d_gates d) (tall None)) as [g h6] eqn:E6.
  edestruct (new_sets_ok b _ gated _ _ _ _ _ gated_nodup E6 H5) as (G6 & H6 & _).
  { intro k. rewrite tget_tall. constructor. }
  eexists. split; [reflexivity|].
  split; cbn [fst snd w_heap w_arrs w_host w_ehost w_gates]; auto.
  - eapply holds_eq; [|exact H6]. unfold ownW;
      cbn [w_arrs w_bloom w_ebloom w_host w_ehost w_gates w_bad ownB]. cnt.
  - intro k. eapply Forall_impl; [|apply G6]. cbn beta. intros z ->. split; [reflexivity|].
    cbn [g_data]. now left.
Qed.

(** ** Whole lives *)

Lemma set_heap_ownW w h : ownW (set_heap w h) = ownW w.
Proof. reflexivity. Qed.

Lemma step_ok s cur lost e :
  inv s cur lost -> polite (snd s) cur e ->
  match e with EParse _ => cur = None | _ => True end ->
  exists s' X, step s e = Ok s' /\ length X = lost_in e /\
    inv s' (buffer_after cur e) (X ++ lost).
Proof.
  destruct s as [w app]. intros V P N. cbn [snd] in P.
  destruct e as [ls| |t| |b d| | |b]; cbn [step polite buffer_after lost_in] in *.
  - subst cur. destruct (parse_ok w app lost ls V) as (w' & X & -> & E & V').
    exists (w', app), X. auto.
  - destruct (clear_ok _ _ _ _ V) as (h & -> & H). eexists (own0 h, app), [].
    split; [reflexivity|]. split; [reflexivity|]. now apply inv_own0.
  - destruct (ask_ok w app lost cur t V P) as (w' & -> & V').
    exists (w', app), []. auto.
  - destruct (serialize_ok w app lost cur V P) as (w' & b & -> & V').
    exists (w', b :: app), []. auto.
  - destruct (deserialize_ok w app lost cur b d V P) as (w' & -> & V').
    exists (w', app), []. auto.
  - eexists _, []. split; [reflexivity|]. split; [reflexivity|]. cbn [Datatypes.app].
    unfold oenable. destruct (w_bad w) eqn:Eb; [exact V|].
    destruct (alloc (w_heap w)) as [b h] eqn:E.
    destruct V as [H A Hx Hy G]; cbn [fst snd] in *.
    pose proof (alloc_holds _ _ _ _ E H) as H1.
    split; cbn [fst snd w_heap w_arrs w_host w_ehost w_gates]; auto.
    eapply holds_eq; [|exact H1]. unfold ownW;
      cbn [w_arrs w_bloom w_ebloom w_host w_ehost w_gates w_bad].
    rewrite Eb. cbn [ownB]. cnt.
  - destruct (alloc (w_heap w)) as [b h] eqn:E.
    destruct V as [H A Hx Hy G]; cbn [fst snd] in *.
    pose proof (alloc_holds _ _ _ _ E H) as H1.
    eexists _, []. split; [reflexivity|]. split; [reflexivity|].
    split; cbn [fst snd set_heap w_heap w_arrs w_host w_ehost w_gates Datatypes.app]; auto.
    rewrite set_heap_ownW. eapply holds_eq; [|exact H1]. cnt.
  - destruct V as [H A Hx Hy G]; cbn [fst snd] in *.
    assert (H' : holds (w_heap w) (b :: ownW w ++ List.remove Nat.eq_dec b app ++ lost)).
    { eapply holds_eq; [|exact H]. intro z. cbn [count_occ].
      rewrite !cnt_app, cnt_remove.
      destruct H as (HA & HB & _). specialize (HA b). specialize (HB b).
      rewrite HA in HB. rewrite !cnt_app in HB.
      apply (count_occ_In Nat.eq_dec) in P.
      destruct (Nat.eq_dec b z) as [<-|Ez]; lia. }
    destruct (free_holds _ _ _ H') as (h & -> & H1). cbn [bind].
    eexists _, []. split; [reflexivity|]. split; [reflexivity|].
    split; cbn [fst snd set_heap w_heap w_arrs w_host w_ehost w_gates Datatypes.app]; auto.
Qed.

Lemma life_ok es : forall s cur lost,
  inv s cur lost -> used_well s cur es -> no_parse_over cur es ->
  exists s' X, foldM step s es = Ok s' /\ length X = lost_total es /\
    inv s' (fold_left buffer_after es cur) (X ++ lost).
Proof.
  induction es as [|e es IH]; cbn [foldM used_well no_parse_over lost_total fold_right fold_left];
    intros s cur lost V U N.
  - exists s, []. auto.
  - destruct U as [P U]. destruct N as [N0 N].
    destruct (step_ok s cur lost e V P N0) as (s1 & X & E & EX & V1).
    rewrite E. cbn [bind].
    destruct (IH s1 _ _ V1 (U s1 E) N) as (s2 & Y & -> & EY & V2).
    exists s2, (Y ++ X). split; [reflexivity|]. split.
    + rewrite app_length. fold (lost_total es). lia.
    + now rewrite <- app_assoc.
Qed.

Lemma inv0 : inv life0 None [].
Proof.
  apply inv_own0. unfold holds, heap0; cbn. repeat split; intros; try lia.
Qed.

Lemma whole_ok es :
  used_well life0 None es -> no_parse_over None es ->
  exists w app X, whole_life es = Ok (w, app) /\ length X = lost_total es /\
    NoDup (h_live (w_heap w)) /\
    forall b, In b (h_live (w_heap w)) <-> In b app \/ In b X.
Proof.
  intros U N. unfold whole_life, live_through.
  destruct (life_ok es life0 None [] inv0 U N) as ([w app] & X & -> & E & V).
  cbn [bind step]. rewrite app_nil_r in V.
  destruct (clear_ok _ _ _ _ V) as (h & -> & H). cbn [rmap].
  exists (own0 h), app, X. split; [reflexivity|]. split; [exact E|].
  cbn [own0 w_heap]. destruct H as (A & B & _). split.
  - apply (NoDup_count_occ Nat.eq_dec). exact B.
  - intro b. rewrite !(count_occ_In Nat.eq_dec). rewrite A, cnt_app. lia.
Qed.

Lemma nothing_lost es : nothing_overwritten es -> lost_total es = 0.
Proof.
  unfold nothing_overwritten. induction es as [|e es IH]; intros H; [reflexivity|].
  cbn [lost_total fold_right]. fold (lost_total es).
  rewrite IH by (intros ls s I; apply (H ls s); now right).
  destruct e as [ls| | | | | | |]; try reflexivity. cbn [lost_in].
  assert (Z : sum_lost ls = 0).
  { assert (Q : forall s, In s ls -> l_lost s = 0) by (intros s; apply (H ls s); now left).
    clear -Q. induction ls as [|s ls IH]; cbn [sum_lost fold_right]; [reflexivity|].
    rewrite (Q s) by now left. apply IH. intros; apply Q; now right. }
  lia.
Qed.
