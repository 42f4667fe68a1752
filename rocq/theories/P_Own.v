From Coq Require Import Lia.
From Verif Require Import Base Flags Sets FilterM ParseM ClientM OwnM SpecO P_Base P_List.

Notation cnt x L := (count_occ Nat.eq_dec L x).

Definition holds (h : heap) (L : list nat) : Prop :=
  (forall x, cnt x (h_live h) = cnt x L) /\
  (forall x, cnt x (h_live h) <= 1) /\
  (forall x, cnt x (h_live h) > 0 -> x < h_next h).

Lemma holds_eq h L M : (forall x, cnt x L = cnt x M) -> holds h L -> holds h M.
Proof. intros E (A & B & C). repeat split; auto. intro x. now rewrite A. Qed.

Lemma cnt_app x (l m : list nat) : cnt x (l ++ m) = cnt x l + cnt x m.
Proof. apply count_occ_app. Qed.

Definition one (x a : nat) : nat := if Nat.eq_dec a x then 1 else 0.

Lemma cnt_cons x a (l : list nat) : cnt x (a :: l) = one x a + cnt x l.
Proof. unfold one. cbn. destruct (Nat.eq_dec a x); lia. Qed.

Lemma cnt_nil x : cnt x ([] : list nat) = 0.
Proof. reflexivity. Qed.

Lemma live_cnt h b : live h b = true <-> cnt b (h_live h) > 0.
Proof.
  unfold live. rewrite existsb_exists. split.
  - intros (x & I & E). apply Nat.eqb_eq in E. subst x.
    now apply (count_occ_In Nat.eq_dec).
  - intros I. apply (count_occ_In Nat.eq_dec) in I. exists b. split; [auto|apply Nat.eqb_refl].
Qed.

Lemma alloc_holds h L b h' :
  alloc h = (b, h') -> holds h L -> holds h' (b :: L).
Proof.
  intros [= <- <-] (A & B & C). unfold holds; cbn [h_live h_next].
  assert (Z : cnt (h_next h) (h_live h) = 0).
  { destruct (Nat.eq_dec (cnt (h_next h) (h_live h)) 0); auto.
    specialize (C (h_next h)). lia. }
  repeat split; intro x; cbn [count_occ];
    destruct (Nat.eq_dec (h_next h) x) as [E|E]; try subst x.
  - now rewrite A.
  - apply A.
  - lia.
  - apply B.
  - lia.
  - intros P. specialize (C x P). lia.
Qed.

Lemma cnt_remove x b (l : list nat) :
  cnt x (List.remove Nat.eq_dec b l) = if Nat.eq_dec b x then 0 else cnt x l.
Proof.
  induction l as [|a l IH]; cbn [List.remove count_occ].
  - now destruct (Nat.eq_dec b x).
  - destruct (Nat.eq_dec b a) as [E|E].
    + rewrite IH. subst a. destruct (Nat.eq_dec b x); lia.
    + cbn [count_occ]. rewrite IH.
      destruct (Nat.eq_dec b x), (Nat.eq_dec a x); try congruence; lia.
Qed.

Lemma free_holds h b L :
  holds h (b :: L) -> exists h', free h (At b) = Ok h' /\ holds h' L.
Proof.
  intros (A & B & C). unfold free.
  assert (V : live h b = true).
  { apply live_cnt. rewrite A. cbn. destruct (Nat.eq_dec b b); [lia|congruence]. }
  rewrite V. eexists. split; [reflexivity|]. unfold holds; cbn [h_live h_next].
  repeat split; intro x; rewrite cnt_remove.
  - specialize (A x). specialize (B x). cbn in A.
    destruct (Nat.eq_dec b x); lia.
  - specialize (B x). destruct (Nat.eq_dec b x); lia.
  - specialize (C x). destruct (Nat.eq_dec b x); lia.
Qed.

(** Blocks a pointer owns, if it is an owning one. *)
Definition blks (p : ptr) : list nat := match p with At b => [b] | _ => [] end.

Ltac cnt := intro; cbn [blks Datatypes.app flat_map];
  repeat first [rewrite cnt_app | rewrite cnt_cons | rewrite cnt_nil]; lia.

Definition owning (p : ptr) : Prop := match p with Inside _ => False | _ => True end.
Definition borrowing (cur : option nat) (p : ptr) : Prop :=
  match p with Null => True | At _ => False | Inside b => cur = Some b end.

Lemma free_ptr h p L :
  owning p -> holds h (blks p ++ L) -> exists h', free h p = Ok h' /\ holds h' L.
Proof.
  destruct p; cbn [owning blks app]; intros O H; [exists h; auto| |easy].
  now apply free_holds.
Qed.

Lemma new_if_holds c h p h' L :
  new_if c h = (p, h') -> holds h L -> holds h' (blks p ++ L) /\ owning p.
Proof.
  destruct c; cbn.
  - intros [= <- <-] H. split; [|exact I]. eapply alloc_holds; [reflexivity|auto].
  - intros [= <- <-] H. now split.
Qed.

Definition fields (o : fobj) : list ptr :=
  [o_data o; o_rule o; o_dom o; o_tag o; o_host o].

Definition okO (cur : option nat) (o : fobj) : Prop :=
  owning (o_domains o) /\ owning (o_anti o) /\
  Forall (if o_borrowed o then borrowing cur else owning) (fields o).

Definition ownO (o : fobj) : list nat :=
  blks (o_domains o) ++ blks (o_anti o) ++
  (if o_borrowed o then [] else flat_map blks (fields o)).

Lemma destroy_ok cur h o L :
  okO cur o -> holds h (ownO o ++ L) ->
  exists h', destroy h o = Ok h' /\ holds h' L.
Proof.
  intros (O1 & O2 & F) H. unfold destroy, ownO in *.
  rewrite <- !app_assoc in H.
  destruct (free_ptr _ _ _ O1 H) as (h1 & -> & H1). cbn [bind].
  destruct (free_ptr _ _ _ O2 H1) as (h2 & -> & H2). cbn [bind].
  destruct (o_borrowed o); [exists h2; auto|].
  unfold fields in *.
  apply Forall_cons_iff in F. destruct F as [F1 F].
  apply Forall_cons_iff in F. destruct F as [F2 F].
  apply Forall_cons_iff in F. destruct F as [F3 F].
  apply Forall_cons_iff in F. destruct F as [F4 F].
  apply Forall_cons_iff in F. destruct F as [F5 _].
  cbn [flat_map] in H2. rewrite <- !app_assoc in H2. cbn [app] in H2.
  destruct (free_ptr _ _ _ F1 H2) as (h3 & -> & H3). cbn [bind].
  destruct (free_ptr _ _ _ F2 H3) as (h4 & -> & H4). cbn [bind].
  destruct (free_ptr _ _ _ F3 H4) as (h5 & -> & H5). cbn [bind].
  destruct (free_ptr _ _ _ F4 H5) as (h6 & -> & H6). cbn [bind].
  apply (free_ptr _ _ _ F5). exact H6.
Qed.

Lemma okO_none o cur : okO None o -> okO cur o.
Proof.
  intros (A & B & C). repeat split; auto.
  destruct (o_borrowed o); auto.
  eapply Forall_impl; [|exact C]. intros p. now destruct p.
Qed.

(** ** Copies, swaps, lazily parsed domains *)

Lemma copyObj_ok cur h o c h' L :
  copyObj h o = (c, h') -> okO cur o -> holds h L ->
  okO cur c /\ holds h' (ownO c ++ L) /\ o_borrowed c = o_borrowed o.
Proof.
  unfold copyObj. intros E (A & B & C) H. destruct (o_borrowed o) eqn:Eb.
  - injection E as <- <-. split; [|split; [exact H|reflexivity]].
    split; [exact I|]. split; [exact I|]. exact C.
  - destruct (new_if (negb (isNull (o_data o))) h) as [d h1] eqn:E1.
    destruct (new_if (negb (isNull (o_dom o))) h1) as [m h2] eqn:E2.
    destruct (new_if (o_tagged o) h2) as [t h3] eqn:E3.
    destruct (new_if (negb (isNull (o_host o))) h3) as [s h4] eqn:E4.
    destruct (new_if (negb (isNull (o_rule o))) h4) as [r h5] eqn:E5.
    injection E as <- <-.
    destruct (new_if_holds _ _ _ _ _ E1 H) as [H1 W1].
    destruct (new_if_holds _ _ _ _ _ E2 H1) as [H2 W2].
    destruct (new_if_holds _ _ _ _ _ E3 H2) as [H3 W3].
    destruct (new_if_holds _ _ _ _ _ E4 H3) as [H4 W4].
    destruct (new_if_holds _ _ _ _ _ E5 H4) as [H5 W5].
    split; [|split; [|reflexivity]].
    + repeat split; cbn; auto. repeat constructor; auto.
    + eapply holds_eq; [|exact H5]. unfold ownO, fields; cbn [o_domains o_anti o_borrowed
        o_data o_rule o_dom o_tag o_host blks flat_map]. cnt.
Qed.

Lemma parseDomains_ok cur h o c h' L :
  parseDomains h o = (c, h') -> okO cur o -> holds h (ownO o ++ L) ->
  okO cur c /\ holds h' (ownO c ++ L) /\ o_borrowed c = o_borrowed o /\
  fields c = fields o.
Proof.
  unfold parseDomains. intros E (A & B & C) H.
  destruct (isNull (o_dom o) || o_parsed o).
  - injection E as <- <-. split; [now split|]. split; [exact H|]. split; reflexivity.
  - destruct (if isNull (o_anti o) then new_if (o_not o) h else (o_anti o, h)) as [a h1] eqn:E1.
    destruct (if isNull (o_domains o) then new_if (o_plain o) h1 else (o_domains o, h1))
      as [d h2] eqn:E2.
    injection E as <- <-.
    set (rest := if o_borrowed o then [] else flat_map blks (fields o)).
    assert (H1 : holds h1 (blks a ++ blks (o_domains o) ++ rest ++ L) /\ owning a).
    { destruct (isNull (o_anti o)) eqn:N.
      - destruct (o_anti o) eqn:Ea; try discriminate N.
        apply (new_if_holds _ _ _ _ (blks (o_domains o) ++ rest ++ L) E1).
        eapply holds_eq; [|exact H]. unfold ownO. fold rest. rewrite Ea. cnt.
      - injection E1 as <- <-. split; [|auto].
        eapply holds_eq; [|exact H]. unfold ownO. fold rest. cnt. }
    destruct H1 as [H1 W1].
    assert (H2 : holds h2 (blks d ++ blks a ++ rest ++ L) /\ owning d).
    { destruct (isNull (o_domains o)) eqn:N.
      - destruct (o_domains o); try discriminate N.
        apply (new_if_holds _ _ _ _ _ E2). exact H1.
      - injection E2 as <- <-. split; [|auto].
        eapply holds_eq; [|exact H1]. cnt. }
    destruct H2 as [H2 W2].
    split; [|split; [|split; reflexivity]].
    + split; [exact W2|]. split; [exact W1|]. exact C.
    + eapply holds_eq; [|exact H2]. unfold ownO; cbn [o_domains o_anti o_borrowed].
      change (fields (mkO _ _ _ _ _ _ _ _ _ _ _ _)) with (fields o). fold rest. cnt.
Qed.

Lemma ask_if_ok cur b h o c h' L :
  ask_if b h o = (c, h') -> okO cur o -> holds h (ownO o ++ L) ->
  okO cur c /\ holds h' (ownO c ++ L) /\ o_borrowed c = o_borrowed o /\
  fields c = fields o.
Proof.
  unfold ask_if. destruct b; [apply parseDomains_ok|].
  intros [= <- <-] A H. split; [exact A|]. split; [exact H|]. split; reflexivity.
Qed.

(** ** Lists of objects *)

Definition ownL (l : list fobj) : list nat := flat_map ownO l.

Lemma ownL_app l m : ownL (l ++ m) = ownL l ++ ownL m.
Proof. apply flat_map_app. Qed.

Definition ownA (a : arr fobj) : list nat :=
  match a with None => [] | Some (b, l) => b :: ownL l end.
Definition ownG (a : arr gobj) : list nat :=
  match a with None => [] | Some (b, _) => [b] end.
Definition ownB (a : option nat) : list nat :=
  match a with None => [] | Some b => [b] end.

Lemma foldM_destroy cur l : forall h L,
  Forall (okO cur) l -> holds h (ownL l ++ L) ->
  exists h', foldM destroy h l = Ok h' /\ holds h' L.
Proof.
  induction l as [|o l IH]; cbn [foldM ownL flat_map app]; intros h L F H;
    [exists h; auto|].
  apply Forall_cons_iff in F. destruct F as [F1 F].
  rewrite <- app_assoc in H.
  destruct (destroy_ok _ _ _ _ F1 H) as (h1 & -> & H1). cbn [bind].
  now apply IH.
Qed.

Lemma destroyArr_ok cur h a L :
  Forall (okO cur) (items a) -> holds h (ownA a ++ L) ->
  exists h', destroyArr destroy h a = Ok h' /\ holds h' L.
Proof.
  destruct a as [[b l]|]; cbn [items destroyArr ownA]; intros F H;
    [|exists h; auto].
  destruct (foldM_destroy cur l h (b :: L) F) as (h1 & -> & H1).
  { eapply holds_eq; [|exact H]. cnt. }
  cbn [bind]. now apply free_holds.
Qed.

Lemma foldM_destroyG l : forall h,
  Forall (fun g => g_borrowed g = true) l -> foldM destroyG h l = Ok h.
Proof.
  induction l as [|g l IH]; cbn [foldM]; intros h F; [reflexivity|].
  apply Forall_cons_iff in F. destruct F as [F1 F].
  unfold destroyG at 1. rewrite F1. cbn [bind]. now apply IH.
Qed.

Lemma destroyArrG_ok h a L :
  Forall (fun g => g_borrowed g = true) (items a) -> holds h (ownG a ++ L) ->
  exists h', destroyArr destroyG h a = Ok h' /\ holds h' L.
Proof.
  destruct a as [[b l]|]; cbn [items destroyArr ownG app]; intros F H;
    [|exists h; auto].
  rewrite foldM_destroyG by auto. cbn [bind]. now apply free_holds.
Qed.

Lemma destroyOpt_ok h a L :
  holds h (ownB a ++ L) -> exists h', destroyOpt h a = Ok h' /\ holds h' L.
Proof.
  destruct a as [b|]; cbn [ownB destroyOpt app]; intros H; [|exists h; auto].
  now apply free_holds.
Qed.

Definition ownT {A} (f : arr A -> list nat) (t : tab (arr A)) (ks : list kind) : list nat :=
  flat_map (fun k => f (tget t k)) ks.

Lemma destroyTab_ok cur t ks : forall h L,
  (forall k, In k ks -> Forall (okO cur) (items (tget t k))) ->
  holds h (ownT ownA t ks ++ L) ->
  exists h', destroyTab destroy h t ks = Ok h' /\ holds h' L.
Proof.
  unfold destroyTab. induction ks as [|k ks IH]; cbn [foldM ownT flat_map app]; intros h L F H;
    [exists h; auto|].
  rewrite <- app_assoc in H.
  destruct (destroyArr_ok cur h (tget t k) _ (F k (or_introl eq_refl)) H) as (h1 & -> & H1).
  cbn [bind]. apply IH; [|exact H1]. intros k' I. apply F. now right.
Qed.

Lemma destroyTabG_ok t ks : forall h L,
  (forall k, In k ks -> Forall (fun g => g_borrowed g = true) (items (tget t k))) ->
  holds h (ownT ownG t ks ++ L) ->
  exists h', destroyTab destroyG h t ks = Ok h' /\ holds h' L.
Proof.
  unfold destroyTab. induction ks as [|k ks IH]; cbn [foldM ownT flat_map app]; intros h L F H;
    [exists h; auto|].
  rewrite <- app_assoc in H.
  destruct (destroyArrG_ok h (tget t k) _ (F k (or_introl eq_refl)) H) as (h1 & -> & H1).
  cbn [bind]. apply IH; [|exact H1]. intros k' I. apply F. now right.
Qed.

(** ** The invariant *)

Definition ownW (w : own) : list nat :=
  ownT ownA (w_arrs w) kinds ++ ownB (w_bloom w) ++ ownB (w_ebloom w) ++
  ownA (w_host w) ++ ownA (w_ehost w) ++ ownT ownG (w_gates w) gated ++
  ownB (w_bad w).

(** Where the entries of a page-domain set point: into the buffer in use or
    into the domain list of a stored rule. *)
Definition okG (cur : option nat) (t : tab (arr fobj)) (g : gobj) : Prop :=
  g_borrowed g = true /\
  match g_data g with
  | Inside b => cur = Some b \/
      exists k o, In o (items (tget t k)) /\ o_borrowed o = false /\ o_dom o = At b
  | _ => False
  end.

Record inv (s : life) (cur : option nat) (lost : list nat) : Prop := mkInv {
  i_holds : holds (w_heap (fst s)) (ownW (fst s) ++ snd s ++ lost);
  i_arrs : forall k, Forall (okO cur) (items (tget (w_arrs (fst s)) k));
  i_host : Forall (okO cur) (items (w_host (fst s)));
  i_ehost : Forall (okO cur) (items (w_ehost (fst s)));
  i_gates : forall k, Forall (okG cur (w_arrs (fst s))) (items (tget (w_gates (fst s)) k))
}.

Lemma ownT_none {A} (f : arr A -> list nat) ks : f None = [] -> ownT f (tall None) ks = [].
Proof.
  intros E. unfold ownT. induction ks as [|k ks IH]; cbn [flat_map]; [reflexivity|].
  rewrite IH. destruct k; cbn; now rewrite E.
Qed.

Lemma tget_tall {A} (x : A) k : tget (tall x) k = x.
Proof. now destruct k. Qed.

Lemma inv_own0 h app lost cur :
  holds h (app ++ lost) -> inv (own0 h, app) cur lost.
Proof.
  intros H. split; cbn [fst snd own0 w_heap w_arrs w_host w_ehost w_gates items].
  - unfold ownW; cbn [w_arrs w_bloom w_ebloom w_host w_ehost w_gates w_bad own0].
    rewrite !ownT_none by reflexivity. exact H.
  - intro k. rewrite tget_tall. constructor.
  - constructor.
  - constructor.
  - intro k. rewrite tget_tall. constructor.
Qed.

Lemma clear_ok w app cur lost :
  inv (w, app) cur lost ->
  exists h, oclear w = Ok (own0 h) /\ holds h (app ++ lost).
Proof.
  intros [H A X Y G]; cbn [fst snd] in *. unfold oclear, ownW in *.
  rewrite <- !app_assoc in H.
  destruct (destroyTab_ok cur (w_arrs w) kinds _ _ (fun k _ => A k) H) as (h1 & -> & H1).
  cbn [bind].
  destruct (destroyOpt_ok _ _ _ H1) as (h2 & -> & H2). cbn [bind].
  destruct (destroyOpt_ok _ _ _ H2) as (h3 & -> & H3). cbn [bind].
  destruct (destroyArr_ok cur _ _ _ X H3) as (h4 & -> & H4). cbn [bind].
  destruct (destroyArr_ok cur _ _ _ Y H4) as (h5 & -> & H5). cbn [bind].
  destruct (destroyTabG_ok (w_gates w) gated h5 (ownB (w_bad w) ++ app ++ lost)) as (h6 & -> & H6).
  { intros k _. eapply Forall_impl; [|apply G]. now intros g [? _]. }
  { exact H5. }
  cbn [bind].
  destruct (destroyOpt_ok _ _ _ H6) as (h7 & -> & H7). cbn [bind].
  exists h7. auto.
Qed.
