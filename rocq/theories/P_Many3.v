From Coq Require Import Lia.
From Verif Require Import Base Flags Sets FilterM ParseM ClientM OwnM SpecO P_Base P_List
  P_Own P_Own2 P_Own3 P_Own5 ManyM SpecMany P_Many P_Many2.

(** ** What has been released stays released *)

Definition later (h h' : heap) : Prop :=
  h_next h <= h_next h' /\
  forall n, n < h_next h -> live h n = false -> live h' n = false.

Lemma later_refl h : later h h.
Proof. split; auto. Qed.

Lemma later_trans a b c : later a b -> later b c -> later a c.
Proof.
  intros [A1 A2] [B1 B2]. split; [lia|]. intros n N L. apply B2; [lia|]. now apply A2.
Qed.

Lemma live_false h n : live h n = false <-> cnt n (h_live h) = 0.
Proof.
  destruct (live h n) eqn:E.
  - apply live_cnt in E. split; [discriminate|lia].
  - split; [|reflexivity]. intros _. destruct (cnt n (h_live h)) eqn:E0; [reflexivity|].
    assert (X : live h n = true) by (apply live_cnt; lia). congruence.
Qed.

Lemma alloc_later h b h' : alloc h = (b, h') -> later h h'.
Proof.
  unfold alloc. intros [= <- <-]. split; cbn [h_next]; [lia|]. intros n N.
  rewrite !live_false. cbn [h_live]. rewrite cnt_cons. unfold one.
  destruct (Nat.eq_dec (h_next h) n); lia.
Qed.

Lemma free_later h p h' : free h p = Ok h' -> later h h'.
Proof.
  destruct p as [|b|b]; cbn [free]; [intros [= <-]; apply later_refl| |discriminate].
  destruct (live h b); [|discriminate]. intros [= <-]. split; [cbn [h_next]; lia|].
  intros n _. rewrite !live_false. cbn [h_live]. rewrite cnt_remove.
  destruct (Nat.eq_dec b n); lia.
Qed.

Lemma free_dead h b h' : free h (At b) = Ok h' -> live h' b = false.
Proof.
  cbn [free]. destruct (live h b); [|discriminate]. intros [= <-].
  apply live_false. cbn [h_live]. rewrite cnt_remove. destruct (Nat.eq_dec b b); lia.
Qed.

Ltac pull :=
  repeat match goal with
  | E : bind ?X _ = Ok _ |- _ =>
      let F := fresh "F" in destruct X eqn:F; [cbn [bind] in E|discriminate E]
  | E : (let '(_, _) := ?X in _) = _ |- _ => let F := fresh "F" in destruct X eqn:F
  | E : (if ?X then _ else _) = _ |- _ => destruct X
  | E : Ok _ = Ok _ |- _ => injection E as E; subst
  | E : (_, _) = (_, _) |- _ => injection E as; subst
  end.

Ltac chain :=
  repeat match goal with
  | F : later ?a ?b |- later ?a _ => first [exact F | refine (later_trans _ _ _ F _); clear F]
  end; apply later_refl.

Lemma new_if_later c h p h' : new_if c h = (p, h') -> later h h'.
Proof.
  unfold new_if. destruct c; [|intros [= <- <-]; apply later_refl].
  destruct (alloc h) as [b h1] eqn:E. intros [= <- <-]. eapply alloc_later; eauto.
Qed.

Lemma destroy_later h o h' : destroy h o = Ok h' -> later h h'.
Proof.
  unfold destroy. intros E. pull;
    repeat match goal with F : free _ _ = Ok _ |- _ => apply free_later in F end; chain.
Qed.

Lemma destroyG_later h g h' : destroyG h g = Ok h' -> later h h'.
Proof.
  unfold destroyG. destruct (g_borrowed g); [intros [= <-]; apply later_refl|]. apply free_later.
Qed.

Lemma foldM_later {A} (d : heap -> A -> res heap) l :
  (forall h x h', d h x = Ok h' -> later h h') ->
  forall h h', foldM d h l = Ok h' -> later h h'.
Proof.
  intros D. induction l as [|x l IH]; intros h h' E; cbn [foldM] in E.
  - injection E as <-. apply later_refl.
  - destruct (d h x) as [h1|] eqn:E1; [cbn [bind] in E|discriminate].
    eapply later_trans; eauto.
Qed.

Lemma destroyArr_later {A} (d : heap -> A -> res heap) h a h' :
  (forall h x h', d h x = Ok h' -> later h h') ->
  destroyArr d h a = Ok h' -> later h h'.
Proof.
  intros D. destruct a as [[b l]|]; cbn [destroyArr].
  - intros E. destruct (foldM d h l) as [h1|] eqn:E1; [cbn [bind] in E|discriminate].
    eapply later_trans; [eapply foldM_later; eauto|eapply free_later; eauto].
  - intros [= <-]. apply later_refl.
Qed.

Lemma destroyOpt_later h o h' : destroyOpt h o = Ok h' -> later h h'.
Proof.
  destruct o; cbn [destroyOpt]; [apply free_later|]. intros [= <-]. apply later_refl.
Qed.

Lemma destroyTab_later {A} (d : heap -> A -> res heap) h t ks h' :
  (forall h x h', d h x = Ok h' -> later h h') ->
  destroyTab d h t ks = Ok h' -> later h h'.
Proof.
  intros D. unfold destroyTab. apply foldM_later. intros h0 k h1.
  now apply destroyArr_later.
Qed.

(** clear() releases what the client holds. *)
Definition dropped (h h' : heap) (n : nat) : Prop :=
  live h n = true /\ live h' n = false.

Lemma clear_later w w' : oclear w = Ok w' -> later (w_heap w) (w_heap w').
Proof.
  unfold oclear. intros E. pull. cbn [own0 w_heap].
  repeat match goal with
  | F : destroyOpt _ _ = Ok _ |- _ => apply destroyOpt_later in F
  | F : destroyArr destroy _ _ = Ok _ |- _ => apply (destroyArr_later _ _ _ _ destroy_later) in F
  | F : destroyTab destroy _ _ _ = Ok _ |- _ => apply (destroyTab_later _ _ _ _ _ destroy_later) in F
  | F : destroyTab destroyG _ _ _ = Ok _ |- _ => apply (destroyTab_later _ _ _ _ _ destroyG_later) in F
  end. chain.
Qed.

Lemma arrs_dropped h t ks h' n l : destroyTab destroy h t ks = Ok h' ->
  In KFilters ks -> tget t KFilters = Some (n, l) -> n < h_next h ->
  live h' n = false.
Proof.
  unfold destroyTab. revert h. induction ks as [|k ks IH]; intros h E I0 T N; [destruct I0|].
  cbn [foldM] in E.
  destruct (destroyArr destroy h (tget t k)) as [h1|] eqn:E1; [cbn [bind] in E|discriminate].
  pose proof (destroyArr_later _ _ _ _ destroy_later E1) as L1.
  assert (D : k = KFilters \/ k <> KFilters)
    by (destruct k; (left; reflexivity) || (right; discriminate)).
  destruct D as [->|D].
  - rewrite T in E1. cbn [destroyArr] in E1.
    destruct (foldM destroy h l) as [h0|] eqn:E0; [cbn [bind] in E1|discriminate].
    pose proof (destroyTab_later destroy h1 t ks h' destroy_later E) as L2. apply L2.
    + destruct L1. lia.
    + eapply free_dead; eauto.
  - destruct I0 as [I0|I0]; [congruence|]. apply (IH h1); auto. destruct L1. lia.
Qed.

Lemma arrs_needed h t h' n l : destroyTab destroy h t kinds = Ok h' ->
  tget t KFilters = Some (n, l) -> live h n = true.
Proof.
  intros E H. unfold destroyTab, kinds in E. cbn [foldM] in E. rewrite H in E.
  cbn [destroyArr] in E.
  destruct (foldM destroy h l) as [h0|] eqn:E0; [cbn [bind] in E|discriminate].
  apply (foldM_shrinks _ _ destroy_shrinks) in E0. apply E0.
  destruct (free h0 (At n)) as [h00|] eqn:F; [now apply free_live in F|discriminate].
Qed.

Lemma clear_drops w w' n : oclear w = Ok w' -> held w n -> n < h_next (w_heap w) ->
  dropped (w_heap w) (w_heap w') n.
Proof.
  intros E H N. split; [eapply clear_needs; eauto|].
  unfold oclear in E.
  destruct (destroyTab destroy (w_heap w) (w_arrs w) kinds) as [h1|] eqn:E1;
    [cbn [bind] in E|discriminate].
  destruct (destroyOpt h1 (w_bloom w)) as [h2|] eqn:E2; [cbn [bind] in E|discriminate].
  destruct (destroyOpt h2 (w_ebloom w)) as [h3|] eqn:E3; [cbn [bind] in E|discriminate].
  destruct (destroyArr destroy h3 (w_host w)) as [h4|] eqn:E4; [cbn [bind] in E|discriminate].
  destruct (destroyArr destroy h4 (w_ehost w)) as [h5|] eqn:E5; [cbn [bind] in E|discriminate].
  destruct (destroyTab destroyG h5 (w_gates w) gated) as [h6|] eqn:E6; [cbn [bind] in E|discriminate].
  destruct (destroyOpt h6 (w_bad w)) as [h7|] eqn:E7; [cbn [bind] in E|discriminate].
  injection E as <-. cbn [own0 w_heap].
  pose proof (destroyTab_later _ _ _ _ _ destroy_later E1) as L1.
  pose proof (destroyOpt_later _ _ _ E2) as L2. pose proof (destroyOpt_later _ _ _ E3) as L3.
  pose proof (destroyArr_later _ _ _ _ destroy_later E4) as L4.
  pose proof (destroyArr_later _ _ _ _ destroy_later E5) as L5.
  pose proof (destroyTab_later _ _ _ _ _ destroyG_later E6) as L6.
  pose proof (destroyOpt_later _ _ _ E7) as L7.
  destruct H as [H|[H|(l & H)]].
  - rewrite H in E2. cbn [destroyOpt] in E2. pose proof (free_dead _ _ _ E2) as D.
    assert (L : later h2 h7) by chain. apply L; [|exact D].
    destruct L1, L2. lia.
  - rewrite H in E7. exact (free_dead _ _ _ E7).
  - assert (L : later h1 h7) by chain. apply L; [destruct L1; lia|].
    exact (arrs_dropped _ _ _ _ _ _ E1 (or_introl eq_refl) H N).
Qed.

(** ** The other calls *)

Lemma lose_later n : forall h, later h (lose n h).
Proof.
  induction n as [|n IH]; intros h; cbn [lose]; [apply later_refl|].
  eapply later_trans; [|apply IH]. destruct (alloc h) as [b h'] eqn:E. eapply alloc_later; eauto.
Qed.

Lemma read_line_later h s o h' : read_line h s = (o, h') -> later h h'.
Proof.
  unfold read_line. intros E. pose proof (lose_later (l_lost s) h) as L0. pull.
  repeat match goal with F : new_if _ _ = _ |- _ => apply new_if_later in F end. chain.
Qed.

Lemma parseDomains_later h o c h' : parseDomains h o = (c, h') -> later h h'.
Proof.
  unfold parseDomains. destruct (isNull (o_dom o) || o_parsed o); [intros [= <- <-]; apply later_refl|].
  destruct (if isNull (o_anti o) then new_if (o_not o) h else (o_anti o, h)) as [a h1] eqn:E1.
  destruct (if isNull (o_domains o) then new_if (o_plain o) h1 else (o_domains o, h1)) as [d h2] eqn:E2.
  intros [= <- <-].
  assert (L1 : later h h1).
  { destruct (isNull (o_anti o)); [eapply new_if_later; eauto|]. injection E1 as <- <-. apply later_refl. }
  assert (L2 : later h1 h2).
  { destruct (isNull (o_domains o)); [eapply new_if_later; eauto|]. injection E2 as <- <-. apply later_refl. }
  chain.
Qed.

Lemma ask_if_later c h o c' h' : ask_if c h o = (c', h') -> later h h'.
Proof.
  unfold ask_if. destruct c; [apply parseDomains_later|]. intros [= <- <-]. apply later_refl.
Qed.

Lemma pass1_later h s h' : pass1 h s = Ok h' -> later h h'.
Proof.
  unfold pass1. destruct (read_line h s) as [o h1] eqn:E1.
  destruct (ask_if (l_asks s) h1 o) as [o2 h2] eqn:E2. intros E3.
  apply read_line_later in E1. apply ask_if_later in E2. apply destroy_later in E3. chain.
Qed.

Lemma new_opt_later {A} (o : arr A) h b l h' : new_opt o h = (b, l, h') -> later h h'.
Proof.
  unfold new_opt. destruct o as [[b0 l0]|]; [intros [= <- <- <-]; apply later_refl|].
  destruct (alloc h) as [b1 h1] eqn:E. intros [= <- <- <-]. eapply alloc_later; eauto.
Qed.

Lemma new_blk_later o h b h' : new_blk o h = (b, h') -> later h h'.
Proof.
  unfold new_blk. destruct o; [intros [= <- <-]; apply later_refl|]. apply alloc_later.
Qed.

Lemma regrow_all_later ks : forall h t news olds news' olds' h',
  regrow_all h ks t news olds = (news', olds', h') -> later h h'.
Proof.
  induction ks as [|k ks IH]; intros h t news olds news' olds' h' E; cbn [regrow_all] in E.
  - injection E as <- <- <-. apply later_refl.
  - unfold regrow in E. destruct (alloc h) as [b h1] eqn:E1. apply alloc_later in E1.
    eapply later_trans; [exact E1|]. eapply IH; eauto.
Qed.

Lemma new_gates_later ks : forall h t t' h', new_gates h ks t = (t', h') -> later h h'.
Proof.
  induction ks as [|k ks IH]; intros h t t' h' E; cbn [new_gates] in E.
  - injection E as <- <-. apply later_refl.
  - destruct (new_opt (tget t k) h) as [[b l] h1] eqn:E1. apply new_opt_later in E1.
    eapply later_trans; [exact E1|]. eapply IH; eauto.
Qed.

Lemma add_entries_later n : forall h dom l l' h', add_entries h n dom l = (l', h') -> later h h'.
Proof.
  induction n as [|n IH]; intros h dom l l' h' E; cbn [add_entries] in E.
  - injection E as <- <-. apply later_refl.
  - cbn [copyG gobj_of g_borrowed] in E. eapply IH; eauto.
Qed.

Lemma copyObj_later h o c h' : copyObj h o = (c, h') -> later h h'.
Proof.
  unfold copyObj. destruct (o_borrowed o); [intros [= <- <-]; apply later_refl|]. intros E. pull.
  repeat match goal with F : new_if _ _ = _ |- _ => apply new_if_later in F end. chain.
Qed.

Lemma insert_host_later h o i x y x' y' h' :
  insert_host h o i x y = (x', y', h') -> later h h'.
Proof.
  unfold insert_host. destruct i as [[e [|]]|]; try (intros [= <- <- <-]; apply later_refl).
  destruct (copyObj h o) as [c h1] eqn:E1. apply copyObj_later in E1.
  destruct e; intros [= <- <- <-]; exact E1.
Qed.

Lemma pass2_later w s w' : pass2 w s = Ok w' -> later (w_heap w) (w_heap w').
Proof.
  unfold pass2. intros E. destruct (read_line (w_heap w) s) as [o h1] eqn:E1.
  destruct (insert_host h1 o (l_insert s) (w_host w) (w_ehost w)) as [[x y] h2] eqn:E2.
  destruct (ask_if (l_asks s) h2 o) as [o2 h3] eqn:E3.
  apply read_line_later in E1. apply insert_host_later in E2. apply ask_if_later in E3.
  destruct (l_dest s) as [k|].
  - destruct (is_gated k).
    + destruct (add_entries _ _ _ _) as [l h4] eqn:E4. apply add_entries_later in E4.
      destruct (swapData obj0 o2) as [a b].
      destruct (destroy h4 b) as [h5|] eqn:E5; [|discriminate]. cbn [bind] in E.
      injection E as <-. apply destroy_later in E5. cbn [w_heap]. chain.
    + destruct (swapData obj0 o2) as [a b].
      destruct (destroy h3 b) as [h5|] eqn:E5; [|discriminate]. cbn [bind] in E.
      injection E as <-. apply destroy_later in E5. cbn [w_heap]. chain.
  - destruct (destroy h3 o2) as [h5|] eqn:E5; [|discriminate]. cbn [bind] in E.
    injection E as <-. apply destroy_later in E5. cbn [w_heap]. chain.
Qed.

Lemma pass2_bad w s w' : pass2 w s = Ok w' -> w_bad w' = w_bad w.
Proof.
  unfold pass2. intros E. destruct (read_line (w_heap w) s) as [o h].
  destruct (insert_host h o (l_insert s) (w_host w) (w_ehost w)) as [[x y] h1].
  destruct (ask_if (l_asks s) h1 o) as [o1 h2].
  destruct (l_dest s) as [k|].
  - destruct (is_gated k).
    + destruct (add_entries _ _ _ _) as [l h3]. destruct (swapData obj0 o1) as [a b].
      destruct (destroy h3 b); [|discriminate]. cbn [bind] in E. now injection E as <-.
    + destruct (swapData obj0 o1) as [a b].
      destruct (destroy h2 b); [|discriminate]. cbn [bind] in E. now injection E as <-.
  - destruct (destroy h2 o1); [|discriminate]. cbn [bind] in E. now injection E as <-.
Qed.

Lemma pass2_all_later ls : forall w w', foldM pass2 w ls = Ok w' ->
  later (w_heap w) (w_heap w') /\ w_bad w' = w_bad w.
Proof.
  induction ls as [|s ls IH]; intros w w' E; cbn [foldM] in E.
  - assert (w' = w) as -> by congruence. split; [apply later_refl|reflexivity].
  - destruct (pass2 w s) as [w1|] eqn:E1; [cbn [bind] in E|discriminate].
    destruct (IH _ _ E) as [A B]. rewrite B, (pass2_bad _ _ _ E1). split; [|reflexivity].
    apply pass2_later in E1. chain.
Qed.

Lemma regrow_all_olds ks : forall h t news olds news' olds' h' n l, NoDup ks ->
  regrow_all h ks t news olds = (news', olds', h') ->
  In KFilters ks \/ (exists l', tget olds KFilters = Some (n, l')) ->
  tget t KFilters = Some (n, l) -> exists l', tget olds' KFilters = Some (n, l').
Proof.
  induction ks as [|k ks IH]; intros h t news olds news' olds' h' n l ND E I0 T; cbn [regrow_all] in E.
  - destruct I0 as [[]|I0]. injection E as <- <- <-. exact I0.
  - unfold regrow in E. destruct (alloc h) as [b h1]. inversion_clear ND as [|? ? N1 N2].
    apply (IH _ _ _ _ _ _ _ n l N2 E); [|exact T].
    assert (D : k = KFilters \/ k <> KFilters)
      by (destruct k; (left; reflexivity) || (right; discriminate)).
    destruct D as [->|D].
    + right. rewrite T, tget_tset_same. eauto.
    + destruct I0 as [[I0|I0]|I0]; [congruence|now left|]. right.
      rewrite tget_tset_other by congruence. exact I0.
Qed.

Lemma parse_keeps w ls w' n : oparse w ls = Ok w' -> held w n -> n < h_next (w_heap w) ->
  held w' n \/ dropped (w_heap w) (w_heap w') n.
Proof.
  unfold oparse. intros E H N.
  destruct (new_blk (w_bloom w) (w_heap w)) as [b1 h1] eqn:E1.
  destruct (new_blk (w_ebloom w) h1) as [b2 h2] eqn:E2.
  destruct (new_opt (w_host w) h2) as [[n1 l1] h3] eqn:E3.
  destruct (new_opt (w_ehost w) h3) as [[n2 l2] h4] eqn:E4.
  destruct (new_gates h4 gated (w_gates w)) as [gs h5] eqn:E5.
  destruct (foldM pass1 h5 ls) as [h6|] eqn:E6; [cbn [bind] in E|discriminate E].
  destruct (regrow_all h6 kinds (w_arrs w) (tall None) (tall None)) as [[news olds] h7] eqn:E7.
  destruct (destroyTab destroy h7 olds kinds) as [h8|] eqn:E8; [cbn [bind] in E|discriminate E].
  pose proof (pass2_blooms _ _ _ E) as Eb. destruct (pass2_all_later _ _ _ E) as [L9 Ebad].
  cbn [w_heap w_bad w_bloom] in *.
  pose proof (new_blk_later _ _ _ _ E1) as L1. apply new_blk_later in E2.
  apply new_opt_later in E3, E4. apply new_gates_later in E5.
  apply (foldM_later _ _ pass1_later) in E6. pose proof (regrow_all_later _ _ _ _ _ _ _ _ E7) as L7.
  pose proof (destroyTab_later _ _ _ _ _ destroy_later E8) as L8.
  assert (LA : later (w_heap w) h7) by chain.
  destruct H as [H|[H|(l & H)]].
  - left. left. rewrite Eb. rewrite H in E1. cbn [new_blk] in E1. congruence.
  - left. right. left. congruence.
  - right. destruct (regrow_all_olds kinds _ _ _ _ _ _ _ n l kinds_nodup E7) as (l' & Ho).
    { left. now left. } { exact H. }
    split.
    { destruct (live (w_heap w) n) eqn:Lv; [reflexivity|].
      rewrite <- (arrs_needed _ _ _ _ _ E8 Ho). symmetry. now apply LA. }
    apply L9; [destruct LA, L8; lia|].
    eapply arrs_dropped; [exact E8|now left|exact Ho|destruct LA; lia].
Qed.

Lemma parse_later w ls w' : oparse w ls = Ok w' -> later (w_heap w) (w_heap w').
Proof.
  unfold oparse. intros E.
  destruct (new_blk (w_bloom w) (w_heap w)) as [b1 h1] eqn:E1.
  destruct (new_blk (w_ebloom w) h1) as [b2 h2] eqn:E2.
  destruct (new_opt (w_host w) h2) as [[n1 l1] h3] eqn:E3.
  destruct (new_opt (w_ehost w) h3) as [[n2 l2] h4] eqn:E4.
  destruct (new_gates h4 gated (w_gates w)) as [gs h5] eqn:E5.
  destruct (foldM pass1 h5 ls) as [h6|] eqn:E6; [cbn [bind] in E|discriminate E].
  destruct (regrow_all h6 kinds (w_arrs w) (tall None) (tall None)) as [[news olds] h7] eqn:E7.
  destruct (destroyTab destroy h7 olds kinds) as [h8|] eqn:E8; [cbn [bind] in E|discriminate E].
  destruct (pass2_all_later _ _ _ E) as [L9 _]. cbn [w_heap] in L9.
  apply new_blk_later in E1, E2.
  apply new_opt_later in E3, E4. apply new_gates_later in E5.
  apply (foldM_later _ _ pass1_later) in E6. apply regrow_all_later in E7.
  apply (destroyTab_later _ _ _ _ _ destroy_later) in E8. clear E. chain.
Qed.

Lemma touch_later l : forall h t l' h', touch h l t = (l', h') -> later h h'.
Proof.
  induction l as [|o l IH]; intros h t l' h' E; cbn [touch] in E.
  - injection E as <- <-. apply later_refl.
  - destruct (ask_if (t 0) h o) as [c h1] eqn:E1.
    destruct (touch h1 l (fun i => t (S i))) as [l2 h2] eqn:E2. injection E as <- <-.
    apply ask_if_later in E1. apply IH in E2. chain.
Qed.

Lemma touch_arr_later h a t a' h' : touch_arr h a t = (a', h') -> later h h'.
Proof.
  destruct a as [[b l]|]; cbn [touch_arr]; [|intros [= <- <-]; apply later_refl].
  destruct (touch h l t) as [l1 h1] eqn:E. intros [= <- <-]. eapply touch_later; eauto.
Qed.

Lemma touch_tab_later ks : forall h a t a' h', touch_tab h ks a t = (a', h') -> later h h'.
Proof.
  induction ks as [|k ks IH]; intros h a t a' h' E; cbn [touch_tab] in E.
  - injection E as <- <-. apply later_refl.
  - destruct (touch_arr h (tget a k) (t k)) as [x h1] eqn:E1. apply touch_arr_later in E1.
    apply IH in E. chain.
Qed.

Lemma ask_later w t w' : oask w t = Ok w' -> later (w_heap w) (w_heap w').
Proof.
  unfold oask. intros E.
  destruct (use_all _ (w_heap w) kinds) as [[]|]; [cbn [bind] in E|discriminate].
  destruct (use_all _ (w_heap w) (items (w_host w))) as [[]|]; [cbn [bind] in E|discriminate].
  destruct (use_all _ (w_heap w) (items (w_ehost w))) as [[]|]; [cbn [bind] in E|discriminate].
  destruct (use_all _ (w_heap w) gated) as [[]|]; [cbn [bind] in E|discriminate].
  destruct (touch_tab (w_heap w) kinds (w_arrs w) (t_arrs t)) as [a h] eqn:E1.
  destruct (touch_arr h (w_host w) (t_host t)) as [x h1] eqn:E2.
  destruct (touch_arr h1 (w_ehost w) (t_ehost t)) as [y h2] eqn:E3. injection E as <-.
  apply touch_tab_later in E1. apply touch_arr_later in E2, E3. cbn [w_heap]. chain.
Qed.

Lemma new_arrs_later b f ks : forall h t t' h', new_arrs h ks b f t = (t', h') -> later h h'.
Proof.
  induction ks as [|k ks IH]; intros h t t' h' E; cbn [new_arrs] in E.
  - injection E as <- <-. apply later_refl.
  - destruct (alloc h) as [n h1] eqn:E1. apply alloc_later in E1. apply IH in E. chain.
Qed.

Lemma new_oblk_later c h o h' : new_oblk c h = (o, h') -> later h h'.
Proof.
  unfold new_oblk. destruct c; [|intros [= <- <-]; apply later_refl].
  destruct (alloc h) as [n h1] eqn:E1. intros [= <- <-]. eapply alloc_later; eauto.
Qed.

Lemma new_set_later {A} h (o : option (list A)) x h' : new_set h o = (x, h') -> later h h'.
Proof.
  unfold new_set. destruct o; [|intros [= <- <-]; apply later_refl].
  destruct (alloc h) as [n h1] eqn:E1. intros [= <- <-]. eapply alloc_later; eauto.
Qed.

Lemma new_sets_later b f ks : forall h t t' h', new_sets h ks b f t = (t', h') -> later h h'.
Proof.
  induction ks as [|k ks IH]; intros h t t' h' E; cbn [new_sets] in E.
  - injection E as <- <-. apply later_refl.
  - destruct (new_set h (option_map (repeat (mkG true (Inside b))) (f k))) as [x h1] eqn:E1.
    apply new_set_later in E1. apply IH in E. chain.
Qed.

Lemma deserialize_later w b d w' : odeserialize w b d = Ok w' ->
  exists w0, oclear w = Ok w0 /\ later (w_heap w0) (w_heap w').
Proof.
  unfold odeserialize. intros E.
  destruct (oclear w) as [w0|]; [cbn [bind] in E|discriminate].
  exists w0. split; [reflexivity|].
  destruct (use (w_heap w0) (Inside b)) as [u|]; [cbn [bind] in E|discriminate].
  destruct (new_arrs (w_heap w0) kinds b (d_arrs d) (tall None)) as [a h1] eqn:E1.
  destruct (new_oblk (d_bloom d) h1) as [b1 h2] eqn:E2.
  destruct (new_oblk (d_ebloom d) h2) as [b2 h3] eqn:E3.
  destruct (new_set h3 (option_map (map (obj_in b)) (d_host d))) as [x h4] eqn:E4.
  destruct (new_set h4 (option_map (map (obj_in b)) (d_ehost d))) as [y h5] eqn:E5.
  destruct (new_sets h5 gated b (d_gates d) (tall None)) as [g h6] eqn:E6.
  injection E as <-. cbn [w_heap].
  apply new_arrs_later in E1. apply new_oblk_later in E2, E3. apply new_set_later in E4, E5.
  apply new_sets_later in E6. chain.
Qed.

Lemma step_later w app e w' app' : step (w, app) e = Ok (w', app') -> later (w_heap w) (w_heap w').
Proof.
  destruct e as [ls| |t| |b d| | |b]; cbn [step]; intros E.
  - destruct (oparse w ls) as [w1|] eqn:E1; [|discriminate]. injection E as <- <-.
    eapply parse_later; eauto.
  - destruct (oclear w) as [w1|] eqn:E1; [|discriminate]. injection E as <- <-.
    now apply clear_later.
  - destruct (oask w t) as [w1|] eqn:E1; [|discriminate]. injection E as <- <-.
    eapply ask_later; eauto.
  - unfold oserialize in E. destruct (oask w _) as [w1|]; [cbn [bind] in E|discriminate].
    destruct (alloc (w_heap w)) as [b h] eqn:E1. injection E as <- <-. eapply alloc_later; eauto.
  - destruct (odeserialize w b d) as [w1|] eqn:E1; [|discriminate]. injection E as <- <-.
    destruct (deserialize_later _ _ _ _ E1) as (w0 & E0 & L). apply clear_later in E0. chain.
  - injection E as <- <-. unfold oenable. destruct (w_bad w); [apply later_refl|].
    destruct (alloc (w_heap w)) as [n h] eqn:E1. eapply alloc_later; eauto.
  - destruct (alloc (w_heap w)) as [b h] eqn:E1. injection E as <- <-. eapply alloc_later; eauto.
  - destruct (free (w_heap w) (At b)) as [h|] eqn:E1; [cbn [bind] in E|discriminate].
    injection E as <- <-. eapply free_later; eauto.
Qed.

(** A call leaves what the client held with it, or has released it, and then it
    was there to be released. *)
Lemma step_keeps w app e w' app' n : step (w, app) e = Ok (w', app') ->
  held w n -> n < h_next (w_heap w) -> held w' n \/ dropped (w_heap w) (w_heap w') n.
Proof.
  destruct e as [ls| |t| |b d| | |b]; cbn [step]; intros E H N.
  - destruct (oparse w ls) as [w1|] eqn:E1; [|discriminate]. injection E as <- <-.
    eapply parse_keeps; eauto.
  - destruct (oclear w) as [w1|] eqn:E1; [|discriminate]. injection E as <- <-.
    right. now apply clear_drops.
  - destruct (oask w t) as [w1|] eqn:E1; [|discriminate]. injection E as <- <-.
    left. eapply ask_held; eauto.
  - unfold oserialize in E. destruct (oask w _) as [w1|]; [cbn [bind] in E|discriminate].
    destruct (alloc (w_heap w)) as [b h]. injection E as <- <-. left. exact H.
  - destruct (odeserialize w b d) as [w1|] eqn:E1; [|discriminate]. injection E as <- <-.
    destruct (deserialize_later _ _ _ _ E1) as (w0 & E0 & L). right.
    pose proof (clear_later _ _ E0) as L0.
    destruct (clear_drops _ _ _ E0 H N) as [D1 D2]. split; [exact D1|].
    apply L; [|exact D2]. destruct L0. lia.
  - injection E as <- <-. left. unfold oenable. destruct (w_bad w) eqn:Eb; [exact H|].
    destruct (alloc (w_heap w)) as [m h]. destruct H as [H|[H|H]]; [now left|congruence|].
    right. now right.
  - destruct (alloc (w_heap w)) as [b h]. injection E as <- <-. left. exact H.
  - destruct (free (w_heap w) (At b)) as [h|]; [cbn [bind] in E|discriminate].
    injection E as <- <-. left. exact H.
Qed.

(** ** Two clients that hold the same block *)

Definition holds_at (s : crowd) (i n : nat) : Prop :=
  exists w, nth_error (cr_all s) i = Some (Some w) /\ held w n.

Definition lost_cause (s : crowd) : Prop := exists n, n < h_next (cr_heap s) /\
  ((exists i j, i <> j /\ holds_at s i n /\ holds_at s j n) \/
   (exists i, holds_at s i n /\ live (cr_heap s) n = false)).

Lemma mstep_later s e s' : mstep s e = Ok s' -> later (cr_heap s) (cr_heap s').
Proof.
  destruct e as [|i e|i|i| |b]; cbn [mstep]; intros E.
  - injection E as <-. apply later_refl.
  - unfold client_at in E. destruct (nth_error (cr_all s) i) as [[w|]|]; try discriminate.
    cbn [bind] in E.
    destruct (step (set_heap w (cr_heap s), cr_app s) e) as [[w' app']|] eqn:Es; [|discriminate].
    cbn [bind fst snd] in E. injection E as <-. apply step_later in Es. exact Es.
  - unfold client_at in E. destruct (nth_error (cr_all s) i) as [[w|]|]; try discriminate.
    cbn [bind] in E. destruct (oclear (set_heap w (cr_heap s))) as [w'|] eqn:Es; [|discriminate].
    cbn [bind] in E. injection E as <-. apply clear_later in Es. exact Es.
  - destruct (client_at s i); [|discriminate]. cbn [bind] in E. injection E as <-. apply later_refl.
  - destruct (alloc (cr_heap s)) as [b h] eqn:E1. injection E as <-. eapply alloc_later; eauto.
  - destruct (free (cr_heap s) (At b)) as [h|] eqn:E1; [|discriminate]. cbn [bind] in E.
    injection E as <-. eapply free_later; eauto.
Qed.

(** What becomes of the block held by one of them. *)
Lemma mstep_keeps s e s' i n : mstep s e = Ok s' -> holds_at s i n -> n < h_next (cr_heap s) ->
  holds_at s' i n \/
  (dropped (cr_heap s) (cr_heap s') n /\ forall j, j <> i -> holds_at s j n -> holds_at s' j n).
Proof.
  intros E (w & Ew & H) N.
  assert (Len : i < length (cr_all s)) by (apply nth_error_Some; congruence).
  destruct e as [|k e|k|k| |b]; cbn [mstep] in E.
  - injection E as <-. left. exists w. cbn [cr_all]. now rewrite nth_error_app1.
  - unfold client_at in E. destruct (nth_error (cr_all s) k) as [[v|]|] eqn:Ev; try discriminate.
    cbn [bind] in E.
    destruct (step (set_heap v (cr_heap s), cr_app s) e) as [[v' app']|] eqn:Es; [|discriminate].
    cbn [bind fst snd] in E. injection E as <-. unfold holds_at. cbn [cr_all cr_heap].
    destruct (Nat.eq_dec k i) as [->|Nk].
    + assert (v = w) as -> by congruence.
      destruct (step_keeps _ _ _ _ _ n Es H N) as [K|K].
      * left. exists v'. now rewrite (put_same _ _ _ _ Ew).
      * right. split; [exact K|]. intros j Nj (u & Eu & Hu). exists u.
        rewrite put_other by congruence. auto.
    + left. exists w. now rewrite put_other.
  - unfold client_at in E. destruct (nth_error (cr_all s) k) as [[v|]|] eqn:Ev; try discriminate.
    cbn [bind] in E. destruct (oclear (set_heap v (cr_heap s))) as [v'|] eqn:Es; [|discriminate].
    cbn [bind] in E. injection E as <-. unfold holds_at. cbn [cr_all cr_heap].
    destruct (Nat.eq_dec k i) as [->|Nk].
    + assert (v = w) as -> by congruence. right.
      split; [exact (clear_drops _ _ n Es H N)|]. intros j Nj (u & Eu & Hu). exists u.
      rewrite put_other by congruence. auto.
    + left. exists w. now rewrite put_other.
  - destruct (client_at s k) as [v|]; [|discriminate]. cbn [bind] in E. injection E as <-.
    left. exists w. cbn [cr_all]. now rewrite nth_error_app1.
  - destruct (alloc (cr_heap s)) as [b h]. injection E as <-. left. exists w. auto.
  - destruct (free (cr_heap s) (At b)) as [h|]; [|discriminate]. cbn [bind] in E.
    injection E as <-. left. exists w. auto.
Qed.

Lemma mstep_lost s e s' : mstep s e = Ok s' -> lost_cause s -> lost_cause s'.
Proof.
  intros E (n & N & K). pose proof (mstep_later _ _ _ E) as [L1 L2].
  exists n. split; [lia|]. destruct K as [(i & j & Nij & Hi & Hj)|(i & Hi & D)].
  - destruct (mstep_keeps _ _ _ _ _ E Hi N) as [Ki|[[_ D] Ki]].
    + destruct (mstep_keeps _ _ _ _ _ E Hj N) as [Kj|[[_ D] Kj]].
      * left. exists i, j. auto.
      * right. exists i. auto.
    + right. exists j. split; [apply Ki; auto|exact D].
  - destruct (mstep_keeps _ _ _ _ _ E Hi N) as [Ki|[[D' _] _]]; [|congruence].
    right. exists i. split; [exact Ki|]. now apply L2.
Qed.

Lemma mend_one_lost s i s' : mend_one s i = Ok s' -> lost_cause s -> lost_cause s'.
Proof.
  unfold mend_one. destruct (nth_error (cr_all s) i) as [[w|]|];
    try (intros [= <-]; auto). apply mstep_lost.
Qed.

Lemma mend_lost ks : forall s s', foldM mend_one s ks = Ok s' ->
  lost_cause s -> lost_cause s' /\ length (cr_all s') = length (cr_all s) /\
  forall i, In i ks \/ gone s i -> gone s' i.
Proof.
  induction ks as [|k ks IH]; intros s s' E K; cbn [foldM] in E.
  - assert (s' = s) as -> by congruence. repeat split; auto. intros i [[]|G]; exact G.
  - destruct (mend_one s k) as [s1|] eqn:E1; [cbn [bind] in E|discriminate].
    destruct (IH _ _ E (mend_one_lost _ _ _ E1 K)) as (K2 & L2 & G2).
    split; [exact K2|]. split; [rewrite L2; eapply mend_one_length; eauto|].
    intros i I0. apply G2. unfold mend_one in E1.
    destruct (nth_error (cr_all s) k) as [[w|]|] eqn:Ew.
    + cbn [mstep] in E1. rewrite (client_at_ok _ _ _ Ew) in E1. cbn [bind] in E1.
      destruct (oclear (set_heap w (cr_heap s))) as [w'|]; [cbn [bind] in E1|discriminate].
      assert (Es : s1 = mkCr (w_heap w') (put k None (cr_all s)) (cr_app s)) by congruence.
      destruct (Nat.eq_dec k i) as [<-|Nk].
      * right. intros v. rewrite Es. cbn [cr_all]. rewrite (put_same _ _ _ _ Ew). discriminate.
      * destruct I0 as [[H|H]|H]; [contradiction|now left|]. right. intros v. rewrite Es.
        cbn [cr_all]. rewrite put_other by exact Nk. apply H.
    + assert (s1 = s) as -> by congruence. destruct I0 as [[<-|H]|H]; auto.
      right. intros v. congruence.
    + assert (s1 = s) as -> by congruence. destruct I0 as [[<-|H]|H]; auto.
      right. intros v. congruence.
Qed.

Lemma mend_lost_ub s : lost_cause s -> mend s = UB.
Proof.
  intros K. destruct (mend s) as [s'|] eqn:E; [|reflexivity]. exfalso. unfold mend in E.
  destruct (mend_lost _ _ _ E K) as ((n & _ & K2) & L & G).
  assert (G' : forall i, gone s' i).
  { intros i. destruct (Nat.lt_ge_cases i (length (cr_all s))) as [H|H].
    - apply G. left. apply in_seq. lia.
    - intros w Ew. rewrite <- L in H. apply nth_error_None in H. congruence. }
  destruct K2 as [(i & j & _ & (w & Ew & _) & _)|(i & (w & Ew & _) & _)]; exact (G' i w Ew).
Qed.

Lemma run_lost es : forall s, lost_cause s -> (s <- mrun s es ;; mend s) = UB.
Proof.
  induction es as [|e es IH]; intros s K; unfold mrun; cbn [foldM].
  - cbn [bind]. now apply mend_lost_ub.
  - destruct (mstep s e) as [s1|] eqn:E; [cbn [bind]|reflexivity].
    apply IH. eapply mstep_lost; eauto.
Qed.
