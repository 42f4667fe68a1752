From Coq Require Import Lia.
From Verif Require Import Base Flags Sets FilterM ParseM ClientM OwnM SpecO P_Base P_List
  P_Own P_Own2 P_Own3 P_Own5 ManyM SpecMany P_Many.

(** ** Runs without their end *)

Lemma fine_over s bk lost src e : minv s bk lost -> trk s src -> polite_m (cr_app s) bk e ->
  fine_now src e -> over s e.
Proof.
  intros V T P F. destruct e as [|i [ls| |t| |b d| | |b]|i|i| |b]; cbn [over]; auto.
  cbn [fine_now] in F. intros w Ew Pw. apply (proj1 T i w Ew) in Pw.
  destruct Pw as (d & Ed & N). exact (N (F d Ed)).
Qed.

Definition occ_m (occ : nat -> bool) (e : mevent) (i : nat) : bool :=
  match e with
  | MCall j e => if Nat.eqb i j then occupied_after (occ i) e else occ i
  | _ => occ i
  end.

(** Blocks that a client is sure to free. *)
Definition held (w : own) (n : nat) : Prop :=
  w_bloom w = Some n \/ w_bad w = Some n \/ exists l, tget (w_arrs w) KFilters = Some (n, l).
Definition idle (w : own) : Prop := forall h, set_heap w h = own0 h.

Definition occs (s : crowd) (occ : nat -> bool) : Prop :=
  (forall i w, nth_error (cr_all s) i = Some (Some w) ->
     if occ i then exists n, held w n else idle w) /\
  (forall i, length (cr_all s) <= i -> occ i = false).

Lemma pass2_bloom w s w' : pass2 w s = Ok w' -> w_bloom w' = w_bloom w.
Proof.
  unfold pass2. intros E. destruct (read_line (w_heap w) s) as [o h].
  destruct (insert_host h o (l_insert s) (w_host w) (w_ehost w)) as [[x y] h1].
  destruct (ask_if (l_asks s) h1 o) as [o1 h2].
  destruct (l_dest s) as [k|].
  - destruct (is_gated k).
    + destruct (add_entries _ _ _ _) as [l h3]. destruct (swapData obj0 o1) as [a b].
      destruct (destroy h3 b); [|discriminate]. cbn [bind] in E. now injection E as <-.
    + destruct (swapData obj0 o1) as [a b].
      destruct (destroy h2 b); [|discriminate]. cbn [bind] in E. now injection E as <-.
  - destruct (destroy h2 o1); [|discriminate]. cbn [bind] in E. now injection E as <-.
Qed.

Lemma pass2_blooms ls : forall w w', foldM pass2 w ls = Ok w' -> w_bloom w' = w_bloom w.
Proof.
  induction ls as [|s ls IH]; intros w w' E; cbn [foldM] in E; [congruence|].
  destruct (pass2 w s) as [w1|] eqn:E1; [cbn [bind] in E|discriminate].
  rewrite (IH _ _ E). eapply pass2_bloom; eauto.
Qed.

Lemma parse_held w ls w' : oparse w ls = Ok w' -> exists n, held w' n.
Proof.
  unfold oparse. intros E.
  destruct (new_blk (w_bloom w) (w_heap w)) as [b1 h1].
  destruct (new_blk (w_ebloom w) h1) as [b2 h2].
  destruct (new_opt (w_host w) h2) as [[n1 l1] h3].
  destruct (new_opt (w_ehost w) h3) as [[n2 l2] h4].
  destruct (new_gates h4 gated (w_gates w)) as [gs h5].
  destruct (foldM pass1 h5 ls) as [h6|]; [cbn [bind] in E|discriminate E].
  destruct (regrow_all h6 kinds (w_arrs w) (tall None) (tall None)) as [[news olds] h7].
  destruct (destroyTab destroy h7 olds kinds) as [h8|]; [cbn [bind] in E|discriminate E].
  exists b1. left. now rewrite (pass2_blooms _ _ _ E).
Qed.

Lemma new_arrs_other b f ks : forall h t t' h' k, ~ In k ks ->
  new_arrs h ks b f t = (t', h') -> tget t' k = tget t k.
Proof.
  induction ks as [|k0 ks IH]; intros h t t' h' k N E; cbn [new_arrs] in E; [congruence|].
  destruct (alloc h) as [n h1]. rewrite (IH _ _ _ _ _ (fun X => N (or_intror X)) E).
  apply tget_tset_other. intros ->. apply N. now left.
Qed.

Lemma deserialize_held w b d w' : odeserialize w b d = Ok w' -> exists n, held w' n.
Proof.
  unfold odeserialize. intros E.
  destruct (oclear w) as [w0|]; [cbn [bind] in E|discriminate].
  destruct (use (w_heap w0) (Inside b)) as [u|]; [cbn [bind] in E|discriminate].
  destruct (new_arrs (w_heap w0) kinds b (d_arrs d) (tall None)) as [a h1] eqn:Ea.
  destruct (new_oblk (d_bloom d) h1) as [b1 h2].
  destruct (new_oblk (d_ebloom d) h2) as [b2 h3].
  destruct (new_set h3 (option_map (map (obj_in b)) (d_host d))) as [x h4].
  destruct (new_set h4 (option_map (map (obj_in b)) (d_ehost d))) as [y h5].
  destruct (new_sets h5 gated b (d_gates d) (tall None)) as [g h6].
  injection E as <-. remember (List.tl kinds) as ks eqn:Ek.
  assert (Ea' : new_arrs (w_heap w0) (KFilters :: ks) b (d_arrs d) (tall None) = (a, h1))
    by (rewrite Ek; exact Ea).
  cbn [new_arrs] in Ea'. destruct (alloc (w_heap w0)) as [n h]. exists n. right. right. cbn [w_arrs].
  assert (N : ~ In KFilters ks) by (rewrite Ek; cbn; intuition discriminate).
  exists (map (obj_in b) (d_arrs d KFilters)). rewrite (new_arrs_other _ _ _ _ _ _ _ _ N Ea').
  apply tget_tset_same.
Qed.

Lemma touch_arr_none h t : touch_arr h None t = (None, h).
Proof. reflexivity. Qed.

Lemma touch_tab_idle ks : forall h t, touch_tab h ks (tall None) t = (tall None, h).
Proof.
  induction ks as [|k ks IH]; intros h t; cbn [touch_tab]; [reflexivity|].
  rewrite tget_tall. cbn [touch_arr].
  destruct k; apply IH.
Qed.

Lemma touch_tab_block ks : forall h a t a' h' k n l, touch_tab h ks a t = (a', h') ->
  tget a k = Some (n, l) -> exists l', tget a' k = Some (n, l').
Proof.
  induction ks as [|k0 ks IH]; intros h a t a' h' k n l E Ek; cbn [touch_tab] in E.
  - assert (a' = a) as -> by congruence. eauto.
  - destruct (touch_arr h (tget a k0) (t k0)) as [x h1] eqn:Ex.
    assert (D : k0 = k \/ k0 <> k) by (destruct k0, k; (left; reflexivity) || (right; discriminate)).
    destruct D as [->|N].
    + rewrite Ek in Ex. cbn [touch_arr] in Ex. destruct (touch h l (t k)) as [l1 h2].
      apply (IH _ _ _ _ _ k n l1 E). rewrite tget_tset_same. congruence.
    + apply (IH _ _ _ _ _ k n l E). rewrite tget_tset_other by congruence. exact Ek.
Qed.

Lemma ask_held w t w' n : oask w t = Ok w' -> held w n -> held w' n.
Proof.
  unfold oask. intros E H.
  destruct (use_all _ (w_heap w) kinds) as [[]|]; [cbn [bind] in E|discriminate].
  destruct (use_all _ (w_heap w) (items (w_host w))) as [[]|]; [cbn [bind] in E|discriminate].
  destruct (use_all _ (w_heap w) (items (w_ehost w))) as [[]|]; [cbn [bind] in E|discriminate].
  destruct (use_all _ (w_heap w) gated) as [[]|]; [cbn [bind] in E|discriminate].
  destruct (touch_tab (w_heap w) kinds (w_arrs w) (t_arrs t)) as [a h] eqn:Ea.
  destruct (touch_arr h (w_host w) (t_host t)) as [x h1].
  destruct (touch_arr h1 (w_ehost w) (t_ehost t)) as [y h2]. injection E as <-.
  destruct H as [H|[H|(l & H)]]; [now left|right; now left|]. right. right.
  cbn [w_arrs]. eapply touch_tab_block; eauto.
Qed.

Lemma idle_eq w : idle w -> w = own0 (w_heap w).
Proof. intros H. rewrite <- (H (w_heap w)). now destruct w. Qed.

Lemma own0_idle h : idle (own0 h).
Proof. now intro. Qed.

Lemma ask_idle w t w' : oask w t = Ok w' -> idle w -> idle w'.
Proof.
  intros E H. apply idle_eq in H. rewrite H in E. unfold oask in E.
  cbn [own0 w_arrs w_host w_ehost w_gates w_bloom w_ebloom w_bad w_heap items use_all bind] in E.
  destruct (use_all _ (w_heap w) kinds) as [[]|]; [cbn [bind] in E|discriminate].
  destruct (use_all _ (w_heap w) gated) as [[]|]; [cbn [bind] in E|discriminate].
  rewrite touch_tab_idle in E. cbn [touch_arr] in E. injection E as <-. now intro.
Qed.

Lemma clear_own0 w w' : oclear w = Ok w' -> exists h, w' = own0 h.
Proof.
  unfold oclear. intros E.
  repeat match type of E with
  | bind ?X _ = Ok _ => destruct X; [cbn [bind] in E|discriminate]
  end.
  injection E as <-. eauto.
Qed.

Lemma step_occ w app e w' app' (o : bool) : step (w, app) e = Ok (w', app') ->
  (if o then exists n, held w n else idle w) ->
  if occupied_after o e then exists n, held w' n else idle w'.
Proof.
  destruct e as [ls| |t| |b d| | |b]; cbn [step occupied_after]; intros E H.
  - destruct (oparse w ls) as [w1|] eqn:E1; [|discriminate]. injection E as <- <-.
    eapply parse_held; eauto.
  - destruct (oclear w) as [w1|] eqn:E1; [|discriminate]. injection E as <- <-.
    destruct (clear_own0 _ _ E1) as (h & ->). apply own0_idle.
  - destruct (oask w t) as [w1|] eqn:E1; [|discriminate]. injection E as <- <-.
    destruct o; [destruct H as (n & H); exists n; eapply ask_held; eauto|eapply ask_idle; eauto].
  - unfold oserialize in E. destruct (oask w _) as [w1|]; [cbn [bind] in E|discriminate].
    destruct (alloc (w_heap w)) as [b h]. injection E as <- <-.
    destruct o; [exact H|]. apply idle_eq in H. rewrite H. now intro.
  - destruct (odeserialize w b d) as [w1|] eqn:E1; [|discriminate]. injection E as <- <-.
    eapply deserialize_held; eauto.
  - injection E as <- <-. unfold oenable. destruct (w_bad w) as [n|] eqn:Eb.
    + exists n. right. now left.
    + destruct (alloc (w_heap w)) as [n h]. exists n. right. now left.
  - destruct (alloc (w_heap w)) as [b h]. injection E as <- <-. destruct o; [exact H|].
    apply idle_eq in H. rewrite H. now intro.
  - destruct (free (w_heap w) (At b)) as [h|]; [cbn [bind] in E|discriminate].
    injection E as <- <-. destruct o; [exact H|]. apply idle_eq in H. rewrite H. now intro.
Qed.

Lemma mstep_occs s e s' occ : ~ copying e -> mstep s e = Ok s' -> occs s occ -> occs s' (occ_m occ e).
Proof.
  intros C E [T1 T2]. destruct e as [|i e|i|i| |b]; cbn [mstep] in E.
  - injection E as <-. split; cbn [cr_all occ_m].
    + intros j w Ej. destruct (Nat.lt_ge_cases j (length (cr_all s))) as [H|H].
      * rewrite nth_error_app1 in Ej by exact H. now apply T1.
      * rewrite nth_error_app2 in Ej by exact H. rewrite T2 by exact H.
        destruct (j - length (cr_all s)) as [|n]; [|destruct n; discriminate].
        injection Ej as <-. apply own0_idle.
    + intros j. rewrite app_length. cbn. intros H. apply T2. lia.
  - unfold client_at in E. destruct (nth_error (cr_all s) i) as [[w|]|] eqn:Ew; try discriminate.
    cbn [bind] in E.
    destruct (step (set_heap w (cr_heap s), cr_app s) e) as [[w' app']|] eqn:Es; [|discriminate].
    cbn [bind fst snd] in E. injection E as <-. split; cbn [cr_all occ_m].
    + intros j v Ej. destruct (Nat.eqb j i) eqn:Eji.
      * apply Nat.eqb_eq in Eji. subst j. rewrite (put_same _ _ _ _ Ew) in Ej.
        injection Ej as <-. eapply step_occ; [exact Es|]. pose proof (T1 i w Ew) as H.
        destruct (occ i); [exact H|]. intros h. apply (H h).
      * apply Nat.eqb_neq in Eji. rewrite put_other in Ej by congruence. now apply T1.
    + intros j H. rewrite put_length in H. destruct (Nat.eqb j i) eqn:Eji; [|now apply T2].
      apply Nat.eqb_eq in Eji. subst j. apply nth_error_None in H. congruence.
  - unfold client_at in E. destruct (nth_error (cr_all s) i) as [[w|]|] eqn:Ew; try discriminate.
    cbn [bind] in E. destruct (oclear (set_heap w (cr_heap s))) as [w'|]; [|discriminate].
    cbn [bind] in E. injection E as <-. split; cbn [cr_all occ_m].
    + intros j v Ej. destruct (Nat.eq_dec i j) as [<-|Nj].
      * rewrite (put_same _ _ _ _ Ew) in Ej. discriminate.
      * rewrite put_other in Ej by exact Nj. now apply T1.
    + intros j H. rewrite put_length in H. now apply T2.
  - now destruct C.
  - destruct (alloc (cr_heap s)) as [b h]. injection E as <-. now split.
  - destruct (free (cr_heap s) (At b)) as [h|]; [|discriminate]. cbn [bind] in E.
    injection E as <-. now split.
Qed.

Lemma occupied_cons occ e es i :
  fold_left occupied_after (calls_on i (e :: es)) (occ i) =
  fold_left occupied_after (calls_on i es) (occ_m occ e i).
Proof.
  unfold calls_on; cbn [flat_map]. destruct e as [|j e|j|j| |b]; cbn [occ_m Datatypes.app]; auto.
  destruct (Nat.eqb i j); reflexivity.
Qed.

Lemma run_ok es : forall s bk lost src occ,
  minv s bk lost -> trk s src -> occs s occ -> used_well_m s bk es -> no_copy es ->
  (forall i, parses_fine (src i) (calls_on i es)) ->
  exists s' X, mrun s es = Ok s' /\ minv s' (fold_left book_after es bk) (X ++ lost) /\
    occs s' (fun i => fold_left occupied_after (calls_on i es) (occ i)).
Proof.
  induction es as [|e es IH]; intros s bk lost src occ V T O U C F.
  - exists s, []. split; [reflexivity|]. split; [exact V|]. exact O.
  - cbn [used_well_m] in U. destruct U as [P U].
    assert (Ce : ~ copying e).
    { destruct e; cbn; auto. intros _. apply (C i). now left. }
    assert (Cs : no_copy es) by (intros i Hi; apply (C i); now right).
    apply calls_fine in F. destruct F as [F0 F].
    destruct (mstep_fine _ _ _ _ V P Ce (fine_over _ _ _ _ _ V T P F0)) as (s1 & X & E1 & _ & V1).
    destruct (IH s1 _ _ _ _ V1 (mstep_trk _ _ _ _ Ce E1 T) (mstep_occs _ _ _ _ Ce E1 O)
                (U s1 E1) Cs F) as (s2 & Y & E2 & V2 & O2).
    exists s2, (Y ++ X). unfold mrun; cbn [foldM]. rewrite E1. cbn [bind].
    split; [exact E2|]. split; [rewrite <- app_assoc; exact V2|].
    destruct O2 as [O3 O4]. split.
    + intros i w Ew. rewrite occupied_cons. exact (O3 i w Ew).
    + intros i H. rewrite occupied_cons. exact (O4 i H).
Qed.

(** ** Destroying a copy *)

Definition shrinks (h h' : heap) : Prop := forall n, live h' n = true -> live h n = true.

Lemma shrinks_refl h : shrinks h h.
Proof. now intro. Qed.

Lemma shrinks_trans a b c : shrinks a b -> shrinks b c -> shrinks a c.
Proof. intros H1 H2 n H. apply H1, H2, H. Qed.

Lemma free_shrinks h p h' : free h p = Ok h' -> shrinks h h'.
Proof.
  destruct p as [|b|b]; cbn [free]; [intros [= <-]; apply shrinks_refl| |discriminate].
  destruct (live h b); [|discriminate]. intros [= <-] n. rewrite !live_cnt. cbn [h_live].
  rewrite cnt_remove. destruct (Nat.eq_dec b n); lia.
Qed.

Lemma free_live h b h' : free h (At b) = Ok h' -> live h b = true.
Proof. cbn [free]. destruct (live h b); [reflexivity|discriminate]. Qed.

Ltac shrink :=
  repeat match goal with
  | E : bind ?X _ = Ok _ |- _ =>
      let F := fresh "F" in destruct X eqn:F; [cbn [bind] in E|discriminate E]
  end.

Lemma destroy_shrinks h o h' : destroy h o = Ok h' -> shrinks h h'.
Proof.
  unfold destroy. intros E. shrink. destruct (o_borrowed o); shrink;
    repeat match goal with
    | F : free _ _ = Ok _ |- _ => apply free_shrinks in F
    | F : Ok _ = Ok _ |- _ => injection F as F; subst
    end; eauto 10 using shrinks_trans, shrinks_refl.
Qed.

Lemma destroyG_shrinks h g h' : destroyG h g = Ok h' -> shrinks h h'.
Proof.
  unfold destroyG. intros E. destruct (g_borrowed g);
    [injection E as <-; apply shrinks_refl|]. now apply free_shrinks in E.
Qed.

Lemma foldM_shrinks {A} (d : heap -> A -> res heap) l :
  (forall h x h', d h x = Ok h' -> shrinks h h') ->
  forall h h', foldM d h l = Ok h' -> shrinks h h'.
Proof.
  intros D. induction l as [|x l IH]; intros h h' E; cbn [foldM] in E.
  - injection E as <-. apply shrinks_refl.
  - destruct (d h x) as [h1|] eqn:E1; [cbn [bind] in E|discriminate].
    eapply shrinks_trans; eauto.
Qed.

Lemma destroyArr_shrinks {A} (d : heap -> A -> res heap) h a h' :
  (forall h x h', d h x = Ok h' -> shrinks h h') ->
  destroyArr d h a = Ok h' -> shrinks h h'.
Proof.
  intros D. destruct a as [[b l]|]; cbn [destroyArr].
  - intros E. destruct (foldM d h l) as [h1|] eqn:E1; [cbn [bind] in E|discriminate].
    eapply shrinks_trans; [eapply foldM_shrinks; eauto|eapply free_shrinks; eauto].
  - intros [= <-]. apply shrinks_refl.
Qed.

Lemma destroyOpt_shrinks h o h' : destroyOpt h o = Ok h' -> shrinks h h'.
Proof.
  destruct o; cbn [destroyOpt]; [apply free_shrinks|]. intros [= <-]. apply shrinks_refl.
Qed.

Lemma destroyTab_shrinks {A} (d : heap -> A -> res heap) h t ks h' :
  (forall h x h', d h x = Ok h' -> shrinks h h') ->
  destroyTab d h t ks = Ok h' -> shrinks h h'.
Proof.
  intros D. unfold destroyTab. apply foldM_shrinks. intros h0 k h1.
  now apply destroyArr_shrinks.
Qed.

Lemma clear_needs w w' n : oclear w = Ok w' -> held w n -> live (w_heap w) n = true.
Proof.
  unfold oclear. intros E H.
  destruct (destroyTab destroy (w_heap w) (w_arrs w) kinds) as [h1|] eqn:E1;
    [cbn [bind] in E|discriminate].
  destruct (destroyOpt h1 (w_bloom w)) as [h2|] eqn:E2; [cbn [bind] in E|discriminate].
  destruct (destroyOpt h2 (w_ebloom w)) as [h3|] eqn:E3; [cbn [bind] in E|discriminate].
  destruct (destroyArr destroy h3 (w_host w)) as [h4|] eqn:E4; [cbn [bind] in E|discriminate].
  destruct (destroyArr destroy h4 (w_ehost w)) as [h5|] eqn:E5; [cbn [bind] in E|discriminate].
  destruct (destroyTab destroyG h5 (w_gates w) gated) as [h6|] eqn:E6; [cbn [bind] in E|discriminate].
  destruct (destroyOpt h6 (w_bad w)) as [h7|] eqn:E7; [cbn [bind] in E|discriminate].
  assert (S1 : shrinks (w_heap w) h1) by (eapply destroyTab_shrinks; eauto using destroy_shrinks).
  destruct H as [H|[H|(l & H)]].
  - apply S1. rewrite H in E2. now apply free_live in E2.
  - apply S1. apply destroyOpt_shrinks in E2, E3.
    apply (destroyArr_shrinks _ _ _ _ destroy_shrinks) in E4.
    apply (destroyArr_shrinks _ _ _ _ destroy_shrinks) in E5.
    apply (destroyTab_shrinks _ _ _ _ _ destroyG_shrinks) in E6.
    rewrite H in E7. apply free_live in E7. auto 10.
  - unfold destroyTab, kinds in E1. cbn [foldM] in E1. rewrite H in E1. cbn [destroyArr] in E1.
    destruct (foldM destroy (w_heap w) l) as [h0|] eqn:E0; [cbn [bind] in E1|discriminate].
    apply (foldM_shrinks _ _ destroy_shrinks) in E0. apply E0.
    destruct (free h0 (At n)) as [h00|] eqn:F; [now apply free_live in F|discriminate].
Qed.

Lemma clear_idle h : oclear (own0 h) = Ok (own0 h).
Proof.
  unfold oclear, destroyTab, kinds, gated. cbn [own0 w_heap w_arrs w_bloom w_ebloom w_host w_ehost
    w_gates w_bad foldM tget tall destroyArr destroyOpt bind]. reflexivity.
Qed.

Lemma held_own w n : held w n -> In n (ownW w).
Proof.
  intros H. unfold ownW. rewrite !in_app_iff. destruct H as [H|[H|(l & H)]].
  - right. left. rewrite H. now left.
  - rewrite H. cbn [ownB In]. tauto.
  - left. unfold ownT, kinds. cbn [flat_map]. apply in_or_app. left. rewrite H.
    cbn [ownA]. now left.
Qed.

(** ** The end *)

Lemma mend_one_length s i s' : mend_one s i = Ok s' -> length (cr_all s') = length (cr_all s).
Proof.
  unfold mend_one. destruct (nth_error (cr_all s) i) as [[w|]|]; try (now intros [= <-]).
  cbn [mstep]. destruct (client_at s i) as [v|]; [|discriminate]. cbn [bind].
  destruct (oclear v) as [v'|]; [|discriminate]. cbn [bind]. intros [= <-]. cbn [cr_all].
  apply put_length.
Qed.
