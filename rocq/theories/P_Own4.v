From Coq Require Import Lia.
From Verif Require Import Base Flags Sets FilterM ParseM ClientM OwnM Spec SpecM SpecO
  P_Base P_List P_Own P_Own2 P_Own3.

(** The buffer in use, from the flag and the member. *)
Definition cur_of (r : bool) (b : option nat) : option nat := if r then b else None.

Definition winv (s : wrap) (r : bool) (lost : list nat) : Prop :=
  inv (wr_own s, ownB (wr_buf s)) (cur_of r (wr_buf s)) lost.

Lemma keeps_cur r b : keeps (ownB b) (cur_of r b).
Proof. intros x E. destruct r; cbn in E; [|easy]. subst b. now left. Qed.

(** The buffer may be released: only the heap changes. *)
Lemma drop_buf w b cur lost :
  inv (w, ownB b) cur lost ->
  exists h, destroyOpt (w_heap w) b = Ok h /\ inv (set_heap w h, []) cur lost.
Proof.
  intros [H A Hx Hy G]; cbn [fst snd] in *.
  edestruct (destroyOpt_ok (w_heap w) b (ownW w ++ lost)) as (h & -> & H1).
  { eapply holds_eq; [|exact H]. cnt. }
  exists h. split; [reflexivity|].
  split; cbn [fst snd set_heap w_heap w_arrs w_host w_ehost w_gates]; auto.
Qed.

Lemma wstep_ok s r lost e :
  winv s r lost -> match e with NParse _ => r = false | _ => True end ->
  exists s' X, wstep s e = Ok s' /\ length X = lost_in_w e /\
    winv s' (restored_after r e) (X ++ lost).
Proof.
  destruct s as [w b]. unfold winv; cbn [wr_own wr_buf]. intros V N.
  destruct e as [ls| |t| |d|]; cbn [wstep restored_after lost_in_w wr_own wr_buf] in *.
  - subst r. destruct (parse_ok w _ lost ls V) as (w' & X & -> & E & V').
    eexists _, X. split; [reflexivity|]. auto.
  - destruct (clear_ok _ _ _ _ V) as (h & -> & H). eexists _, [].
    split; [reflexivity|]. split; [reflexivity|]. now apply inv_own0.
  - destruct (ask_ok w _ lost _ t V (keeps_cur r b)) as (w' & -> & V').
    eexists _, []. split; [reflexivity|]. auto.
  - destruct (serialize_ok w _ lost _ V (keeps_cur r b)) as (w' & n & -> & V'). cbn [bind fst snd].
    destruct V' as [H A Hx Hy G]; cbn [fst snd] in *.
    destruct (free_holds (w_heap w') n (ownW w' ++ ownB b ++ lost)) as (h & -> & H1).
    { eapply holds_eq; [|exact H]. cnt. }
    cbn [bind]. eexists _, []. split; [reflexivity|]. split; [reflexivity|].
    split; cbn [fst snd set_heap w_heap w_arrs w_host w_ehost w_gates wr_own wr_buf]; auto.
  - destruct (drop_buf _ _ _ _ V) as (h & -> & V1). cbn [bind].
    destruct (alloc h) as [n h1] eqn:E.
    edestruct (deserialize_ok (set_heap w h1) [n] lost (cur_of r b) n d) as (w' & -> & V2).
    + destruct V1 as [H A Hx Hy G]; cbn [fst snd set_heap w_heap] in *.
      pose proof (alloc_holds _ _ _ _ E H) as H1.
      split; cbn [fst snd set_heap w_heap w_arrs w_host w_ehost w_gates]; auto.
      rewrite set_heap_ownW in *. eapply holds_eq; [|exact H1]. cnt.
    + now left.
    + eexists _, []. split; [reflexivity|]. split; [reflexivity|].
      cbn [wr_own wr_buf cur_of ownB]. exact V2.
  - eexists _, []. split; [reflexivity|]. split; [reflexivity|]. cbn [Datatypes.app wr_own wr_buf].
    unfold oenable. destruct (w_bad w) eqn:Eb; [exact V|].
    destruct (alloc (w_heap w)) as [n h] eqn:E.
    destruct V as [H A Hx Hy G]; cbn [fst snd] in *.
    pose proof (alloc_holds _ _ _ _ E H) as H1.
    split; cbn [fst snd w_heap w_arrs w_host w_ehost w_gates]; auto.
    eapply holds_eq; [|exact H1]. unfold ownW;
      cbn [w_arrs w_bloom w_ebloom w_host w_ehost w_gates w_bad].
    rewrite Eb. cbn [ownB]. cnt.
Qed.

Lemma wlife_ok es : forall s r lost,
  winv s r lost -> no_parse_over_w r es ->
  exists s' r' X, foldM wstep s es = Ok s' /\ length X = lost_total_w es /\
    winv s' r' (X ++ lost).
Proof.
  induction es as [|e es IH]; cbn [foldM no_parse_over_w lost_total_w fold_right];
    intros s r lost V N.
  - exists s, r, []. auto.
  - destruct N as [N0 N].
    destruct (wstep_ok s r lost e V N0) as (s1 & X & -> & EX & V1). cbn [bind].
    destruct (IH s1 _ _ V1 N) as (s2 & r2 & Y & -> & EY & V2).
    exists s2, r2, (Y ++ X). split; [reflexivity|]. split.
    + rewrite app_length. fold (lost_total_w es). lia.
    + now rewrite <- app_assoc.
Qed.

Lemma wrapped_ok es :
  no_parse_over_w false es ->
  exists h X, wrapped_life es = Ok h /\ length X = lost_total_w es /\
    NoDup (h_live h) /\ forall b, In b (h_live h) <-> In b X.
Proof.
  intros N. unfold wrapped_life.
  destruct (wlife_ok es wrap0 false [] inv0 N) as (s & r & X & -> & E & V).
  cbn [bind]. rewrite app_nil_r in V. unfold cleanup.
  destruct (drop_buf _ _ _ _ V) as (h & -> & V1). cbn [bind].
  destruct (clear_ok _ _ _ _ V1) as (h1 & -> & H1). cbn [rmap own0 w_heap].
  exists h1, X. split; [reflexivity|]. split; [exact E|].
  destruct H1 as (A & B & _). split.
  - apply (NoDup_count_occ Nat.eq_dec). exact B.
  - intro b. rewrite !(count_occ_In Nat.eq_dec). rewrite A. cbn [Datatypes.app]. lia.
Qed.

Lemma nothing_lost_w es : nothing_overwritten_w es -> lost_total_w es = 0.
Proof.
  unfold nothing_overwritten_w. induction es as [|e es IH]; intros H; [reflexivity|].
  cbn [lost_total_w fold_right]. fold (lost_total_w es).
  rewrite IH by (intros ls s I; apply (H ls s); now right).
  destruct e as [ls| | | | |]; try reflexivity. cbn [lost_in_w].
  assert (Z : sum_lost ls = 0).
  { assert (Q : forall s, In s ls -> l_lost s = 0) by (intros s; apply (H ls s); now left).
    clear -Q. induction ls as [|s ls IH]; cbn [sum_lost fold_right]; [reflexivity|].
    rewrite (Q s) by now left. apply IH. intros; apply Q; now right. }
  lia.
Qed.
