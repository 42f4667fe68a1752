(** Lives of JavaScript objects (C89). *)
From Coq Require Import Lia.
From Verif Require Import Base Flags Sets FilterM ParseM ClientM SerialM OwnM OwnT BindM
  Spec SpecM SpecC SpecO SpecU SpecV P_Base P_List P_Own P_Own2 P_Own3 P_Own4 P_Own5 P_OwnT P_OwnT2.

Lemma wfold_doomed es : forall s s', doomed (wr_own s) -> foldM wstep s es = Ok s' -> doomed (wr_own s').
Proof.
  induction es as [|e es IH]; intros s s' D E.
  - injection E as <-. exact D.
  - cbn [foldM] in E. destruct (wstep s e) as [s1|] eqn:E1; [cbn [bind] in E|discriminate E].
    refine (IH s1 s' _ E). pose proof (wstep_arrs _ _ _ E1) as A. destruct s as [w b].
    destruct e as [ls| |t| |d|]; cbn [wr_own] in *; try (eapply alike_doomed; eauto; fail).
    + eapply moved_doomed; [exact A|now apply doomed_pointing].
    + cbn [wstep wr_own] in E1. rewrite clear_doomed in E1 by exact D. discriminate E1.
    + cbn [wstep wr_own wr_buf] in E1.
      destruct (destroyOpt (w_heap w) b) as [h|]; [cbn [bind] in E1|discriminate E1].
      destruct (alloc h) as [n h1]. unfold odeserialize in E1.
      rewrite clear_doomed in E1 by now apply doomed_set_heap. discriminate E1.
Qed.

Lemma pointing_dec s src : tracked (wr_own s) src -> pointing (wr_own s) \/ ~ pointing (wr_own s).
Proof.
  unfold tracked. intros T. destruct src as [d|].
  - destruct (textless_dec d) as [Y|Y].
    + right. rewrite T. intros (d' & [= <-] & N). now apply N.
    + left. rewrite T. exists d. split; [reflexivity|]. intros C. now apply textless_not in C.
  - right. rewrite T. intros (d' & X & _). discriminate X.
Qed.

Lemma fine_step s src : tracked (wr_own s) src -> ~ pointing (wr_own s) ->
  forall d, src = Some d -> textless d.
Proof.
  intros T N d ->. destruct (textless_dec d) as [Y|Y]; [exact Y|]. destruct N. apply T.
  exists d. split; [reflexivity|]. intros C. now apply textless_not in C.
Qed.

Lemma wfold_iff es : forall s r lost src,
  winv s r lost -> tracked (wr_own s) src ->
  (parses_fine_w src es ->
     exists s' r' X, foldM wstep s es = Ok s' /\ length X = lost_total_w es /\ winv s' r' (X ++ lost)) /\
  (forall s', foldM wstep s es = Ok s' -> parses_fine_w src es \/ doomed (wr_own s')).
Proof.
  induction es as [|e es IH]; intros s r lost src V T.
  - cbn [foldM parses_fine_w]. split; [|auto]. intros _. exists s, r, []. auto.
  - cbn [foldM parses_fine_w lost_total_w fold_right]. fold (lost_total_w es).
    assert (G : match e with NParse _ => ~ pointing (wr_own s) | _ => True end ->
       (parses_fine_w (restored_now_w src e) es ->
        exists s' r' X, (s1 <- wstep s e ;; foldM wstep s1 es) = Ok s' /\
          length X = lost_in_w e + lost_total_w es /\ winv s' r' (X ++ lost)) /\
       (forall s', (s1 <- wstep s e ;; foldM wstep s1 es) = Ok s' ->
          parses_fine_w (restored_now_w src e) es \/ doomed (wr_own s'))).
    { intros N. destruct (wstep_fine s r lost e V N) as (s1 & X & E & EX & V1).
      rewrite E. cbn [bind].
      destruct (IH s1 _ _ (restored_now_w src e) V1) as [A1 A2]; [eapply wstep_tracked; eauto|].
      split; [|exact A2]. intros F. destruct (A1 F) as (s2 & r2 & Y & E2 & EY & V2).
      exists s2, r2, (Y ++ X). split; [exact E2|]. split; [rewrite app_length; lia|].
      now rewrite <- app_assoc. }
    destruct e as [ls| |t| |d|];
      try (destruct (G I) as (G1 & G2); split;
           [intros [_ F]; exact (G1 F)|intros s' Es; destruct (G2 s' Es); auto]; fail).
    destruct (pointing_dec s src T) as [D|D].
    + split.
      * intros [F _]. exfalso. apply T in D. destruct D as (d & E & N). apply N, F, E.
      * intros s' Es. right. destruct s as [w b]. cbn [wstep wr_own wr_buf] in *.
        destruct (oparse w ls) as [w1|] eqn:E1; [cbn [rmap bind] in Es|discriminate Es].
        eapply wfold_doomed; [|exact Es]. cbn [wr_own].
        eapply moved_doomed; [eapply parse_moved; eauto|exact D].
    + destruct (G D) as (G1 & G2). split; [intros [_ F]; exact (G1 F)|].
      intros s' Es. destruct (G2 s' Es); [left|right]; auto. split; auto.
      exact (fine_step s src T D).
Qed.

(** ** The buffer *)

Lemma wstep_buf s e s' : wstep s e = Ok s' -> (wr_buf s' <> None <-> wr_buf s <> None \/ restores e).
Proof.
  destruct s as [w b]. destruct e as [ls| |t| |d|]; cbn [wstep wr_own wr_buf restores]; intros E.
  - destruct (oparse w ls); [|discriminate E]. injection E as <-. cbn. tauto.
  - destruct (oclear w); [|discriminate E]. injection E as <-. cbn. tauto.
  - destruct (oask w t); [|discriminate E]. injection E as <-. cbn. tauto.
  - destruct (oserialize w) as [[w1 n]|]; [cbn [bind fst snd] in E|discriminate E].
    destruct (free (w_heap w1) (At n)); [cbn [bind fst snd] in E|discriminate E].
    injection E as <-. cbn. tauto.
  - destruct (destroyOpt (w_heap w) b) as [h|]; [cbn [bind] in E|discriminate E].
    destruct (alloc h) as [n h1]. destruct (odeserialize (set_heap w h1) n d); [|discriminate E].
    injection E as <-. cbn. split; [auto|discriminate].
  - injection E as <-. cbn. tauto.
Qed.

Lemma wfold_buf es : forall s s', foldM wstep s es = Ok s' ->
  (wr_buf s' <> None <-> wr_buf s <> None \/ Exists restores es).
Proof.
  induction es as [|e es IH]; intros s s' E.
  - injection E as <-. rewrite Exists_nil. tauto.
  - cbn [foldM] in E. destruct (wstep s e) as [s1|] eqn:E1; [cbn [bind] in E|discriminate E].
    rewrite (IH _ _ E), (wstep_buf _ _ _ E1), Exists_cons. tauto.
Qed.

(** ** Objects *)

Lemma ostep_calls ws : forall s, foldM ostep (Alive s) (map OCall ws) = rmap Alive (foldM wstep s ws).
Proof.
  induction ws as [|e ws IH]; intros s; [reflexivity|]. cbn [map foldM ostep].
  destruct (wstep s e) as [s1|]; cbn [rmap bind]; auto.
Qed.

Lemma gone_stuck es h o : foldM ostep (Gone h) es = Ok o -> es = [] /\ o = Gone h.
Proof. destruct es as [|e es]; cbn; [intros [= <-]; auto|discriminate]. Qed.

Lemma life_forms es : forall s o, foldM ostep (Alive s) es = Ok o ->
  exists ws s', foldM wstep s ws = Ok s' /\
    ((es = map OCall ws /\ o = Alive s') \/
     (es = map OCall ws ++ [OCleanup] /\ exists h, cleanup s' = Ok h /\ o = Gone h)).
Proof.
  induction es as [|e es IH]; intros s o E.
  - injection E as <-. exists [], s. split; [reflexivity|]. auto.
  - cbn [foldM] in E. destruct e as [e|]; cbn [ostep] in E.
    + destruct (wstep s e) as [s1|] eqn:E1; [cbn [rmap bind] in E|discriminate E].
      destruct (IH s1 o E) as (ws & s' & F & H). exists (e :: ws), s'.
      split; [cbn [foldM]; now rewrite E1|].
      destruct H as [[-> ->]|[-> H]]; [left|right]; auto.
    + destruct (cleanup s) as [h|] eqn:E1; [cbn [rmap bind] in E|discriminate E].
      apply gone_stuck in E as [-> ->]. exists [], s. split; [reflexivity|]. right.
      split; [reflexivity|]. eauto.
Qed.

Lemma object_closed ws : object_life (map OCall ws ++ [OCleanup]) = wrapped_life ws.
Proof.
  unfold object_life, wrapped_life.
  assert (Q : forall a b o, foldM ostep o (a ++ b) = (o <- foldM ostep o a ;; foldM ostep o b)).
  { induction a as [|x a IH]; intros b o; [reflexivity|]. cbn [app foldM].
    destruct (ostep o x); cbn [bind]; auto. }
  rewrite Q, ostep_calls. destruct (foldM wstep wrap0 ws) as [s|]; [|reflexivity].
  cbn [rmap bind foldM ostep]. now destruct (cleanup s).
Qed.

Lemma object_open ws :
  (forall h, object_life (map OCall ws) = Ok h ->
     parses_fine_w None ws /\ NoDup (h_live h) /\
     exists n, length (h_live h) = lost_total_w ws + n /\
       ((n = 1 /\ Exists restores ws) \/ (n = 0 /\ ~ Exists restores ws))) /\
  (parses_fine_w None ws -> exists h, object_life (map OCall ws) = Ok h).
Proof.
  unfold object_life. rewrite ostep_calls.
  destruct (wfold_iff ws wrap0 false [] None inv0 (tracked0 _)) as [A B].
  assert (C : parses_fine_w None ws -> exists s r X h, foldM wstep wrap0 ws = Ok s /\
     length X = lost_total_w ws /\ oclear (wr_own s) = Ok (own0 h) /\ holds h (ownB (wr_buf s) ++ X) /\
     winv s r X).
  { intros F. destruct (A F) as (s & r & X & E & EX & V). rewrite app_nil_r in V.
    pose proof V as V'. destruct (clear_ok _ _ _ _ V') as (h & Eh & H). exists s, r, X, h. auto. }
  split.
  - intros h E.
    assert (F : parses_fine_w None ws).
    { destruct (foldM wstep wrap0 ws) as [s|] eqn:Es; [cbn [rmap bind collected] in E|discriminate E].
      destruct (B s eq_refl) as [F|D]; [exact F|].
      rewrite (clear_doomed _ D) in E. discriminate E. }
    split; [exact F|]. destruct (C F) as (s & r & X & h1 & Es & EX & Eh & H & _).
    rewrite Es in E. cbn [rmap bind collected] in E. rewrite Eh in E. cbn [rmap own0 w_heap] in E.
    injection E as <-. destruct H as (H1 & H2 & _).
    assert (D1 : NoDup (h_live h1)) by (apply (NoDup_count_occ Nat.eq_dec); exact H2).
    assert (D2 : NoDup (ownB (wr_buf s) ++ X)).
    { apply (NoDup_count_occ Nat.eq_dec). intro x. rewrite <- H1. apply H2. }
    split; [exact D1|]. exists (length (ownB (wr_buf s))). split.
    + rewrite <- EX, Nat.add_comm, <- app_length.
      apply Nat.le_antisymm; apply NoDup_incl_length; auto;
        intros b; rewrite !(count_occ_In Nat.eq_dec), H1; auto.
    + pose proof (wfold_buf _ _ _ Es) as Bf. cbn [wrap0 wr_buf] in Bf.
      destruct (wr_buf s) as [b|]; cbn [ownB length].
      * left. split; [reflexivity|]. destruct (proj1 Bf ltac:(discriminate)) as [X0|X0]; [easy|exact X0].
      * right. split; [reflexivity|]. intros X0. destruct (proj2 Bf (or_intror X0)). reflexivity.
  - intros F. destruct (C F) as (s & r & X & h1 & -> & _ & Eh & _).
    cbn [rmap bind collected]. rewrite Eh. cbn [rmap]. eauto.
Qed.

Lemma object_iff es : (exists h, object_life es = Ok h) <->
  exists ws, parses_fine_w None ws /\ (closes es ws \/ left_open es ws).
Proof.
  split.
  - intros (h & E). pose proof E as E'. unfold object_life in E.
    destruct (foldM ostep (Alive wrap0) es) as [o|] eqn:Eo; [cbn [bind] in E|discriminate E].
    destruct (life_forms es wrap0 o Eo) as (ws & s & Ew & [[Ee Eoo]|[Ee (h' & Ec & Eoo)]]); subst.
    + exists ws. split; [|now right]. now apply (proj1 (object_open ws) h).
    + exists ws. split; [|now left]. apply wrapped_iff. rewrite object_closed in E'. eauto.
  - intros (ws & F & [-> | ->]).
    + rewrite object_closed. now apply wrapped_iff.
    + now apply object_open.
Qed.

(** In terms of calls *)
Lemma story_restores E c xs es c' : story E c xs es c' ->
  (Exists restores es <-> exists buf, In (Load buf) xs).
Proof.
  induction 1 as [c|c x xs e es c1 c2 O A H S IH].
  - rewrite Exists_nil. split; [easy|intros (b & [])].
  - rewrite Exists_app, IH.
    assert (Q : Exists restores e <-> exists buf, x = Load buf).
    { destruct H; rewrite ?Exists_cons, ?Exists_nil; cbn [restores];
        (split; [intros K; try tauto; eauto|intros (b & K); try discriminate K; auto]). }
    rewrite Q. split.
    + intros [(b & ->)|(b & I)]; exists b; [now left|now right].
    + intros (b & [->|I]); eauto.
Qed.

Lemma calls_collected E xs es c n h :
  story E client0 xs es c -> repeats_in line_repeats xs n ->
  object_life (map OCall es) = Ok h ->
  (never_restored xs -> length (h_live h) = 2 * n) /\
  (~ never_restored xs -> length (h_live h) = 2 * n + 1).
Proof.
  intros S R E1. destruct (proj1 (object_open es) h E1) as (F & _ & m & L & M).
  pose proof (proj2 (wrapped_iff es) F) as (h' & W).
  pose proof (story_leak E client0 xs es c n h' S R W) as L1.
  destruct (wrapped_leak es h' W) as [_ L2].
  assert (Q : Exists restores es <-> ~ never_restored xs).
  { rewrite (story_restores _ _ _ _ _ S). split.
    - intros (b & I) N. exact (N b I).
    - intros N. destruct M as [[_ M]|[_ M]].
      + now apply (story_restores _ _ _ _ _ S).
      + exfalso. apply N. intros b I. apply M. apply (story_restores _ _ _ _ _ S). eauto. }
  rewrite L, <- L2, L1. destruct M as [[-> M]|[-> M]]; split; intros N; try lia.
  - exfalso. now apply Q in M.
  - exfalso. now apply M, Q.
Qed.

Lemma open_leak ws h : object_life (map OCall ws) = Ok h ->
  NoDup (h_live h) /\
  (Exists restores ws -> length (h_live h) = lost_total_w ws + 1) /\
  (~ Exists restores ws -> length (h_live h) = lost_total_w ws).
Proof.
  intros E. destruct (proj1 (object_open ws) h E) as (_ & N & n & L & H).
  split; [exact N|]. destruct H as [[-> H]|[-> H]]; split; intros K; try contradiction; lia.
Qed.

Lemma gone_over es e rest : object_life (es ++ OCleanup :: e :: rest) = UB.
Proof.
  unfold object_life. rewrite foldM_app. destruct (foldM ostep (Alive wrap0) es) as [o|]; [|reflexivity].
  cbn [bind foldM]. destruct o as [s|h]; [|reflexivity]. cbn [ostep].
  destruct (cleanup s); reflexivity.
Qed.
