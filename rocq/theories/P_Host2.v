From Coq Require Import Lia.
From Verif Require Import Base Flags Sets FilterM ParseM ClientM SerialM OwnM OwnT BindM ManyM HostM
  Spec SpecM SpecC SpecO SpecU SpecV SpecHost
  P_Base P_List P_Own P_Own2 P_Own3 P_Own4 P_Own5 P_OwnT P_OwnT2 P_Obj P_Many P_Host.

(** ** Sums *)

Lemma sum_same (f f' : nat -> nat) ks : (forall j, In j ks -> f j = f' j) ->
  sum (map f ks) = sum (map f' ks).
Proof. intros H. f_equal. now apply map_ext_in. Qed.

Lemma sum_one (f f' : nat -> nat) i n ks : NoDup ks -> In i ks ->
  (forall j, j <> i -> f j = f' j) -> f i = n + f' i ->
  sum (map f ks) = n + sum (map f' ks).
Proof.
  intros D I0 O E. induction ks as [|k ks IH]; [destruct I0|]. inversion_clear D.
  cbn [map sum fold_right]. fold (sum (map f ks)). fold (sum (map f' ks)).
  destruct (Nat.eq_dec k i) as [->|N].
  - rewrite E, (sum_same f f' ks); [lia|]. intros j Ij. apply O. intros ->. contradiction.
  - destruct I0 as [I0|I0]; [contradiction|]. rewrite (O k N), IH by assumption. lia.
Qed.

(** ** [put] *)

Lemma put_map {A B} (f : A -> B) x : forall l i, map f (put i x l) = put i (f x) (map f l).
Proof. induction l as [|y l IH]; intros [|i]; cbn; auto. now rewrite IH. Qed.

Lemma put_self {A} (x : A) : forall l i, nth_error l i = Some x -> put i x l = l.
Proof.
  induction l as [|y l IH]; intros [|i] E; cbn in *; auto; try congruence. now rewrite IH.
Qed.

(** ** The end *)

Lemma jend_all ks : forall p g lost, NoDup ks -> hinv p g lost ->
  exists p' g' X, foldM jend_one p ks = Ok p' /\
    length X = sum (map (fun i => gleft (g i) []) ks) /\ hinv p' g' (X ++ lost) /\
    length (ho_all p') = length (ho_all p) /\
    (forall i, ~ In i ks -> g' i = g i) /\
    (forall i, In i ks -> i < length (ho_all p) -> g' i = GTaken).
Proof.
  induction ks as [|k ks IH]; intros p g lost D V.
  - exists p, g, []. repeat split; auto; try apply V. intros i [].
  - inversion_clear D. cbn [foldM]. unfold jend_one at 1.
    assert (Z : forall x, sum (map (fun i => gleft (gset g k x i) []) ks) =
                          sum (map (fun i => gleft (g i) []) ks)).
    { intros x. apply sum_same. intros j Ij. unfold gset.
      destruct (Nat.eqb_spec j k); [subst; contradiction|reflexivity]. }
    destruct (nth_error (ho_all p) k) as [[s| |]|] eqn:Ek.
    + destruct (live_kind _ _ _ _ _ V Ek) as (src & b & G & T & B).
      destruct (collect_inv _ _ _ _ _ _ _ V Ek G B) as (p1 & X & -> & EX & L1 & V1). cbn [bind].
      destruct (IH p1 _ _ H0 V1) as (p2 & g2 & Y & -> & EY & V2 & L2 & O2 & T2).
      exists p2, g2, (Y ++ X). split; [reflexivity|]. split.
      { rewrite app_length, EY, EX, Z. cbn [map sum fold_right]. rewrite G. cbn [gleft].
        unfold sum. lia. }
      split; [now rewrite <- app_assoc|]. split; [congruence|]. split.
      * intros i N. rewrite O2 by (intros C; apply N; now right). unfold gset.
        destruct (Nat.eqb_spec i k); [|reflexivity]. destruct N. now left.
      * intros i [<-|Ii] L; [|apply T2; [exact Ii|lia]]. rewrite O2 by assumption.
        unfold gset. now rewrite Nat.eqb_refl.
    + destruct (collect_gone _ _ _ _ V Ek) as (p1 & -> & L1 & V1). cbn [bind].
      destruct (IH p1 _ _ H0 V1) as (p2 & g2 & Y & -> & EY & V2 & L2 & O2 & T2).
      pose proof (n_ok _ _ _ V _ _ Ek) as K. destruct (g k) as [| | |] eqn:G; try destruct K.
      exists p2, g2, Y. split; [reflexivity|]. split.
      { rewrite EY, Z. cbn [map sum fold_right]. rewrite G. reflexivity. }
      split; [exact V2|]. split; [congruence|]. split.
      * intros i N. rewrite O2 by (intros C; apply N; now right). unfold gset.
        destruct (Nat.eqb_spec i k); [|reflexivity]. destruct N. now left.
      * intros i [<-|Ii] L; [|apply T2; [exact Ii|lia]]. rewrite O2 by assumption.
        unfold gset. now rewrite Nat.eqb_refl.
    + cbn [bind]. pose proof (n_ok _ _ _ V _ _ Ek) as K. destruct (g k) as [| | |] eqn:G; try destruct K.
      destruct (IH p _ _ H0 V) as (p2 & g2 & Y & -> & EY & V2 & L2 & O2 & T2).
      exists p2, g2, Y. split; [reflexivity|]. split.
      { rewrite EY. cbn [map sum fold_right]. rewrite G. reflexivity. }
      split; [exact V2|]. split; [exact L2|]. split.
      * intros i N. apply O2. intros C; apply N; now right.
      * intros i [<-|Ii] L; [|now apply T2]. now rewrite O2.
    + cbn [bind]. pose proof (n_none _ _ _ V k (proj1 (nth_error_None _ _) Ek)) as G.
      destruct (IH p _ _ H0 V) as (p2 & g2 & Y & -> & EY & V2 & L2 & O2 & T2).
      exists p2, g2, Y. split; [reflexivity|]. split.
      { rewrite EY. cbn [map sum fold_right]. rewrite G. reflexivity. }
      split; [exact V2|]. split; [exact L2|]. split.
      * intros i N. apply O2. intros C; apply N; now right.
      * intros i [<-|Ii] L; [|now apply T2]. apply nth_error_None in Ek. lia.
Qed.

Lemma jend_ok p g lost : hinv p g lost ->
  exists p' X, jend p = Ok p' /\
    length X = sum (map (fun i => gleft (g i) []) (seq 0 (length (ho_all p)))) /\
    holds (ho_heap p') (X ++ lost).
Proof.
  intros V. unfold jend.
  destruct (jend_all (seq 0 (length (ho_all p))) p g lost (seq_NoDup _ _) V)
    as (p' & g' & X & -> & EX & V' & L & _ & T).
  exists p', X. split; [reflexivity|]. split; [exact EX|].
  assert (Z : flat_map ownJ (ho_all p') = []).
  { assert (Q : forall i c, nth_error (ho_all p') i = Some c -> ownJ c = []).
    { intros i c Ei. assert (Li : i < length (ho_all p')) by (apply nth_error_Some; congruence).
      pose proof (n_ok _ _ _ V' _ _ Ei) as K. rewrite T in K by (rewrite ?in_seq; lia).
      now destruct c. }
    clear -Q. induction (ho_all p') as [|c l IH]; [reflexivity|]. cbn [flat_map].
    rewrite (Q 0 c eq_refl), IH; [reflexivity|]. intros i. exact (Q (S i)). }
  pose proof (n_holds _ _ _ V') as H. now rewrite Z in H.
Qed.

(** ** Doomed objects *)

Definition doomed_in (p : host) (i : nat) : Prop :=
  exists s, nth_error (ho_all p) i = Some (JLive s) /\ doomed (wr_own s).

Lemma wstep_doomed s e s' : doomed (wr_own s) -> wstep s e = Ok s' -> doomed (wr_own s').
Proof.
  intros D E. apply (wfold_doomed [e] s s' D). cbn [foldM]. now rewrite E.
Qed.

Lemma jstep_doomed p e p' i : doomed_in p i -> jstep p e = Ok p' -> doomed_in p' i.
Proof.
  intros (s & Es & D) E. destruct e as [|j e|j]; cbn [jstep] in E.
  - injection E as <-. exists s. split; [|exact D]. cbn [ho_all].
    rewrite nth_error_app1; [exact Es|]. apply nth_error_Some. congruence.
  - destruct (nth_error (ho_all p) j) as [[t| |]|] eqn:Ej; try discriminate.
    destruct (Nat.eq_dec j i) as [->|N].
    + assert (t = s) as -> by congruence. destruct e as [e|]; cbn [ostep] in E.
      * destruct (wstep (wrap_on (ho_heap p) s) e) as [s'|] eqn:Ew; [|discriminate].
        cbn [rmap bind stored heap_of] in E. injection E as <-. exists s'.
        cbn [ho_all]. split; [exact (put_same _ _ _ _ Ej)|].
        eapply wstep_doomed; [|exact Ew]. exact D.
      * unfold cleanup in E. cbn [wrap_on wr_own wr_buf] in E.
        destruct (destroyOpt _ _) as [h|]; [cbn [bind] in E|discriminate].
        rewrite clear_doomed in E by exact D. discriminate.
    + destruct (ostep _ e) as [o|]; [cbn [bind] in E|discriminate]. injection E as <-.
      exists s. cbn [ho_all]. rewrite put_other by exact N. auto.
  - destruct (nth_error (ho_all p) j) as [[t| |]|] eqn:Ej; try discriminate.
    + destruct (Nat.eq_dec j i) as [->|N].
      * assert (t = s) as -> by congruence. cbn [collected wrap_on wr_own] in E.
        rewrite clear_doomed in E by exact D. discriminate.
      * destruct (collected _) as [h|]; [cbn [bind] in E|discriminate]. injection E as <-.
        exists s. cbn [ho_all]. rewrite put_other by exact N. auto.
    + injection E as <-. exists s. cbn [ho_all].
      rewrite put_other by (intros ->; congruence). auto.
Qed.

Lemma jend_doomed ks : forall p i, In i ks -> doomed_in p i -> foldM jend_one p ks = UB.
Proof.
  induction ks as [|k ks IH]; intros p i I0 D; [destruct I0|]. cbn [foldM].
  destruct (Nat.eq_dec k i) as [->|N].
  - destruct D as (s & Es & D). unfold jend_one. rewrite Es. cbn [jstep]. rewrite Es.
    cbn [collected wrap_on wr_own]. now rewrite clear_doomed by exact D.
  - destruct I0 as [I0|I0]; [contradiction|].
    destruct (jend_one p k) as [p1|] eqn:E; [cbn [bind]|reflexivity].
    apply (IH p1 i I0). unfold jend_one in E.
    destruct (nth_error (ho_all p) k) as [[s| |]|]; try (injection E as <-; exact D);
      eapply jstep_doomed; eauto.
Qed.

Definition rest (p : host) (es : list jevent) : res heap :=
  p <- foldM jstep p es ;; p <- jend p ;; Ok (ho_heap p).

Lemma rest_doomed es : forall p i, doomed_in p i -> rest p es = UB.
Proof.
  unfold rest. induction es as [|e es IH]; intros p i D; cbn [foldM].
  - cbn [bind]. unfold jend. rewrite (jend_doomed _ p i); [reflexivity| |exact D].
    apply in_seq. destruct D as (s & Es & _).
    assert (i < length (ho_all p)) by (apply nth_error_Some; congruence). lia.
  - destruct (jstep p e) as [p1|] eqn:E; [cbn [bind]|reflexivity].
    apply (IH p1 i). eapply jstep_doomed; eauto.
Qed.

(** ** The whole run *)

Definition is_here (c : jsobj) : bool := match c with JTaken => false | _ => true end.

Lemma possible_none es : forall here i, nth_error here i = Some false -> possible here es ->
  calls_to i es = [].
Proof.
  induction es as [|e es IH]; intros here i E P; [reflexivity|].
  unfold calls_to; cbn [flat_map]. fold (calls_to i es). destruct e as [|j e|j]; cbn [possible] in P.
  - apply (IH (here ++ [true])); [|exact P]. rewrite nth_error_app1; [exact E|].
    apply nth_error_Some. congruence.
  - destruct P as [P1 P2]. destruct (Nat.eqb_spec i j); [congruence|]. now apply (IH here).
  - destruct P as [P1 P2]. apply (IH (put j false here)); [|exact P2].
    rewrite put_other; [exact E|]. intros ->. congruence.
Qed.

Lemma here_nth p i : nth_error (map is_here (ho_all p)) i = Some true ->
  exists c, nth_error (ho_all p) i = Some c /\ (c = JCleaned \/ exists s, c = JLive s).
Proof.
  intros H. destruct (nth_error (ho_all p) i) as [c|] eqn:E.
  - apply (map_nth_error is_here) in E. rewrite E in H. exists c. split; [reflexivity|].
    destruct c; [right; eauto|auto|discriminate].
  - apply nth_error_None in E. rewrite <- (map_length is_here) in E. apply nth_error_None in E.
    congruence.
Qed.

Lemma calls_to_do i j e es : calls_to i (JDo j e :: es) =
  if Nat.eqb i j then e :: calls_to i es else calls_to i es.
Proof. unfold calls_to; cbn [flat_map]. now destruct (Nat.eqb i j). Qed.

Definition total (g : nat -> ghost) (es : list jevent) (n : nat) : nat :=
  sum (map (fun i => gleft (g i) (calls_to i es)) (seq 0 n)).

Lemma total_step g i x es es' n k : i < n ->
  (forall j, j <> i -> calls_to j es = calls_to j es') ->
  gleft (g i) (calls_to i es) = k + gleft x (calls_to i es') ->
  total g es n = k + total (gset g i x) es' n.
Proof.
  intros L O E. unfold total. apply (sum_one _ _ i); [apply seq_NoDup|apply in_seq; lia| |].
  - intros j N. unfold gset. rewrite (proj2 (Nat.eqb_neq _ _) N), O by exact N. reflexivity.
  - unfold gset. now rewrite Nat.eqb_refl.
Qed.

Lemma fine_step_g g i x es es' :
  (forall j, j <> i -> calls_to j es = calls_to j es') ->
  (gfine (g i) (calls_to i es) <-> gfine x (calls_to i es')) ->
  ((forall j, gfine (g j) (calls_to j es)) <-> (forall j, gfine (gset g i x j) (calls_to j es'))).
Proof.
  intros O E. split; intros H j; pose proof (H j) as Hj; unfold gset in Hj |- *;
    (destruct (Nat.eqb j i) eqn:N; [apply Nat.eqb_eq in N; subst j; tauto|apply Nat.eqb_neq in N]).
  - now rewrite <- O.
  - now rewrite O.
Qed.

Lemma rest_iff es : forall p g lost, hinv p g lost -> possible (map is_here (ho_all p)) es ->
  ((forall i, gfine (g i) (calls_to i es)) ->
     exists h X, rest p es = Ok h /\ length X = total g es (length (ho_all p) + created es) /\
       holds h (X ++ lost)) /\
  (forall h, rest p es = Ok h -> forall i, gfine (g i) (calls_to i es)).
Proof.
  induction es as [|e es IH]; intros p g lost V P.
  - unfold rest. cbn [foldM bind created List.filter length]. rewrite Nat.add_0_r. split.
    + intros _. destruct (jend_ok _ _ _ V) as (p' & X & -> & EX & H). cbn [bind]. eauto.
    + intros _ _ i. cbn. now destruct (g i).
  - assert (G : forall p' x i k X,
       jstep p e = Ok p' -> hinv p' (gset g i x) (X ++ lost) -> length X = k ->
       possible (map is_here (ho_all p')) es ->
       length (ho_all p') + created es = length (ho_all p) + created (e :: es) ->
       i < length (ho_all p) + created (e :: es) ->
       (forall j, j <> i -> calls_to j (e :: es) = calls_to j es) ->
       (gfine (g i) (calls_to i (e :: es)) <-> gfine x (calls_to i es)) ->
       (gfine x (calls_to i es) ->
        gleft (g i) (calls_to i (e :: es)) = k + gleft x (calls_to i es)) ->
       ((forall i, gfine (g i) (calls_to i (e :: es))) ->
          exists h X, rest p (e :: es) = Ok h /\
            length X = total g (e :: es) (length (ho_all p) + created (e :: es)) /\
            holds h (X ++ lost)) /\
       (forall h, rest p (e :: es) = Ok h -> forall i, gfine (g i) (calls_to i (e :: es)))).
    { intros p' x i k X E V' EX P' L Li O F T. unfold rest. cbn [foldM]. rewrite E. cbn [bind].
      fold (rest p' es). destruct (IH p' _ _ V' P') as [A B].
      pose proof (fine_step_g g i x (e :: es) es O F) as Q. split.
      - intros H0. pose proof (proj1 Q H0) as H. destruct (A H) as (h & Y & Eh & EY & Hh).
        exists h, (Y ++ X). split; [exact Eh|]. split; [|now rewrite <- app_assoc].
        specialize (H i). unfold gset in H. rewrite Nat.eqb_refl in H.
        rewrite app_length, EY, EX, L, (total_step g i x (e :: es) es _ k Li O (T H)). lia.
      - intros h Eh. exact (proj2 Q (B h Eh)). }
    destruct e as [|i e|i]; cbn [possible] in P.
    + assert (Z : g (length (ho_all p)) = GNone) by (apply (n_none _ _ _ V); lia).
      eapply (G _ (GLive None false) (length (ho_all p)) 0 []); clear G.
      * reflexivity.
      * exact (new_inv _ _ _ V).
      * reflexivity.
      * cbn [ho_all]. rewrite map_app. exact P.
      * cbn [ho_all created List.filter length]. rewrite app_length. cbn [length].
        unfold created. lia.
      * cbn [created List.filter length]. lia.
      * reflexivity.
      * rewrite Z. reflexivity.
      * rewrite Z. reflexivity.
    + destruct P as [P1 P2]. destruct (here_nth _ _ P1) as (c & Ec & Kc).
      assert (Li : i < length (ho_all p) + created (JDo i e :: es)).
      { assert (i < length (ho_all p)) by (apply nth_error_Some; congruence). lia. }
      assert (O : forall j, j <> i -> calls_to j (JDo i e :: es) = calls_to j es).
      { intros j N. rewrite calls_to_do. now rewrite (proj2 (Nat.eqb_neq _ _) N). }
      assert (S : calls_to i (JDo i e :: es) = e :: calls_to i es).
      { rewrite calls_to_do. now rewrite Nat.eqb_refl. }
      destruct Kc as [->|[s ->]].
      { clear G. pose proof (n_ok _ _ _ V _ _ Ec) as K. destruct (g i) as [| | |] eqn:Eg; try destruct K.
        split.
        - intros H. specialize (H i). rewrite Eg, S in H. discriminate H.
        - intros h. unfold rest. cbn [foldM jstep]. rewrite Ec. discriminate. }
      destruct (live_kind _ _ _ _ _ V Ec) as (src & b & Eg & T & B).
      destruct e as [e|].
      * assert (D : pointing (wr_own s) /\ (exists ls, e = NParse ls) \/
                    match e with NParse _ => ~ pointing (wr_own s) | _ => True end).
        { destruct e; auto. destruct (pointing_dec s src T); [left; eauto|right; assumption]. }
        destruct D as [[D (ls & ->)]|D].
        -- clear G. split.
           ++ intros H. specialize (H i). rewrite Eg, S in H. cbn [gfine goes_well] in H.
              destruct H as [H _]. apply T in D. destruct D as (d & Ed & N). destruct (N (H d Ed)).
           ++ intros h. unfold rest. cbn [foldM].
              destruct (jstep p (JDo i (OCall (NParse ls)))) as [p1|] eqn:E1; [|discriminate].
              cbn [bind]. fold (rest p1 es). rewrite (rest_doomed es p1 i); [discriminate|].
              cbn [jstep] in E1. rewrite Ec in E1. cbn [ostep wstep wrap_on wr_own wr_buf] in E1.
              destruct (oparse (set_heap (wr_own s) (ho_heap p)) ls) as [w1|] eqn:Ew; [|discriminate].
              cbn [rmap bind stored heap_of] in E1. injection E1 as <-.
              eexists. split; [cbn [ho_all]; exact (put_same _ _ _ _ Ec)|]. cbn [wr_own].
              eapply moved_doomed; [eapply parse_moved; exact Ew|exact D].
        -- destruct (call_inv _ _ _ _ _ _ _ e V Ec Eg T B D) as (p1 & X & E1 & EX & L1 & V1).
           assert (M : map is_here (ho_all p1) = map is_here (ho_all p)).
           { cbn [jstep] in E1. rewrite Ec in E1. cbn [ostep] in E1.
             destruct (wstep _ e) as [s'|]; [|discriminate]. cbn [rmap bind stored heap_of] in E1.
             injection E1 as <-. cbn [ho_all]. rewrite put_map. now apply put_self. }
           eapply (G p1 _ i (lost_in_w e) X); clear G; eauto.
           ++ now rewrite M.
           ++ rewrite Eg, S. cbn [gfine goes_well]. split; [tauto|]. intros H. split; [|exact H].
              destruct e; auto. exact (fine_step s src T D).
           ++ intros _. rewrite Eg, S. reflexivity.
      * destruct (cleanup_inv _ _ _ _ _ _ _ V Ec Eg) as (p1 & E1 & L1 & V1).
        assert (M : map is_here (ho_all p1) = map is_here (ho_all p)).
        { cbn [jstep] in E1. rewrite Ec in E1. cbn [ostep] in E1.
          destruct (cleanup _) as [s'|]; [|discriminate]. cbn [rmap bind stored heap_of] in E1.
          injection E1 as <-. cbn [ho_all]. rewrite put_map. now apply put_self. }
        eapply (G p1 _ i 0 []); clear G; eauto.
        -- now rewrite M.
        -- rewrite Eg, S. reflexivity.
        -- intros _. rewrite Eg, S. reflexivity.
    + destruct P as [P1 P2]. destruct (here_nth _ _ P1) as (c & Ec & Kc).
      assert (Li : i < length (ho_all p) + created (JCollect i :: es)).
      { assert (i < length (ho_all p)) by (apply nth_error_Some; congruence). lia. }
      assert (S : calls_to i es = []).
      { eapply possible_none; [|exact P2]. exact (put_same _ _ _ _ P1). }
      assert (S' : calls_to i (JCollect i :: es) = []) by exact S.
      destruct Kc as [->|[s ->]].
      * destruct (collect_gone _ _ _ _ V Ec) as (p1 & E1 & L1 & V1).
        pose proof (n_ok _ _ _ V _ _ Ec) as K. destruct (g i) as [| | |] eqn:Eg; try destruct K.
        eapply (G p1 _ i 0 []); clear G; eauto.
        -- cbn [jstep] in E1. rewrite Ec in E1. injection E1 as <-. cbn [ho_all].
           rewrite put_map. exact P2.
        -- rewrite Eg, S'. cbn. tauto.
        -- rewrite Eg. reflexivity.
      * destruct (live_kind _ _ _ _ _ V Ec) as (src & b & Eg & T & B).
        destruct (collect_inv _ _ _ _ _ _ _ V Ec Eg B) as (p1 & X & E1 & EX & L1 & V1).
        eapply (G p1 _ i (leaves b []) X); clear G; eauto.
        -- cbn [jstep] in E1. rewrite Ec in E1. cbn [collected] in E1.
           destruct (rmap _ _) as [h|]; [|discriminate]. cbn [bind] in E1. injection E1 as <-.
           cbn [ho_all]. rewrite put_map. exact P2.
        -- rewrite Eg, S'. cbn. tauto.
        -- intros _. rewrite Eg, S'. cbn [gleft]. lia.
Qed.

Lemma hinv0 : hinv host0 (fun _ => GNone) [].
Proof.
  split; cbn; [|intros [|i]; discriminate|reflexivity].
  unfold holds, heap0; cbn. repeat split; intros; lia.
Qed.

Lemma host_iff es : possible [] es ->
  ((exists h, host_life es = Ok h) <-> forall i, exists h, object_life (calls_to i es) = Ok h).
Proof.
  intros P. destruct (rest_iff es host0 _ [] hinv0 P) as [A B]. unfold host_life.
  fold (rest host0 es). split.
  - intros (h & E) i. apply alone_iff. exact (B h E i).
  - intros H. destruct A as (h & X & E & _); [|eauto].
    intros i. cbn [gfine]. apply alone_iff, H.
Qed.

Lemma host_left es h : possible [] es -> host_life es = Ok h ->
  NoDup (h_live h) /\
  length (h_live h) = sum (map (fun i => left_alone (calls_to i es)) (seq 0 (created es))).
Proof.
  intros P E. destruct (rest_iff es host0 _ [] hinv0 P) as [A B]. unfold host_life in E.
  fold (rest host0 es) in E. destruct (A (B h E)) as (h1 & X & E1 & EX & H).
  rewrite E in E1. injection E1 as <-. rewrite app_nil_r in H. destruct H as (H1 & H2 & _).
  assert (D1 : NoDup (h_live h)) by (apply (NoDup_count_occ Nat.eq_dec); exact H2).
  assert (D2 : NoDup X).
  { apply (NoDup_count_occ Nat.eq_dec). intro x. rewrite <- H1. apply H2. }
  split; [exact D1|]. transitivity (length X).
  - apply Nat.le_antisymm; apply NoDup_incl_length; auto;
      intros b; rewrite !(count_occ_In Nat.eq_dec), H1; auto.
  - rewrite EX. unfold total. cbn [host0 ho_all length Nat.add]. apply sum_same. intros i _.
    cbn [gleft]. unfold left_alone.
    destruct (proj2 (alone_iff (calls_to i es)) (B h E i)) as (h' & E').
    rewrite E'. symmetry. now apply alone_left.
Qed.
