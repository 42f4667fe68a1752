(** Proofs about the questions to one rule (C107): rules read from a line. *)
From Verif Require Import Base Flags Url Sets FilterM ParseM ClientM Spec SpecM DomM SpecDom
  P_Base P_Rule P_Parse P_List P_Line P_Opt P_Opt2 P_Dom.

Lemma parsed_domains pres l f : line_text l -> parses_to pres l f -> good_domains f.
Proof.
  intros L [b P] dl D. rewrite parse_filter_cstr in P by auto.
  assert (R := pline_ok pres l L). replace (fst (pline pres l)) with f in R by (injection P as P; now rewrite P).
  destruct R as (R & _). pose proof (R dl D) as X. intros I. now apply X in I.
Qed.

Lemma no_set_good qs : (forall t, ~ In (SetOptions t) qs) -> Forall good_rop qs.
Proof. intros H. apply Forall_forall. intros q I. destruct q; cbn; auto. now apply H in I. Qed.

Lemma with_same f : with_domains f (f_dom f) = f.
Proof. now destruct f. Qed.

Lemma plain_answers multi f qs : good_domains f -> (forall t, ~ In (SetOptions t) qs) ->
  exists replies o, rrun multi (newObj f) qs = Ok (replies, o) /\ length replies = length qs /\
  forall before q after, qs = before ++ q :: after ->
    (forall d anti, q = Contains d anti ->
       exists b k r, before = b ++ k :: r /\ looks f k = true /\ ~ In Copied r) ->
    exists a, nth_error replies (length before) = Some a /\ answers_as multi f (f_dom f) q a.
Proof.
  intros G N. destruct (answers_all multi f qs G (no_set_good qs N)) as (l & o & R & Ln & K).
  exists l, o. split; auto. split; auto. intros before q after E Hc.
  destruct (K before q after E) as (a & Na & A). exists a. split; auto.
  assert (Nb : forall t, ~ In (SetOptions t) before).
  { intros t I. apply (N t). rewrite E. apply in_app_iff. auto. }
  destruct (stands_plain f before Nb) as [S1 S2]. pose proof (stands_looked f before Nb) as S3.
  destruct (stands f before) as [g m]. cbn [fst snd] in *. subst g.
  replace (f_dom f) with (consulted f m q); auto.
  destruct q; cbn [consulted]; try (destruct S2 as [->| ->]; auto; now destruct (f_dom f)).
  apply S3. right. now apply (Hc d anti).
Qed.

Lemma run_snoc multi qs q : forall o l o1 a o2,
  rrun multi o qs = Ok (l, o1) -> rstep multi o1 q = Ok (a, o2) ->
  rrun multi o (qs ++ [q]) = Ok (l ++ [a], o2).
Proof.
  induction qs as [|x qs IH]; intros o l o1 a o2 R S; cbn [rrun app] in *.
  - assert (l = []) by congruence. assert (o = o1) by congruence. subst. rewrite S. reflexivity.
  - destruct (rstep multi o x) as [[b o']|]; [|discriminate]. cbn [bind] in *.
    destruct (rrun multi o' qs) as [[l' o'']|] eqn:E; [|discriminate]. cbn [bind] in R.
    assert (l = b :: l') by congruence. assert (o'' = o1) by congruence. subst.
    rewrite (IH o' l' o1 a o2 E S). reflexivity.
Qed.

Lemma snoc_answer multi f qs q : good_domains f -> Forall good_rop (qs ++ [q]) ->
  exists l a o, rrun multi (newObj f) (qs ++ [q]) = Ok (l ++ [a], o) /\
    let '(g, m) := stands f qs in answers_as multi g (consulted g m q) q a.
Proof.
  intros G F. apply Forall_app in F as [F1 F2]. inversion F2 as [|? ? Fq _]; subst.
  destruct (run_inv multi qs (newObj f) (f, None) (start_inv multi f G) F1) as (l & o & R & I & _).
  change (fold_left note qs (f, None)) with (stands f qs) in I. destruct (stands f qs) as [g m].
  destruct (step_inv multi o g m q I Fq) as (a & o' & S & A & _).
  exists l, a, o'. split; auto. eapply run_snoc; eauto.
Qed.

Lemma entries_in ps l e : entries ps l e -> forall d,
  (In d l <-> In d ps /\ ~ begins (B "~") d) /\ (In d e <-> In (B "~" ++ d) ps).
Proof.
  induction 1 as [|x ps l e Nx H IH|x ps l e H IH]; intros d.
  - cbn. tauto.
  - destruct (IH d) as [I1 I2]. split.
    + cbn [In]. rewrite I1. split; [intros [<-|[A C]]; auto|intros [[<-|A] C]; auto].
    + cbn [In]. rewrite I2. split; [auto|]. intros [->|A]; auto. exfalso. apply Nx. now exists d.
  - destruct (IH d) as [I1 I2]. split.
    + cbn [In]. rewrite I1. split; [intros [A C]; auto|]. intros [[<-|A] C]; auto. exfalso. apply C. now exists x.
    + cbn [In]. rewrite I2. split; [intros [<-|A]; auto|]. intros [A|A]; auto.
      left. now injection A.
Qed.

Lemma named_in m l e d (anti : bool) : named m l e ->
  (In d (if anti then e else l) <->
   exists dl, m = Some dl /\ if anti then excludes_domain dl d else lists_domain dl d).
Proof.
  intros H. destruct m as [dl|]; cbn [named] in H.
  - destruct H as (ps & C & En). destruct (entries_in ps l e En d) as [I1 I2]. split.
    + intros I. exists dl. split; auto. destruct anti.
      * exists ps. split; auto. now apply I2.
      * exists ps. apply I1 in I as [A N]. auto.
    + intros (dl' & E & I). assert (dl' = dl) by congruence. subst dl'. destruct anti.
      * destruct I as (ps' & C' & I). apply cut_unique in C, C'. apply I2. congruence.
      * destruct I as (ps' & C' & I & N). apply cut_unique in C, C'. apply I1. split; congruence.
  - destruct H as [-> ->]. split; [now destruct anti|]. intros (dl & E & _). discriminate.
Qed.

Lemma plain_contains multi f before d anti : good_domains f -> (forall t, ~ In (SetOptions t) before) ->
  exists replies o b, rrun multi (newObj f) (before ++ [Contains d anti]) = Ok (replies ++ [Said b], o) /\
  (b = true <->
   (exists dl, f_dom f = Some dl /\ if anti then excludes_domain dl d else lists_domain dl d) /\
   exists x k r, before = x ++ k :: r /\ looks f k = true /\ ~ In Copied r).
Proof.
  intros G N.
  destruct (snoc_answer multi f before (Contains d anti) G) as (l & a & o & R & A).
  { apply Forall_app. split; [now apply no_set_good|]. repeat constructor. }
  destruct (stands_plain f before N) as [S1 S2]. pose proof (stands_looked f before N) as S3.
  destruct (stands f before) as [g m]. cbn [fst snd] in *. subst g. cbn [consulted] in A.
  destruct A as (li & ex & Nm & b & -> & Hb). exists l, o, b. split; auto.
  rewrite Hb, (named_in m li ex d anti Nm). split.
  - intros (dl & E & I). subst m.
    assert (E : Some dl = f_dom f) by (destruct S2 as [S2|S2]; [discriminate|exact S2]).
    split; [exists dl; split; auto|]. apply S3 in E as [E|E]; auto. destruct S2; congruence.
  - intros [(dl & E & I) Lk]. exists dl. split; auto. rewrite <- E. apply S3. now right.
Qed.

Lemma plain_admits multi f qs context dom : good_domains f -> (forall t, ~ In (SetOptions t) qs) ->
  exists replies o, rrun multi (newObj f) (qs ++ [Admits context dom]) =
    Ok (replies ++ [Said (matchesOptions f context dom)], o).
Proof.
  intros G N.
  destruct (snoc_answer multi f qs (Admits context dom) G) as (l & a & o & R & A).
  { apply Forall_app. split; [now apply no_set_good|]. repeat constructor. }
  destruct (stands_plain f qs N) as [S1 S2].
  destruct (stands f qs) as [g m]. cbn [fst snd] in *. subst g.
  destruct A as (li & ex & Nm & ->). exists l, o. rewrite R. do 4 f_equal.
  replace (consulted f m (Admits context dom)) with (f_dom f); [now rewrite with_same|].
  cbn [consulted]. destruct S2 as [->| ->]; auto. now destruct (f_dom f).
Qed.
