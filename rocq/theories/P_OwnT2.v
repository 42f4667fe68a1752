(** Calls, and what they leave allocated. *)
From Verif Require Import Base Flags Sets FilterM ParseM ClientM SerialM OwnM OwnT
  Spec SpecM SpecC SpecE SpecO SpecU P_Base P_Parse P_List P_OwnT P_Own P_Own3 P_Own4 P_Own5.

(** ** A text has shapes *)

Lemma is_line_read pres pn l : is_line pn l -> exists op, options_read pres pn = Ok op.
Proof.
  intros (t & r & T & E1 & E2 & Hl). destruct pn as [p n]. cbn [fst snd] in *. subst p n.
  destruct (options_line pres l t r Hl T) as (op & _ & E & _). eauto.
Qed.

Lemma line2_shape E pres cap s w pn l s' w' :
  is_line pn l -> line2 E pres cap (s, w) pn = Ok (s', w') ->
  exists x, line_shape E pres s pn = Ok (x, s').
Proof.
  intros L H. destruct (is_line_read pres pn l L) as (op & EO).
  unfold line2, parse2 in H. unfold line_shape.
  destruct (parse_filter pres (fst pn) (snd pn)) as [[f reached]|]; [cbn [bind] in *|discriminate H].
  rewrite EO. cbn [bind].
  destruct reached.
  - destruct (insert2 E f s) as [s1|]; [cbn [bind] in *|discriminate H].
    destruct (classify E f) as [k|]; [cbn [bind] in *|discriminate H].
    destruct k as [|e|k]; [injection H as <- <-; eexists; reflexivity..|].
    destruct (add_gate E f k s1) as [s2|]; [cbn [bind] in *|discriminate H].
    destruct (_ <? _); [injection H as <- <-; eexists; reflexivity|discriminate H].
  - cbn [bind] in *. destruct (classify E f) as [k|]; [cbn [bind] in *|discriminate H].
    destruct k as [|e|k]; [injection H as <- <-; eexists; reflexivity..|].
    destruct (add_gate E f k s) as [s2|]; [cbn [bind] in *|discriminate H].
    destruct (_ <? _); [injection H as <- <-; eexists; reflexivity|discriminate H].
Qed.

Lemma lines_shapes E pres cap L ls : Forall2 is_line L ls ->
  forall a b, foldM (line2 E pres cap) a L = Ok b ->
  exists xs, line_shapes E pres (fst a) L = Ok xs.
Proof.
  induction 1 as [|pn l L ls H F IH]; intros [s w] b X; cbn [foldM line_shapes fst] in *.
  - eauto.
  - destruct (line2 E pres cap (s, w) pn) as [[s' w']|] eqn:E1; [cbn [bind] in X|discriminate X].
    destruct (line2_shape E pres cap s w pn l s' w' H E1) as (x & ->). cbn [bind fst snd].
    destruct (IH _ _ X) as (xs & E2). cbn [fst] in E2. rewrite E2. cbn [rmap bind]. eauto.
Qed.

Lemma parse_shapes E pres t c c' : nonul t -> parse E pres (cstr t) c = Ok c' ->
  exists ls, text_shapes E pres (cstr t) c = Ok ls.
Proof.
  intros N H. destruct (lines_of_spec t N) as (L & E1 & F).
  unfold parse in H. unfold text_shapes. rewrite E1 in *. cbn [bind] in *.
  apply bind_ok in H as (n & _ & H). cbv zeta in H. apply bind_ok in H as (r & H & _).
  apply (lines_shapes _ _ _ _ _ F) in H. exact H.
Qed.

(** ** A client has a shape *)

Definition fshape_of (f : filter) : fshape :=
  mkFs (isSome (f_data f)) (isSome (f_dom f)) (nonempty (f_tag f)) (isSome (f_host f))
       (nonempty (f_tag f)) (some_plain f) (some_not f).

Lemma fits_of f : fits f (fshape_of f).
Proof. repeat split. cbn. now destruct (f_tag f). Qed.

Lemma fits_all l : Forall2 fits l (map fshape_of l).
Proof. induction l; constructor; auto using fits_of. Qed.

Definition dshape_of (c : client) : dshape :=
  mkD (fun k => map fshape_of (tget (c_lists c) k)) (isSome (c_bloom c)) (isSome (c_ebloom c))
      (option_map (fun s => map fshape_of (concat s)) (c_host c))
      (option_map (fun s => map fshape_of (concat s)) (c_ehost c))
      (fun k => option_map (fun s => length (concat s)) (set_of c k)).

Lemma built_of c : built c (dshape_of c).
Proof.
  unfold built, dshape_of; cbn.
  split; [intro; apply fits_all|]. split; [reflexivity|]. split; [reflexivity|].
  split; [destruct (c_host c); cbn; auto using fits_all|].
  split; [destruct (c_ehost c); cbn; auto using fits_all|reflexivity].
Qed.

Lemma act_step E c x c1 : ncall_ok x -> act E c x = Ok c1 -> exists e, heap_step E c x e.
Proof.
  destruct x as [[pres t| |t|t|url context dom|]|nc nh|buf]; cbn; intros O H;
    try (exists [NAsk (mkT (fun _ _ => true) (fun _ => true) (fun _ => true))]; constructor);
    try (eexists; constructor; fail).
  - destruct (parse_shapes E pres t c c1 O H) as (ls & E1). eexists. econstructor; eauto.
  - apply rmap_ok in H as ([c2 ok] & H & _). eexists. econstructor; eauto using built_of.
Qed.

Lemma story_exists E xs : Forall ncall_ok xs -> forall c c',
  foldM (act E) c xs = Ok c' -> exists es, story E c xs es c'.
Proof.
  induction 1 as [|x xs O F IH]; intros c c' H; cbn [foldM] in H.
  - injection H as <-. eexists. constructor.
  - apply bind_ok in H as (c1 & H1 & H). destruct (act_step E c x c1 O H1) as (e & He).
    destruct (IH c1 c' H) as (es & Hs). eexists. econstructor; eauto.
Qed.

Lemma story_runs E c xs es c' : story E c xs es c' -> foldM (act E) c xs = Ok c'.
Proof. induction 1 as [c|c x xs e es c1 c2 O A H S IH]; cbn [foldM]; [reflexivity|]. now rewrite A. Qed.

(** ** Counting *)

Definition charges (R : bytes -> nat -> Prop) (Q : nat -> nat -> Prop) : Prop :=
  forall pres l t r op n, line_text l -> term t -> R l n ->
    options_read pres (l ++ t :: r, length l) = Ok op -> Q (lost_by_options op) n.

Lemma line_shape_lost E pres s pn x s' : line_shape E pres s pn = Ok (x, s') ->
  exists op, options_read pres pn = Ok op /\ l_lost x = lost_by_options op.
Proof.
  unfold line_shape. intros H. apply bind_ok in H as ([f reached] & _ & H).
  apply bind_ok in H as (op & E1 & H). apply bind_ok in H as (k & _ & H).
  apply bind_ok in H as (s1 & _ & H). apply bind_ok in H as (s2 & _ & H).
  injection H as <- _. eauto.
Qed.

Lemma shapes_lost R (Q : nat -> nat -> Prop) E pres L ls : charges R Q -> Q 0 0 ->
  (forall a b a' b', Q a b -> Q a' b' -> Q (a + a') (b + b')) ->
  Forall2 is_line L ls -> forall ns, Forall2 R ls ns ->
  forall s xs, line_shapes E pres s L = Ok xs -> Q (sum_lost xs) (fold_right Nat.add 0 ns).
Proof.
  intros Ch Q0 Qa F. induction F as [|pn l L ls H F IH]; intros ns G s xs X.
  - inversion G; subst. injection X as <-. exact Q0.
  - inversion G as [|l' n ls' ns' G1 G2]; subst. cbn [line_shapes] in X.
    apply bind_ok in X as ([x s'] & X1 & X). apply rmap_ok in X as (ys & X2 & ->).
    cbn [sum_lost fold_right fst snd] in *. apply Qa; [|eapply IH; eauto].
    destruct (line_shape_lost _ _ _ _ _ _ X1) as (op & E1 & ->).
    destruct H as (t & r & T & E2 & E3 & Hl). destruct pn as [p m]. cbn [fst snd] in *. subst p m.
    eapply Ch; eauto.
Qed.

Lemma fold_add n ns : fold_right Nat.add n ns = fold_right Nat.add 0 ns + n.
Proof. induction ns as [|m ns IH]; cbn; [reflexivity|]. rewrite IH. lia. Qed.

Lemma lost_app a b : lost_total_w (a ++ b) = lost_total_w a + lost_total_w b.
Proof.
  unfold lost_total_w. induction a as [|e a IH]; cbn; [reflexivity|]. rewrite IH. lia.
Qed.

Lemma other_lost E c x e : heap_step E c x e -> (forall pres t, x <> Call (Parse pres t)) ->
  lost_total_w e = 0.
Proof. destruct 1; intros N; try reflexivity. now destruct (N pres t). Qed.

Lemma story_lost R (Q : nat -> nat -> Prop) E c xs es c' : charges R Q -> Q 0 0 ->
  (forall a b a' b', Q a b -> Q a' b' -> Q (a + a') (b + b')) ->
  story E c xs es c' -> forall n, repeats_in R xs n ->
  exists m, lost_total_w es = 2 * m /\ Q m n.
Proof.
  intros Ch Q0 Qa S. induction S as [c|c x xs e es c1 c2 O A H S IH]; intros n P.
  - inversion P; subst. exists 0. auto.
  - inversion P as [|pres t ns xs' m F G|x' xs' m N G]; subst.
    + destruct (IH _ G) as (k & E1 & Qk). rewrite lost_app, E1.
      inversion H as [pres' t' ls TS| | | | | | |]; subst.
      exists (sum_lost ls + k). split.
      { unfold lost_total_w. cbn [fold_right lost_in_w]. lia. }
      rewrite fold_add. apply Qa; [|exact Qk].
      destruct (lines_of_spec t O) as (L & E2 & FL). unfold text_shapes in TS. rewrite E2 in TS.
      cbn [bind] in TS. eapply shapes_lost; eauto.
    + destruct (IH _ G) as (k & E1 & Qk). exists k. split; [|exact Qk].
      rewrite lost_app, E1, (other_lost _ _ _ _ H N). lia.
Qed.

Lemma story_leak E c xs es c' n h : story E c xs es c' -> repeats_in line_repeats xs n ->
  wrapped_life es = Ok h -> length (h_live h) = 2 * n.
Proof.
  intros S P W. destruct (wrapped_leak es h W) as [_ ->].
  destruct (story_lost line_repeats eq E c xs es c') with (n := n) as (m & -> & ->); auto.
  intros pres l t r op k Hl T D E1. eapply usual_lost; eauto.
Qed.

Lemma story_bound E c xs es c' n h : story E c xs es c' -> repeats_in dollar_repeats xs n ->
  wrapped_life es = Ok h -> length (h_live h) <= 2 * n.
Proof.
  intros S P W. destruct (wrapped_leak es h W) as [_ ->].
  destruct (story_lost dollar_repeats le E c xs es c') with (n := n) as (m & -> & Le); auto; try lia.
  intros pres l t r op k Hl T D E1. eapply dollar_lost; eauto.
Qed.

(** ** Safety *)

Lemma story_apart E c xs es c' : story E c xs es c' -> forall r, apart r xs -> no_parse_over_w r es.
Proof.
  induction 1 as [c|c x xs e es c1 c2 O A H S IH]; intros r P; [exact I|].
  destruct H; cbn [app no_parse_over_w restored_after apart] in *; try (split; [auto|]); try tauto; auto.
  - destruct P as [-> P]. auto.
Qed.

Lemma story_safe E c xs es c' : story E c xs es c' -> apart false xs ->
  exists h, wrapped_life es = Ok h.
Proof.
  intros S P. destruct (wrapped_ok es (story_apart _ _ _ _ _ S _ P)) as (h & X & E1 & _). eauto.
Qed.

Lemma story_split E c a b es c' : story E c (a ++ b) es c' ->
  exists ea eb ca, es = ea ++ eb /\ story E c a ea ca /\ story E ca b eb c'.
Proof.
  revert c es. induction a as [|x a IH]; intros c es S; cbn [app] in S.
  - exists [], es, c. repeat split; auto. constructor.
  - inversion S as [|c0 x0 xs0 e es0 c1 c2 O A H S1]; subst.
    destruct (IH _ _ S1) as (ea & eb & ca & -> & S2 & S3).
    exists (e ++ ea), eb, ca. rewrite app_assoc. repeat split; auto. econstructor; eauto.
Qed.

Lemma fine_app a b : forall cur, parses_fine_w cur (a ++ b) ->
  exists cur', parses_fine_w cur' b.
Proof.
  induction a as [|e a IH]; intros cur H; cbn [app parses_fine_w] in H; [eauto|].
  destruct H as [_ H]. eauto.
Qed.

Lemma fine_keeps E c xs es c' d : story E c xs es c' -> Forall keeps_rules xs ->
  forall rest, parses_fine_w (Some d) (es ++ rest) -> parses_fine_w (Some d) rest.
Proof.
  induction 1 as [c|c x xs e es c1 c2 O A H S IH]; intros K rest P; [exact P|].
  inversion K as [|x' xs' K1 K2]; subst.
  destruct H; cbn [app parses_fine_w restored_now_w keeps_rules] in *; try contradiction; try (now apply IH); apply IH; tauto.
Qed.

Lemma texted f s : fits f s -> has_text f -> member s = true.
Proof.
  intros (A1 & A2 & A3 & A4 & _) H. unfold member. rewrite A1, A2, A3.
  destruct H as [H|[H|[H|H]]].
  - now destruct (f_data f).
  - destruct (f_dom f); [|easy]. cbn. rewrite orb_true_r. reflexivity.
  - destruct (f_host f); [|easy]. cbn. apply orb_true_r.
  - rewrite (A4 H). rewrite orb_true_r. reflexivity.
Qed.

Lemma F2_in {A C} (R : A -> C -> Prop) l m x : Forall2 R l m -> In x l -> exists y, In y m /\ R x y.
Proof.
  induction 1 as [|a b l m H F IH]; intros I; [easy|].
  destruct I as [<-|I]; [exists b; split; [now left|exact H]|].
  destruct (IH I) as (y & I' & R'). exists y. split; [now right|exact R'].
Qed.

Lemma story_unsafe E a buf b pres t d es c' ca cb ok k f :
  story E client0 (a ++ Load buf :: b ++ Call (Parse pres t) :: d) es c' ->
  Forall keeps_rules b ->
  foldM (act E) client0 a = Ok ca -> deserialize buf ca = Ok (cb, ok) ->
  In f (tget (c_lists cb) k) -> has_text f ->
  wrapped_life es = UB.
Proof.
  intros S K Ea D I T.
  destruct (wrapped_life es) as [h|] eqn:W; [exfalso|reflexivity].
  assert (P : parses_fine_w None es) by (apply wrapped_iff; eauto).
  apply story_split in S as (ea & eb & ca' & -> & S1 & S).
  apply story_runs in S1. rewrite Ea in S1. injection S1 as <-.
  apply fine_app in P as (cur & P).
  inversion S as [|c0 x0 xs0 e es0 c1 c2 O A H S2]; subst.
  inversion H as [| | | | | | |buf' c3 ok' ds D' Bu]; subst. rewrite D in D'. injection D' as <- <-.
  cbn [app parses_fine_w restored_now_w] in P. destruct P as [_ P].
  apply story_split in S2 as (eb & ed & cc & -> & S2 & S3).
  apply (fine_keeps _ _ _ _ _ _ S2 K) in P.
  inversion S3 as [|c4 x4 xs4 e4 es4 c5 c6 O4 A4 H4 S4]; subst. inversion H4; subst.
  cbn [app parses_fine_w] in P. destruct P as [P _]. specialize (P ds eq_refl).
  destruct (F2_in _ _ _ _ (proj1 Bu k) I) as (s & Is & Fs).
  apply (textless_not ds P). exists k, s. split; [exact Is|]. eapply texted; eauto.
Qed.

(** ** Without the binding *)

Definition from_client (e : event) : bool :=
  match e with EFree _ | EDeserialize _ _ | ENew => false | _ => true end.

Lemma well_used es : forallb from_client es = true -> forall s, used_well s None es.
Proof.
  induction es as [|e es IH]; cbn [forallb used_well]; intros F s; [exact I|].
  apply andb_true_iff in F as [F1 F2]. split.
  - destruct e; try discriminate F1; cbn; try exact I; intros b [=].
  - intros s' _. destruct e; try discriminate F1; apply IH, F2.
Qed.

Lemma not_over es : forallb from_client es = true -> no_parse_over None es.
Proof.
  induction es as [|e es IH]; cbn [forallb no_parse_over]; intros F; [exact I|].
  apply andb_true_iff in F as [F1 F2].
  split; destruct e; try discriminate F1; auto; apply IH, F2.
Qed.

Definition a_save (e : event) : bool := match e with ESerialize => true | _ => false end.

Lemma app_saves es : forallb from_client es = true -> forall w app w' app',
  foldM step (w, app) es = Ok (w', app') ->
  length app' = length app + length (List.filter a_save es).
Proof.
  induction es as [|e es IH]; cbn [forallb foldM]; intros F w app w' app' H.
  - injection H as _ <-. cbn. lia.
  - apply andb_true_iff in F as [F1 F2]. apply bind_ok in H as ([w1 app1] & H1 & H).
    specialize (IH F2 _ _ _ _ H). rewrite IH. destruct e; try discriminate F1;
      cbn [step] in H1; cbn [List.filter a_save length].
    1,2,3: apply rmap_ok in H1 as (x & _ & [= _ ->]); reflexivity.
    + apply bind_ok in H1 as (r & _ & [= _ <-]). cbn. lia.
    + injection H1 as _ <-. reflexivity.
Qed.

Lemma story_app E c xs es c' : story E c xs es c' -> never_restored xs ->
  forallb from_client (flat_map in_application es) = true /\
  length (List.filter a_save (flat_map in_application es)) = saves xs /\
  lost_total (flat_map in_application es) = lost_total_w es.
Proof.
  induction 1 as [c|c x xs e es c1 c2 O A H S IH]; intros N; [now repeat split|].
  destruct IH as (I1 & I2 & I3). { intros buf I. apply (N buf). now right. }
  unfold saves in *. rewrite flat_map_app, forallb_app, filter_app, app_length.
  assert (X : forall a b, lost_total (a ++ b) = lost_total a + lost_total b).
  { unfold lost_total. induction a as [|y a J]; intros; cbn; [reflexivity|]. rewrite J. lia. }
  rewrite X, lost_app, I1, I2, I3.
  destruct H; cbn; repeat split; auto; try lia. all: now destruct (N buf (or_introl eq_refl)).
Qed.

Lemma story_application E c xs es c' n : story E c xs es c' -> never_restored xs ->
  repeats_in line_repeats xs n ->
  exists w app, whole_life (flat_map in_application es) = Ok (w, app) /\
    length app = saves xs /\ length (h_live (w_heap w)) = length app + 2 * n /\
    incl app (h_live (w_heap w)).
Proof.
  intros S N R. destruct (story_app _ _ _ _ _ S N) as (F & A & L).
  destruct (whole_ok _ (well_used _ F life0) (not_over _ F)) as (w & app & X & E1 & _ & _ & K).
  exists w, app. split; [exact E1|]. split; [|split].
  - unfold whole_life, live_through in E1. apply bind_ok in E1 as ([w1 app1] & E2 & E1).
    cbn [step] in E1. apply rmap_ok in E1 as (w2 & _ & [= _ ->]).
    apply (app_saves _ F) in E2. cbn [length Nat.add] in E2. congruence.
  - destruct (leak_number _ w app (well_used _ F life0) E1) as [_ ->]. rewrite L.
    destruct (story_lost line_repeats eq E c xs es c') with (n := n) as (m & -> & ->); auto.
    intros pres l t r op k Hl T D E2. eapply usual_lost; eauto.
  - intros b I. apply K. now left.
Qed.
