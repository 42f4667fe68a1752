(** Proofs for the list properties: the two passes. *)
From Verif Require Import Base Flags Url Sets FilterM ParseM ClientM Spec SpecM P_Base
  P_Url P_Match P_Rule P_Parse P_List P_Shape P_Props2.

Lemma rule_of_class E pres l f r k :
  rule_of E pres l = Ok (f, r, k) ->
  pline pres l = (f, r) /\ classify E f = Ok k.
Proof.
  unfold rule_of. destruct (pline pres l) as [f0 r0]. intros H.
  apply bind_ok in H as (o & H1 & H). apply bind_ok in H as (k0 & H2 & H).
  destruct (is_gate k0 && negb (dom_fits f0)); [discriminate|]. injection H as <- <- <-. auto.
Qed.

Lemma rules_goes E pres ls rs :
  Forall2 (fun l r => rule_of E pres l = Ok r) ls rs ->
  (forall k, rules_in k rs =
             List.filter (goes_to E (CList k)) (map (fun r => fst (fst r)) rs)) /\
  (forall e, length (List.filter (is_ha e) rs) =
             length (List.filter (goes_to E (CHost e)) (map (fun r => fst (fst r)) rs))).
Proof.
  induction 1 as [|l [[f r] k] ls rs H F [IH1 IH2]]; [split; reflexivity|].
  apply rule_of_class in H as [_ H]. split.
  - intros k'. unfold rules_in in *. cbn [map List.filter fst]. rewrite <- IH1.
    unfold in_kind at 1, goes_to. cbn [snd]. rewrite H.
    destruct k as [|e|j]; auto. destruct (kind_eq_dec j k'); auto.
  - intros e. cbn [map List.filter fst]. unfold is_ha at 1, goes_to. cbn [snd].
    rewrite H. fold (goes_to E (CHost e)).
    destruct k as [|e'|j]; cbn [length]; auto.
    destruct (Bool.eqb e' e); cbn [length]; auto.
Qed.

Lemma lines_rules E pres t rs :
  nonul t -> Forall2 (fun l r => rule_of E pres l = Ok r) (text_lines t) rs ->
  line_rules pres t (map (fun r => fst (fst r)) rs).
Proof.
  intros Ht F. unfold line_rules.
  assert (forall l, In l (text_lines t) -> line_text l) as HL
    by (intros l; now apply text_lines_line).
  induction F as [|l [[f r] k] ls rs H F IH]; [constructor|].
  cbn [map fst]. constructor.
  - exists r. apply rule_of_class in H as [H _].
    rewrite <- H. apply parse_filter_cstr. apply HL. cbn; auto.
  - apply IH. intros. apply HL. cbn; auto.
Qed.

Lemma parse_lists E pres t c c' :
  nonul t -> parse E pres (cstr t) c = Ok c' ->
  exists fs, line_rules pres t fs /\
    (forall k, tget (c_lists c') k =
               tget (c_lists c) k ++ List.filter (goes_to E (CList k)) fs) /\
    c_numHA c' = c_numHA c + length (List.filter (goes_to E (CHost false)) fs) /\
    c_numHAE c' = c_numHAE c + length (List.filter (goes_to E (CHost true)) fs).
Proof.
  intros Ht H. rewrite parse_normal in H by auto.
  apply rmap_ok in H as (rs & H & ->). apply mapM_ok in H.
  exists (map (fun r => fst (fst r)) rs).
  split; [now apply lines_rules with E|].
  destruct (rules_goes E pres _ _ H) as [R1 R2].
  unfold install.
  pose proof (fold_store_w E rs (st_of c)) as W.
  pose proof (fold_store_ha E rs (st_of c)) as HA.
  destruct (fold_left (store E) rs (st_of c)) as [[[s w] ha] hae].
  cbn [with_st c_lists c_numHA c_numHAE fst snd] in *.
  split; [|split].
  - intros k. rewrite <- R1. exact (W k).
  - rewrite <- R2. apply HA.
  - rewrite <- R2. apply HA.
Qed.

(** What the first pass counts. *)
Lemma parse_counts E pres t c c' L n :
  nonul t -> parse E pres (cstr t) c = Ok c' ->
  lines_of (cstr t) = Ok L -> foldM (count1 E) counts0 L = Ok n ->
  (forall k, length (tget (c_lists c') k) =
             length (tget (c_lists c) k) + tget (n_tab n) k) /\
  c_numHA c' = c_numHA c + n_ha n /\ c_numHAE c' = c_numHAE c + n_hae n.
Proof.
  intros Ht H HL Hn.
  pose proof H as H'. rewrite parse_normal in H' by auto.
  apply rmap_ok in H' as (rs & H' & E1).
  destruct (mapM_pres E pres (text_lines t) rs) as (rs' & H2 & S); auto.
  { intros l. now apply text_lines_line. }
  destruct (lines_of_spec t Ht) as (L' & EL & F). rewrite HL in EL.
  injection EL as <-. apply mapM_ok in H2.
  rewrite (pass1_ok E L _ rs' counts0 F H2) in Hn. injection Hn as <-.
  cbv beta in E1. unfold install in E1.
  pose proof (fold_store_w E rs (st_of c)) as W.
  pose proof (fold_store_ha E rs (st_of c)) as HA.
  destruct (fold_left (store E) rs (st_of c)) as [[[s w] ha] hae].
  subst c'. cbn [with_st c_lists c_numHA c_numHAE fst snd] in *.
  destruct (count_fold_ha rs' counts0) as [C1 C2]. rewrite C1, C2.
  destruct (same_rules_in KFilters rs rs' S) as (_ & S1 & S2).
  rewrite <- S1, <- S2. cbn [n_ha n_hae counts0]. split; [|split; apply HA].
  intros k. rewrite count_fold. unfold st_w in W. cbn [fst snd] in W.
  rewrite W, app_length. destruct (same_rules_in k rs rs' S) as (S3 & _).
  rewrite <- S3. f_equal. now destruct k.
Qed.

(** A fault is the fault of one line. *)
Lemma parse_UB_line E pres t c :
  nonul t ->
  parse E pres (cstr t) c = UB <->
  exists l, In l (text_lines t) /\ parse E pres (cstr l) client0 = UB.
Proof.
  intros Ht. rewrite parse_normal by auto. split.
  - intros H. destruct (mapM _ _) eqn:M; [discriminate|].
    apply mapM_UB in M as (l & I & M). exists l. split; auto.
    pose proof (text_lines_line t l Ht I) as Hl.
    rewrite parse_normal by now apply line_text_nonul.
    rewrite text_lines_single by auto. cbn [mapM]. now rewrite M.
  - intros (l & I & H).
    pose proof (text_lines_line t l Ht I) as Hl.
    rewrite parse_normal in H by now apply line_text_nonul.
    rewrite text_lines_single in H by auto. cbn [mapM] in H.
    destruct (rule_of E pres l) eqn:R; [discriminate|].
    now rewrite (mapM_UB_in _ _ l I R).
Qed.

(** Both values of [preserveRules] classify alike. *)
Lemma classify_pres E l f f' r r' :
  line_text l ->
  parse_filter true (cstr l) (length l) = Ok (f, r) ->
  parse_filter false (cstr l) (length l) = Ok (f', r') ->
  classify E f = classify E f' /\ r = r' /\ set_rule f None = set_rule f' None.
Proof.
  intros Hl H1 H2. rewrite parse_filter_cstr in H1, H2 by auto.
  destruct (pline_pres l true Hl) as [S1 S2].
  assert (pline true l = (f, r)) as E1 by congruence.
  assert (pline false l = (f', r')) as E2 by congruence.
  rewrite E1, E2 in *. cbn [fst snd] in *. split; auto.
  now apply classify_same.
Qed.

(** ** A line of 2048 blanks *)
Lemma long_blank_line : exists l, (forall c, In c l -> blank c) /\
  forall E, exists c', parse E false (cstr l) client0 = Ok c' /\
    length (tget (c_lists c') KNoFp) = 1.
Proof.
  set (l := repeat " "%char (N.to_nat 2048)).
  assert (forall c, In c l -> c = " "%char) as HB.
  { intros c I. now apply repeat_spec in I. }
  exists l. split. { intros c I. left. auto. }
  intros E.
  assert (line_text l) as Hl.
  { intros c I. apply HB in I as ->. repeat split; discriminate. }
  assert (pline false l = (filter0, false)) as EP by (vm_compute; reflexivity).
  assert (rule_of E false l = Ok (filter0, false, CList KNoFp)) as ER.
  { unfold rule_of. rewrite EP. reflexivity. }
  rewrite parse_normal by now apply line_text_nonul.
  rewrite text_lines_single by auto. cbn [mapM]. rewrite ER. cbn [bind rmap].
  eexists. split; [reflexivity|]. reflexivity.
Qed.
