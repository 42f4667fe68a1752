(** [parse] as a fold over the lines of the text. *)
From Verif Require Import Base Flags Url Sets FilterM ParseM ClientM Spec SpecM P_Base
  P_Url P_Match P_Rule P_Parse.

(** ** Lines *)
Definition glue (w : bytes) (ls : list bytes) : list bytes :=
  match ls with [] => [w] | l :: ls' => (w ++ l) :: ls' end.

Definition is_line (pn : bytes * nat) (l : bytes) : Prop :=
  exists t r, term t /\ fst pn = l ++ t :: r /\ snd pn = length l /\ line_text l.

Lemma text_lines_nonempty t : text_lines t <> [].
Proof.
  destruct t as [|c t]; cbn; [easy|]. destruct (_ || _); [easy|].
  now destruct (text_lines t).
Qed.

Lemma glue_cons w c s :
  ceq c CR || ceq c LF = false ->
  glue w (text_lines (c :: s)) = glue (w ++ [c]) (text_lines s).
Proof.
  intros H. cbn [text_lines]. rewrite H.
  destruct (text_lines s) as [|x xs] eqn:E; [now apply text_lines_nonempty in E|].
  cbn. now rewrite <- app_assoc.
Qed.

(** The text may be followed by anything after its NUL. *)
Lemma lines_from_spec s x w :
  nonul s -> line_text w ->
  exists L, lines_from (w ++ s ++ NUL :: x) (s ++ NUL :: x) (length w) = Ok L /\
            Forall2 is_line L (glue w (text_lines s)).
Proof.
  revert w; induction s as [|c s IH]; intros w Hs Hw.
  - exists [(w ++ NUL :: x, length w)]. split; [reflexivity|].
    cbn. rewrite app_nil_r. constructor; [|constructor].
    exists NUL, x. split; [left; auto|]. cbn [fst snd].
    split; [reflexivity|]. split; auto.
  - apply nonul_cons in Hs as [Hs1 Hs2].
    change ((c :: s) ++ NUL :: x) with (c :: s ++ NUL :: x). cbn [lines_from].
    destruct (ceq_spec c NUL); [easy|]. unfold isEndOfLine.
    destruct (ceq c CR || ceq c LF) eqn:E.
    + destruct (IH [] Hs2) as (L & E1 & E2); [easy|]. cbn [app length] in E1.
      rewrite E1. cbn [rmap].
      exists ((w ++ c :: s ++ NUL :: x, length w) :: L). split; auto.
      cbn [text_lines]. rewrite E. cbn [glue]. rewrite app_nil_r.
      constructor.
      * exists c, (s ++ NUL :: x). split; [|auto].
        right. apply orb_true_iff in E. now rewrite !ceq_eq in E.
      * cbn [glue] in E2. destruct (text_lines s) eqn:Et; auto.
        now apply text_lines_nonempty in Et.
    + destruct (IH (w ++ [c]) Hs2) as (L & E1 & E2).
      { apply line_text_app. split; auto. intros y [<-|[]].
        apply orb_false_iff in E. now rewrite !ceq_neq in E. }
      rewrite <- app_assoc in E1. cbn [app] in E1.
      replace (length (w ++ [c])) with (S (length w)) in E1
        by (rewrite app_length; cbn; lia).
      rewrite E1. exists L. split; auto. now rewrite glue_cons.
Qed.

Lemma lines_of_spec_at s x :
  nonul s ->
  exists L, lines_of (s ++ NUL :: x) = Ok L /\ Forall2 is_line L (text_lines s).
Proof.
  intros H. destruct (lines_from_spec s x [] H) as (L & E1 & E2); [easy|].
  exists L. split; auto. cbn [glue] in E2.
  destruct (text_lines s) eqn:E; auto. now apply text_lines_nonempty in E.
Qed.

Lemma lines_of_spec s :
  nonul s ->
  exists L, lines_of (cstr s) = Ok L /\ Forall2 is_line L (text_lines s).
Proof. apply lines_of_spec_at. Qed.

Lemma text_lines_line s l : nonul s -> In l (text_lines s) -> line_text l.
Proof.
  intros H I. destruct (lines_of_spec s H) as (L & _ & F).
  revert I. induction F as [|x y L' ls (t & r & _ & _ & _ & K) F IH]; intros I; [easy|].
  destruct I as [<-|I]; auto.
Qed.

(** ** Sequencing *)
Fixpoint mapM {A C} (f : A -> res C) (l : list A) : res (list C) :=
  match l with
  | [] => Ok []
  | x :: l' => y <- f x ;; ys <- mapM f l' ;; Ok (y :: ys)
  end.

Lemma mapM_app {A C} (f : A -> res C) a b :
  mapM f (a ++ b) = x <- mapM f a ;; y <- mapM f b ;; Ok (x ++ y).
Proof.
  induction a as [|z a IH]; cbn [app mapM].
  - cbn [bind]. now destruct (mapM f b).
  - rewrite IH, !bind_assoc. apply bind_ext. intros y _.
    rewrite !bind_assoc. destruct (mapM f a); cbn [bind]; auto.
    now destruct (mapM f b).
Qed.

Lemma mapM_ok {A C} (f : A -> res C) l ys :
  mapM f l = Ok ys <-> Forall2 (fun x y => f x = Ok y) l ys.
Proof.
  revert ys; induction l as [|x l IH]; intros ys; cbn [mapM].
  - split; [intros [= <-]; constructor|]. intros H. now inversion H.
  - split.
    + intros H. apply bind_ok in H as (y & E1 & H).
      apply bind_ok in H as (ys' & E2 & H). injection H as <-.
      constructor; auto. now apply IH.
    + intros H. inversion H as [|a b c d H1 H2]; subst. rewrite H1. cbn [bind].
      apply IH in H2. now rewrite H2.
Qed.

Lemma mapM_UB {A C} (f : A -> res C) l :
  mapM f l = UB -> exists x, In x l /\ f x = UB.
Proof.
  induction l as [|x l IH]; cbn [mapM]; [easy|]. intros H.
  destruct (f x) eqn:E; [|exists x; cbn; auto]. cbn [bind] in H.
  destruct (mapM f l) eqn:E2; [easy|].
  destruct IH as (y & I1 & I2); auto. exists y. cbn; auto.
Qed.

Lemma mapM_UB_in {A C} (f : A -> res C) l x :
  In x l -> f x = UB -> mapM f l = UB.
Proof.
  induction l as [|y l IH]; [easy|]. intros [<-|I] E; cbn [mapM].
  - now rewrite E.
  - destruct (f y); cbn [bind]; auto. now rewrite IH.
Qed.

Lemma foldM_UB {A C} (f : C -> A -> res C) l acc x :
  In x l -> (forall a, f a x = UB) -> foldM f acc l = UB.
Proof.
  intros I H. revert acc; induction l as [|y l IH]; intros acc; [easy|].
  cbn [foldM]. destruct I as [->|I].
  - now rewrite H.
  - destruct (f acc y); cbn [bind]; auto.
Qed.

Lemma foldM_app {A C} (f : C -> A -> res C) a b acc :
  foldM f acc (a ++ b) = x <- foldM f acc a ;; foldM f x b.
Proof.
  revert acc; induction a as [|z a IH]; intros acc; cbn [app foldM]; auto.
  rewrite bind_assoc. apply bind_ext. auto.
Qed.

(** ** The rule of a line *)
Definition prule := (filter * bool * cls)%type.

Definition is_gate (k : cls) : bool :=
  match k with
  | CList KNoFpDom | CList KNoFpAnti | CList KNoFpDomExc | CList KNoFpAntiExc =>
      true
  | _ => false
  end.

(** The item put into a page-domain set for one piece of the domain list. *)
Definition gate_item (d : bytes) : list bytes :=
  match d with [] => [] | c :: d' => [if ceq c "~" then d' else d] end.

Definition gate_items (f : filter) : list bytes :=
  match f_dom f with
  | None => []
  | Some dl => flat_map gate_item (split_on "|" dl)
  end.

Definition dom_fits (f : filter) : bool :=
  forallb (fun d => length d <=? 1024) (gate_items f).

Definition rule_of (E : env) (pres : bool) (l : bytes) : res prule :=
  let '(f, reached) := pline pres l in
  _ <- (if reached && negb (is_cosmetic f) then getFingerprint E f
        else Ok None) ;;
  k <- classify E f ;;
  if is_gate k && negb (dom_fits f) then UB else Ok (f, reached, k).

Definition fpo (E : env) (f : filter) : option bytes :=
  match getFingerprint E f with Ok o => o | UB => None end.

Definition ins (E : env) (f : filter) (s : sets) : sets :=
  match insert2 E f s with Ok s' => s' | UB => s end.

Definition gate_add (E : env) (s : hset bytes) (d : bytes) : hset bytes :=
  hs_add (fun x => x) (e_hash E) s d.

Definition gate (E : env) (f : filter) (k : kind) (s : sets) : sets :=
  let g := fold_left (gate_add E) (gate_items f) in
  match k with
  | KNoFpDom => mkS (x_bloom s) (x_ebloom s) (x_host s) (x_ehost s)
                    (g (x_nfd s)) (x_nfa s) (x_nfdexc s) (x_nfaexc s)
  | KNoFpAnti => mkS (x_bloom s) (x_ebloom s) (x_host s) (x_ehost s)
                    (x_nfd s) (g (x_nfa s)) (x_nfdexc s) (x_nfaexc s)
  | KNoFpDomExc => mkS (x_bloom s) (x_ebloom s) (x_host s) (x_ehost s)
                    (x_nfd s) (x_nfa s) (g (x_nfdexc s)) (x_nfaexc s)
  | KNoFpAntiExc => mkS (x_bloom s) (x_ebloom s) (x_host s) (x_ehost s)
                    (x_nfd s) (x_nfa s) (x_nfdexc s) (g (x_nfaexc s))
  | _ => s
  end.

Definition st := (sets * tab (list filter) * nat * nat)%type.

Definition store (E : env) (a : st) (r : prule) : st :=
  let '(s, w, ha, hae) := a in
  let '(f, reached, k) := r in
  let s1 := if reached then ins E f s else s in
  match k with
  | CSkip => (s1, w, ha, hae)
  | CHost false => (s1, w, S ha, hae)
  | CHost true => (s1, w, ha, S hae)
  | CList k => (gate E f k s1, tset w k (tget w k ++ [f]), ha, hae)
  end.

Definition st_of (c : client) : st :=
  (initSets c, c_lists c, c_numHA c, c_numHAE c).

Definition with_st (c : client) (a : st) : client :=
  let '(s, w, ha, hae) := a in
  mkC w ha hae
      (Some (x_bloom s)) (Some (x_ebloom s)) (Some (x_host s)) (Some (x_ehost s))
      (Some (x_nfd s)) (Some (x_nfa s)) (Some (x_nfdexc s)) (Some (x_nfaexc s))
      (c_badfp c) (c_stats c) (c_tags c).

Definition install (E : env) (rs : list prule) (c : client) : client :=
  with_st c (fold_left (store E) rs (st_of c)).

(** ** Helpers for the normal form *)
Lemma getFingerprint_same E f g :
  same_rule f g -> getFingerprint E f = getFingerprint E g.
Proof.
  unfold same_rule. destruct f, g. cbn. intros [= -> -> -> -> -> -> ->].
  reflexivity.
Qed.

Lemma classify_same E f g : same_rule f g -> classify E f = classify E g.
Proof.
  unfold same_rule. destruct f, g. cbn. intros [= -> -> -> -> -> -> ->].
  reflexivity.
Qed.

Lemma is_cosmetic_same f g : same_rule f g -> is_cosmetic f = is_cosmetic g.
Proof.
  unfold same_rule. destruct f, g. cbn. intros [= -> -> -> -> -> -> ->].
  reflexivity.
Qed.

Lemma gate_items_same f g : same_rule f g -> gate_items f = gate_items g.
Proof.
  unfold same_rule. destruct f, g. cbn. intros [= -> -> -> -> -> -> ->].
  reflexivity.
Qed.

Definition same_prule (r r' : prule) : Prop :=
  same_rule (fst (fst r)) (fst (fst r')) /\ snd (fst r) = snd (fst r') /\
  snd r = snd r'.

Lemma rule_of_pres E pres l :
  line_text l ->
  same_res same_prule (rule_of E pres l) (rule_of E false l).
Proof.
  intros Hl. unfold rule_of. destruct (pline_pres l pres Hl) as [S1 S2].
  destruct (pline pres l) as [f r], (pline false l) as [f' r'].
  cbn [fst snd] in S1, S2. subst r'.
  rewrite (is_cosmetic_same _ _ S1), (getFingerprint_same E _ _ S1).
  destruct (if r && _ then _ else _); cbn [bind]; [|exact I].
  rewrite (classify_same E _ _ S1).
  destruct (classify E f'); cbn [bind]; [|exact I].
  unfold dom_fits. rewrite (gate_items_same _ _ S1).
  destruct (is_gate _ && _); [exact I|]. repeat split; auto.
Qed.

(** First pass. *)
Definition count_cls (n : counts) (k : cls) : counts :=
  match k with
  | CSkip => n
  | CHost false => mkCnt (n_tab n) (S (n_ha n)) (n_hae n)
  | CHost true => mkCnt (n_tab n) (n_ha n) (S (n_hae n))
  | CList k => mkCnt (tset (n_tab n) k (S (tget (n_tab n) k))) (n_ha n) (n_hae n)
  end.

Lemma count1_ok E n pn l r :
  is_line pn l -> rule_of E false l = Ok r ->
  count1 E n pn = Ok (count_cls n (snd r)).
Proof.
  intros (t & q & T & E1 & E2 & Hl) H. unfold count1, parse1.
  rewrite E1, E2, parse_filter_line by auto.
  unfold rule_of in H. destruct (pline false l) as [f reached]. cbn [bind].
  apply bind_ok in H as (o & H1 & H). apply bind_ok in H as (k & H2 & H).
  assert ((if reached && negb (is_cosmetic f)
           then _ <- getFingerprint E f;; Ok f else Ok f) = Ok f) as ->.
  { destruct (reached && negb (is_cosmetic f)); auto. now rewrite H1. }
  cbn [bind]. rewrite H2. cbn [bind].
  destruct (is_gate k && _); [easy|]. injection H as <-. reflexivity.
Qed.

(** Second pass. *)
Lemma insert2_ok E f s :
  is_cosmetic f = true \/ (exists o, getFingerprint E f = Ok o) ->
  insert2 E f s = Ok (ins E f s).
Proof.
  intros H. unfold ins.
  assert (exists s', insert2 E f s = Ok s') as [s' ->]; auto.
  unfold insert2. destruct (is_cosmetic f); [eauto|].
  destruct H as [[=]|[o ->]].
  destruct (has _ _ && _); [eauto|]. destruct (has _ FTHostOnly); [eauto|].
  cbn [bind]. destruct o; [|eauto]. destruct (has _ _); eauto.
Qed.

Lemma addFilterDomains_eq E f s :
  addFilterDomains E f s =
  if dom_fits f then Ok (fold_left (gate_add E) (gate_items f) s) else UB.
Proof.
  unfold addFilterDomains, dom_fits, gate_items.
  destruct (f_dom f) as [dl|]; auto.
  generalize (split_on "|" dl). clear dl. intros ds. revert s.
  induction ds as [|d ds IH]; intros s; auto.
  cbn [foldM flat_map]. destruct d as [|c d]; cbn [addDomain gate_item app bind]; auto.
  cbv zeta. set (item := if ceq c "~" then d else c :: d). cbn [forallb fold_left].
  rewrite Nat.ltb_antisym.
  destruct (length item <=? 1024); cbn [negb bind andb]; auto.
Qed.

Lemma add_gate_eq E f k s :
  add_gate E f k s =
  if is_gate (CList k) && negb (dom_fits f) then UB else Ok (gate E f k s).
Proof.
  destruct k; cbn [add_gate is_gate andb gate]; auto;
    rewrite addFilterDomains_eq; destruct (dom_fits f); reflexivity.
Qed.

(** Is the rule stored in array [k]? *)
Definition in_kind (k : kind) (r : prule) : bool :=
  match snd r with
  | CList k' => if kind_eq_dec k' k then true else false
  | _ => false
  end.

Definition rules_in (k : kind) (rs : list prule) : list filter :=
  map (fun r => fst (fst r)) (List.filter (in_kind k) rs).

Lemma tget_tset_same {A} (t : tab A) k x : tget (tset t k x) k = x.
Proof. destruct t, k; reflexivity. Qed.

Lemma tget_tset_other {A} (t : tab A) k k' x :
  k' <> k -> tget (tset t k x) k' = tget t k'.
Proof. destruct t, k, k'; intros H; try reflexivity; easy. Qed.

Lemma tget_tset {A} (t : tab A) k k' x :
  tget (tset t k x) k' = if kind_eq_dec k k' then x else tget t k'.
Proof.
  destruct (kind_eq_dec k k') as [->|N]; [apply tget_tset_same|].
  apply tget_tset_other. auto.
Qed.

Lemma tget_tmap2 {A C D} (f : A -> C -> D) x y k :
  tget (tmap2 f x y) k = f (tget x k) (tget y k).
Proof. destruct k; reflexivity. Qed.

Lemma tab_ext {A} (x y : tab A) : (forall k, tget x k = tget y k) -> x = y.
Proof.
  intros H. destruct x, y.
  pose proof (H KFilters). pose proof (H KCosmetic). pose proof (H KHtml).
  pose proof (H KException). pose proof (H KNoFp). pose proof (H KNoFpExc).
  pose proof (H KNoFpDom). pose proof (H KNoFpAnti).
  pose proof (H KNoFpDomExc). pose proof (H KNoFpAntiExc).
  cbn in *. congruence.
Qed.

Lemma count_fold rs n k :
  tget (n_tab (fold_left (fun n r => count_cls n (snd r)) rs n)) k =
  tget (n_tab n) k + length (rules_in k rs).
Proof.
  revert n; induction rs as [|r rs IH]; intros n.
  - cbn. lia.
  - cbn [fold_left]. rewrite IH. unfold rules_in. cbn [List.filter].
    unfold in_kind at 2. destruct (snd r) as [|[]|k']; cbn [count_cls n_tab]; auto.
    rewrite tget_tset. destruct (kind_eq_dec k' k) as [->|N]; auto.
    cbn [map length]. lia.
Qed.

Definition is_ha (exc : bool) (r : prule) : bool :=
  match snd r with CHost b => Bool.eqb b exc | _ => false end.

Lemma count_fold_ha rs n :
  n_ha (fold_left (fun n r => count_cls n (snd r)) rs n) =
  n_ha n + length (List.filter (is_ha false) rs) /\
  n_hae (fold_left (fun n r => count_cls n (snd r)) rs n) =
  n_hae n + length (List.filter (is_ha true) rs).
Proof.
  revert n; induction rs as [|r rs IH]; intros n.
  - cbn. lia.
  - cbn [fold_left List.filter]. destruct (IH (count_cls n (snd r))) as [H1 H2].
    rewrite H1, H2. destruct r as [q c].
    destruct c as [|[]|k'];
      cbn [is_ha snd count_cls n_ha n_hae Bool.eqb length]; lia.
Qed.

Definition st_w (a : st) : tab (list filter) := snd (fst (fst a)).

Lemma store_w E a r k :
  tget (st_w (store E a r)) k =
  tget (st_w a) k ++ (if in_kind k r then [fst (fst r)] else []).
Proof.
  destruct a as [[[s w] ha] hae], r as [[f reached] c]. unfold in_kind.
  cbn [snd fst store]. destruct c as [|[]|k']; cbn [st_w fst snd];
    rewrite ?app_nil_r; auto.
  rewrite tget_tset. destruct (kind_eq_dec k' k) as [->|]; auto.
  now rewrite app_nil_r.
Qed.

Lemma fold_store_w E rs a k :
  tget (st_w (fold_left (store E) rs a)) k = tget (st_w a) k ++ rules_in k rs.
Proof.
  revert a; induction rs as [|r rs IH]; intros a; cbn [fold_left].
  - now rewrite app_nil_r.
  - rewrite IH, store_w, <- app_assoc. f_equal. unfold rules_in.
    cbn [List.filter]. destruct (in_kind k r); reflexivity.
Qed.

Lemma fold_store_ha E rs a :
  snd (fst (fold_left (store E) rs a)) =
    snd (fst a) + length (List.filter (is_ha false) rs) /\
  snd (fold_left (store E) rs a) =
    snd a + length (List.filter (is_ha true) rs).
Proof.
  revert a; induction rs as [|r rs IH]; intros a; cbn [fold_left List.filter].
  - cbn. lia.
  - destruct (IH (store E a r)) as [-> ->].
    destruct a as [[[s w] ha] hae], r as [[f reached] c].
    destruct c as [|[]|k']; cbn [store is_ha Bool.eqb length fst snd]; lia.
Qed.

Lemma line2_ok E pres cap s w pn l r ha hae :
  is_line pn l -> rule_of E pres l = Ok r ->
  (forall k, in_kind k r = true -> length (tget w k) < tget cap k) ->
  line2 E pres cap (s, w) pn =
  Ok (fst (fst (store E (s, w, ha, hae) r))).
Proof.
  intros (t & q & T & E1 & E2 & Hl) H Hc. unfold line2, parse2.
  rewrite E1, E2, parse_filter_line by auto.
  unfold rule_of in H. destruct (pline pres l) as [f reached]. cbn [bind].
  apply bind_ok in H as (o & H1 & H). apply bind_ok in H as (k & H2 & H).
  destruct (is_gate k && negb (dom_fits f)) eqn:G; [easy|]. injection H as <-.
  assert ((if reached then s' <- insert2 E f s;; Ok (f, s') else Ok (f, s))
          = Ok (f, if reached then ins E f s else s)) as ->.
  { destruct reached; auto. rewrite insert2_ok; auto.
    destruct (is_cosmetic f); auto. right. eauto. }
  cbn [bind]. rewrite H2. cbn [bind store].
  destruct k as [|[]|k]; auto.
  rewrite add_gate_eq, G. cbn [bind].
  rewrite (proj2 (Nat.ltb_lt _ _)); auto.
  apply Hc. unfold in_kind. cbn [snd]. now destruct (kind_eq_dec k k).
Qed.

Lemma pass1_ok E L ls rs n :
  Forall2 is_line L ls -> Forall2 (fun l r => rule_of E false l = Ok r) ls rs ->
  foldM (count1 E) n L = Ok (fold_left (fun n r => count_cls n (snd r)) rs n).
Proof.
  intros F. revert rs n. induction F as [|pn l L ls H F IH]; intros rs n G.
  - inversion G. reflexivity.
  - inversion G as [|a b c d G1 G2]; subst. cbn [foldM fold_left].
    rewrite (count1_ok E n pn l _ H G1). cbn [bind]. auto.
Qed.

Lemma pass2_ok E pres cap L ls rs s w ha hae :
  Forall2 is_line L ls -> Forall2 (fun l r => rule_of E pres l = Ok r) ls rs ->
  (forall k, length (tget w k) + length (rules_in k rs) <= tget cap k) ->
  foldM (line2 E pres cap) (s, w) L =
  Ok (fst (fst (fold_left (store E) rs (s, w, ha, hae)))).
Proof.
  intros F. revert rs s w ha hae.
  induction F as [|pn l L ls H F IH]; intros rs s w ha hae G Hc.
  - inversion G. reflexivity.
  - inversion G as [|a b c d G1 G2]; subst. cbn [foldM fold_left].
    rewrite (line2_ok E pres cap s w pn l b ha hae H G1).
    + cbn [bind].
      pose proof (store_w E (s, w, ha, hae) b) as SW.
      destruct (store E (s, w, ha, hae) b) as [[[s' w'] ha'] hae'].
      cbn [fst snd]. apply IH; auto. intros k. specialize (Hc k).
      specialize (SW k). unfold st_w in SW. cbn [fst snd] in SW. rewrite SW.
      unfold rules_in in Hc |- *. cbn [List.filter] in Hc.
      rewrite app_length. destruct (in_kind k b); cbn [map length] in Hc |- *; lia.
    + intros k I. specialize (Hc k). unfold rules_in in Hc.
      cbn [List.filter] in Hc. rewrite I in Hc. cbn [map length] in Hc. lia.
Qed.

Lemma mapM_pres E pres ls rs :
  (forall l, In l ls -> line_text l) ->
  mapM (rule_of E pres) ls = Ok rs ->
  exists rs', mapM (rule_of E false) ls = Ok rs' /\
              Forall2 same_prule rs rs'.
Proof.
  intros Hl H. apply mapM_ok in H. 
  induction H as [|l r ls rs H1 H2 IH].
  - exists []. split; [reflexivity|constructor].
  - destruct IH as (rs' & E1 & E2); [intros; apply Hl; cbn; auto|].
    pose proof (rule_of_pres E pres l (Hl l (or_introl eq_refl))) as S.
    rewrite H1 in S. destruct (rule_of E false l) as [r'|] eqn:E3; [|easy].
    exists (r' :: rs'). cbn [mapM]. rewrite E3, E1. split; [reflexivity|].
    constructor; auto.
Qed.

Lemma same_rules_in k rs rs' :
  Forall2 same_prule rs rs' ->
  length (rules_in k rs) = length (rules_in k rs') /\
  length (List.filter (is_ha false) rs) = length (List.filter (is_ha false) rs') /\
  length (List.filter (is_ha true) rs) = length (List.filter (is_ha true) rs').
Proof.
  unfold rules_in. rewrite !map_length.
  induction 1 as [|r r' rs rs' (S1 & S2 & S3) F IH]; auto.
  cbn [List.filter]. unfold in_kind, is_ha in *. rewrite S3.
  destruct (snd r') as [|[]|k']; cbn [Bool.eqb length]; try (destruct (kind_eq_dec k' k));
    cbn [length]; lia.
Qed.

Lemma pad_full n l : n = length l -> pad n l = l.
Proof. intros ->. unfold pad. rewrite Nat.sub_diag. cbn. apply app_nil_r. Qed.

(** ** The normal form of [parse] *)
Lemma parse_normal_ok_at E pres t x c rs :
  nonul t ->
  mapM (rule_of E pres) (text_lines t) = Ok rs ->
  parse E pres (t ++ NUL :: x) c = Ok (install E rs c).
Proof.
  intros Ht H. unfold parse.
  destruct (lines_of_spec_at t x Ht) as (L & E1 & F). rewrite E1. cbn [bind].
  destruct (mapM_pres E pres (text_lines t) rs) as (rs' & H' & S); auto.
  { intros l. now apply text_lines_line. }
  apply mapM_ok in H, H'.
  rewrite (pass1_ok E L _ rs' counts0 F H'). cbn [bind].
  set (n := fold_left (fun n r => count_cls n (snd r)) rs' counts0).
  assert (forall k, tget (n_tab n) k = length (rules_in k rs)) as Hn.
  { intros k. unfold n. rewrite count_fold.
    replace (tget (n_tab counts0) k) with 0 by now destruct k.
    symmetry. apply (same_rules_in k rs rs' S). }
  rewrite (pass2_ok E pres _ L _ rs (initSets c) (c_lists c) (c_numHA c)
             (c_numHAE c) F H).
  2:{ intros k. rewrite tget_tmap2, Hn. lia. }
  cbn [bind]. unfold install, st_of.
  pose proof (fold_store_w E rs (initSets c, c_lists c, c_numHA c, c_numHAE c))
    as W.
  pose proof (fold_store_ha E rs (initSets c, c_lists c, c_numHA c, c_numHAE c))
    as HA.
  destruct (fold_left (store E) rs _) as [[[s w] ha] hae]. cbn [fst snd] in *.
  unfold st_w in W. cbn [fst snd] in W.
  unfold with_st. f_equal.
  destruct (count_fold_ha rs' counts0) as [C1 C2]. fold n in C1, C2.
  destruct (same_rules_in KFilters rs rs' S) as (_ & S1 & S2).
  cbn [n_ha n_hae counts0] in C1, C2.
  assert (tmap2 pad (tmap2 (fun l m => length l + m) (c_lists c) (n_tab n)) w
          = w) as ->.
  { apply tab_ext. intros k. rewrite !tget_tmap2. apply pad_full.
    rewrite W, Hn, app_length. reflexivity. }
  destruct HA as [-> ->]. rewrite C1, C2, S1, S2. reflexivity.
Qed.

Lemma parse_normal_ok E pres t c rs :
  nonul t ->
  mapM (rule_of E pres) (text_lines t) = Ok rs ->
  parse E pres (cstr t) c = Ok (install E rs c).
Proof. apply parse_normal_ok_at. Qed.

Lemma parse_normal_UB_at E pres t x c :
  nonul t ->
  mapM (rule_of E pres) (text_lines t) = UB ->
  parse E pres (t ++ NUL :: x) c = UB.
Proof.
  intros Ht H. apply mapM_UB in H as (l & I & H). unfold parse.
  destruct (lines_of_spec_at t x Ht) as (L & E1 & F). rewrite E1. cbn [bind].
  assert (exists pn, In pn L /\ is_line pn l) as (pn & J & K).
  { clear -F I. induction F as [|pn l' L ls G F IH]; [easy|].
    destruct I as [->|I]; [exists pn; cbn; auto|].
    destruct IH as (q & Q1 & Q2); auto. exists q. cbn; auto. }
  pose proof K as (y & q & T & E2 & E3 & Hl).
  pose proof (rule_of_pres E pres l Hl) as S. rewrite H in S.
  destruct (rule_of E false l) as [|] eqn:H'; [easy|]. clear S.
  destruct (foldM (count1 E) counts0 L) as [n|] eqn:P1; auto. cbn [bind].
  rewrite (foldM_UB _ L _ pn J); auto.
  intros [s w]. unfold line2, parse2.
  rewrite E2, E3, parse_filter_line by auto.
  unfold rule_of in H. destruct (pline pres l) as [f reached] eqn:PL. cbn [bind].
  destruct (if reached && negb (is_cosmetic f) then getFingerprint E f
            else Ok None) as [o|] eqn:G1.
  - cbn [bind] in H. destruct (classify E f) as [k|] eqn:G2.
    + cbn [bind] in H. destruct (is_gate k && negb (dom_fits f)) eqn:G3; [|easy].
      destruct (if reached then _ else _) as [[f' s']|] eqn:G4; auto.
      assert (f' = f) as ->.
      { destruct reached; [|congruence].
        apply bind_ok in G4 as (z & _ & G4). congruence. }
      cbn [bind]. rewrite G2. cbn [bind]. destruct k as [|[]|k]; try easy.
      now rewrite add_gate_eq, G3.
    + destruct (if reached then _ else _) as [[f' s']|] eqn:G4; auto.
      assert (f' = f) as ->.
      { destruct reached; [|congruence].
        apply bind_ok in G4 as (z & _ & G4). congruence. }
      cbn [bind]. now rewrite G2.
  - (* the first pass already fails *)
    exfalso. destruct (pline_pres l pres Hl) as [S1 S2]. rewrite PL in S1, S2.
    cbn [fst snd] in S1, S2.
    assert (foldM (count1 E) counts0 L = UB); [|congruence].
    apply foldM_UB with (x := pn); auto. intros a. unfold count1, parse1.
    rewrite E2, E3, parse_filter_line by auto.
    destruct (pline false l) as [f0 r0]. cbn [fst snd] in S1, S2. subst r0.
    cbn [bind].
    rewrite <- (is_cosmetic_same _ _ S1), <- (getFingerprint_same E _ _ S1).
    destruct (reached && negb (is_cosmetic f)); [|easy]. now rewrite G1.
Qed.

Lemma parse_normal_UB E pres t c :
  nonul t ->
  mapM (rule_of E pres) (text_lines t) = UB ->
  parse E pres (cstr t) c = UB.
Proof. apply parse_normal_UB_at. Qed.

Lemma parse_cut E pres t x c : nonul t -> parse E pres (t ++ NUL :: x) c = parse E pres (cstr t) c.
Proof.
  intros H. destruct (mapM (rule_of E pres) (text_lines t)) as [rs|] eqn:M.
  - now rewrite (parse_normal_ok_at E pres t x c rs), (parse_normal_ok E pres t c rs).
  - now rewrite parse_normal_UB_at, parse_normal_UB.
Qed.

Lemma parse_normal E pres t c :
  nonul t ->
  parse E pres (cstr t) c =
  rmap (fun rs => install E rs c) (mapM (rule_of E pres) (text_lines t)).
Proof.
  intros Ht. destruct (mapM (rule_of E pres) (text_lines t)) eqn:H; cbn [rmap].
  - now apply parse_normal_ok.
  - now apply parse_normal_UB.
Qed.
