(** Proofs of the list-level parsing properties. *)
From Verif Require Import Base Flags Url Sets FilterM ParseM ClientM Spec P_Base
  P_Url P_Match P_Rule P_Parse P_List P_Shape.

(** ** Lines of a concatenation *)
Lemma text_lines_app a c b :
  c = CR \/ c = LF -> text_lines (a ++ c :: b) = text_lines a ++ text_lines b.
Proof.
  intros Hc. assert (ceq c CR || ceq c LF = true) as E.
  { destruct Hc as [->| ->]; reflexivity. }
  induction a as [|x a IH].
  - cbn [app text_lines]. now rewrite E.
  - cbn [app text_lines]. destruct (ceq x CR || ceq x LF); [now rewrite IH|].
    rewrite IH. destruct (text_lines a) as [|w ws] eqn:Ea.
    + now apply text_lines_nonempty in Ea.
    + reflexivity.
Qed.

Lemma text_lines_single l : line_text l -> text_lines l = [l].
Proof.
  induction l as [|c l IH]; intros H; [reflexivity|].
  apply line_text_cons in H as [(H1 & H2 & H3) H]. cbn [text_lines].
  rewrite (ceq_f _ _ H2), (ceq_f _ _ H3), IH; auto.
Qed.

(** ** Installing in two steps *)
Lemma store_sets_some c a :
  st_of (with_st c a) = a.
Proof. destruct a as [[[s w] ha] hae]. destruct s; reflexivity. Qed.

Lemma with_st_st c a b : with_st (with_st c a) b = with_st c b.
Proof. destruct a as [[[s w] ha] hae], b as [[[s' w'] ha'] hae']. reflexivity. Qed.

Lemma install_app E rs rs' c :
  install E (rs ++ rs') c = install E rs' (install E rs c).
Proof.
  unfold install. now rewrite fold_left_app, store_sets_some, with_st_st.
Qed.

Lemma parse_pieces E pres a s b c :
  nonul a -> nonul b -> s = CR \/ s = LF ->
  parse E pres (cstr (a ++ s :: b)) c =
  bind (parse E pres (cstr a) c) (parse E pres (cstr b)).
Proof.
  intros Ha Hb Hs. rewrite !parse_normal; auto.
  2:{ apply nonul_app. split; auto. apply nonul_cons. split; auto.
      destruct Hs as [->| ->]; discriminate. }
  rewrite text_lines_app, mapM_app by auto.
  destruct (mapM (rule_of E pres) (text_lines a)) as [x|]; cbn [bind rmap]; auto.
  rewrite parse_normal by auto.
  destruct (mapM (rule_of E pres) (text_lines b)) as [y|]; cbn [bind rmap]; auto.
  now rewrite install_app.
Qed.

(** ** Lines without effect *)
Definition inert_line (E : env) (pres : bool) (l : bytes) : Prop :=
  exists f, rule_of E pres l = Ok (f, false, CSkip).

Lemma install_inert E f rs c :
  install E ((f, false, CSkip) :: rs) c = install E rs c.
Proof.
  unfold install. cbn [fold_left store].
  destruct (st_of c) as [[[s w] ha] hae]. reflexivity.
Qed.

Lemma install_inert_mid E f rs rs' c :
  install E (rs ++ (f, false, CSkip) :: rs') c = install E (rs ++ rs') c.
Proof. now rewrite !install_app, install_inert. Qed.

Lemma mapM_drop E pres (keep : bytes -> bool) ls c0 :
  (forall l, In l ls -> keep l = false -> inert_line E pres l) ->
  rmap (fun rs => install E rs c0) (mapM (rule_of E pres) ls) =
  rmap (fun rs => install E rs c0) (mapM (rule_of E pres) (List.filter keep ls)).
Proof.
  enough (forall pre, (forall l, In l ls -> keep l = false -> inert_line E pres l) ->
    rmap (fun rs => install E (pre ++ rs) c0) (mapM (rule_of E pres) ls) =
    rmap (fun rs => install E (pre ++ rs) c0)
         (mapM (rule_of E pres) (List.filter keep ls))) as K.
  { intros H. apply (K [] H). }
  induction ls as [|l ls IH]; intros pre H; [reflexivity|].
  cbn [List.filter]. destruct (keep l) eqn:Ek.
  - cbn [mapM]. destruct (rule_of E pres l) as [r|]; [|reflexivity]. cbn [bind].
    specialize (IH (pre ++ [r])).
    assert (forall l0, In l0 ls -> keep l0 = false -> inert_line E pres l0) as H'
      by (intros; apply H; cbn; auto).
    specialize (IH H').
    destruct (mapM (rule_of E pres) ls), (mapM (rule_of E pres) (List.filter keep ls));
      cbn [rmap bind] in *; try discriminate; auto.
    injection IH as IH. rewrite <- !app_assoc in IH. cbn [app] in IH. now rewrite IH.
  - destruct (H l (or_introl eq_refl) Ek) as (f & E1).
    cbn [mapM]. rewrite E1. cbn [bind].
    rewrite <- (IH pre) by (intros; apply H; cbn; auto).
    destruct (mapM (rule_of E pres) ls); cbn [rmap bind]; auto.
    now rewrite install_inert_mid.
Qed.

(** Skipped blanks *)
Lemma loop_blanks pres input ilen b n q f k :
  (forall c, In c b -> blank c) -> k + length b <= 2047 ->
  pf_loop pres input ilen (length b + n) (b ++ q) (mkPs FPStart f [] k k k) =
  pf_loop pres input ilen n q
    (mkPs FPStart f [] (k + length b) (k + length b) (k + length b)).
Proof.
  revert k; induction b as [|c b IH]; intros k Hb Hk.
  - cbn [length app]. now rewrite Nat.add_0_l, Nat.add_0_r.
  - cbn [length app] in Hk |- *. rewrite Nat.add_succ_l, loop_cons by lia.
    replace (pf_step pres input ilen (length b + n) c (b ++ q)
               (mkPs FPStart f [] k k k))
      with (Ok (ANext1 (mkPs FPStart f [] (S k) (S k) (S k)))).
    2:{ destruct (Hb c (or_introl eq_refl)) as [->| ->]; reflexivity. }
    cbn [bind]. rewrite IH.
    + now replace (S k + length b) with (k + S (length b)) by lia.
    + intros; apply Hb; cbn; auto.
    + lia.
Qed.

Lemma comment_pline pres b s :
  (forall c, In c b -> blank c) -> comment_text s -> line_text s ->
  length (b ++ firstn 1 s) < 2048 ->
  exists f, pline pres (b ++ s) = (f, false) /\ f_opt f = 0%N /\
            (f_type f = FTEmpty \/ f_type f = FTComment).
Proof.
  intros Hb Hs Ht Hl. rewrite app_length, firstn_length in Hl.
  unfold pline, parse_filter. rewrite app_length. unfold cstr at 2.
  rewrite <- app_assoc, loop_blanks by (auto; lia).
  rewrite Nat.add_0_l.
  destruct Hs as [->|[(r & ->)|[(r & ->)|(r & ->)]]].
  - cbn. eexists; repeat split; auto.
  - cbn [length] in Hl |- *. cbn [app]. rewrite loop_cons by lia. cbn.
    eexists; repeat split; auto.
  - cbn [length] in Hl |- *. cbn [app]. rewrite loop_cons by lia. cbn.
    eexists; repeat split; auto.
  - cbn [length] in Hl |- *. cbn [app]. rewrite loop_cons by lia. cbn.
    eexists; repeat split; auto.
Qed.

Lemma comment_inert E pres b s :
  (forall c, In c b -> blank c) -> comment_text s -> line_text s ->
  length (b ++ firstn 1 s) < 2048 -> inert_line E pres (b ++ s).
Proof.
  intros Hb Hs Ht Hl.
  destruct (comment_pline pres b s Hb Hs Ht Hl) as (f & E1 & E2 & E3).
  exists f. unfold rule_of. rewrite E1. cbn [andb bind].
  unfold classify, hasUnsupportedOptions. rewrite E2.
  destruct E3 as [-> | ->]; reflexivity.
Qed.

Lemma parse_comment E pres a b s x z c :
  nonul a -> nonul z -> (x = CR \/ x = LF) ->
  (forall y, In y b -> blank y) -> comment_text s -> line_text s ->
  length (b ++ firstn 1 s) < 2048 ->
  parse E pres (cstr (a ++ x :: (b ++ s) ++ x :: z)) c =
  parse E pres (cstr (a ++ x :: z)) c.
Proof.
  intros Ha Hz Hx Hb Hs Ht Hl.
  assert (line_text (b ++ s)) as HT.
  { apply line_text_app. split; auto. intros y I.
    destruct (Hb y I) as [->| ->]; repeat split; discriminate. }
  assert (x <> NUL) as Nx by (destruct Hx as [->| ->]; discriminate).
  assert (nonul (b ++ s)) as HN by now apply line_text_nonul.
  rewrite !parse_normal.
  2:{ apply nonul_app. split; auto. apply nonul_cons. split; auto. }
  2:{ apply nonul_app. split; auto. apply nonul_cons. split; auto.
      apply nonul_app. split; auto. apply nonul_cons. auto. }
  rewrite !text_lines_app by auto. rewrite (text_lines_single (b ++ s)) by auto.
  destruct (comment_inert E pres b s Hb Hs Ht Hl) as (f & EI).
  rewrite !mapM_app. destruct (mapM (rule_of E pres) (text_lines a)) as [ra|]; auto.
  cbn [bind mapM]. rewrite EI. cbn [bind].
  destruct (mapM (rule_of E pres) (text_lines z)) as [rz|]; auto.
  cbn [bind rmap app]. now rewrite install_inert_mid.
Qed.

(** ** Line terminators *)
Lemma empty_inert E pres : inert_line E pres [].
Proof.
  apply (comment_inert E pres [] []); cbn; try easy; try lia. now left.
Qed.

Lemma parse_lines E pres t t' c :
  nonul t -> nonul t' -> nonempty_lines t = nonempty_lines t' ->
  parse E pres (cstr t) c = parse E pres (cstr t') c.
Proof.
  intros H H' EL. rewrite !parse_normal by auto.
  unfold nonempty_lines in EL.
  rewrite (mapM_drop E pres (fun l => match l with [] => false | _ => true end)
             (text_lines t)).
  - rewrite (mapM_drop E pres (fun l => match l with [] => false | _ => true end)
               (text_lines t')).
    + exact (f_equal (fun ls => rmap (fun rs => install E rs c)
                                  (mapM (rule_of E pres) ls)) EL).
    + intros l _ K. destruct l; [apply empty_inert|discriminate].
  - intros l _ K. destruct l; [apply empty_inert|discriminate].
Qed.

Lemma nonempty_lines_app a c b :
  c = CR \/ c = LF ->
  nonempty_lines (a ++ c :: b) = nonempty_lines a ++ nonempty_lines b.
Proof.
  intros H. unfold nonempty_lines. now rewrite text_lines_app, filter_app.
Qed.

Lemma nonempty_lines_cons x t :
  x <> CR -> x <> LF ->
  nonempty_lines (x :: t) =
  match text_lines t with
  | [] => [[x]]
  | w :: ws => (x :: w) :: List.filter (fun l => match l with [] => false | _ => true end) ws
  end.
Proof.
  intros H1 H2. unfold nonempty_lines. cbn [text_lines].
  rewrite (ceq_f _ _ H1), (ceq_f _ _ H2). cbn [orb].
  now destruct (text_lines t).
Qed.

(** Every line end replaced by another sequence of line ends. *)
Lemma same_lines_spec t t' :
  same_up_to_line_ends t t' ->
  nonempty_lines t = nonempty_lines t' /\
  exists w ws w' ws', text_lines t = w :: ws /\ text_lines t' = w' :: ws' /\ w = w'.
Proof.
  assert (forall e, line_ends e -> forall t, 
    nonempty_lines (e ++ t) = nonempty_lines t /\ text_lines (e ++ t) =
      repeat [] (length e) ++ text_lines t) as K.
  { intros e He. induction e as [|c e IH]; intros u; [auto|].
    assert (line_ends e) as He' by (intros x I; apply He; cbn; auto).
    destruct (IH He' u) as [IH1 IH2].
    assert (c = CR \/ c = LF) as Hc by (apply He; cbn; auto).
    split.
    - cbn [app]. rewrite <- IH1. apply (nonempty_lines_app [] c (e ++ u) Hc).
    - cbn [app]. change (c :: e ++ u) with ([] ++ c :: e ++ u).
      rewrite (text_lines_app [] c (e ++ u) Hc), IH2. reflexivity. }
  induction 1 as [|x t t' H1 H2 H3 IH|e e' t t' He He' Ne Ne' H IH].
  - split; auto. do 4 eexists; repeat split.
  - destruct IH as (IH1 & w & ws & w' & ws' & E1 & E2 & E3). subst w'.
    rewrite !nonempty_lines_cons, E1, E2 by auto. split.
    + f_equal. unfold nonempty_lines in IH1. rewrite E1, E2 in IH1.
      cbn [List.filter] in IH1. destruct w; [auto|]. now injection IH1.
    + cbn [text_lines]. rewrite (ceq_f _ _ H1), (ceq_f _ _ H2), E1, E2. cbn.
      do 4 eexists; repeat split.
  - destruct IH as (IH1 & _).
    destruct (K e He t) as [K1 K2], (K e' He' t') as [K1' K2'].
    rewrite K1, K1', K2, K2'. split; auto.
    destruct e as [|c e]; [easy|]. destruct e' as [|c' e']; [easy|].
    cbn. do 4 eexists; repeat split.
Qed.

Lemma parse_line_ends E pres t t' c :
  nonul t -> nonul t' -> same_up_to_line_ends t t' ->
  parse E pres (cstr t) c = parse E pres (cstr t') c.
Proof. intros H H' S. apply parse_lines; auto. now apply same_lines_spec. Qed.
