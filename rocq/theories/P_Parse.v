(** Proofs about [parseFilter] on one line. *)
From Verif Require Import Base Flags Url Sets FilterM ParseM ClientM Spec P_Base
  P_Url P_Match P_Rule.

Definition term (t : ascii) : Prop := t = NUL \/ t = CR \/ t = LF.

Lemma line_text_nonul l : line_text l -> nonul l.
Proof. intros H I. apply H in I. tauto. Qed.

Lemma line_text_cons c l :
  line_text (c :: l) <-> (c <> NUL /\ c <> CR /\ c <> LF) /\ line_text l.
Proof.
  split.
  - intros H. split; [apply H; cbn; auto|]. intros x I. apply H. cbn; auto.
  - intros [H1 H2] x [<-|I]; auto.
Qed.

Lemma line_text_app a b : line_text (a ++ b) <-> line_text a /\ line_text b.
Proof.
  split.
  - intros H. split; intros x I; apply H, in_or_app; auto.
  - intros [H1 H2] x I. apply in_app_or in I as [I|I]; auto.
Qed.

Lemma line_text_skipn n l : line_text l -> line_text (skipn n l).
Proof. intros H x I. apply H. eapply In_skipn; eauto. Qed.

Lemma term_eol t : term t -> ceq t NUL || isEndOfLine t = true.
Proof. intros [->|[->| ->]]; reflexivity. Qed.

Lemma term_ceq t c : term t -> c <> NUL -> c <> CR -> c <> LF -> ceq t c = false.
Proof. intros [->|[->| ->]] H1 H2 H3; apply ceq_neq; congruence. Qed.

Lemma line_char_eol c :
  c <> NUL /\ c <> CR /\ c <> LF -> ceq c NUL || isEndOfLine c = false.
Proof.
  intros (H1 & H2 & H3). unfold isEndOfLine.
  rewrite (proj2 (ceq_neq _ _) H1), (proj2 (ceq_neq _ _) H2),
    (proj2 (ceq_neq _ _) H3). reflexivity.
Qed.

Lemma option_text_term s t r :
  line_text s -> term t -> option_text (s ++ t :: r) = Ok s.
Proof.
  intros H T. induction s as [|c s IH]; cbn [option_text app].
  - now rewrite term_eol.
  - apply line_text_cons in H as [H1 H2].
    rewrite line_char_eol, IH by auto. reflexivity.
Qed.

Lemma eol_or_term t : term t -> eol_or t = true.
Proof. intros [->|[->| ->]]; reflexivity. Qed.

(** ** The host of a "||" line *)
Definition trim_bar (h : bytes) : bytes :=
  if ceq (last h NUL) "|" then removelast h else h.

Definition line_host (s : bytes) : bytes := trim_bar (host_prefix s).

(** The rule is nothing but a host (up to options). *)
Definition line_hostonly (s : bytes) : bool :=
  match skipn (length (line_host s)) s with
  | [] => true
  | x :: rest =>
      if ceq x "^" then match rest with [] => true | y :: _ => eol_or y end
      else eol_or x
  end.

Lemma rd_app_nth p t r i :
  rd (p ++ t :: r) i =
  match nth_error p i with Some c => Ok c
  | None => if i =? length p then Ok t else rd r (i - length p - 1) end.
Proof.
  unfold rd. destruct (Nat.lt_ge_cases i (length p)) as [L|L].
  - rewrite nth_error_app1 by auto. destruct (nth_error p i) eqn:E; auto.
    apply nth_error_None in E. lia.
  - rewrite nth_error_app2 by auto.
    rewrite (proj2 (nth_error_None p i) L).
    destruct (Nat.eqb_spec i (length p)) as [->|N].
    + now rewrite Nat.sub_diag.
    + destruct (i - length p) as [|k] eqn:E; [lia|]. cbn.
      replace (k - 0) with k by lia. reflexivity.
Qed.

Lemma last_nth (h : bytes) d :
  h <> [] -> nth_error h (length h - 1) = Some (last h d).
Proof.
  intros H. destruct h as [|x h] using rev_ind; [easy|].
  rewrite app_length, last_last. cbn [length].
  rewrite nth_error_app2 by lia. now replace (length h + 1 - 1 - length h) with 0 by lia.
Qed.

Lemma removelast_length {A} (h : list A) : length (removelast h) = length h - 1.
Proof.
  destruct h as [|x h] using rev_ind; auto.
  rewrite removelast_last, app_length. cbn. lia.
Qed.

Lemma removelast_firstn_pred {A} (h : list A) :
  removelast h = firstn (length h - 1) h.
Proof.
  destruct h as [|x h] using rev_ind; auto.
  rewrite removelast_last, app_length. cbn [length].
  replace (length h + 1 - 1) with (length h) by lia.
  now rewrite firstn_app_exact.
Qed.

Lemma line_host_prefix s : exists r, s = line_host s ++ r.
Proof.
  destruct (host_prefix_split s) as (r & E & _).
  unfold line_host, trim_bar. destruct (ceq _ _); eauto.
  destruct (host_prefix s) as [|x h] eqn:Eh using rev_ind; [eauto|].
  rewrite removelast_last. exists (x :: r). rewrite E at 1.
  now rewrite <- app_assoc.
Qed.

Lemma parse_host_term s t r :
  line_text s -> term t ->
  parse_host (s ++ t :: r) (length s) = Ok (line_host s, line_hostonly s).
Proof.
  intros Hs T. unfold parse_host. rewrite findFirst_pure by auto. cbn [bind].
  pose proof (host_prefix_length s) as HL.
  assert ((if 0 <? length (host_prefix s)
           then c <- rd (s ++ t :: r) (length (host_prefix s) - 1);;
                Ok (if ceq c "|" then length (host_prefix s) - 1
                    else length (host_prefix s))
           else Ok (length (host_prefix s))) = Ok (length (line_host s))) as E1.
  { unfold line_host, trim_bar.
    destruct (host_prefix s) as [|x h] eqn:Eh; [reflexivity|]. rewrite <- Eh in *.
    rewrite (proj2 (Nat.ltb_lt 0 _)) by (rewrite Eh; cbn; lia).
    destruct (host_prefix_split s) as (rest & E & _).
    rewrite E at 1. rewrite <- app_assoc, rd_app1 by (rewrite Eh; cbn; lia).
    unfold rd. rewrite (last_nth _ NUL) by (rewrite Eh; easy). cbn [bind].
    destruct (ceq (last (host_prefix s) NUL) "|"); auto.
    now rewrite removelast_length. }
  rewrite (bind_Ok_eq _ _ _ E1).
  destruct (line_host_prefix s) as (q & Eq).
  set (h := line_host s) in *.
  assert (rd (s ++ t :: r) (length h) = Ok (hd t q)) as ->.
  { rewrite Eq at 1. rewrite <- app_assoc.
    rewrite <- (Nat.add_0_r (length h)), rd_app2. now destruct q. }
  cbn [bind].
  assert (firstn (length h) (s ++ t :: r) = h) as ->.
  { rewrite Eq at 1. rewrite <- app_assoc. apply firstn_app_exact. }
  unfold line_hostonly. fold h.
  assert (skipn (length h) s = q) as ->.
  { rewrite Eq at 1. apply skipn_app_exact. }
  destruct q as [|x q]; cbn [hd].
  - rewrite term_ceq by (auto; discriminate). cbn [bind].
    now rewrite eol_or_term.
  - destruct (ceq x "^"); auto.
    assert (rd (s ++ t :: r) (length h + 1) = Ok (hd t q)) as ->.
    { rewrite Eq at 1. rewrite <- app_assoc, rd_app2. now destruct q. }
    cbn [bind]. destruct q; auto. cbn [hd]. now rewrite eol_or_term.
Qed.

(** ** One step of the loop *)
Definition J (s : ps) : Prop :=
  length (s_data s) <= s_pos s /\
  ((is_start_or_past (s_st s) && negb (is_start (s_st s))) || is_oneat (s_st s)
     = true -> S (length (s_data s)) <= s_pos s) /\
  (is_start (s_st s) = true -> s_data s = []) /\
  s_re s <= s_pos s /\ s_rs s <= s_re s.

Lemma parseOptions_term f s t r :
  line_text s -> term t ->
  parseOptions f (s ++ t :: r) =
  Ok (fold_left parseOption (split_on "," s)
        (mkF (f_type f) FONoFilterOption FONoFilterOption (f_data f) (f_dom f)
             (f_tag f) (f_host f) (f_rule f))).
Proof. intros H T. unfold parseOptions. now rewrite option_text_term. Qed.

Definition step_post (l b : bytes) (s : ps) (a : action) : Prop :=
  match a with
  | ANext1 s' => J s' /\ s_pos s' = S (s_pos s)
  | ANext2 s' => J s' /\ s_pos s' = 2 + s_pos s /\ b <> []
  | AReturn _ => True
  | ABreak s' => s_re s' = length l /\ s_rs s' <= s_re s'
  end.

Lemma put_ok st f c s :
  s_pos s < kMaxLineLength - 1 -> J s -> st <> FPStart ->
  (st = FPPastWhitespace \/ st = FPOneAt -> st = s_st s) ->
  exists a, put st f c s = Ok a /\ forall l b, step_post l b s a.
Proof.
  intros Hp (J1 & J2 & J3 & J4 & J5) Hst Hk. unfold put.
  rewrite (proj2 (Nat.ltb_lt _ _)) by lia.
  eexists. split; [reflexivity|]. intros l b. cbn [step_post].
  split; [|reflexivity]. unfold J. cbn [s_data s_pos s_st s_re s_rs].
  rewrite app_length. cbn [length].
  repeat split; try lia.
  - intros H. destruct st; cbn in H; try discriminate.
    + rewrite <- Hk in J2 by auto. specialize (J2 eq_refl). lia.
    + rewrite <- Hk in J2 by auto. specialize (J2 eq_refl). lia.
  - destruct st; [easy|discriminate..].
Qed.

Lemma pf_step_sim pres l a c b t r s :
  l = a ++ c :: b -> s_pos s = length a -> J s ->
  s_pos s < kMaxLineLength - 1 -> line_text l -> term t ->
  exists act,
    pf_step pres (l ++ t :: r) (length l) (length b) c (b ++ t :: r) s = Ok act /\
    pf_step pres (cstr l) (length l) (length b) c (cstr b) s = Ok act /\
    step_post l b s act.
Proof.
  intros El Ep HJ Hp Hl T.
  assert (line_text b) as Hb.
  { rewrite El in Hl. apply line_text_app in Hl as [_ Hl].
    now apply line_text_cons in Hl. }
  assert (term NUL) as TN by (left; reflexivity).
  pose proof HJ as (J1 & J2 & J3 & J4 & J5).
  assert (forall st f, st <> FPStart ->
            (st = FPPastWhitespace \/ st = FPOneAt -> st = s_st s) ->
            exists act, put st f c s = Ok act /\ put st f c s = Ok act /\
                        step_post l b s act) as P.
  { intros st f H1 H2. destruct (put_ok st f c s Hp HJ H1 H2) as (x & E & Q).
    eauto. }
  assert (forall st f, 
            (is_start_or_past st && negb (is_start st)) || is_oneat st = true ->
            st <> FPStart ->
            exists act, Ok (skip1 st f s) = Ok act /\ Ok (skip1 st f s) = Ok act /\
                        step_post l b s act) as S1.
  { intros st f H H'. eexists. split; [reflexivity|]. split; [reflexivity|].
    cbn. split; auto. unfold J. cbn [s_data s_pos s_st s_re s_rs].
    repeat split; try lia. destruct st; [easy|discriminate..]. }
  assert (forall st f, 
            (is_start_or_past st && negb (is_start st)) || is_oneat st = false ->
            st <> FPStart ->
            exists act, Ok (skip1 st f s) = Ok act /\ Ok (skip1 st f s) = Ok act /\
                        step_post l b s act) as S2.
  { intros st f H H'. eexists. split; [reflexivity|]. split; [reflexivity|].
    cbn. split; auto. unfold J. cbn [s_data s_pos s_st s_re s_rs].
    rewrite H. repeat split; try lia; try easy. destruct st; [easy|discriminate..]. }
  unfold pf_step.
  destruct (is_dataonly (s_st s)) eqn:DO.
  { apply P; [easy|]. intros [|]; easy. }
  cbv zeta.
  set (lb := is_onebar (s_st s) && negb (ceq c "|")).
  set (st := if lb then FPData else s_st s).
  set (f := if lb then add_type (s_f s) FTLeftAnchored else s_f s).
  assert (st = FPStart -> s_st s = FPStart) as K1.
  { unfold st. destruct lb; easy. }
  assert (st = FPPastWhitespace \/ st = FPOneAt -> st = s_st s) as K2.
  { unfold st. destruct lb; auto. intros [|]; easy. }
  assert (is_start st = false -> exists act, put st f c s = Ok act /\
            put st f c s = Ok act /\ step_post l b s act) as P'.
  { intros H. apply P; auto. intros H'. rewrite H' in H. easy. }
  assert (is_start_or_past st = false -> exists act, put st f c s = Ok act /\
            put st f c s = Ok act /\ step_post l b s act) as P''.
  { intros H. apply P'. now destruct st. }
  assert (exists act, put FPData f c s = Ok act /\
            put FPData f c s = Ok act /\ step_post l b s act) as PD.
  { apply P; [easy|]. intros [|]; easy. }
  destruct (ceq c "|") eqn:Cbar.
  { destruct (is_start_or_past st); [apply S2; easy|].
    destruct (is_onebar st); [|apply S2; easy].
    unfold cstr. rewrite !parse_host_term by auto. cbn [bind fst snd].
    apply S2; easy. }
  destruct (ceq c "@").
  { destruct (is_start_or_past st) eqn:E1; [apply S1; easy|].
    destruct (is_oneat st); [apply S1; easy|]. auto. }
  destruct (ceq c "!" || ceq c "[").
  { destruct (is_start_or_past st) eqn:E1; [|auto].
    eexists; split; [reflexivity|]. now split. }
  destruct (ceq c CR || ceq c LF || ceq c TAB || ceq c " ").
  { destruct (is_start st) eqn:E1; [|auto].
    eexists; split; [reflexivity|]. split; [reflexivity|].
    cbn. split; auto.
    assert (st = FPStart) as Est by now destruct st.
    pose proof (K1 Est) as Ess. rewrite Ess in J3. specialize (J3 eq_refl).
    unfold J. cbn [s_data s_pos s_st s_re s_rs]. rewrite J3, Est. cbn.
    repeat split; auto; try lia; try easy. }
  assert (length l = length a + S (length b)) as Ll.
  { rewrite El, app_length. cbn. lia. }
  destruct (ceq c "/").
  { destruct (is_start_or_past st) eqn:E1; [|auto].
    assert (exists x, rd l (length l - 1) = Ok x) as [x Ex]
        by (apply rd_some; lia).
    unfold cstr. rewrite !rd_app1 by lia. rewrite Ex. cbn [bind].
    destruct (ceq x "/" && (1 <? length l)) eqn:E2; auto.
    apply andb_true_iff in E2 as [_ E2]. apply Nat.ltb_lt in E2.
    assert (length (s_data s) + 1 < length l) as Hi.
    { destruct (is_start st) eqn:E3.
      - assert (st = FPStart) as Est by now destruct st.
        rewrite K1 in J3 by auto. rewrite J3 by auto. cbn. lia.
      - assert (st = FPPastWhitespace) as Est by now destruct st.
        rewrite <- K2 in J2 by auto. rewrite Est in J2.
        specialize (J2 eq_refl). lia. }
    rewrite (proj2 (Nat.eqb_neq _ _)) by lia.
    assert (forall q, firstn (length l - length (s_data s) - 2)
               (skipn (length (s_data s) + 1) (l ++ q)) =
             firstn (length l - length (s_data s) - 2)
               (skipn (length (s_data s) + 1) l)) as Q.
    { intros q. rewrite skipn_app.
      replace (length (s_data s) + 1 - length l) with 0 by lia.
      rewrite firstn_app, skipn_length.
      replace (_ - _ - 2 - _) with 0 by lia. now rewrite app_nil_r. }
    rewrite !Q. eexists; split; [reflexivity|]. now split. }
  assert (forall y, deref (b ++ y :: r) = Ok (hd y b)) as DR by now destruct b.
  assert (forall y, deref (b ++ [y]) = Ok (hd y b)) as DN by now destruct b.
  assert (hd t b = hd NUL b \/ (b = [] /\ hd t b = t /\ hd NUL b = NUL)) as HD
      by (destruct b; auto).
  assert (forall x, x <> NUL -> x <> CR -> x <> LF ->
            ceq (hd t b) x = ceq (hd NUL b) x) as HDc.
  { intros x N1 N2 N3. destruct HD as [->|(-> & -> & ->)]; auto.
    now rewrite !term_ceq. }
  assert (forall x, x <> NUL -> x <> CR -> x <> LF ->
            ceq (hd NUL b) x = true -> b <> []) as Nb.
  { intros x N1 N2 N3 H ->. cbn [hd] in H. apply ceq_eq in H. congruence. }
  unfold cstr.
  destruct (ceq c "$").
  { rewrite DR, DN. cbn [bind].
    rewrite HDc by discriminate.
    destruct (ceq (hd NUL b) "$") eqn:E2.
    - eexists; split; [reflexivity|]. split; [reflexivity|].
      cbn. split; [|split; [reflexivity|eapply Nb; eauto; discriminate]].
      unfold J. cbn [s_data s_pos s_st s_re s_rs length is_start_or_past
        is_start is_oneat negb andb orb].
      repeat split; try lia; try easy.
    - assert (forall y r', term y ->
         option_text (skipn (s_re s) (l ++ y :: r')) = Ok (skipn (s_re s) l))
        as OT.
      { intros y r' Ty. rewrite skipn_app.
        replace (s_re s - length l) with 0 by lia. cbn [skipn].
        apply option_text_term; auto. now apply line_text_skipn. }
      rewrite !OT by auto. cbn [bind].
      rewrite !parseOptions_term by auto. cbn [bind].
      eexists; split; [reflexivity|]. split; [reflexivity|].
      cbn. rewrite skipn_length. lia. }
  destruct (ceq c "#"); auto.
  rewrite DR, DN. cbn [bind].
  rewrite !HDc by discriminate.
  destruct (is_start_or_past st && ceq (hd NUL b) " ").
  { eexists; split; [reflexivity|]. now split. }
  destruct (ceq (hd NUL b) "#" || ceq (hd NUL b) "@") eqn:E2; auto.
  eexists; split; [reflexivity|]. split; [reflexivity|].
  cbn. split; [|split; [reflexivity|]].
  - unfold J. cbn [s_data s_pos s_st s_re s_rs length is_start_or_past
        is_start is_oneat negb andb orb].
    repeat split; try lia; try easy.
  - apply orb_true_iff in E2 as [E2|E2]; eapply Nb; eauto; discriminate.
Qed.

Definition out_post (l : bytes) (o : pout) : Prop :=
  match o with
  | PReturn _ => True
  | PEnd s => s_rs s <= s_re s /\ s_re s <= length l
  end.

Lemma pf_loop_sim pres l t r n :
  line_text l -> term t ->
  forall p a s, length p <= n -> l = a ++ p -> s_pos s = length a -> J s ->
  exists o,
    pf_loop pres (l ++ t :: r) (length l) (length p) (p ++ t :: r) s = Ok o /\
    pf_loop pres (cstr l) (length l) (length p) (cstr p) s = Ok o /\
    out_post l o.
Proof.
  intros Hl T. induction n as [|n IH]; intros p a s Hn El Ep HJ.
  - destruct p; [|cbn in Hn; lia]. exists (PEnd s). repeat split.
    all: destruct HJ as (J1 & J2 & J3 & J4 & J5); auto.
    rewrite El, app_length. lia.
  - destruct p as [|c b].
    + exists (PEnd s). repeat split.
      all: destruct HJ as (J1 & J2 & J3 & J4 & J5); auto.
      rewrite El, app_length. lia.
    + cbn [length app]. change (cstr (c :: b)) with (c :: cstr b).
      cbn [pf_loop].
      destruct (Nat.leb_spec (kMaxLineLength - 1) (s_pos s)) as [L|L].
      { exists (PReturn (s_f s)). now repeat split. }
      destruct (pf_step_sim pres l a c b t r s El Ep HJ L Hl T)
        as (act & E1 & E2 & E3).
      rewrite E1, E2. cbn [bind]. destruct act as [s'|s'|f|s'].
      * destruct E3 as [HJ' Ep'].
        apply IH with (a := a ++ [c]); auto.
        -- cbn in Hn. lia.
        -- now rewrite <- app_assoc.
        -- rewrite app_length. cbn. lia.
      * destruct E3 as [HJ' [Ep' Nb]]. destruct b as [|c2 b]; [easy|].
        cbn [length app]. change (cstr (c2 :: b)) with (c2 :: cstr b).
        apply IH with (a := a ++ [c; c2]); auto.
        -- cbn in Hn. lia.
        -- now rewrite <- app_assoc.
        -- rewrite app_length. cbn. lia.
      * exists (PReturn f). now repeat split.
      * exists (PEnd s'). destruct E3. repeat split; auto; cbn; lia.
Qed.

(** The parse of a line depends only on the bytes of the line, and never
    faults. *)
Definition pline (pres : bool) (l : bytes) : filter * bool :=
  match parse_filter pres (cstr l) (length l) with
  | Ok x => x
  | UB => (filter0, false)
  end.

Lemma J0 f : J (mkPs FPStart f [] 0 0 0).
Proof. unfold J. cbn. repeat split; auto; easy. Qed.

Lemma parse_filter_line pres l t r :
  line_text l -> term t ->
  parse_filter pres (l ++ t :: r) (length l) = Ok (pline pres l).
Proof.
  intros Hl T. unfold pline, parse_filter.
  destruct (pf_loop_sim pres l t r (length l) Hl T l [] _ (le_n _) eq_refl
              (eq_refl : s_pos (mkPs FPStart filter0 [] 0 0 0) = length (@nil ascii))
              (J0 filter0))
    as (o & E1 & E2 & E3).
  rewrite E1, E2. cbn [bind]. destruct o as [f|s]; auto.
  destruct (is_start (s_st s)); auto. cbn [out_post] in E3.
  assert (forall q, rule_text pres (l ++ q) s =
    Ok (if pres then Some (firstn (s_re s - s_rs s) (skipn (s_rs s) l))
        else None)) as RT.
  { intros q. unfold rule_text. destruct pres; auto.
    rewrite (proj2 (Nat.leb_le _ _)) by (rewrite app_length; lia).
    rewrite skipn_app. replace (s_rs s - length l) with 0 by lia.
    rewrite firstn_app, skipn_length.
    replace (s_re s - s_rs s - _) with 0 by lia. now rewrite app_nil_r. }
  unfold cstr. rewrite !RT. reflexivity.
Qed.

Lemma parse_filter_cstr pres l :
  line_text l -> parse_filter pres (cstr l) (length l) = Ok (pline pres l).
Proof. intros H. apply parse_filter_line; auto. left; auto. Qed.

(** ** The two values of preserveRules *)
Definition same_rule (f g : filter) : Prop := set_rule f None = set_rule g None.

Lemma same_rule_refl f : same_rule f f.
Proof. reflexivity. Qed.

Definition same_act (a a' : action) : Prop :=
  match a, a' with
  | AReturn f, AReturn f' => same_rule f f'
  | _, _ => a = a'
  end.

Definition same_res {A} (R : A -> A -> Prop) (x y : res A) : Prop :=
  match x, y with
  | Ok a, Ok b => R a b
  | UB, UB => True
  | _, _ => False
  end.

Lemma same_res_refl {A} (R : A -> A -> Prop) x :
  (forall a, R a a) -> same_res R x x.
Proof. destruct x; cbn; auto. Qed.

Lemma same_act_refl a : same_act a a.
Proof. destruct a; cbn; auto. reflexivity. Qed.

Lemma pf_step_pres input ilen n1 c p1 s :
  same_res same_act (pf_step true input ilen n1 c p1 s)
                    (pf_step false input ilen n1 c p1 s).
Proof.
  unfold pf_step.
  destruct (is_dataonly (s_st s)); [apply same_res_refl, same_act_refl|].
  cbv zeta.
  destruct (ceq c "|"); [apply same_res_refl, same_act_refl|].
  destruct (ceq c "@"); [apply same_res_refl, same_act_refl|].
  destruct (ceq c "!" || ceq c "["); [apply same_res_refl, same_act_refl|].
  destruct (ceq c CR || ceq c LF || ceq c TAB || ceq c " ");
    [apply same_res_refl, same_act_refl|].
  destruct (ceq c "/").
  - destruct (is_start_or_past _); [|apply same_res_refl, same_act_refl].
    destruct (rd input (ilen - 1)); cbn [bind]; [|exact I].
    destruct (ceq a "/" && (1 <? ilen)); [|apply same_res_refl, same_act_refl].
    destruct (_ =? 0); [exact I|]. cbn. reflexivity.
  - destruct (ceq c "$"); [apply same_res_refl, same_act_refl|].
    apply same_res_refl, same_act_refl.
Qed.

Definition same_out (a a' : pout) : Prop :=
  match a, a' with
  | PReturn f, PReturn f' => same_rule f f'
  | _, _ => a = a'
  end.

Lemma pf_loop_pres input ilen n :
  forall m p s, m <= n ->
  same_res same_out (pf_loop true input ilen m p s)
                    (pf_loop false input ilen m p s).
Proof.
  induction n as [|n IH]; intros m p s Hm.
  - destruct m; [|lia]. cbn. reflexivity.
  - destruct m as [|m]; cbn [pf_loop]; [reflexivity|].
    destruct (_ <=? s_pos s); [reflexivity|]. destruct p as [|c p1]; [exact I|].
    pose proof (pf_step_pres input ilen m c p1 s) as K.
    destruct (pf_step true input ilen m c p1 s) as [a|],
             (pf_step false input ilen m c p1 s) as [a'|]; cbn [bind];
      try (now destruct K).
    cbn in K. destruct a as [s'|s'|f|s'], a' as [s''|s''|f'|s'']; cbn in K;
      try discriminate; try (injection K as <-).
    + apply IH. lia.
    + destruct m as [|m]; [exact I|]. destruct p1; [exact I|]. apply IH. lia.
    + exact K.
    + reflexivity.
Qed.

Lemma pline_pres l pres :
  line_text l ->
  same_rule (fst (pline pres l)) (fst (pline false l)) /\
  snd (pline pres l) = snd (pline false l).
Proof.
  intros Hl. destruct pres; [|split; reflexivity].
  pose proof (parse_filter_cstr true l Hl) as E1.
  pose proof (parse_filter_cstr false l Hl) as E2.
  unfold parse_filter in E1, E2.
  pose proof (pf_loop_pres (cstr l) (length l) (length l) (length l) (cstr l)
                (mkPs FPStart filter0 [] 0 0 0) (le_n _)) as K.
  destruct (pf_loop true _ _ _ _ _) as [o1|]; [|discriminate].
  destruct (pf_loop false _ _ _ _ _) as [o2|]; [|discriminate].
  cbn [bind] in E1, E2. cbn in K.
  destruct o1 as [f1|s1], o2 as [f2|s2]; cbn in K; try discriminate.
  - injection E1 as <-. injection E2 as <-. auto.
  - injection K as <-. destruct (is_start (s_st s1)).
    + injection E1 as <-. injection E2 as <-. split; reflexivity.
    + apply bind_ok in E1 as (r & E3 & E1). injection E1 as <-.
      cbn in E2. injection E2 as <-. split; reflexivity.
Qed.

