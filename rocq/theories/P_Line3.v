(** Exception lines and leading blanks. *)
From Verif Require Import Base Flags Url Sets FilterM ParseM ClientM Spec SpecM
  P_Base P_Url P_Match P_Rule P_Parse P_List P_Shape P_Fp P_Line P_Props2 P_Props3
  P_Line2.

(** ** Exception lines *)
Definition exc_types : list N :=
  List.filter (fun t => has t FTException) net_types.

Definition never_block (f : filter) : Prop :=
  In (f_type f) (FTComment :: FTEmpty :: exc_types ++ only_types).

Definition exc_inv (l r p : bytes) (s : ps) : Prop :=
  In (f_type (s_f s)) (exc_types ++ only_types) /\
  (s_st s = FPDataOnly -> In (f_type (s_f s)) only_types) /\
  (s_st s <> FPDataOnly -> In (f_type (s_f s)) exc_types) /\
  (is_start_or_past (s_st s) = true \/ s_st s = FPOneAt ->
     last l NUL <> "/"%char \/ (p = r /\ s_st s = FPPastWhitespace /\ ~ lead_char (hd NUL r))) /\
  (is_start_or_past (s_st s) = true \/ s_st s = FPOneAt \/ s_st s = FPOneBar ->
     f_type (s_f s) = FTException) /\
  s_st s <> FPStart.

Definition exc_out (o : pout) : Prop :=
  match o with
  | PReturn f => never_block f
  | PEnd s => In (f_type (s_f s)) (exc_types ++ only_types)
  end.

Lemma exc_closed (g : N -> N) :
  forallb (fun t => memN (g t) exc_types) exc_types = true ->
  forall t, In t exc_types -> In (g t) exc_types.
Proof. apply nets_closed. Qed.

Lemma exc_step pres l r c b s act :
  exc_inv l r (c :: b) s -> step_case pres l c b s act ->
  match act with
  | ANext1 s' => exc_inv l r b s'
  | ANext2 s' => b <> [] -> exc_inv l r (tl b) s'
  | AReturn f => exc_out (PReturn f)
  | ABreak s' => exc_out (PEnd s')
  end.
Proof.
  intros (H1 & H2 & H3 & H4 & H5 & H6) SC.
  destruct SC as [E|E1 E2|E1 E2|E1 E2 E3 E4|E1 E2|E1 E2|E1 E2|E1 E2|E1 E2 E3 E4 E5
    |E1 E2 E3|E1 E2 E3|E1 E2 E3|st' E1 E2 E3 E4 E5].
  - unfold exc_inv. cbn [put_ps s_st s_f]. split; [auto|]. split; [auto|].
    split; [easy|]. split; [intros [|]; discriminate|].
    split; [intros [|[|]]; discriminate|discriminate].
  - unfold exc_inv. cbn [skip_ps s_st s_f]. split; [auto|]. split; [easy|].
    split. { intros _. apply H3. intros E; now rewrite E in E2. }
    split; [intros [|]; discriminate|]. split; [|discriminate].
    intros _. apply H5. auto.
  - unfold exc_inv. cbn [skip_ps s_st s_f]. cbv zeta.
    assert (f_type (s_f s) = FTException) as ET by (apply H5; auto).
    assert (In (f_type (if line_hostonly b
       then add_type (set_host (add_type (s_f s) FTHostAnchored) (line_host b)) FTHostOnly
       else set_host (add_type (s_f s) FTHostAnchored) (line_host b))) exc_types) as K.
    { apply memN_In. destruct (line_hostonly b); cbn [add_type set_type set_host f_type];
        rewrite ET; reflexivity. }
    split; [apply in_or_app; auto|]. split; [easy|]. split; [auto|].
    split; [intros [|]; discriminate|].
    split; [intros [|[|]]; discriminate|discriminate].
  - unfold exc_inv. cbn [skip_ps s_st s_f add_type set_type f_type].
    assert (In (N.lor (f_type (s_f s)) FTRightAnchored) exc_types) as K.
    { apply (exc_closed (fun t => N.lor t FTRightAnchored)); auto. }
    split; [apply in_or_app; auto|]. split; [easy|]. split; [auto|].
    split; [intros [|]; discriminate|].
    split; [intros [|[|]]; discriminate|discriminate].
  - unfold exc_inv. cbn [skip_ps s_st s_f]. split; [auto|]. split; [easy|].
    split. { intros _. apply H3. intros E; now rewrite E in E2. }
    split; [|split; [|discriminate]].
    + intros _. destruct H4 as [H4|(H4 & _ & H7)]; auto.
      exfalso. apply H7. rewrite <- H4. subst c. unfold lead_char; cbn; auto.
    + intros _. apply H5. auto.
  - unfold exc_inv. cbn [skip_ps s_st s_f set_type f_type].
    split; [apply memN_In; reflexivity|]. split; [easy|].
    split; [intros _; apply memN_In; reflexivity|].
    split; [|split; [auto|discriminate]].
    intros _. destruct H4 as [H4|(H4 & H8 & H7)]; auto. congruence.
  - left. reflexivity.
  - congruence.
  - exfalso. destruct H4 as [H4|(H4 & _ & H7)]; auto.
    apply H7. rewrite <- H4. subst c. unfold lead_char; cbn; auto 8.
  - intros _. unfold exc_inv. cbn [s_st s_f set_type f_type].
    split; [apply memN_In; reflexivity|]. split; [cbn; auto|]. split; [easy|].
    split; [intros [|]; discriminate|].
    split; [intros [|[|]]; discriminate|discriminate].
  - cbn [exc_out s_f].
    destruct (options_frame (split_on "," b)
      (mkF (f_type (cur_f c s)) 0 0 (f_data (cur_f c s)) (f_dom (cur_f c s))
        (f_tag (cur_f c s)) (f_host (cur_f c s)) (f_rule (cur_f c s))))
      as (O1 & _). rewrite O1. cbn [f_type]. unfold cur_f.
    destruct (is_onebar (s_st s) && negb (ceq c "|")) eqn:EO; [|auto].
    apply andb_true_iff in EO as [EO _].
    cbn [add_type set_type f_type]. rewrite H5; [apply memN_In; reflexivity|].
    destruct (s_st s); auto; discriminate.
  - intros _. unfold exc_inv. cbn [s_st s_f set_type f_type].
    assert (In (if ceq (hd NUL b) "#" then FTElementHiding
                else FTElementHidingException) only_types) as K
      by (destruct (ceq (hd NUL b) "#"); cbn; auto).
    split; [apply in_or_app; auto|]. split; [auto|]. split; [easy|].
    split; [intros [|]; discriminate|].
    split; [intros [|[|]]; discriminate|discriminate].
  - unfold exc_inv. cbn [put_ps s_st s_f].
    assert (In (f_type (cur_f c s)) exc_types) as K.
    { unfold cur_f. destruct (is_onebar (s_st s) && negb (ceq c "|")) eqn:EO; [|auto].
      apply andb_true_iff in EO as [EO _].
      cbn [add_type set_type f_type]. rewrite H5; [apply memN_In; reflexivity|].
      destruct (s_st s); auto; discriminate. }
    split; [apply in_or_app; auto|].
    destruct E4 as [->|(-> & E4 & E6)].
    + split; [easy|]. split; [auto|]. split; [intros [|]; discriminate|].
      split; [intros [|[|]]; discriminate|discriminate].
    + unfold cur_st, cur_f in *. destruct (is_onebar (s_st s) && negb (ceq c "|")) eqn:EO.
      * split; [easy|]. split; [auto|]. split; [intros [|]; discriminate|].
        split; [intros [|[|]]; discriminate|discriminate].
      * split; [easy|]. split; [auto|]. split; [|split; auto].
        intros HH. destruct (H4 HH) as [H7|(H7 & _ & H8)]; auto.
        exfalso. apply H8. rewrite <- H7. auto.
Qed.

Lemma exception_line pres b r :
  line_text (b ++ B "@@" ++ r) -> (forall c, In c b -> blank c) ->
  length b < 2046 -> ~ slash_risk r ->
  never_block (fst (pline pres (b ++ B "@@" ++ r))).
Proof.
  intros Hl Hb Lb NR.
  set (l := b ++ B "@@" ++ r) in *.
  set (k := length b).
  set (s0 := mkPs FPPastWhitespace (set_type filter0 FTException) [] k (2 + k) (2 + k)).
  assert (length l = length b + S (S (length r))) as Ll.
  { unfold l. rewrite !app_length. reflexivity. }
  assert (pf_loop pres (cstr l) (length l) (length l) (cstr l)
            (mkPs FPStart filter0 [] 0 0 0) =
          pf_loop pres (cstr l) (length l) (length r) (cstr r) s0) as EL.
  { replace (cstr l) with (b ++ B "@@" ++ cstr r) at 2.
    2:{ unfold l, cstr. rewrite <- !app_assoc. reflexivity. }
    rewrite Ll at 2. rewrite loop_blanks by (auto; lia).
    cbn [B list_ascii_of_string app]. rewrite Nat.add_0_l.
    rewrite loop_cons by lia.
    change (pf_step pres (cstr l) (length l) (S (length r)) "@" ("@"%char :: cstr r)
              (mkPs FPStart filter0 [] (length b) (length b) (length b)))
      with (Ok (skip1 FPOneAt filter0 (mkPs FPStart filter0 [] k k k))).
    cbn [bind skip1 s_data s_rs s_re s_pos]. rewrite loop_cons by (unfold k; lia).
    reflexivity. }
  assert (last l NUL = last r NUL \/ r = []) as LR.
  { destruct r as [|x r]; [auto|left]. unfold l.
    rewrite app_assoc. clear. generalize (b ++ B "@@"). intros w.
    induction w as [|y w IH]; [reflexivity|]. cbn [app].
    destruct (w ++ x :: r) eqn:E; [now destruct w|]. exact IH. }
  destruct (loop_ind pres l (exc_inv l r) exc_out Hl) with (n := length r)
    (p := r) (a := b ++ B "@@") (s := s0) as (o & E1 & K); auto.
  - intros p s (H1 & H2 & H3 & H4 & H5 & H6) _ _. do 2 right. auto.
  - intros s (H1 & _). exact H1.
  - intros a c b' s act El _ _ _ HP SC.
    pose proof (exc_step pres l r c b' s act HP SC) as K. destruct act; auto.
  - unfold l. now rewrite <- app_assoc.
  - cbn. rewrite app_length. cbn. unfold k. lia.
  - unfold J. cbn. repeat split; try lia; try discriminate.
  - unfold exc_inv. cbn [s0 s_st s_f set_type f_type].
    split; [apply memN_In; reflexivity|]. split; [easy|].
    split; [intros _; apply memN_In; reflexivity|].
    split; [|split; [auto|discriminate]].
    intros _. destruct (ascii_dec (last l NUL) "/") as [EL1|NL]; auto.
    right. split; auto. split; auto. intros Hh. apply NR. split; [|exact Hh].
    destruct LR as [LR| ->]; [congruence|].
    unfold l in EL1. rewrite app_nil_r in EL1.
    change (B "@@") with (["@"%char] ++ ["@"%char]) in EL1.
    rewrite app_assoc, last_last in EL1. discriminate.
  - pose proof (parse_filter_cstr pres l Hl) as EP. unfold parse_filter in EP.
    rewrite EL, E1 in EP. cbn [bind] in EP. destruct o as [f|s].
    + assert (pline pres l = (f, false)) as -> by congruence. exact K.
    + destruct (is_start (s_st s)).
      * assert (pline pres l = (set_type (s_f s) FTEmpty, false)) as -> by congruence.
        right. left. reflexivity.
      * apply bind_ok in EP as (x & _ & EP).
        assert (pline pres l =
          (set_data (if pres then set_rule (s_f s) x else s_f s) (s_data s), true))
          as -> by congruence.
        cbn [exc_out] in K. do 2 right. now destruct pres.
Qed.

Definition block_class (k : cls) : bool :=
  match k with
  | CHost false | CList KFilters | CList KNoFp | CList KNoFpDom | CList KNoFpAnti => true
  | _ => false
  end.

Lemma never_block_class E f k :
  never_block f -> classify E f = Ok k -> block_class k = false.
Proof.
  intros NB. unfold classify. destruct (hasUnsupportedOptions f).
  { intros [= <-]. reflexivity. }
  assert (forallb (fun t => memN (N.land t FTListTypesMask)
    [FTException; FTElementHiding; FTElementHidingException; FTHTMLFiltering; FTEmpty; FTComment])
    (FTComment :: FTEmpty :: exc_types ++ only_types) = true) as A by reflexivity.
  rewrite forallb_forall in A. apply A in NB. clear A.
  apply memN_In in NB. cbv zeta.
  destruct NB as [E1|[E1|[E1|[E1|[E1|[E1|[]]]]]]]; rewrite <- E1; cbn;
    try (intros [= <-]; reflexivity).
  unfold classify_tail. destruct (has (f_type f) FTHostOnly).
  { intros [= <-]. reflexivity. }
  intros H. apply bind_ok in H as (o & _ & H). destruct o.
  - injection H as <-. reflexivity.
  - destruct (isDomainOnlyFilter f); [injection H as <-; reflexivity|].
    destruct (isAntiDomainOnlyFilter f); injection H as <-; reflexivity.
Qed.

(** ** Leading blanks *)
Definition sh (k : nat) (s : ps) : ps :=
  mkPs (s_st s) (s_f s) (s_data s) (k + s_rs s) (k + s_re s) (k + s_pos s).

Definition sh_act (k : nat) (a : action) : action :=
  match a with
  | ANext1 s => ANext1 (sh k s) | ANext2 s => ANext2 (sh k s)
  | AReturn f => AReturn f | ABreak s => ABreak (sh k s)
  end.

Lemma put_sh k st f c s : put st f c (sh k s) = rmap (sh_act k) (put st f c s).
Proof.
  unfold put. cbn [sh s_data s_rs s_re s_pos]. destruct (_ <? _); [|reflexivity].
  cbn [rmap sh_act]. unfold sh. cbn. now rewrite !Nat.add_succ_r.
Qed.

Lemma skip_sh k st f s : skip1 st f (sh k s) = sh_act k (skip1 st f s).
Proof. unfold skip1, sh_act, sh. cbn. now rewrite !Nat.add_succ_r. Qed.

Lemma pf_step_sh pres bl input ilen n1 c p1 s :
  0 < ilen ->
  (c = "/"%char -> is_start_or_past (s_st s) = true ->
     rd input (ilen - 1) <> Ok "/"%char) ->
  pf_step pres (bl ++ input) (length bl + ilen) n1 c p1 (sh (length bl) s) =
  rmap (sh_act (length bl)) (pf_step pres input ilen n1 c p1 s).
Proof.
  intros Hi HR. unfold pf_step. cbn [sh s_st s_f s_data s_re s_rs s_pos].
  fold (sh (length bl) s). set (k := length bl).
  assert (forall st, is_start_or_past st = true ->
    st = (if is_onebar (s_st s) && negb (ceq c "|") then FPData else s_st s) ->
    is_start_or_past (s_st s) = true) as Hst.
  { intros st H ->. destruct (is_onebar (s_st s) && _); [discriminate|auto]. }
  destruct (is_dataonly (s_st s)); [apply put_sh|].
  set (st := if is_onebar (s_st s) && negb (ceq c "|") then FPData else s_st s) in *.
  set (f := if is_onebar (s_st s) && negb (ceq c "|") then _ else _).
  destruct (ceq c "|").
  { destruct (is_start_or_past st); [cbn [rmap]; f_equal; apply skip_sh|].
    destruct (is_onebar st).
    - destruct (parse_host p1 n1) as [hh|]; [|reflexivity]. cbn [bind rmap].
      f_equal. apply skip_sh.
    - cbn [rmap]. f_equal. apply skip_sh. }
  destruct (ceq c "@").
  { destruct (is_start_or_past st); [cbn [rmap]; f_equal; apply skip_sh|].
    destruct (is_oneat st); [cbn [rmap]; f_equal; apply skip_sh|apply put_sh]. }
  destruct (ceq c "!" || ceq c "[").
  { destruct (is_start_or_past st); [reflexivity|apply put_sh]. }
  destruct (ceq c CR || ceq c LF || ceq c TAB || ceq c " ").
  { destruct (is_start st); [|apply put_sh].
    cbn [rmap sh_act]. unfold sh. cbn. now rewrite !Nat.add_succ_r. }
  destruct (ceq_spec c "/") as [Ec|Nc].
  { destruct (is_start_or_past st) eqn:Est; [|apply put_sh].
    replace (k + ilen - 1) with (length bl + (ilen - 1)) by (unfold k; lia).
    rewrite rd_app2. destruct (rd input (ilen - 1)) as [x|] eqn:Er; [|reflexivity].
    cbn [bind]. destruct (ceq_spec x "/") as [->|Nx].
    - exfalso. apply (HR Ec); [|reflexivity]. eapply Hst; eauto.
    - cbn [andb]. apply put_sh. }
  destruct (ceq c "$").
  { destruct (deref p1) as [y|]; [|reflexivity]. cbn [bind].
    destruct (ceq y "$").
    - cbn [rmap sh_act]. unfold sh. cbn. repeat f_equal; lia.
    - replace (skipn (k + s_re s) (bl ++ input)) with (skipn (s_re s) input).
      2:{ unfold k. rewrite skipn_app.
          replace (length bl + s_re s - length bl) with (s_re s) by lia.
          rewrite (skipn_all2 bl) by lia. reflexivity. }
      destruct (option_text (skipn (s_re s) input)); [|reflexivity]. cbn [bind].
      destruct (parseOptions f p1); [|reflexivity]. cbn [bind rmap sh_act].
      unfold sh. cbn. now rewrite Nat.add_assoc. }
  destruct (ceq c "#").
  { destruct (deref p1) as [y|]; [|reflexivity]. cbn [bind].
    destruct (is_start_or_past st && ceq y " "); [reflexivity|].
    destruct (ceq y "#" || ceq y "@"); [|apply put_sh].
    cbn [rmap sh_act]. unfold sh. cbn. repeat f_equal; lia. }
  apply put_sh.
Qed.

Definition sh_out (k : nat) (o : pout) : pout :=
  match o with PReturn f => PReturn f | PEnd s => PEnd (sh k s) end.

(** As long as no '/' can start a regular expression. *)
Lemma loop_sh pres bl l n p s a :
  line_text l -> length bl + length l < 2048 ->
  l = a ++ p -> s_pos s = length a -> length p <= n ->
  (last l NUL <> "/"%char \/
   (is_start_or_past (s_st s) = false /\ s_st s <> FPOneAt) \/
   (a = [] /\ s_st s = FPStart /\ ~ In (hd NUL l) (TAB :: B " @/"))) ->
  J s ->
  pf_loop pres (bl ++ cstr l) (length bl + length l) (length p) (cstr p)
          (sh (length bl) s) =
  rmap (sh_out (length bl)) (pf_loop pres (cstr l) (length l) (length p) (cstr p) s).
Proof.
  intros Hl HL. revert p s a. induction n as [|n IH]; intros p s a El Ep Hn HC HJ.
  - destruct p; [reflexivity|cbn in Hn; lia].
  - destruct p as [|c b]; [reflexivity|].
    assert (length l = length a + S (length b)) as Ll
      by (rewrite El, app_length; reflexivity).
    cbn [length]. change (cstr (c :: b)) with (c :: cstr b). cbn [pf_loop].
    cbn [sh s_pos]. fold (sh (length bl) s).
    unfold kMaxLineLength.
    destruct (Nat.leb_spec (2048 - 1) (length bl + s_pos s)) as [L|L]; [lia|].
    destruct (Nat.leb_spec (2048 - 1) (s_pos s)) as [L'|L']; [lia|].
    rewrite pf_step_sh.
    2:{ lia. }
    2:{ intros -> Es. unfold cstr. rewrite rd_app1 by lia. unfold rd.
        rewrite (last_nth l NUL) by (intros ->; now destruct a).
        destruct HC as [HC|[[HC _]|(Ea & Es' & HC)]]; try congruence.
        exfalso. apply HC. subst a. rewrite El. cbn. auto 6. }
    destruct (pf_step_sim pres l a c b NUL [] s El Ep HJ) as (act & _ & E2 & E3);
      auto; [left; auto|].
    change (b ++ [NUL]) with (cstr b) in E2. change (l ++ [NUL]) with (cstr l) in E2.
    rewrite E2. cbn [rmap bind].
    pose proof (pf_step_cases pres l a c b s act El Ep HJ) as SC.
    specialize (SC ltac:(unfold kMaxLineLength; lia) Hl E2).
    destruct act as [s'|s'|f|s']; cbn [sh_act]; auto.
    + destruct E3 as [HJ' Ep']. apply IH with (a := a ++ [c]); auto.
      * now rewrite <- app_assoc.
      * rewrite app_length. cbn. lia.
      * cbn in Hn. lia.
      * destruct HC as [HC|[[HC1 HC2]|(Ea & Es & HC)]]; [auto| |].
        -- right. left. inversion SC; subst; cbn [put_ps skip_ps s_st] in *;
             try (split; [reflexivity|discriminate]); try congruence;
             try (exfalso; destruct (s_st s); cbn in HC1; congruence).
           match goal with K : _ = FPData \/ _ |- _ =>
             destruct K as [->|(-> & _ & _)] end; [split; [reflexivity|discriminate]|].
           unfold cur_st. destruct (_ && _); [split; [reflexivity|discriminate]|auto].
        -- right. left. subst a. cbn [app] in El. rewrite El in HC. cbn [hd] in HC.
           inversion SC; subst; cbn [put_ps skip_ps s_st] in *;
             try (split; [reflexivity|discriminate]); try congruence.
           ++ exfalso. apply HC. cbn; auto.
           ++ exfalso. apply HC.
              match goal with K : _ = " "%char \/ _ |- _ => destruct K as [->| ->] end;
              cbn; auto.
           ++ match goal with K : _ = FPData \/ _ |- _ =>
                destruct K as [->|(-> & K & _)] end; [split; [reflexivity|discriminate]|].
              unfold cur_st in *. rewrite Es in *. discriminate.
    + destruct E3 as [HJ' [Ep' Nb]]. destruct b as [|c2 b]; [easy|].
      cbn [length]. change (cstr (c2 :: b)) with (c2 :: cstr b). cbn [app].
      apply IH with (a := a ++ [c; c2]); auto.
      * now rewrite <- app_assoc.
      * rewrite app_length. cbn. lia.
      * cbn in Hn. lia.
      * right. left. inversion SC; subst; cbn [s_st]; split; try reflexivity; discriminate.
Qed.

Lemma blanks_pline pres bl l :
  line_text l -> (forall c, In c bl -> blank c) ->
  length bl + length l < 2048 ->
  (last l NUL <> "/"%char \/ ~ In (hd NUL l) (TAB :: B " @/")) ->
  pline pres (bl ++ l) = pline pres l.
Proof.
  intros Hl Hb HL HC.
  assert (line_text (bl ++ l)) as Hbl.
  { apply line_text_app. split; auto. intros c I.
    destruct (Hb c I) as [->| ->]; repeat split; discriminate. }
  pose proof (parse_filter_cstr pres l Hl) as E1.
  pose proof (parse_filter_cstr pres (bl ++ l) Hbl) as E2.
  assert (parse_filter pres (cstr (bl ++ l)) (length (bl ++ l)) =
          parse_filter pres (cstr l) (length l)); [|congruence].
  unfold parse_filter. rewrite app_length.
  replace (cstr (bl ++ l)) with (bl ++ cstr l)
    by (unfold cstr; now rewrite <- app_assoc).
  rewrite loop_blanks by (auto; lia). rewrite Nat.add_0_l.
  pose proof (loop_sh pres bl l (length l) l (mkPs FPStart filter0 [] 0 0 0) [])
    as LS.
  unfold sh in LS at 1. cbn [s_st s_f s_data s_rs s_re s_pos] in LS.
  rewrite Nat.add_0_r in LS. rewrite LS; auto.
  - destruct (pf_loop pres (cstr l) (length l) (length l) (cstr l) _) as [o|] eqn:EL;
      [|reflexivity]. cbn [rmap bind]. destruct o as [f|s]; [reflexivity|].
    cbn [sh_out sh s_st s_f s_data]. destruct (is_start (s_st s)); [reflexivity|].
    unfold rule_text. cbn [sh s_re s_rs]. destruct pres; [|reflexivity].
    rewrite app_length.
    destruct (Nat.leb_spec (length bl + s_re s) (length bl + length (cstr l))),
      (Nat.leb_spec (s_re s) (length (cstr l))); try lia; [|reflexivity].
    replace (length bl + s_re s - (length bl + s_rs s)) with (s_re s - s_rs s) by lia.
    rewrite skipn_app. replace (length bl + s_rs s - length bl) with (s_rs s) by lia.
    rewrite (skipn_all2 bl) by lia. reflexivity.
  - destruct HC; [auto|]. right. right. auto.
  - apply J0.
Qed.

(** ** The preserved text *)
Definition tx_inv (l p : bytes) (s : ps) : Prop :=
  (s_st s = FPDataOnly /\ In (f_type (s_f s)) only_types) \/
  (s_st s <> FPDataOnly /\ s_re s = s_pos s /\
   if is_start (s_st s)
   then exists b, l = b ++ p /\ length b = s_rs s /\ s_pos s = s_rs s /\
                  (forall c, In c b -> blank c)
   else exists b t, l = b ++ t /\ length b = s_rs s /\
                    (forall c, In c b -> blank c) /\ ~ blank (hd NUL t)).

Definition tx_out (l : bytes) (o : pout) : Prop :=
  match o with
  | PReturn f => f_type f = FTComment \/ f_type f = FTRegex
  | PEnd s =>
      In (f_type (s_f s)) only_types \/
      (s_re s = length l /\
       if is_start (s_st s) then True
       else exists b t, l = b ++ t /\ length b = s_rs s /\
                        (forall c, In c b -> blank c) /\ ~ blank (hd NUL t))
  end.

Lemma tx_next l a c b s st f d :
  l = a ++ c :: b -> s_pos s = length a -> ~ blank c ->
  s_st s <> FPDataOnly -> tx_inv l (c :: b) s ->
  st <> FPStart -> st <> FPDataOnly ->
  tx_inv l b (mkPs st f d (s_rs s) (S (s_re s)) (S (s_pos s))).
Proof.
  intros El Ep Nc ND [[E _]|(_ & E1 & E2)] N1 N2; [congruence|].
  right. cbn [s_st s_re s_pos s_rs]. split; auto. split; [congruence|].
  assert (is_start st = false) as -> by (destruct st; auto; congruence).
  destruct (is_start (s_st s)).
  - destruct E2 as (b0 & F1 & F2 & F3 & F4). exists b0, (c :: b). auto.
  - exact E2.
Qed.

(** In states other than the initial one blanks are ordinary. *)
Lemma tx_next' l c b s st f d :
  is_start (s_st s) = false -> s_st s <> FPDataOnly -> tx_inv l (c :: b) s ->
  st <> FPStart -> st <> FPDataOnly ->
  tx_inv l b (mkPs st f d (s_rs s) (S (s_re s)) (S (s_pos s))).
Proof.
  intros Es ND [[E _]|(_ & E1 & E2)] N1 N2; [congruence|].
  right. cbn [s_st s_re s_pos s_rs]. split; auto. split; [congruence|].
  assert (is_start st = false) as -> by (destruct st; auto; congruence).
  now rewrite Es in E2.
Qed.

Lemma tx_step pres l a c b s act :
  l = a ++ c :: b -> s_pos s = length a -> tx_inv l (c :: b) s ->
  step_case pres l c b s act ->
  match act with
  | ANext1 s' => tx_inv l b s'
  | ANext2 s' => b <> [] -> tx_inv l (tl b) s'
  | AReturn f => tx_out l (PReturn f)
  | ABreak s' => tx_out l (PEnd s')
  end.
Proof.
  intros El Ep HI SC.
  destruct SC as [E|E1 E2|E1 E2|E1 E2 E3 E4|E1 E2|E1 E2|E1 E2|E1 E2|E1 E2 E3 E4 E5
    |E1 E2 E3|E1 E2 E3|E1 E2 E3|st' E1 E2 E3 E4 E5].
  - left. cbn. split; auto. destruct HI as [[_ H]|[H _]]; [auto|easy].
  - eapply tx_next; eauto; try discriminate; [subst c; intros [|]; discriminate|].
    intros E; now rewrite E in E2.
  - eapply tx_next; eauto; try discriminate; [subst c; intros [|]; discriminate|].
    intros E; congruence.
  - eapply tx_next; eauto; try discriminate; subst c; intros [|]; discriminate.
  - eapply tx_next; eauto; try discriminate; [subst c; intros [|]; discriminate|].
    intros E; now rewrite E in E2.
  - eapply tx_next; eauto; try discriminate; [subst c; intros [|]; discriminate|].
    intros E; congruence.
  - left. reflexivity.
  - destruct HI as [[E _]|(_ & F1 & F2)]; [congruence|]. right.
    rewrite E2 in F2. cbn [is_start] in F2.
    destruct F2 as (b0 & G1 & G2 & G3 & G4).
    cbn [s_st s_re s_pos s_rs is_start]. split; [discriminate|]. split; [congruence|].
    exists (b0 ++ [c]). rewrite <- app_assoc. split; auto. rewrite app_length.
    split; [cbn; lia|]. split; [lia|]. intros x I. apply in_app_iff in I as [I|[<-|[]]]; auto.
  - right. cbn. now destruct pres.
  - intros _. left. cbn. auto.
  - destruct HI as [[E _]|(_ & F1 & F2)]; [congruence|]. right.
    cbn [s_st s_re s_rs]. split; auto.
    unfold cur_st. destruct (is_onebar (s_st s) && negb (ceq c "|")) eqn:EO.
    + cbn [is_start]. apply andb_true_iff in EO as [EO _].
      destruct (s_st s); try discriminate. exact F2.
    + destruct (is_start (s_st s)); auto.
  - intros _. left. cbn. split; auto. destruct (ceq (hd NUL b) "#"); cbn; auto.
  - assert (st' <> FPStart /\ st' <> FPDataOnly) as [Q1 Q2].
    { destruct E4 as [->|(-> & E4 & _)]; [split; discriminate|].
      split; [intros K; now rewrite K in E4|].
      unfold cur_st. destruct (_ && _); [discriminate|auto]. }
    unfold put_ps. destruct (is_start (s_st s)) eqn:Es.
    + eapply tx_next; eauto. apply E5. now destruct (s_st s).
    + eapply tx_next'; eauto.
Qed.

Lemma pline_text l f r :
  line_text l -> length l < 2048 -> pline true l = (f, r) ->
  In (f_type f) (FTComment :: FTEmpty :: FTRegex :: only_types) \/
  exists t, unblanked l t /\ f_rule f = Some t.
Proof.
  intros Hl L HP.
  destruct (loop_ind true l (fun p s => tx_inv l p s /\ s_pos s + length p = length l)
              (tx_out l) Hl) with (n := length l)
    (p := l) (a := @nil ascii) (s := mkPs FPStart filter0 [] 0 0 0)
    as (o & E1 & K); auto.
  - intros p s [_ E] Np Lp. destruct p; [easy|]. cbn in E. lia.
  - intros s [[[E1 E2]|(E1 & E2 & E3)] E]; [left; auto|right].
    rewrite Nat.add_0_r in E. split; [congruence|]. now destruct (is_start (s_st s)).
  - intros a c b s act El Ep HJ Lp [HI E] SC.
    pose proof (tx_step _ _ _ _ _ _ _ El Ep HI SC) as K.
    destruct act as [s'|s'|f'|s']; auto.
    + split; auto. cbn [length] in E. inversion SC; subst; cbn [put_ps skip_ps s_pos]; lia.
    + intros Nb. split; auto. destruct b; [easy|]. cbn [length tl] in *.
      inversion SC; subst; cbn [s_pos]; lia.
  - apply J0.
  - split; [|reflexivity]. right. cbn. split; [discriminate|]. split; auto.
    exists []. cbn. split; auto. split; auto. split; auto. tauto.
  - pose proof (parse_filter_cstr true l Hl) as EP. unfold parse_filter in EP.
    rewrite E1 in EP. cbn [bind] in EP. destruct o as [f1|s].
    + assert (f = f1) as -> by congruence. left.
      cbn [tx_out] in K. destruct K as [-> | ->]; cbn; auto.
    + destruct (is_start (s_st s)) eqn:Es.
      { assert (f = set_type (s_f s) FTEmpty) as -> by congruence. cbn. auto. }
      cbn [tx_out] in K. rewrite Es in K.
      apply bind_ok in EP as (x & Ex & EP).
      assert (f = set_data (set_rule (s_f s) x) (s_data s)) as -> by congruence.
      cbn [set_data set_rule f_type f_rule].
      destruct K as [K|(E2 & b & t & F1 & F2 & F3 & F4)]; [left; cbn; auto|].
      right. exists t. split; [exists b; auto|].
      unfold rule_text in Ex. destruct (_ <=? _); [|discriminate].
      assert (x = Some (firstn (s_re s - s_rs s) (skipn (s_rs s) (cstr l)))) as -> by congruence.
      f_equal. unfold cstr. rewrite E2, <- F2, F1, <- app_assoc, skipn_app.
      rewrite skipn_all, Nat.sub_diag, app_length. cbn [skipn app].
      replace (length b + length t - length b) with (length t) by lia.
      now rewrite firstn_app_exact.
Qed.

(** Network rules other than regular expressions keep their text. *)
Lemma stored_text E l f r k :
  line_text l -> length l < 2048 -> pline true l = (f, r) ->
  classify E f = Ok k -> k <> CSkip -> k <> CList KCosmetic -> k <> CList KHtml ->
  has (f_type f) FTRegex = false ->
  exists t, unblanked l t /\ f_rule f = Some t.
Proof.
  intros Hl L HP HK N1 N2 N3 NR.
  destruct (pline_text l f r Hl L HP) as [I|I]; auto. exfalso.
  unfold classify in HK. destruct (hasUnsupportedOptions f); [congruence|].
  cbv zeta in HK. unfold only_types in I.
  destruct I as [I|[I|[I|[I|[I|[I|[]]]]]]]; rewrite <- I in *; cbn in HK; try congruence.
  discriminate NR.
Qed.
