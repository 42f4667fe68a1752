(** The steps of [parseFilter] as a relation, and invariants of the loop. *)
From Verif Require Import Base Flags Url Sets FilterM ParseM ClientM Spec P_Base
  P_Url P_Match P_Rule P_Parse P_List P_Shape.

(** State and rule after lines 258-261. *)
Definition cur_st (c : ascii) (s : ps) : pstate :=
  if is_onebar (s_st s) && negb (ceq c "|") then FPData else s_st s.
Definition cur_f (c : ascii) (s : ps) : filter :=
  if is_onebar (s_st s) && negb (ceq c "|")
  then add_type (s_f s) FTLeftAnchored else s_f s.

Definition put_ps (st : pstate) (f : filter) (c : ascii) (s : ps) : ps :=
  mkPs st f (s_data s ++ [c]) (s_rs s) (S (s_re s)) (S (s_pos s)).
Definition skip_ps (st : pstate) (f : filter) (s : ps) : ps :=
  mkPs st f (s_data s) (s_rs s) (S (s_re s)) (S (s_pos s)).

Inductive step_case (pres : bool) (l : bytes) (c : ascii) (b : bytes) (s : ps)
  : action -> Prop :=
| SC_only : s_st s = FPDataOnly ->
    step_case pres l c b s (ANext1 (put_ps FPDataOnly (s_f s) c s))
| SC_bar : c = "|"%char -> is_start_or_past (s_st s) = true ->
    step_case pres l c b s (ANext1 (skip_ps FPOneBar (s_f s) s))
| SC_host : c = "|"%char -> s_st s = FPOneBar ->
    step_case pres l c b s (ANext1 (skip_ps FPData
      (let f1 := set_host (add_type (s_f s) FTHostAnchored) (line_host b) in
       if line_hostonly b then add_type f1 FTHostOnly else f1) s))
| SC_right : c = "|"%char -> is_start_or_past (s_st s) = false ->
    s_st s <> FPOneBar -> s_st s <> FPDataOnly ->
    step_case pres l c b s
      (ANext1 (skip_ps FPData (add_type (s_f s) FTRightAnchored) s))
| SC_at1 : c = "@"%char -> is_start_or_past (s_st s) = true ->
    step_case pres l c b s (ANext1 (skip_ps FPOneAt (s_f s) s))
| SC_at2 : c = "@"%char -> s_st s = FPOneAt ->
    step_case pres l c b s
      (ANext1 (skip_ps FPPastWhitespace (set_type (s_f s) FTException) s))
| SC_comment : is_start_or_past (s_st s) = true ->
    c = "!"%char \/ c = "["%char \/ (c = "#"%char /\ hd NUL b = " "%char) ->
    step_case pres l c b s (AReturn (set_type (s_f s) FTComment))
| SC_blank : c = " "%char \/ c = TAB -> s_st s = FPStart ->
    step_case pres l c b s
      (ANext1 (mkPs FPStart (s_f s) (s_data s) (S (s_rs s)) (S (s_re s))
                    (S (s_pos s))))
| SC_regex : c = "/"%char -> is_start_or_past (s_st s) = true ->
    last l NUL = "/"%char -> 1 < length l ->
    length (s_data s) + 1 < length l ->
    step_case pres l c b s (AReturn
      (let d := firstn (length l - length (s_data s) - 2)
                       (skipn (length (s_data s) + 1) l) in
       let f1 := set_type (set_data (s_f s) d) FTRegex in
       if pres then set_rule f1 (Some d) else f1))
| SC_html : c = "$"%char -> hd NUL b = "$"%char -> s_st s <> FPDataOnly ->
    step_case pres l c b s (ANext2
      (mkPs FPDataOnly (set_type (take_domains (cur_f c s) (s_data s))
                          FTHTMLFiltering)
            [] (s_rs s) (2 + s_re s) (2 + s_pos s)))
| SC_options : c = "$"%char -> hd NUL b <> "$"%char -> s_st s <> FPDataOnly ->
    step_case pres l c b s (ABreak
      (mkPs (cur_st c s)
            (fold_left parseOption (split_on "," b)
               (mkF (f_type (cur_f c s)) 0 0 (f_data (cur_f c s))
                    (f_dom (cur_f c s)) (f_tag (cur_f c s))
                    (f_host (cur_f c s)) (f_rule (cur_f c s))))
            (s_data s) (s_rs s) (length l) (s_pos s)))
| SC_cosmetic : c = "#"%char -> hd NUL b = "#"%char \/ hd NUL b = "@"%char ->
    s_st s <> FPDataOnly ->
    step_case pres l c b s (ANext2
      (mkPs FPDataOnly
         (set_type (take_domains (cur_f c s) (s_data s))
            (if ceq (hd NUL b) "#" then FTElementHiding
             else FTElementHidingException))
         [] (s_rs s) (s_re s) (2 + s_pos s)))
| SC_put st' : s_st s <> FPDataOnly -> c <> "|"%char -> c <> "$"%char ->
    st' = FPData \/
    (st' = cur_st c s /\ is_start st' = false /\ lead_char c) ->
    (s_st s = FPStart -> ~ blank c) ->
    step_case pres l c b s (ANext1 (put_ps st' (cur_f c s) c s)).

Lemma put_inv st f c s a :
  put st f c s = Ok a -> a = ANext1 (put_ps st f c s).
Proof.
  unfold put, put_ps. destruct (_ <? _); congruence.
Qed.

Ltac not_blank :=
  try match goal with
  | |- s_st _ = FPStart -> _ =>
      intros Es [Eb|Eb]; subst;
      first [discriminate
            |match goal with K : is_start (cur_st _ _) = false |- _ =>
               unfold cur_st in K; rewrite Es in K; discriminate K end]
  end.

Lemma pf_step_cases pres l a c b s act :
  l = a ++ c :: b -> s_pos s = length a -> J s ->
  s_pos s < kMaxLineLength - 1 -> line_text l ->
  pf_step pres (cstr l) (length l) (length b) c (cstr b) s = Ok act ->
  step_case pres l c b s act.
Proof.
  intros El Ep HJ Hp Hl H.
  assert (line_text b) as Hb.
  { rewrite El in Hl. apply line_text_app in Hl as [_ Hl].
    now apply line_text_cons in Hl. }
  assert (c <> NUL /\ c <> CR /\ c <> LF) as (C1 & C2 & C3).
  { apply Hl. rewrite El. apply in_or_app. cbn; auto. }
  assert (term NUL) as TN by (left; reflexivity).
  unfold pf_step in H.
  destruct (is_dataonly (s_st s)) eqn:DO.
  { apply put_inv in H as ->. apply SC_only. now destruct (s_st s). }
  assert (s_st s <> FPDataOnly) as ND by (intros E; now rewrite E in DO).
  cbv zeta in H. fold (cur_st c s) (cur_f c s) in H.
  destruct (ceq_spec c "|") as [->|Nbar].
  { unfold cur_st, cur_f in H. change (negb (ceq "|" "|")) with false in H.
    rewrite andb_false_r in H.
    destruct (is_start_or_past (s_st s)) eqn:E1.
    - injection H as <-. now apply SC_bar.
    - destruct (is_onebar (s_st s)) eqn:E2.
      + unfold cstr in H. rewrite parse_host_term in H by auto.
        cbn [bind fst snd] in H. injection H as <-. apply SC_host; auto.
        now destruct (s_st s).
      + injection H as <-. apply SC_right; auto. intros E. now rewrite E in E2. }
  assert (is_start_or_past (cur_st c s) = is_start_or_past (s_st s) /\
          (is_start_or_past (s_st s) = true -> cur_f c s = s_f s)) as [K1 K2].
  { unfold cur_st, cur_f. destruct (s_st s); cbn; auto.
    destruct (negb (ceq c "|")); split; easy. }
  rewrite K1 in H.
  destruct (ceq_spec c "@") as [->|N1].
  { destruct (is_start_or_past (s_st s)) eqn:E1.
    - injection H as <-. rewrite (K2 eq_refl). now apply SC_at1.
    - destruct (is_oneat (cur_st "@" s)) eqn:E2.
      + injection H as <-.
        assert (s_st s = FPOneAt) as Es.
        { unfold cur_st in E2. destruct (is_onebar (s_st s) && _); [easy|].
          now destruct (s_st s). }
        replace (cur_f "@" s) with (s_f s); [now apply SC_at2|].
        unfold cur_f. now rewrite Es.
      + apply put_inv in H as ->. apply SC_put; not_blank; auto; try discriminate.
        right. split; auto. split; [destruct (cur_st "@" s); easy|]. cbn; auto. }
  destruct (ceq c "!" || ceq c "[") eqn:EC.
  { destruct (is_start_or_past (s_st s)) eqn:E1.
    - injection H as <-. rewrite (K2 eq_refl). apply SC_comment; auto.
      apply orb_true_iff in EC. rewrite !ceq_eq in EC. tauto.
    - apply put_inv in H as ->. apply SC_put; not_blank; auto.
      + intros ->. discriminate.
      + right. split; auto. split; [destruct (cur_st c s); easy|].
        apply orb_true_iff in EC. rewrite !ceq_eq in EC.
        unfold lead_char. cbn. destruct EC; auto. }
  destruct (ceq c CR || ceq c LF || ceq c TAB || ceq c " ") eqn:EB.
  { rewrite (ceq_f _ _ C2), (ceq_f _ _ C3) in EB. cbn [orb] in EB.
    apply orb_true_iff in EB. rewrite !ceq_eq in EB.
    destruct (is_start (cur_st c s)) eqn:E1.
    - injection H as <-.
      assert (s_st s = FPStart) as Es.
      { unfold cur_st in E1. destruct (is_onebar (s_st s) && _); [easy|].
        now destruct (s_st s). }
      unfold cur_st, cur_f. rewrite Es. cbn [is_onebar andb].
      apply SC_blank; auto. tauto.
    - apply put_inv in H as ->. apply SC_put; not_blank; auto.
      + intros ->. now destruct EB.
      + right. split; auto. split; auto. unfold lead_char. cbn.
        destruct EB; auto 8. }
  destruct (ceq_spec c "/") as [->|N2].
  { destruct (is_start_or_past (s_st s)) eqn:E1.
    - unfold cstr in H.
      assert (l <> []) as NE by (rewrite El; now destruct a).
      assert (length l = length a + S (length b)) as Ll.
      { rewrite El, app_length. cbn. lia. }
      rewrite rd_app1 in H by lia. unfold rd in H.
      rewrite (last_nth l NUL) in H by auto. cbn [bind] in H.
      destruct (ceq_spec (last l NUL) "/") as [EL|NL]; cbn [andb] in H.
      + destruct (Nat.ltb_spec 1 (length l)) as [L|L].
        * destruct (Nat.eqb_spec (length l - length (s_data s) - 1) 0) as [|Q];
            [discriminate|].
          injection H as <-. rewrite (K2 eq_refl).
          assert (firstn (length l - length (s_data s) - 2)
               (skipn (length (s_data s) + 1) (l ++ [NUL])) =
             firstn (length l - length (s_data s) - 2)
               (skipn (length (s_data s) + 1) l)) as ->.
          { rewrite skipn_app.
            replace (length (s_data s) + 1 - length l) with 0 by lia.
            rewrite firstn_app, skipn_length.
            replace (_ - _ - 2 - _) with 0 by lia. now rewrite app_nil_r. }
          apply SC_regex; auto. lia.
        * apply put_inv in H as ->. apply SC_put; not_blank; auto; discriminate.
      + apply put_inv in H as ->. apply SC_put; not_blank; auto; discriminate.
    - apply put_inv in H as ->. apply SC_put; not_blank; auto; try discriminate.
      right. split; auto. split; [destruct (cur_st "/" s); easy|].
      unfold lead_char. cbn. auto 8. }
  assert (deref (cstr b) = Ok (hd NUL b)) as DR by now destruct b.
  destruct (ceq_spec c "$") as [->|N3].
  { rewrite DR in H. cbn [bind] in H.
    destruct (ceq_spec (hd NUL b) "$") as [E2|E2].
    - injection H as <-. now apply SC_html.
    - assert (s_re s <= length l) as Hre.
      { destruct HJ as (_ & _ & _ & J4 & _). rewrite El, app_length. lia. }
      assert (option_text (skipn (s_re s) (cstr l)) = Ok (skipn (s_re s) l)) as OT.
      { unfold cstr. rewrite skipn_app.
        replace (s_re s - length l) with 0 by lia. cbn [skipn].
        apply option_text_term; auto. now apply line_text_skipn. }
      rewrite OT in H. cbn [bind] in H. unfold cstr in H.
      rewrite parseOptions_term in H by auto. cbn [bind] in H.
      injection H as <-.
      replace (s_re s + length (skipn (s_re s) l)) with (length l)
        by (rewrite skipn_length; lia).
      now apply SC_options. }
  destruct (ceq_spec c "#") as [->|N4].
  { rewrite DR in H. cbn [bind] in H.
    destruct (is_start_or_past (s_st s) && ceq (hd NUL b) " ") eqn:E2.
    - injection H as <-. apply andb_true_iff in E2 as [E2 E3].
      rewrite (K2 E2). apply SC_comment; auto. apply ceq_eq in E3. auto.
    - destruct (ceq (hd NUL b) "#" || ceq (hd NUL b) "@") eqn:E3.
      + injection H as <-. apply SC_cosmetic; auto.
        apply orb_true_iff in E3. now rewrite !ceq_eq in E3.
      + apply put_inv in H as ->. apply SC_put; not_blank; auto; discriminate. }
  apply put_inv in H as ->. apply SC_put; not_blank; auto.
Qed.

Lemma loop_ind pres l (P : bytes -> ps -> Prop) (Q : pout -> Prop) :
  line_text l ->
  (forall p s, P p s -> p <> [] -> 2047 <= s_pos s -> Q (PReturn (s_f s))) ->
  (forall s, P [] s -> Q (PEnd s)) ->
  (forall a c b s act,
     l = a ++ c :: b -> s_pos s = length a -> J s -> s_pos s < 2047 ->
     P (c :: b) s -> step_case pres l c b s act ->
     match act with
     | ANext1 s' => P b s'
     | ANext2 s' => b <> [] -> P (tl b) s'
     | AReturn f => Q (PReturn f)
     | ABreak s' => Q (PEnd s')
     end) ->
  forall n p a s, length p <= n -> l = a ++ p -> s_pos s = length a -> J s ->
  P p s ->
  exists o, pf_loop pres (cstr l) (length l) (length p) (cstr p) s = Ok o /\ Q o.
Proof.
  intros Hl H1 H2 H3. induction n as [|n IH]; intros p a s Hn El Ep HJ HP.
  - destruct p; [|cbn in Hn; lia]. exists (PEnd s). split; [reflexivity|auto].
  - destruct p as [|c b].
    { exists (PEnd s). split; [reflexivity|auto]. }
    cbn [length]. change (cstr (c :: b)) with (c :: cstr b). cbn [pf_loop].
    destruct (Nat.leb_spec (kMaxLineLength - 1) (s_pos s)) as [L|L].
    { exists (PReturn (s_f s)). split; [reflexivity|].
      eapply H1; eauto. discriminate. }
    destruct (pf_step_sim pres l a c b NUL [] s El Ep HJ L Hl)
      as (act & E1 & E2 & E3); [left; auto|].
    rewrite E2. cbn [bind].
    pose proof (pf_step_cases pres l a c b s act El Ep HJ L Hl E2) as SC.
    pose proof (H3 a c b s act El Ep HJ L HP SC) as K.
    destruct act as [s'|s'|f|s'].
    + destruct E3 as [HJ' Ep'].
      apply IH with (a := a ++ [c]); auto.
      * cbn in Hn. lia.
      * now rewrite <- app_assoc.
      * rewrite app_length. cbn. lia.
    + destruct E3 as [HJ' [Ep' Nb]]. destruct b as [|c2 b]; [easy|].
      cbn [length app]. change (cstr (c2 :: b)) with (c2 :: cstr b).
      apply IH with (a := a ++ [c; c2]); auto.
      * cbn in Hn. lia.
      * now rewrite <- app_assoc.
      * rewrite app_length. cbn. lia.
    + exists (PReturn f). auto.
    + exists (PEnd s'). auto.
Qed.

(** The same from the start of a line. *)
Lemma pline_ind pres l (P : bytes -> ps -> Prop) (Q : pout -> Prop) :
  line_text l ->
  (forall p s, P p s -> p <> [] -> 2047 <= s_pos s -> Q (PReturn (s_f s))) ->
  (forall s, P [] s -> Q (PEnd s)) ->
  (forall a c b s act,
     l = a ++ c :: b -> s_pos s = length a -> J s -> s_pos s < 2047 ->
     P (c :: b) s -> step_case pres l c b s act ->
     match act with
     | ANext1 s' => P b s'
     | ANext2 s' => b <> [] -> P (tl b) s'
     | AReturn f => Q (PReturn f)
     | ABreak s' => Q (PEnd s')
     end) ->
  P l (mkPs FPStart filter0 [] 0 0 0) ->
  (exists f, pline pres l = (f, false) /\ Q (PReturn f)) \/
  (exists s, is_start (s_st s) = true /\ Q (PEnd s) /\
             pline pres l = (set_type (s_f s) FTEmpty, false)) \/
  (exists s r, is_start (s_st s) = false /\ Q (PEnd s) /\
     pline pres l =
       (set_data (if pres then set_rule (s_f s) r else s_f s) (s_data s), true)).
Proof.
  intros Hl H1 H2 H3 H0.
  destruct (loop_ind pres l P Q Hl H1 H2 H3 (length l) l []
              (mkPs FPStart filter0 [] 0 0 0) (le_n _) eq_refl eq_refl
              (J0 filter0) H0) as (o & E & K).
  pose proof (parse_filter_cstr pres l Hl) as E2.
  unfold parse_filter in E2. rewrite E in E2. cbn [bind] in E2.
  destruct o as [f|s].
  - left. exists f. split; auto. congruence.
  - right. destruct (is_start (s_st s)) eqn:Es.
    + left. exists s. split; auto. split; auto. congruence.
    + right. apply bind_ok in E2 as (r & _ & E2). exists s, r.
      split; auto. split; auto. congruence.
Qed.

(** ** Filter types that lines can have *)
Definition start_types : list N := [0; FTException]%N.
Definition net_types : list N :=
  flat_map (fun e => flat_map (fun b => map (fun r => N.lor (N.lor e b) r)
                                            [0; FTRightAnchored]%N)
    [0; FTLeftAnchored; FTHostAnchored; N.lor FTHostAnchored FTHostOnly]%N)
    start_types.
Definition only_types : list N :=
  [FTElementHiding; FTElementHidingException; FTHTMLFiltering].

Definition memN (x : N) (l : list N) : bool := existsb (N.eqb x) l.
Lemma memN_In x l : memN x l = true <-> In x l.
Proof.
  unfold memN. rewrite existsb_exists. split.
  - intros (y & I & E). apply N.eqb_eq in E. now subst.
  - intros I. exists x. split; auto. apply N.eqb_refl.
Qed.

Lemma nets_closed (g : N -> N) (a b : list N) :
  forallb (fun t => memN (g t) b) a = true -> forall t, In t a -> In (g t) b.
Proof. intros H t I. rewrite forallb_forall in H. apply memN_In. auto. Qed.

(** Which bytes can be where in the state. *)
Definition opt_text (o : option bytes) : Prop :=
  forall x, o = Some x -> line_text x.

Definition fields_ok (f : filter) : Prop :=
  opt_text (f_dom f) /\ line_text (f_tag f) /\ opt_text (f_host f) /\
  (has (f_type f) FTHostAnchored = true -> f_host f <> None) /\
  f_rule f = None.

Ltac sp5 := split; [|split; [|split; [|split]]].

Definition ps_ok (s : ps) : Prop :=
  line_text (s_data s) /\ fields_ok (s_f s) /\ f_data (s_f s) = None /\
  match s_st s with
  | FPStart => s_f s = filter0
  | FPPastWhitespace => f_type (s_f s) = FTException
  | FPOneAt | FPOneBar => In (f_type (s_f s)) start_types
  | FPData => In (f_type (s_f s)) net_types
  | FPDataOnly => In (f_type (s_f s)) only_types
  end.

Lemma parseOption_frame f seg :
  f_type (parseOption f seg) = f_type f /\ f_data (parseOption f seg) = f_data f /\
  f_host (parseOption f seg) = f_host f /\ f_rule (parseOption f seg) = f_rule f.
Proof.
  unfold parseOption.
  destruct (match seg with [] => _ | _ => _ end) as [anti s].
  destruct (prefixb (B "domain=") s); [cbn; auto|].
  destruct (prefixb (B "tag=") s); [cbn; auto|].
  destruct anti; cbn; auto.
Qed.

Lemma parseOption_text f seg :
  line_text seg -> opt_text (f_dom f) -> line_text (f_tag f) ->
  opt_text (f_dom (parseOption f seg)) /\ line_text (f_tag (parseOption f seg)).
Proof.
  intros Hs H1 H2. unfold parseOption.
  set (w := match seg with [] => _ | _ => _ end).
  assert (line_text (snd w)) as Hw.
  { unfold w. destruct seg as [|c s]; [auto|]. destruct (ceq c "~"); auto.
    now apply line_text_cons in Hs. }
  destruct w as [anti s]. cbn [snd] in Hw.
  destruct (prefixb (B "domain=") s).
  { cbn [f_dom f_tag]. split; auto. intros x E.
    assert (x = skipn 7 s) as -> by congruence. now apply line_text_skipn. }
  destruct (prefixb (B "tag=") s).
  { cbn [f_dom f_tag]. split; auto. now apply line_text_skipn. }
  destruct anti; cbn [f_dom f_tag]; auto.
Qed.

Lemma options_frame segs f :
  f_type (fold_left parseOption segs f) = f_type f /\
  f_data (fold_left parseOption segs f) = f_data f /\
  f_host (fold_left parseOption segs f) = f_host f /\
  f_rule (fold_left parseOption segs f) = f_rule f.
Proof.
  revert f; induction segs as [|x segs IH]; intros f; cbn [fold_left]; auto.
  destruct (IH (parseOption f x)) as (-> & -> & -> & ->).
  apply parseOption_frame.
Qed.

Lemma options_text segs f :
  (forall x, In x segs -> line_text x) ->
  opt_text (f_dom f) -> line_text (f_tag f) ->
  opt_text (f_dom (fold_left parseOption segs f)) /\
  line_text (f_tag (fold_left parseOption segs f)).
Proof.
  revert f; induction segs as [|x segs IH]; intros f Hs H1 H2; cbn [fold_left]; auto.
  destruct (parseOption_text f x) as [A1 A2]; auto.
  { apply Hs. cbn; auto. }
  apply IH; auto. intros; apply Hs; cbn; auto.
Qed.

Lemma split_on_text c s p : line_text s -> In p (split_on c s) -> line_text p.
Proof. intros H I x J. apply H. eapply split_on_In; eauto. Qed.

Lemma line_host_text s : line_text s -> line_text (line_host s).
Proof.
  intros H. destruct (line_host_prefix s) as [r E]. rewrite E in H.
  now apply line_text_app in H.
Qed.

Lemma fields_type f t : fields_ok f ->
  (has t FTHostAnchored = true -> has (f_type f) FTHostAnchored = true) ->
  fields_ok (set_type f t).
Proof. intros (H1 & H2 & H3 & H4 & H5) K. sp5; cbn; auto. Qed.

Lemma has_lor_r x y m : has x m = true -> has (N.lor x y) m = true.
Proof.
  unfold has. rewrite !negb_true_iff, !N.eqb_neq. intros H E. apply H.
  rewrite N.land_lor_distr_l in E. now apply N.lor_eq_0_iff in E.
Qed.

Lemma has_lor x y m : has (N.lor x y) m = has x m || has y m.
Proof.
  unfold has. rewrite N.land_lor_distr_l.
  destruct (N.eqb_spec (N.land x m) 0) as [->|N1].
  - now rewrite N.lor_0_l.
  - destruct (N.eqb_spec (N.lor (N.land x m) (N.land y m)) 0) as [E|N2]; auto.
    apply N.lor_eq_0_iff in E. easy.
Qed.

Lemma start_net t : In t start_types -> In t net_types.
Proof. apply (nets_closed (fun t => t)). reflexivity. Qed.
Lemma start_left t : In t start_types -> In (N.lor t FTLeftAnchored) net_types.
Proof. apply (nets_closed (fun t => N.lor t FTLeftAnchored)). reflexivity. Qed.
Lemma start_host t : In t start_types -> In (N.lor t FTHostAnchored) net_types.
Proof. apply (nets_closed (fun t => N.lor t FTHostAnchored)). reflexivity. Qed.
Lemma start_hostonly t : In t start_types ->
  In (N.lor (N.lor t FTHostAnchored) FTHostOnly) net_types.
Proof.
  apply (nets_closed (fun t => N.lor (N.lor t FTHostAnchored) FTHostOnly)).
  reflexivity.
Qed.
Lemma net_right t : In t net_types -> In (N.lor t FTRightAnchored) net_types.
Proof. apply (nets_closed (fun t => N.lor t FTRightAnchored)). reflexivity. Qed.

Lemma cur_f_ok c s :
  ps_ok s -> s_st s <> FPDataOnly -> c <> "|"%char ->
  fields_ok (cur_f c s) /\ f_data (cur_f c s) = None /\
  match cur_st c s with
  | FPStart => cur_f c s = filter0
  | FPPastWhitespace => f_type (cur_f c s) = FTException
  | FPOneAt => In (f_type (cur_f c s)) start_types
  | FPOneBar | FPDataOnly => False
  | FPData => In (f_type (cur_f c s)) net_types
  end /\ In (f_type (cur_f c s)) net_types.
Proof.
  intros (H1 & H2 & H3 & H4) N C. unfold cur_f, cur_st.
  rewrite (ceq_f _ _ C). cbn [negb]. rewrite andb_true_r.
  destruct (s_st s) eqn:Es; cbn [is_onebar]; try (now destruct N).
  - rewrite H4 in *. split; [auto|split; [auto|split; [auto|]]].
    apply start_net. cbn; auto.
  - rewrite H4. split; [auto|split; [auto|split; [auto|]]].
    apply start_net. cbn; auto.
  - split; [|split; [auto|split]].
    + apply fields_type; auto. rewrite has_lor. cbn. now rewrite orb_false_r.
    + cbn. now apply start_left.
    + cbn. now apply start_left.
  - split; [auto|split; [auto|split; [auto|]]]. now apply start_net.
  - auto.
Qed.

Lemma take_domains_ok f d :
  fields_ok f -> line_text d -> fields_ok (take_domains f d).
Proof.
  intros (H1 & H2 & H3 & H4 & H5) Hd. destruct d as [|c d].
  - sp5; auto.
  - sp5; cbn [take_domains set_dom f_dom f_tag f_host f_type f_rule]; auto.
    intros x [= <-]. auto.
Qed.

Definition ret_ok (f : filter) : Prop :=
  opt_text (f_dom f) /\ line_text (f_tag f) /\ opt_text (f_host f) /\
  (has (f_type f) FTHostAnchored = true -> f_host f <> None) /\
  opt_text (f_rule f) /\
  ((f_data f = None /\ In (f_type f) (FTComment :: net_types ++ only_types)) \/
   (exists d, f_data f = Some (d, [NUL]) /\ line_text d /\ f_type f = FTRegex)).

Definition out_ok (o : pout) : Prop :=
  match o with
  | PReturn f => ret_ok f
  | PEnd s => line_text (s_data s) /\ fields_ok (s_f s) /\ f_data (s_f s) = None /\
      In (f_type (s_f s)) (net_types ++ only_types) /\
      (s_st s = FPStart -> f_type (s_f s) = 0%N)
  end.

Lemma ps_ok_types s : ps_ok s -> In (f_type (s_f s)) (net_types ++ only_types).
Proof.
  intros (H1 & H2 & H3 & H4). apply in_or_app.
  destruct (s_st s).
  - rewrite H4. left. apply start_net. cbn; auto.
  - rewrite H4. left. apply start_net. cbn; auto.
  - left. now apply start_net.
  - left. now apply start_net.
  - now left.
  - now right.
Qed.

Lemma step_ok pres l c b s act :
  line_text l -> line_text (c :: b) -> ps_ok s ->
  step_case pres l c b s act ->
  match act with
  | ANext1 s' => ps_ok s'
  | ANext2 s' => ps_ok s'
  | AReturn f => out_ok (PReturn f)
  | ABreak s' => out_ok (PEnd s')
  end.
Proof.
  intros Hl Hcb HP SC. apply line_text_cons in Hcb as [Hc Hb].
  assert (forall d, line_text d -> line_text (d ++ [c])) as Hsn.
  { intros d Hd. apply line_text_app. split; auto. intros x [<-|[]]. auto. }
  destruct SC as [E|E1 E2|E1 E2|E1 E2 E3 E4|E1 E2|E1 E2|E1 E2|E1 E2|E1 E2 E3 E4 E5
    |E1 E2 E3|E1 E2 E3|E1 E2 E3|st' E1 E2 E3 E4].
  - destruct HP as (H1 & H2 & H3 & H4). rewrite E in H4.
    unfold put_ps, ps_ok. cbn [s_data s_f s_st]. auto.
  - destruct HP as (H1 & H2 & H3 & H4).
    unfold skip_ps, ps_ok. cbn [s_data s_f s_st].
    split; [auto|split; [auto|split; [auto|]]].
    destruct (s_st s); try discriminate; rewrite H4; cbn; auto.
  - destruct HP as (H1 & H2 & H3 & H4). rewrite E2 in H4.
    unfold skip_ps, ps_ok. cbn [s_data s_f s_st]. cbv zeta.
    assert (fields_ok (set_host (add_type (s_f s) FTHostAnchored) (line_host b)))
      as FO.
    { destruct H2 as (A1 & A2 & A3 & A4 & A5).
      sp5; cbn [set_host add_type set_type f_dom f_tag f_host f_type f_rule];
        auto; try easy.
      intros x [= <-]. now apply line_host_text. }
    destruct (line_hostonly b).
    + split; [auto|]. split; [|split; [auto|]].
      * apply fields_type; auto. rewrite has_lor.
        change (has FTHostOnly FTHostAnchored) with false. now rewrite orb_false_r.
      * cbn [add_type set_type set_host f_type]. now apply start_hostonly.
    + split; [auto|]. split; [auto|split; [auto|]].
      cbn [add_type set_type set_host f_type]. now apply start_host.
  - destruct HP as (H1 & H2 & H3 & H4).
    unfold skip_ps, ps_ok. cbn [s_data s_f s_st].
    split; [auto|]. split; [|split; [auto|]].
    + apply fields_type; auto. rewrite has_lor.
      change (has FTRightAnchored FTHostAnchored) with false.
      now rewrite orb_false_r.
    + cbn [add_type set_type f_type]. apply net_right.
      destruct (s_st s); try discriminate; try easy. now apply start_net.
  - destruct HP as (H1 & H2 & H3 & H4).
    unfold skip_ps, ps_ok. cbn [s_data s_f s_st].
    split; [auto|split; [auto|split; [auto|]]].
    destruct (s_st s); try discriminate; rewrite H4; cbn; auto.
  - destruct HP as (H1 & H2 & H3 & H4).
    unfold skip_ps, ps_ok. cbn [s_data s_f s_st].
    split; [auto|]. split; [|split; [auto|reflexivity]].
    apply fields_type; auto. discriminate.
  - destruct HP as (H1 & H2 & H3 & H4). cbn [out_ok].
    destruct H2 as (A1 & A2 & A3 & A4 & A5).
    unfold ret_ok. split; [|split; [|split; [|split; [|split]]]];
      cbn [set_type f_dom f_tag f_host f_rule f_type f_data]; auto; try discriminate.
    + rewrite A5. intros x [=].
    + left. split; auto. now left.
  - destruct HP as (H1 & H2 & H3 & H4). rewrite E2 in H4.
    unfold ps_ok. cbn [s_data s_f s_st]. auto.
  - destruct HP as (H1 & H2 & H3 & H4). cbn [out_ok]. cbv zeta.
    destruct H2 as (A1 & A2 & A3 & A4 & A5).
    set (d := firstn _ _).
    assert (line_text d) as Hd.
    { intros x I. apply In_firstn, In_skipn in I. auto. }
    unfold ret_ok.
    destruct pres; (split; [|split; [|split; [|split; [|split]]]]); cbn [set_type set_data set_rule f_dom f_tag f_host f_rule f_type f_data]; auto; try discriminate.
    + intros x [= <-]. auto.
    + right. exists d. auto.
    + rewrite A5. intros x [=].
    + right. exists d. auto.
  - destruct (cur_f_ok c s HP E3) as (F1 & F2 & F3 & F4); [congruence|].
    destruct HP as (H1 & _). unfold ps_ok. cbn [s_data s_f s_st].
    split; [easy|]. split; [|split].
    + apply fields_type; [now apply take_domains_ok|discriminate].
    + now destruct (s_data s).
    + cbn; auto.
  - destruct (cur_f_ok c s HP E3) as (F1 & F2 & F3 & F4); [congruence|].
    destruct HP as (H1 & H2 & H3 & H4). cbn [out_ok s_data s_f s_st].
    destruct (options_frame (split_on "," b)
      (mkF (f_type (cur_f c s)) 0 0 (f_data (cur_f c s)) (f_dom (cur_f c s))
        (f_tag (cur_f c s)) (f_host (cur_f c s)) (f_rule (cur_f c s))))
      as (O1 & O2 & O3 & O4).
    destruct F1 as (A1 & A2 & A3 & A4 & A5).
    destruct (options_text (split_on "," b)
      (mkF (f_type (cur_f c s)) 0 0 (f_data (cur_f c s)) (f_dom (cur_f c s))
        (f_tag (cur_f c s)) (f_host (cur_f c s)) (f_rule (cur_f c s))))
      as (P1 & P2); auto.
    { intros x. now apply split_on_text. }
    split; [auto|]. split.
    { split; [auto|]. split; [auto|]. rewrite O1, O3, O4. cbn. auto. }
    rewrite O1, O2. cbn [f_data f_type]. split; [auto|]. split.
    { apply in_or_app; auto. }
    intros E. rewrite E in F3. rewrite F3. reflexivity.
  - destruct (cur_f_ok c s HP E3) as (F1 & F2 & F3 & F4); [congruence|].
    destruct HP as (H1 & _). unfold ps_ok. cbn [s_data s_f s_st].
    split; [easy|]. split; [|split].
    + apply fields_type; [now apply take_domains_ok|].
      now destruct (ceq (hd NUL b) "#").
    + now destruct (s_data s).
    + destruct (ceq (hd NUL b) "#"); cbn; auto.
  - destruct (cur_f_ok c s HP E1 E2) as (F1 & F2 & F3 & F4).
    destruct HP as (H1 & _). unfold put_ps, ps_ok. cbn [s_data s_f s_st].
    split; [auto|]. split; [auto|]. split; [auto|].
    destruct E4 as [->|[-> [E4 _]]]; auto.
    destruct (cur_st c s); auto; easy.
Qed.

(** Everything a stored or skipped rule of a line satisfies. *)
Definition rule_ok (f : filter) (reached : bool) : Prop :=
  opt_text (f_dom f) /\ line_text (f_tag f) /\ opt_text (f_host f) /\
  (has (f_type f) FTHostAnchored = true -> f_host f <> None) /\
  if reached
  then (exists d, f_data f = Some (d, [NUL]) /\ line_text d) /\
       In (f_type f) (net_types ++ only_types)
  else (f_data f = None /\
        In (f_type f) (FTComment :: FTEmpty :: net_types ++ only_types)) \/
       (exists d, f_data f = Some (d, [NUL]) /\ line_text d /\ f_type f = FTRegex).

Lemma pline_ok pres l :
  line_text l -> rule_ok (fst (pline pres l)) (snd (pline pres l)).
Proof.
  intros Hl.
  destruct (pline_ind pres l (fun _ s => ps_ok s) out_ok Hl) as
    [(f & E & K)|[(s & E1 & K & E2)|(s & r & E1 & K & E2)]].
  - intros p s HP _ _. cbn [out_ok]. pose proof (ps_ok_types s HP) as T.
    destruct HP as (H1 & (A1 & A2 & A3 & A4 & A5) & H3 & H4).
    unfold ret_ok. split; [|split; [|split; [|split; [|split]]]]; auto.
    { rewrite A5. intros x [=]. }
    left. split; auto. now right.
  - intros s HP. cbn [out_ok]. pose proof (ps_ok_types s HP) as T.
    destruct HP as (H1 & H2 & H3 & H4). split; [auto|]. split; [auto|].
    split; [auto|]. split; [auto|].
    intros E. rewrite E in H4. now rewrite H4.
  - intros a c b s act El _ _ _ HP SC.
    assert (line_text (c :: b)) as Hcb.
    { rewrite El in Hl. now apply line_text_app in Hl. }
    pose proof (step_ok pres l c b s act Hl Hcb HP SC) as K.
    destruct act; auto.
  - split; [easy|]. split; [|easy]. sp5; easy.
  - rewrite E. cbn [fst snd]. cbn [out_ok] in K.
    destruct K as (A1 & A2 & A3 & A4 & A5 & A6).
    split; [auto|]. split; [auto|]. split; [auto|]. split; [auto|].
    destruct A6 as [[A6 A7]|A6]; auto. left. split; auto.
    destruct A7 as [<-|A7]; cbn; auto.
  - rewrite E2. cbn [fst snd]. destruct K as (A1 & (A2 & A3 & A4 & A5 & A6) & A7 & A8 & A9).
    split; [auto|]. split; [auto|]. split; [auto|]. split; [discriminate|].
    left. split; auto. right; left. reflexivity.
  - rewrite E2. cbn [fst snd]. destruct K as (A1 & (A2 & A3 & A4 & A5 & A6) & A7 & A8 & A9).
    destruct pres; (split; [auto|]; split; [auto|]; split; [auto|]; split; [auto|];
      split; [|auto]; eexists; cbn; eauto).
Qed.
