(** More invariants of the parser loop: host length, domain lists, exceptions,
    leading blanks. *)
From Verif Require Import Base Flags Url Sets FilterM ParseM ClientM Spec SpecM
  P_Base P_Url P_Match P_Rule P_Parse P_List P_Shape P_Fp P_Line P_Props2 P_Props3.

(** ** The host of a line *)
Lemma host_prefix_nosep s c : In c (host_prefix s) -> ~ In c separators.
Proof.
  destruct (host_prefix_split s) as (r & E & H & _). auto.
Qed.

Lemma line_host_In s c : In c (line_host s) -> In c (host_prefix s).
Proof.
  unfold line_host, trim_bar. destruct (ceq _ _); auto.
  rewrite removelast_firstn_pred. apply In_firstn.
Qed.

Lemma line_host_nobar l p b :
  bars_fine l -> (forall c, In c p -> lead_char c) -> l = p ++ B "||" ++ b ->
  ~ In "|"%char (line_host b).
Proof.
  intros BF Hp El I.
  destruct (host_prefix_split b) as (r & E & NS & _).
  assert (exists h x q, host_prefix b = h ++ B "|" ++ x :: q) as (h & x & q & Eh).
  { unfold line_host, trim_bar in I.
    destruct (ceq_spec (last (host_prefix b) NUL) "|") as [EL|NL].
    - destruct (host_prefix b) as [|y w] eqn:Eb using rev_ind; [easy|].
      rewrite removelast_last in I. apply in_split in I as (h & t & ->).
      destruct t as [|x t].
      + exists h, y, []. rewrite <- app_assoc. reflexivity.
      + exists h, x, (t ++ [y]). rewrite <- app_assoc. reflexivity.
    - apply in_split in I as (h & t & Eh). destruct t as [|x t].
      + rewrite Eh, last_last in NL. easy.
      + exists h, x, t. exact Eh. }
  destruct (BF p h x (q ++ r)) as [(c & I1 & I2)|I1]; auto.
  - rewrite El, E, Eh. rewrite <- !app_assoc. reflexivity.
  - apply (NS c); auto. rewrite Eh. apply in_or_app; auto.
  - apply (NS x); auto. rewrite Eh. apply in_or_app. right. cbn; auto.
Qed.

(** ** Host not longer than the data *)
Definition hp_inv (l p : bytes) (s : ps) : Prop :=
  exists a, l = a ++ p /\
  match s_st s with
  | FPStart | FPPastWhitespace | FPOneAt =>
      (forall c, In c a -> lead_char c) /\ has (f_type (s_f s)) FTHostAnchored = false
  | FPOneBar =>
      (exists a', a = a' ++ B "|" /\ forall c, In c a' -> lead_char c) /\
      has (f_type (s_f s)) FTHostAnchored = false
  | FPData =>
      has (f_type (s_f s)) FTHostAnchored = true ->
      exists h1 h2 p', f_host (s_f s) = Some (h1 ++ h2) /\
        length h1 <= length (s_data s) /\ p = h2 ++ p' /\
        ~ In "|"%char h2 /\ forall c, In c h2 -> ~ In c separators
  | FPDataOnly => has (f_type (s_f s)) FTHostAnchored = false
  end.

Definition hp_out (o : pout) : Prop :=
  match o with
  | PReturn f => has (f_type f) FTHostAnchored = false
  | PEnd s => has (f_type (s_f s)) FTHostAnchored = true ->
      exists h, f_host (s_f s) = Some h /\ length h <= length (s_data s)
  end.

Lemma lead_blank c : c = " "%char \/ c = TAB -> lead_char c.
Proof. intros [->| ->]; unfold lead_char; cbn; auto 8. Qed.

Lemma cur_f_ha c s :
  has (f_type (cur_f c s)) FTHostAnchored = has (f_type (s_f s)) FTHostAnchored /\
  f_host (cur_f c s) = f_host (s_f s).
Proof.
  unfold cur_f. destruct (_ && _); auto.
  cbn [add_type set_type f_type f_host]. rewrite has_lor.
  change (has FTLeftAnchored FTHostAnchored) with false. now rewrite orb_false_r.
Qed.

Lemma sep_dollar : In "$"%char separators. Proof. cbn; auto. Qed.

Lemma hp_step pres l c b s act :
  bars_fine l ->
  hp_inv l (c :: b) s -> step_case pres l c b s act ->
  match act with
  | ANext1 s' => hp_inv l b s'
  | ANext2 s' => b <> [] -> hp_inv l (tl b) s'
  | AReturn f => hp_out (PReturn f)
  | ABreak s' => hp_out (PEnd s')
  end.
Proof.
  intros BF (a & El & H) SC.
  assert (l = (a ++ [c]) ++ b) as El' by now rewrite <- app_assoc.
  assert (forall d, (forall x, In x a -> lead_char x) -> lead_char d ->
            forall x, In x (a ++ [d]) -> lead_char x) as Hlead.
  { intros d H1 H2 x I. apply in_app_or in I as [I|[<-|[]]]; auto. }
  destruct SC as [E|E1 E2|E1 E2|E1 E2 E3 E4|E1 E2|E1 E2|E1 E2|E1 E2|E1 E2 E3 E4 E5
    |E1 E2 E3|E1 E2 E3|E1 E2 E3|st' E1 E2 E3 E4].
  - rewrite E in H. exists (a ++ [c]). split; auto.
  - exists (a ++ [c]). split; auto. cbn [skip_ps s_st s_f]. subst c.
    destruct (s_st s); try discriminate; destruct H as [H1 H2];
      (split; [|auto]); exists a; auto.
  - rewrite E2 in H. destruct H as ((a' & -> & Ha) & H2). subst c.
    assert (l = a' ++ B "||" ++ b) as Eb by (rewrite El, <- app_assoc; reflexivity).
    exists ((a' ++ B "|") ++ ["|"%char]). split; auto.
    cbn [skip_ps s_st s_f]. cbv zeta. intros _.
    destruct (line_host_prefix b) as [r Er].
    exists [], (line_host b), r. split; [|split; [|split; [|split]]].
    + now destruct (line_hostonly b).
    + cbn. lia.
    + exact Er.
    + eapply line_host_nobar; eauto.
    + intros x I. eapply host_prefix_nosep, line_host_In; eauto.
  - exists (a ++ [c]). split; auto. cbn [skip_ps s_st s_f].
    cbn [add_type set_type f_type]. rewrite has_lor.
    change (has FTRightAnchored FTHostAnchored) with false. rewrite orb_false_r.
    intros HA. destruct (s_st s); try discriminate; try easy.
    + destruct H. congruence.
    + destruct (H HA) as (h1 & h2 & p' & F1 & F2 & F3 & F4 & F5).
      destruct h2 as [|x h2].
      * exists h1, [], b. cbn in F3. repeat split; auto; easy.
      * exfalso. injection F3 as <- F3. apply F4. subst c. cbn; auto.
  - exists (a ++ [c]). split; auto. cbn [skip_ps s_st s_f]. subst c.
    destruct (s_st s); try discriminate; destruct H as [H1 H2];
      (split; [|auto]); apply Hlead; auto; unfold lead_char; cbn; auto.
  - exists (a ++ [c]). split; auto. cbn [skip_ps s_st s_f]. subst c.
    rewrite E2 in H. destruct H as [H1 H2]. split; [|reflexivity].
    apply Hlead; auto. unfold lead_char; cbn; auto.
  - reflexivity.
  - exists (a ++ [c]). split; auto. cbn [s_st s_f]. rewrite E2 in H.
    destruct H as [H1 H2]. split; auto. apply Hlead; auto. now apply lead_blank.
  - cbn [hp_out]. cbv zeta. now destruct pres.
  - intros Nb. destruct b as [|c2 b]; [easy|]. exists (a ++ [c; c2]).
    split; [rewrite <- app_assoc; auto|]. reflexivity.
  - cbn [hp_out s_f s_data].
    destruct (options_frame (split_on "," b)
      (mkF (f_type (cur_f c s)) 0 0 (f_data (cur_f c s)) (f_dom (cur_f c s))
        (f_tag (cur_f c s)) (f_host (cur_f c s)) (f_rule (cur_f c s))))
      as (O1 & O2 & O3 & O4).
    rewrite O1, O3. cbn [f_type f_host].
    destruct (cur_f_ha c s) as [-> ->]. intros HA.
    destruct (s_st s); try (destruct H; congruence); try congruence.
    destruct (H HA) as (h1 & h2 & p' & F1 & F2 & F3 & F4 & F5).
    destruct h2 as [|x h2].
    + rewrite app_nil_r in F1. eauto.
    + exfalso. injection F3 as <- F3. apply (F5 c); [cbn; auto|].
      subst c. apply sep_dollar.
  - intros Nb. destruct b as [|c2 b]; [easy|]. exists (a ++ [c; c2]).
    split; [rewrite <- app_assoc; auto|]. cbn [s_st s_f hd].
    now destruct (ceq c2 "#").
  - exists (a ++ [c]). split; auto. cbn [put_ps s_st s_f s_data].
    destruct (cur_f_ha c s) as [F1 F2].
    assert (st' = FPData -> has (f_type (cur_f c s)) FTHostAnchored = true ->
      exists h1 h2 p', f_host (cur_f c s) = Some (h1 ++ h2) /\
        length h1 <= length (s_data s ++ [c]) /\ b = h2 ++ p' /\
        ~ In "|"%char h2 /\ forall x, In x h2 -> ~ In x separators) as K.
    { intros _. rewrite F1, F2. intros HA.
      destruct (s_st s); try (destruct H; congruence); try congruence.
      destruct (H HA) as (h1 & h2 & p' & G1 & G2 & G3 & G4 & G5).
      rewrite app_length. cbn [length]. destruct h2 as [|x h2].
      - exists h1, [], b. repeat split; auto; try easy. lia.
      - injection G3 as <- G3. exists (h1 ++ [c]), h2, p'.
        rewrite app_length. cbn [length]. rewrite <- app_assoc. cbn [app].
        repeat split; auto; try lia.
        + intros I. apply G4. cbn; auto.
        + intros y I. apply G5. cbn; auto. }
    destruct E4 as [->|(-> & E4 & E5)]; auto.
    unfold cur_st in *. destruct (is_onebar (s_st s) && negb (ceq c "|")) eqn:EO.
    + auto.
    + destruct (s_st s); try easy; auto.
      * rewrite F1. destruct H as [H1 H2]. split; [now apply Hlead|auto].
      * exfalso. cbn in EO. rewrite (ceq_f _ _ E2) in EO. discriminate.
      * rewrite F1. destruct H as [H1 H2]. split; [now apply Hlead|auto].
Qed.

Lemma pline_host pres l :
  line_text l -> length l < 2048 -> bars_fine l ->
  has (f_type (fst (pline pres l))) FTHostAnchored = true ->
  exists h d, f_host (fst (pline pres l)) = Some h /\
    f_data (fst (pline pres l)) = Some (d, [NUL]) /\ length h <= length d /\
    snd (pline pres l) = true.
Proof.
  intros Hl HL BF.
  destruct (pline_ind pres l
    (fun p s => hp_inv l p s /\ s_pos s + length p = length l) hp_out Hl) as
    [(f & E & K)|[(s & E1 & K & E2)|(s & r & E1 & K & E2)]].
  - intros p s [_ Hp] N Hs. destruct p; [easy|]. cbn in Hp. lia.
  - intros s [(a & El & H) _]. cbn [hp_out]. intros HA.
    destruct (s_st s); try (destruct H; congruence); try congruence.
    destruct (H HA) as (h1 & h2 & p' & F1 & F2 & F3 & F4 & F5).
    destruct h2; [|discriminate]. rewrite app_nil_r in F1. eauto.
  - intros a c b s act El Ep HJ HS [HP HP2] SC.
    pose proof (hp_step pres l c b s act BF HP SC) as K. cbn [length] in HP2.
    destruct act as [s'|s'|f|s']; auto.
    + split; auto.
      inversion SC; subst; cbn [put_ps skip_ps s_pos]; lia.
    + intros Nb. split; auto. destruct b; [easy|]. cbn [tl length] in *.
      inversion SC; subst; cbn [s_pos]; lia.
  - split; [|reflexivity]. exists []. split; auto. split; [easy|reflexivity].
  - rewrite E. cbn [fst snd]. cbn [hp_out] in K. congruence.
  - rewrite E2. cbn. discriminate.
  - rewrite E2. cbn [fst snd].
    intros HA. cbn [hp_out] in K.
    assert (has (f_type (s_f s)) FTHostAnchored = true) as HA'
      by (now destruct pres).
    destruct (K HA') as (h & K1 & K2). exists h, (s_data s).
    split; [now destruct pres|]. split; [reflexivity|]. auto.
Qed.

(** ** Domain lists *)
Definition dm_inv (l : bytes) (s : ps) : Prop :=
  s_st s <> FPDataOnly -> f_dom (s_f s) = None.

Definition is_net (f : filter) : Prop :=
  ~ In (f_type f) only_types.

Definition dom_in (l : bytes) (o : option bytes) : Prop :=
  forall x, o = Some x -> substring x l /\ ~ In ","%char x.

Lemma split_on_sub c s p : In p (split_on c s) -> substring p s /\ ~ In c p.
Proof.
  intros I. split.
  - revert p I; induction s as [|x s IH]; intros p; cbn [split_on].
    + intros [<-|[]]. exists [], []. reflexivity.
    + destruct (ceq x c).
      * intros [<-|I]; [exists [], (x :: s); reflexivity|].
        destruct (IH _ I) as (a & b & E). exists (x :: a), b. cbn. now rewrite <- E.
      * destruct (split_on c s) as [|w ws] eqn:Es.
        { now apply split_on_nonempty in Es. }
        intros [<-|I].
        -- assert (exists r, s = w ++ r) as [r Er].
           { clear -Es. revert w ws Es; induction s as [|y s IH]; intros w ws; cbn [split_on].
             - intros [= <- <-]. now exists [].
             - destruct (ceq y c).
               + intros [= <- <-]. now exists (y :: s).
               + destruct (split_on c s) as [|v vs] eqn:Ev.
                 * now apply split_on_nonempty in Ev.
                 * intros [= <- <-]. destruct (IH _ _ eq_refl) as [r Er].
                   exists r. cbn. now rewrite <- Er. }
           exists [], r. cbn. now rewrite <- Er.
        -- destruct (IH p) as (a & b & E); [cbn; auto|].
           exists (x :: a), b. cbn. now rewrite <- E.
  - intros J. eapply split_on_In in I as [_ I]; [|exact J]. easy.
Qed.

Lemma substring_cons c s t : substring s t -> substring s (c :: t).
Proof. intros (a & b & ->). exists (c :: a), b. reflexivity. Qed.

Lemma substring_skipn n (s : bytes) : substring (skipn n s) s.
Proof. exists (firstn n s), []. now rewrite app_nil_r, firstn_skipn. Qed.

Lemma parseOption_dom l f seg :
  substring seg l -> ~ In ","%char seg -> dom_in l (f_dom f) ->
  dom_in l (f_dom (parseOption f seg)).
Proof.
  intros Hs Hc Hd. unfold parseOption.
  set (w := match seg with [] => _ | _ => _ end).
  assert (substring (snd w) l /\ ~ In ","%char (snd w)) as [W1 W2].
  { unfold w. destruct seg as [|c s]; [auto|]. destruct (ceq c "~"); auto.
    cbn [snd]. split.
    - eapply substring_trans; [|exact Hs]. apply (substring_skipn 1 (c :: s)).
    - intros I. apply Hc. cbn; auto. }
  destruct w as [anti s]. cbn [snd] in *.
  destruct (prefixb (B "domain=") s).
  { cbn [f_dom]. intros x E. assert (x = skipn 7 s) as -> by congruence. split.
    - eapply substring_trans; [|exact W1]. apply substring_skipn.
    - intros I. apply W2. eapply In_skipn; eauto. }
  destruct (prefixb (B "tag=") s); [auto|]. destruct anti; auto.
Qed.

Lemma options_dom l segs f :
  (forall x, In x segs -> substring x l /\ ~ In ","%char x) ->
  dom_in l (f_dom f) -> dom_in l (f_dom (fold_left parseOption segs f)).
Proof.
  revert f; induction segs as [|x segs IH]; intros f Hs H; cbn [fold_left]; auto.
  destruct (Hs x (or_introl eq_refl)). apply IH.
  - intros; apply Hs; cbn; auto.
  - now apply parseOption_dom.
Qed.

Definition dm_out (l : bytes) (o : pout) : Prop :=
  match o with
  | PReturn f => f_dom f = None \/ In (f_type f) only_types
  | PEnd s => dom_in l (f_dom (s_f s)) \/
              (In (f_type (s_f s)) only_types /\ is_start (s_st s) = false)
  end.

Lemma cur_f_dom c s : f_dom (cur_f c s) = f_dom (s_f s).
Proof. unfold cur_f. now destruct (_ && _). Qed.

Lemma dm_step pres l c b s act :
  substring b l ->
  dm_inv l s -> ps_ok s -> step_case pres l c b s act ->
  match act with
  | ANext1 s' => dm_inv l s'
  | ANext2 s' => dm_inv l s'
  | AReturn f => dm_out l (PReturn f)
  | ABreak s' => dm_out l (PEnd s')
  end.
Proof.
  intros Hb H PO SC. unfold dm_inv in *.
  destruct SC as [E|E1 E2|E1 E2|E1 E2 E3 E4|E1 E2|E1 E2|E1 E2|E1 E2|E1 E2 E3 E4 E5
    |E1 E2 E3|E1 E2 E3|E1 E2 E3|st' E1 E2 E3 E4];
    cbn [put_ps skip_ps s_st s_f]; try congruence.
  - intros _. apply H. intros E; now rewrite E in E2.
  - intros _. cbv zeta. destruct (line_hostonly b);
      cbn [add_type set_type set_host f_dom]; apply H; congruence.
  - intros _. cbn [add_type set_type f_dom]. auto.
  - intros _. apply H. intros E; now rewrite E in E2.
  - intros _. cbn [add_type set_type f_dom]. apply H. congruence.
  - left. cbn [set_type f_dom]. apply H. intros E; now rewrite E in E1.
  - intros _. apply H. congruence.
  - left. cbv zeta. destruct pres; cbn [set_type set_rule set_data f_dom]; apply H;
      intros E; now rewrite E in E2.
  - left. cbn [s_f]. apply options_dom.
    + intros x I. apply split_on_sub in I as [I1 I2]. split; auto.
      eapply substring_trans; eauto.
    + cbn [f_dom]. rewrite cur_f_dom, H by auto. intros x [=].
  - intros _. rewrite cur_f_dom. auto.
Qed.

Lemma pline_dom pres l :
  line_text l ->
  dom_in l (f_dom (fst (pline pres l))) \/ In (f_type (fst (pline pres l))) only_types.
Proof.
  intros Hl.
  destruct (pline_ind pres l
    (fun p s => dm_inv l s /\ ps_ok s) (dm_out l) Hl) as
    [(f & E & K)|[(s & E1 & K & E2)|(s & r & E1 & K & E2)]].
  - intros p s [H PO] _ _. cbn [dm_out]. unfold dm_inv in H.
    destruct PO as (_ & _ & _ & PO). destruct (s_st s); try (left; apply H; discriminate).
    now right.
  - intros s [H PO]. cbn [dm_out]. unfold dm_inv in H.
    destruct PO as (_ & _ & _ & PO).
    destruct (s_st s); try (left; rewrite H by discriminate; intros x [=]).
    right. auto.
  - intros a c b s act El _ _ _ [HP PO] SC.
    assert (line_text (c :: b)) as Hcb.
    { rewrite El in Hl. now apply line_text_app in Hl. }
    assert (substring b l) as Hb.
    { exists (a ++ [c]), []. rewrite El, app_nil_r, <- app_assoc. reflexivity. }
    pose proof (dm_step pres l c b s act Hb HP PO SC) as K.
    pose proof (step_ok pres l c b s act Hl Hcb PO SC) as K2.
    destruct act; auto.
  - split; [easy|]. split; [easy|]. split; [|easy]. sp5; easy.
  - rewrite E. cbn [fst]. cbn [dm_out] in K. destruct K as [K|K]; [left|now right].
    rewrite K. intros x [=].
  - rewrite E2. cbn [fst set_type f_dom f_type]. left. destruct K as [K|[_ K]]; auto.
    congruence.
  - rewrite E2. cbn [fst set_data f_dom f_type].
    destruct K as [K|[K _]], pres; auto.
Qed.

(** ** Safe lines *)
Lemma gate_items_sub dl x :
  In x (flat_map gate_item (split_on "|" dl)) ->
  substring x dl /\ ~ In "|"%char x.
Proof.
  intros I. apply in_flat_map in I as (d & I & J).
  apply split_on_sub in I as [I1 I2]. unfold gate_item in J.
  destruct d as [|c d]; [easy|]. destruct J as [<-|[]].
  destruct (ceq c "~"); auto. split.
  - eapply substring_trans; [|exact I1]. apply (substring_skipn 1 (c :: d)).
  - intros K. apply I2. cbn; auto.
Qed.

Lemma safe_dom_fits l f :
  domains_fit l -> dom_in l (f_dom f) -> dom_fits f = true.
Proof.
  intros DF DI. unfold dom_fits, gate_items.
  destruct (f_dom f) as [dl|]; [|reflexivity].
  destruct (DI dl eq_refl) as [D1 D2].
  apply forallb_forall. intros x I. apply Nat.leb_le.
  apply gate_items_sub in I as [I1 I2].
  apply DF; auto.
  - eapply substring_trans; eauto.
  - intros J. apply D2. destruct I1 as (a & b & ->). apply in_or_app. right.
    apply in_or_app; auto.
Qed.

Lemma only_not_gate E f k :
  In (f_type f) only_types -> classify E f = Ok k -> is_gate k = false.
Proof.
  intros I. unfold classify. destruct (hasUnsupportedOptions f).
  - intros [= <-]. reflexivity.
  - destruct I as [<-|[<-|[<-|[]]]]; cbn; intros [= <-]; reflexivity.
Qed.

Lemma classify_total E f :
  (exists o, getFingerprint E f = Ok o) -> exists k, classify E f = Ok k.
Proof.
  intros (o & Ho). unfold classify, classify_tail. rewrite Ho. cbn [bind].
  repeat match goal with
  | |- context [if ?b then _ else _] => destruct b
  end; eauto; destruct o; eauto;
  repeat match goal with
  | |- context [if ?b then _ else _] => destruct b
  end; eauto.
Qed.

Lemma types_no_regex : forall t, In t (FTComment :: FTEmpty :: net_types ++ only_types) ->
  has t FTRegex = false.
Proof.
  intros t I.
  assert (forallb (fun t => negb (has t FTRegex))
            (FTComment :: FTEmpty :: net_types ++ only_types) = true) as H
    by reflexivity.
  rewrite forallb_forall in H. apply negb_true_iff. auto.
Qed.

Lemma safe_fingerprint E pres l :
  line_text l -> safe_line l ->
  exists o, getFingerprint E (fst (pline pres l)) = Ok o.
Proof.
  intros Hl (L1 & L2 & L3).
  pose proof (pline_ok pres l Hl) as RO.
  pose proof (pline_host pres l Hl L1 L2) as HO.
  destruct (pline pres l) as [f r]. cbn [fst snd] in *.
  destruct RO as (R1 & R2 & R3 & R4 & R5).
  assert (forall d, f_data f = Some (d, [NUL]) -> line_text d ->
            has (f_type f) FTRegex = false -> exists o, getFingerprint E f = Ok o) as K.
  { intros d Hd Td NR.
    destruct (getFingerprint_spec E f d NR Hd) as (o & Ho & _); eauto.
    - now apply line_text_nonul.
    - intros HA. destruct (HO HA) as (h & d' & H1 & H2 & H3 & _).
      assert (d' = d) by congruence. subst. eauto. }
  destruct r.
  - destruct R5 as ((d & Hd & Td) & Ht).
    apply (K d); auto. apply types_no_regex. do 2 right. auto.
  - destruct R5 as [[Hd Ht]|(d & Hd & Td & Ht)].
    + unfold getFingerprint. rewrite (types_no_regex _ Ht).
      destruct (has (f_type f) FTHostAnchored) eqn:HA.
      * destruct (HO eq_refl) as (_ & _ & _ & _ & _ & H). discriminate.
      * cbn [bind]. rewrite Hd. eauto.
    + unfold getFingerprint. rewrite Ht. cbn. eauto.
Qed.

Lemma safe_rule E pres l :
  line_text l -> safe_line l -> exists r, rule_of E pres l = Ok r.
Proof.
  intros Hl SL. destruct (safe_fingerprint E pres l Hl SL) as (o & Ho).
  pose proof (pline_dom pres l Hl) as DM. unfold rule_of.
  destruct (pline pres l) as [f r]. cbn [fst] in *.
  destruct (classify_total E f) as (k & Hk); [eauto|].
  assert (is_gate k && negb (dom_fits f) = false) as EG.
  { destruct SL as (_ & _ & DF). destruct DM as [DM|DM].
    - rewrite (safe_dom_fits l) by auto. apply andb_false_r.
    - rewrite (only_not_gate E f k DM Hk). reflexivity. }
  rewrite Ho. destruct (r && negb (is_cosmetic f)); cbn [bind]; rewrite Hk;
    cbn [bind]; rewrite EG; eauto.
Qed.

Lemma parse_safe E pres t c :
  nonul t -> (forall l, In l (text_lines t) -> safe_line l) ->
  exists c', parse E pres (cstr t) c = Ok c'.
Proof.
  intros Ht H. rewrite parse_normal by auto.
  destruct (mapM (rule_of E pres) (text_lines t)) as [rs|] eqn:M; [cbn; eauto|].
  apply mapM_UB in M as (l & I & M).
  destruct (safe_rule E pres l) as (r & Hr); auto.
  - now apply text_lines_line with t.
  - congruence.
Qed.

(** Unsafe lines *)
Lemma unsafe_line E pres c l :
  nonulb l = true -> text_lines l = [l] -> rule_of E pres l = UB ->
  parse E pres (cstr l) c = UB.
Proof.
  intros H1 H2 H3. rewrite parse_normal by now apply nonulb_ok.
  rewrite H2. cbn [mapM]. now rewrite H3.
Qed.

Definition long_host_line : bytes := B "||a/" ++ repeat ","%char (N.to_nat 2044).
Definition long_domain_line : bytes :=
  B "x$domain=" ++ repeat "a"%char (N.to_nat 1025).

Lemma unsafe_bars E pres c : parse E pres (cstr (B "||a|b")) c = UB.
Proof. apply unsafe_line; [reflexivity|reflexivity|]. now destruct pres. Qed.

Lemma unsafe_long E pres c : parse E pres (cstr long_host_line) c = UB.
Proof.
  apply unsafe_line; [vm_compute; reflexivity..|].
  destruct pres; vm_compute; reflexivity.
Qed.

Lemma unsafe_domain E pres c : parse E pres (cstr long_domain_line) c = UB.
Proof.
  apply unsafe_line; [vm_compute; reflexivity..|].
  destruct pres; vm_compute; reflexivity.
Qed.
