(** Cosmetic and HTML lines; where rules go. *)
From Verif Require Import Base Flags Url Sets FilterM ParseM ClientM Spec SpecM
  P_Base P_Url P_Match P_Rule P_Parse P_List P_Shape P_Fp P_Line P_Props2 P_Props3
  P_Line2 P_Line3.

Lemma loop_only pres input ilen s q f d rs re pos :
  length d <= pos -> pos + length s <= 2047 ->
  pf_loop pres input ilen (length s) (s ++ q) (mkPs FPDataOnly f d rs re pos) =
  Ok (PEnd (mkPs FPDataOnly f (d ++ s) rs (re + length s) (pos + length s))).
Proof.
  revert d re pos; induction s as [|c s IH]; intros d re pos H1 H2.
  - cbn [length pf_loop]. now rewrite app_nil_r, !Nat.add_0_r.
  - cbn [length app] in *. rewrite loop_cons by lia.
    unfold pf_step. cbn [s_st is_dataonly s_f].
    rewrite put_run by lia. cbn [bind].
    rewrite IH; [|rewrite app_length; cbn; lia|lia].
    rewrite <- app_assoc. cbn [app]. do 3 f_equal; lia.
Qed.

Definition mark_type (m : bytes) : N :=
  if beq m (B "##") then FTElementHiding
  else if beq m (B "#@") then FTElementHidingException
  else FTHTMLFiltering.

Lemma list_run pres input ilen d n q :
  domain_list_text d -> length d <= 2047 -> input <> [] ->
  exists st, (st = FPStart \/ st = FPData) /\
  pf_loop pres input ilen (length d + n) (d ++ q) (mkPs FPStart filter0 [] 0 0 0) =
  pf_loop pres input ilen n q (mkPs st filter0 d 0 (length d) (length d)).
Proof.
  intros Hd L Ni. destruct d as [|c d].
  - exists FPStart. split; auto.
  - exists FPData. split; auto. destruct (Hd c (or_introl eq_refl)) as [H1 H2].
    cbn [length app]. rewrite Nat.add_succ_l. rewrite loop_cons by lia.
    rewrite step_first; auto.
    + cbn [bind app]. rewrite loop_data.
      * reflexivity.
      * intros x I. apply Hd. cbn; auto.
      * cbn; lia.
      * cbn in L |- *; lia.
    + cbn; lia.
    + now destruct input.
    + intros I. apply H2. cbn in I |- *. tauto.
    + intros ->. apply H2. cbn; auto.
    + intros ->. exfalso. apply H2. cbn; auto 8.
Qed.

Lemma cosmetic_pline pres d m s :
  domain_list_text d -> m = B "##" \/ m = B "#@" \/ m = B "$$" ->
  line_text s -> length (d ++ m ++ s) < 2048 ->
  exists x, pline pres (d ++ m ++ s) =
    (mkF (mark_type m) 0 0 (Some (s, [NUL]))
         (match d with [] => None | _ => Some d end) [] None x, true).
Proof.
  intros Hd Hm Hs L. set (l := d ++ m ++ s) in *.
  assert (length m = 2) as Lm by (destruct Hm as [->|[->| ->]]; reflexivity).
  assert (length l = length d + S (S (length s))) as Ll
    by (unfold l; rewrite !app_length; lia).
  assert (line_text l) as Hl.
  { unfold l. apply line_text_app. split.
    - intros c I. destruct (Hd c I) as [(_ & _ & _ & A1 & A2 & A3) _]. auto.
    - apply line_text_app. split; auto. intros c I.
      destruct Hm as [->|[->| ->]]; vm_compute in I;
        repeat (destruct I as [<-|I]; [repeat split; discriminate|]); destruct I. }
  assert (exists re,
    pf_loop pres (cstr l) (length l) (length l) (cstr l) (mkPs FPStart filter0 [] 0 0 0) =
    Ok (PEnd (mkPs FPDataOnly
      (set_type (take_domains filter0 d) (mark_type m)) s 0 re (length l)))
    /\ re <= length l) as (re & ER & Lre).
  { destruct (list_run pres (cstr l) (length l) d (S (S (length s)))
                (m ++ cstr s) Hd) as (st & Hst & EL).
    - lia.
    - intros E. apply (f_equal (@length ascii)) in E. unfold cstr in E.
      rewrite app_length in E. cbn in E. lia.
    - assert (pf_loop pres (cstr l) (length l) (length l) (cstr l)
                (mkPs FPStart filter0 [] 0 0 0) =
              pf_loop pres (cstr l) (length l) (S (S (length s))) (m ++ cstr s)
                (mkPs st filter0 d 0 (length d) (length d))) as ->.
      { rewrite <- EL. rewrite <- Ll. f_equal. unfold l, cstr.
        now rewrite <- !app_assoc. }
      assert (forall f re, re + length s <= length l ->
        pf_loop pres (cstr l) (length l) (length s) (cstr s)
          (mkPs FPDataOnly f [] 0 re (2 + length d)) =
        Ok (PEnd (mkPs FPDataOnly f s 0 (re + length s) (length l)))) as K.
      { intros f re _. unfold cstr at 2. rewrite loop_only by (cbn; lia).
        cbn [app]. do 3 f_equal. lia. }
      destruct Hm as [->|[->| ->]]; cbn [B list_ascii_of_string app];
        rewrite loop_cons by lia;
        destruct Hst as [->| ->]; cbn [pf_step s_st];
        unfold pf_step; cbn [is_dataonly is_onebar andb is_start_or_past is_oneat
          is_start s_st s_f deref bind s_data s_rs s_re s_pos];
        cbn [bind]; eexists; (split; [apply K; lia|lia]). }
  pose proof (parse_filter_cstr pres l Hl) as EP. unfold parse_filter in EP.
  rewrite ER in EP. cbn [bind s_st is_start s_f s_data] in EP.
  unfold rule_text in EP. cbn [s_re s_rs] in EP.
  destruct pres.
  - destruct (Nat.leb_spec re (length (cstr l))) as [_|K].
    + cbn [bind] in EP. eexists. symmetry in EP. injection EP as EP.
      rewrite EP. destruct d; reflexivity.
    + unfold cstr in K. rewrite app_length in K. cbn in K. lia.
  - cbn [bind] in EP. eexists. injection EP as EP. rewrite <- EP.
    destruct d; reflexivity.
Qed.

(** ** Where good rules go *)
Lemma shape_fields pres r :
  f_type (shape pres r) = shape_type r /\
  f_data (shape pres r) = Some (x_body r, [NUL]) /\
  f_host (shape pres r) = shape_host r /\
  f_rule (shape pres r) = (if pres then Some (rule_line r) else None).
Proof.
  assert (f_type (apply_options (x_options r) (shape_base r)) = shape_type r /\
          f_host (apply_options (x_options r) (shape_base r)) = shape_host r /\
          f_rule (apply_options (x_options r) (shape_base r)) = None) as (E1 & E2 & E3).
  { unfold apply_options. destruct (x_options r) as [o|]; [|auto].
    destruct (options_frame (split_on "," o) (shape_base r)) as (H1 & _ & H2 & H3).
    rewrite H1, H2, H3. auto. }
  unfold shape. destruct pres; cbn [set_data set_rule f_type f_data f_host f_rule]; auto.
Qed.

Lemma shape_bits r :
  has (shape_type r) FTRegex = false /\
  has (shape_type r) FTException = x_exception r /\
  has (shape_type r) FTHostOnly = host_only r /\
  (has (shape_type r) FTHostAnchored = true -> x_anchor r = HostBars) /\
  N.land (shape_type r) FTListTypesMask = (if x_exception r then FTException else 0%N).
Proof.
  unfold shape_type. destruct (x_anchor r) eqn:A.
  - unfold host_only. rewrite A.
    destruct (x_exception r), (x_right r); repeat split; auto; discriminate.
  - unfold host_only. rewrite A.
    destruct (x_exception r), (x_right r); repeat split; auto; discriminate.
  - destruct (host_only r) eqn:HO, (x_exception r), (x_right r); repeat split; auto.
Qed.

Lemma host_only_spec r : host_only r = true <-> names_only_host r.
Proof.
  unfold host_only, names_only_host.
  destruct (host_prefix_split (x_body r)) as (rest & E & H1 & H2).
  destruct (x_anchor r); [split; [discriminate|intros [? _]; discriminate]
                         |split; [discriminate|intros [? _]; discriminate]|].
  destruct (x_right r); cbn [negb andb].
  { split; [discriminate|intros (_ & ? & _); discriminate]. }
  rewrite orb_true_iff, !beq_eq. split.
  - intros H. split; auto. split; auto. exists (host_prefix (x_body r)). auto.
  - intros (_ & _ & h & Hh & [K|K]).
    + left. rewrite K. symmetry.
      rewrite <- (app_nil_r h) at 1. now apply host_prefix_app; auto.
    + right. rewrite K. f_equal. symmetry. apply host_prefix_app; auto.
      right. exists "^"%char, []. split; auto. vm_compute. auto 10.
Qed.

Lemma shape_fp E pres r :
  good_rule r -> exists g, getFingerprint E (shape pres r) = Ok g.
Proof.
  intros G. destruct (shape_fields pres r) as (F1 & F2 & F3 & _).
  destruct (shape_bits r) as (B1 & _ & _ & B4 & _).
  destruct (getFingerprint_spec E (shape pres r) (x_body r)) as (o & Ho & _); eauto.
  - now rewrite F1.
  - intros I. destruct G as (_ & G & _). apply G in I as (_ & _ & _ & I & _). easy.
  - rewrite F1, F3. intros H. unfold shape_host. rewrite (B4 H).
    eexists. split; eauto. apply host_prefix_length.
Qed.

(** The collection of a good rule. *)
Definition collection (r : rule_syntax) (hostonly dom anti : bool)
    (g : option bytes) : cls :=
  if hostonly then CHost (x_exception r)
  else CList match g, x_exception r with
             | Some _, false => KFilters
             | Some _, true => KException
             | None, false => if dom then KNoFpDom else if anti then KNoFpAnti else KNoFp
             | None, true => if dom then KNoFpDomExc else if anti then KNoFpAntiExc else KNoFpExc
             end.

Lemma shape_class E pres r :
  good_rule r ->
  exists g, getFingerprint E (shape pres r) = Ok g /\
    classify E (shape pres r) =
    Ok (if hasUnsupportedOptions (shape pres r) then CSkip
        else collection r (host_only r) (isDomainOnlyFilter (shape pres r))
               (isAntiDomainOnlyFilter (shape pres r)) g).
Proof.
  intros G. destruct (shape_fp E pres r G) as (g & Hg). exists g. split; auto.
  destruct (shape_fields pres r) as (F1 & F2 & F3 & _).
  destruct (shape_bits r) as (_ & _ & B3 & _ & B5).
  unfold classify. destruct (hasUnsupportedOptions (shape pres r)); auto.
  rewrite F1, B5. unfold classify_tail. rewrite Hg, F1, B3. unfold collection.
  destruct (x_exception r); cbn [N.eqb Pos.eqb];
    (destruct (host_only r); [reflexivity|]); cbn [bind]; destruct g;
    try reflexivity;
    destruct (isDomainOnlyFilter (shape pres r)); try reflexivity;
    destruct (isAntiDomainOnlyFilter (shape pres r)); reflexivity.
Qed.

Lemma rule_category E pres r f b :
  good_rule r ->
  parse_filter pres (cstr (rule_line r)) (length (rule_line r)) = Ok (f, b) ->
  exists k, classify E f = Ok k /\
    category_of k =
      if hasUnsupportedOptions f then Nothing
      else if x_exception r then ExceptionRule else BlockRule.
Proof.
  intros G HP. pose proof (good_rule_line r G) as Hl.
  rewrite parse_filter_cstr, parse_rule_line in HP by auto.
  assert (f = shape pres r) as -> by congruence.
  destruct (shape_class E pres r G) as (g & Hg & HC).
  eexists. split; [exact HC|].
  destruct (hasUnsupportedOptions (shape pres r)); [reflexivity|].
  unfold collection. destruct (host_only r); [reflexivity|].
  destruct (isDomainOnlyFilter (shape pres r)), (isAntiDomainOnlyFilter (shape pres r)), g, (x_exception r);
    reflexivity.
Qed.

Lemma rule_collection E pres r f b k :
  good_rule r ->
  parse_filter pres (cstr (rule_line r)) (length (rule_line r)) = Ok (f, b) ->
  classify E f = Ok k -> k <> CSkip ->
  ((exists e, k = CHost e) <-> names_only_host r) /\
  (forall j, k = CList j ->
     exists g, getFingerprint E f = Ok g /\
     (g <> None <-> j = KFilters \/ j = KException) /\
     (j = KNoFpDom \/ j = KNoFpDomExc <->
        g = None /\ f_domains f <> [] /\ f_antiDomains f = []) /\
     (j = KNoFpAnti \/ j = KNoFpAntiExc <->
        g = None /\ f_domains f = [] /\ f_antiDomains f <> [])).
Proof.
  intros G HP HK NK. pose proof (good_rule_line r G) as Hl.
  rewrite parse_filter_cstr, parse_rule_line in HP by auto.
  assert (f = shape pres r) as -> by congruence.
  destruct (shape_class E pres r G) as (g & Hg & HC).
  rewrite HK in HC. destruct (hasUnsupportedOptions (shape pres r)); [congruence|].
  assert (k = collection r (host_only r) (isDomainOnlyFilter (shape pres r))
            (isAntiDomainOnlyFilter (shape pres r)) g) as Ek by congruence.
  unfold collection in Ek.
  split.
  - rewrite <- host_only_spec. destruct (host_only r).
    + split; eauto.
    + rewrite Ek. split; [intros (e & ?); discriminate|discriminate].
  - intros j Ej. exists g. split; auto.
    destruct (host_only r); [congruence|]. rewrite Ek in Ej.
    injection Ej as <-. unfold isDomainOnlyFilter, isAntiDomainOnlyFilter.
    destruct g, (x_exception r), (f_domains (shape pres r)), (f_antiDomains (shape pres r));
      cbn [nonempty andb negb]; intuition congruence.
Qed.

(** Any line whatsoever. *)
Lemma any_category E pres l f b k :
  line_text l ->
  parse_filter pres (cstr l) (length l) = Ok (f, b) ->
  classify E f = Ok k -> category_of k = type_category f.
Proof.
  intros Hl HP HK. rewrite parse_filter_cstr in HP by auto.
  pose proof (pline_ok pres l Hl) as RO.
  assert (pline pres l = (f, b)) as Ef by congruence. rewrite Ef in RO.
  destruct RO as (_ & _ & _ & _ & R5).
  assert (In (f_type f) (FTRegex :: FTComment :: FTEmpty :: net_types ++ only_types)) as I.
  { destruct b.
    - destruct R5 as (_ & R5). do 3 right. auto.
    - cbn [fst snd] in R5. destruct R5 as [[_ R5]|(_ & _ & _ & R5)]; [right; auto|left; auto]. }
  unfold classify in HK. unfold type_category.
  destruct (hasUnsupportedOptions f).
  { assert (k = CSkip) as -> by congruence. reflexivity. }
  assert (forall h fp dom anti nofp,
    classify_tail E f h fp dom anti nofp = Ok k ->
    k = h \/ k = CList fp \/ k = CList dom \/ k = CList anti \/ k = CList nofp) as CT.
  { unfold classify_tail. intros h fp dom anti nofp.
    destruct (has (f_type f) FTHostOnly). { intros [= <-]. auto. }
    intros H. apply bind_ok in H as (o & _ & H). destruct o; [injection H as <-; auto|].
    destruct (isDomainOnlyFilter f); [injection H as <-; auto|].
    destruct (isAntiDomainOnlyFilter f); injection H as <-; auto. }
  assert (forall t, In t (FTRegex :: FTComment :: FTEmpty :: net_types ++ only_types) ->
    (if (N.land t FTListTypesMask =? FTException)%N then
       has t (N.lor FTComment FTEmpty) = false /\
       has t (N.lor FTElementHiding FTElementHidingException) = false /\
       has t FTHTMLFiltering = false /\ has t FTException = true
     else if memN (N.land t FTListTypesMask)
               [FTElementHiding; FTElementHidingException; FTHTMLFiltering; FTEmpty; FTComment]
     then N.land t FTListTypesMask = t
     else has t (N.lor FTComment FTEmpty) = false /\
       has t (N.lor FTElementHiding FTElementHidingException) = false /\
       has t FTHTMLFiltering = false /\ has t FTException = false)) as TB.
  { intros t It. cbn in It.
    repeat (destruct It as [<-|It]; [vm_compute; auto|]). destruct It. }
  specialize (TB _ I). cbv zeta in HK.
  destruct (N.eqb_spec (N.land (f_type f) FTListTypesMask) FTException) as [E1|N1].
  { destruct TB as (-> & -> & -> & ->). apply CT in HK.
    destruct HK as [->|[->|[->|[->| ->]]]]; reflexivity. }
  destruct (memN (N.land (f_type f) FTListTypesMask) _) eqn:EM.
  - rewrite TB in HK. apply memN_In in EM. rewrite TB in EM.
    destruct EM as [E1|[E1|[E1|[E1|[E1|[]]]]]]; rewrite <- E1 in *; cbn in HK;
      injection HK as <-; reflexivity.
  - destruct TB as (-> & -> & -> & ->). unfold memN in EM. cbn [existsb] in EM.
    repeat (apply orb_false_iff in EM as [? EM]).
    repeat match goal with K : (_ =? _)%N = false |- _ => rewrite K in HK; clear K end.
    apply CT in HK. destruct HK as [->|[->|[->|[->| ->]]]]; reflexivity.
Qed.
