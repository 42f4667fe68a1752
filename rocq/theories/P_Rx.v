(** Which lines are read as regular expressions. *)
From Verif Require Import Base Flags Url Sets FilterM ParseM ClientM Spec SpecM SpecG
  P_Base P_Url P_Match P_Rule P_Parse P_List P_Shape P_Fp P_Line P_Props2 P_Props3
  P_Line2 P_Line3 P_Line4 P_Line5.

Definition blankb (c : ascii) : bool := ceq c TAB || ceq c " ".
Definition fillerb (c : ascii) : bool :=
  blankb c || ceq c "/" || ceq c "!" || ceq c "[".

Lemma blankb_ok c : blankb c = true <-> blank c.
Proof. unfold blankb, blank. rewrite orb_true_iff, !ceq_eq. tauto. Qed.
Lemma fillerb_ok c : fillerb c = true <-> filler c.
Proof. unfold fillerb, filler. rewrite !orb_true_iff, !ceq_eq, blankb_ok. tauto. Qed.

(** The states in which a regular expression can still follow. *)
Definition front (st : pstate) : bool := is_start_or_past st || is_oneat st.

Definition front_step (st : pstate) (c : ascii) : option pstate :=
  match st with
  | FPStart => if ceq c "@" then Some FPOneAt else if blankb c then Some FPStart else None
  | FPPastWhitespace =>
      if ceq c "@" then Some FPOneAt else if blankb c then Some FPPastWhitespace else None
  | FPOneAt =>
      if ceq c "@" then Some FPPastWhitespace else if fillerb c then Some FPOneAt else None
  | _ => None
  end.

Definition puts (st : pstate) (c : ascii) : bool :=
  negb (is_start st) && negb (ceq c "@").

Fixpoint scan (st : pstate) (p : bytes) (i : nat) : option nat :=
  match p with
  | [] => None
  | c :: p' =>
      if ceq c "/" && is_start_or_past st then Some i
      else match front_step st c with
           | Some st' => scan st' p' (if puts st c then S i else i)
           | None => None
           end
  end.

Definition front_next (st' : pstate) (c : ascii) (s : ps) : ps :=
  mkPs st' (if is_oneat (s_st s) && ceq c "@" then set_type (s_f s) FTException else s_f s)
       (if puts (s_st s) c then s_data s ++ [c] else s_data s)
       (if is_start (s_st s) && blankb c then S (s_rs s) else s_rs s)
       (S (s_re s)) (S (s_pos s)).

Lemma blank_not c : blankb c = true ->
  c = TAB \/ c = " "%char.
Proof. unfold blankb. now rewrite orb_true_iff, !ceq_eq. Qed.

Lemma front_some pres input ilen n1 c p1 s st' :
  front_step (s_st s) c = Some st' -> length (s_data s) < 2048 ->
  c <> "/"%char \/ is_start_or_past (s_st s) = false ->
  pf_step pres input ilen n1 c p1 s = Ok (ANext1 (front_next st' c s)).
Proof.
  intros H L Ns. destruct s as [st f d rs re pos].
  cbn [s_st s_data] in *. apply Nat.ltb_lt in L.
  assert (c = "@"%char \/ blankb c = true \/ (fillerb c = true /\ st = FPOneAt)) as K.
  { unfold front_step in H. destruct (ceq_spec c "@"); [auto|].
    destruct st; try discriminate; destruct (blankb c); auto;
      destruct (fillerb c); auto; discriminate. }
  assert (c = "@"%char \/ c = TAB \/ c = " "%char \/
          ((c = "/"%char \/ c = "!"%char \/ c = "["%char) /\ st = FPOneAt)) as K'.
  { destruct K as [K|[K|[K ->]]]; auto.
    - apply blank_not in K. tauto.
    - apply fillerb_ok in K. unfold filler, blank in K. tauto. }
  clear K.
  destruct K' as [->|[->|[->|[[->|[->| ->]] ->]]]];
    try (destruct st; cbn in H; try discriminate H);
    injection H as <-; unfold pf_step, put, front_next, kMaxLineLength;
    cbn [s_st s_f s_data s_rs s_re s_pos is_dataonly is_onebar andb negb is_start
         is_start_or_past is_oneat skip1 puts ceq orb]; 
    try reflexivity; rewrite ?L; reflexivity.
Qed.

Lemma loop_ind2 pres l (P : bytes -> ps -> Prop) (Q : pout -> Prop) :
  line_text l ->
  (forall p s, P p s -> p <> [] -> 2047 <= s_pos s -> Q (PReturn (s_f s))) ->
  (forall s, P [] s -> Q (PEnd s)) ->
  (forall a c b s act,
     l = a ++ c :: b -> s_pos s = length a -> J s -> s_pos s < 2047 ->
     P (c :: b) s -> step_case pres l c b s act ->
     pf_step pres (cstr l) (length l) (length b) c (cstr b) s = Ok act ->
     match act with
     | ANext1 s' => P b s'
     | ANext2 s' => b <> [] -> P (tl b) s'
     | AReturn f => Q (PReturn f)
     | ABreak s' => Q (PEnd s')
     end) ->
  forall n p a s, length p <= n -> l = a ++ p -> s_pos s = length a -> J s ->
  P p s ->
  exists o, pf_loop pres (cstr l) (length l) (length p) (cstr p) s = Ok o /\ Q o.
Proof.
  intros Hl H1 H2 H3. induction n as [|n IH]; intros p a s Hn El Ep HJ HP.
  - destruct p; [|cbn in Hn; lia]. exists (PEnd s). split; [reflexivity|auto].
  - destruct p as [|c b].
    { exists (PEnd s). split; [reflexivity|auto]. }
    cbn [length]. change (cstr (c :: b)) with (c :: cstr b). cbn [pf_loop].
    destruct (Nat.leb_spec (kMaxLineLength - 1) (s_pos s)) as [L|L].
    { exists (PReturn (s_f s)). split; [reflexivity|].
      eapply H1; eauto. discriminate. }
    destruct (pf_step_sim pres l a c b NUL [] s El Ep HJ L Hl)
      as (act & E1 & E2 & E3); [left; auto|].
    rewrite E2. cbn [bind].
    pose proof (pf_step_cases pres l a c b s act El Ep HJ L Hl E2) as SC.
    pose proof (H3 a c b s act El Ep HJ L HP SC E2) as K.
    destruct act as [s'|s'|f|s'].
    + destruct E3 as [HJ' Ep'].
      apply IH with (a := a ++ [c]); auto.
      * cbn in Hn. lia.
      * now rewrite <- app_assoc.
      * rewrite app_length. cbn. lia.
    + destruct E3 as [HJ' [Ep' Nb]]. destruct b as [|c2 b]; [easy|].
      cbn [length app]. change (cstr (c2 :: b)) with (c2 :: cstr b).
      apply IH with (a := a ++ [c; c2]); auto.
      * cbn in Hn. lia.
      * now rewrite <- app_assoc.
      * rewrite app_length. cbn. lia.
    + exists (PReturn f). auto.
    + exists (PEnd s'). auto.
Qed.

(** ** The front of a line *)
Definition regex_filter (pres : bool) (l : bytes) (i : nat) : filter :=
  let d := firstn (length l - i - 2) (skipn (i + 1) l) in
  let f := set_type (set_data filter0 d) FTRegex in
  if pres then set_rule f (Some d) else f.

Definition rx (l : bytes) (i : nat) : Prop :=
  scan FPStart l 0 = Some i /\ last l NUL = "/"%char /\ 1 < length l.

Definition fr_inv (l p : bytes) (s : ps) : Prop :=
  s_pos s + length p = length l /\
  (front (s_st s) = true ->
     scan (s_st s) p (length (s_data s)) = scan FPStart l 0 /\
     set_type (s_f s) 0 = filter0) /\
  (front (s_st s) = false -> forall i, ~ rx l i).

Definition fr_out (pres : bool) (l : bytes) (o : pout) : Prop :=
  (forall i, rx l i -> o = PReturn (regex_filter pres l i)) /\
  (forall f, o = PReturn f -> f_type f = FTRegex -> exists i, rx l i).

Lemma front_case st : front st = true -> st = FPStart \/ st = FPPastWhitespace \/ st = FPOneAt.
Proof. destruct st; cbn; auto; discriminate. Qed.

Lemma fr_step pres l a c b s act :
  l = a ++ c :: b -> s_pos s = length a -> J s -> s_pos s < 2047 ->
  fr_inv l (c :: b) s -> step_case pres l c b s act ->
  pf_step pres (cstr l) (length l) (length b) c (cstr b) s = Ok act ->
  match act with
  | ANext1 s' => fr_inv l b s'
  | ANext2 s' => b <> [] -> fr_inv l (tl b) s'
  | AReturn f => fr_out pres l (PReturn f)
  | ABreak s' => fr_out pres l (PEnd s')
  end.
Proof.
  intros El Ep HJ Hp (I1 & I2 & I3) SC HS.
  assert (forall o, (forall i, ~ rx l i) ->
    (forall f, o = PReturn f -> f_type f <> FTRegex) -> fr_out pres l o) as OUT.
  { intros o N1 N2. split; [intros i R; now destruct (N1 i)|].
    intros f Ef Et. now destruct (N2 f Ef). }
  assert (forall s', s_pos s' + length b = length l -> front (s_st s') = false ->
    (forall i, ~ rx l i) -> fr_inv l b s') as NEXT.
  { intros s' P1 P2 P3. split; [auto|]. split; [congruence|auto]. }
  cbn [length] in I1.
  (* where the front ends, and how *)
  assert (front (s_st s) = false \/
     (front (s_st s) = true /\ front_step (s_st s) c = None /\
      ceq c "/" && is_start_or_past (s_st s) = false) ->
     (forall i, ~ rx l i)) as ENDS.
  { intros [K|(K1 & K2 & K3)]; [now apply I3|].
    intros i (R & _). destruct (I2 K1) as [E _]. rewrite <- E in R. cbn [scan] in R.
    rewrite K3, K2 in R. discriminate. }
  destruct (front (s_st s)) eqn:F.
  2:{ specialize (ENDS (or_introl eq_refl)).
      destruct SC as [E|E1 E2|E1 E2|E1 E2 E3 E4|E1 E2|E1 E2|E1 E2|E1 E2|E1 E2 E3 E4 E5
        |E1 E2 E3|E1 E2 E3|E1 E2 E3|st' E1 E2 E3 E4 E5];
        try (exfalso; unfold front in F; rewrite E2 in F; discriminate F);
        try (exfalso; unfold front in F; rewrite E1 in F; discriminate F).
      - apply NEXT; auto. cbn. lia.
      - apply NEXT; auto. cbn. lia.
      - apply NEXT; auto. cbn. lia.
      - intros Nb. split; [destruct b; [easy|]; cbn in *; lia|]. split; [discriminate|auto].
      - apply OUT; auto. intros f [=].
      - intros Nb. split; [destruct b; [easy|]; cbn in *; lia|]. split; [discriminate|auto].
      - apply NEXT; auto; [cbn; lia|]. cbn [put_ps s_st].
        destruct E4 as [->|(-> & _ & _)]; [reflexivity|].
        unfold cur_st. destruct (_ && _); auto. }
  destruct (I2 eq_refl) as [I4 I5].
  destruct (ceq c "/" && is_start_or_past (s_st s)) eqn:SL.
  { (* a slash where an expression may begin *)
    apply andb_true_iff in SL as [SL1 SL2]. apply ceq_eq in SL1. subst c.
    cbn [scan] in I4. rewrite SL2 in I4. cbn [ceq andb] in I4.
    change (ceq "/" "/") with true in I4. cbn [andb] in I4.
    destruct SC as [E|E1 E2|E1 E2|E1 E2 E3 E4|E1 E2|E1 E2|E1 E2|E1 E2|E1 E2 E3 E4 E5
        |E1 E2 E3|E1 E2 E3|E1 E2 E3|st' E1 E2 E3 E4 E5]; try discriminate E1.
    - rewrite E in SL2. discriminate SL2.
    - destruct E2 as [?|[?|[? _]]]; discriminate.
    - destruct E1; discriminate.
    - split.
      + intros i (R & _). assert (i = length (s_data s)) as -> by congruence.
        f_equal. unfold regex_filter. cbv zeta.
        replace (set_type (set_data (s_f s) (firstn (length l - length (s_data s) - 2)
                       (skipn (length (s_data s) + 1) l))) FTRegex)
          with (set_type (set_data filter0 (firstn (length l - length (s_data s) - 2)
                       (skipn (length (s_data s) + 1) l))) FTRegex); [reflexivity|].
        rewrite <- I5. reflexivity.
      + intros f _ _. exists (length (s_data s)). split; auto.
    - assert (~ (last l NUL = "/"%char /\ 1 < length l)) as NL.
      { intros [L1 L2]. unfold pf_step in HS.
        destruct (is_dataonly (s_st s)) eqn:DO; [destruct (s_st s); discriminate|].
        assert (is_onebar (s_st s) = false) as OB by (destruct (s_st s); auto; discriminate).
        rewrite OB in HS. cbn [andb] in HS. change (ceq "/" "|") with false in HS.
        change (ceq "/" "@") with false in HS. change (ceq "/" "!") with false in HS.
        change (ceq "/" "[") with false in HS. change (ceq "/" CR) with false in HS.
        change (ceq "/" LF) with false in HS. change (ceq "/" TAB) with false in HS.
        change (ceq "/" " ") with false in HS. change (ceq "/" "/") with true in HS.
        cbv zeta in HS. cbn [orb] in HS. rewrite SL2 in HS.
        unfold cstr in HS. rewrite rd_app1 in HS by lia. unfold rd in HS.
        rewrite (last_nth l NUL) in HS by (rewrite El; now destruct a).
        cbn [bind] in HS. rewrite L1 in HS. change (ceq "/" "/") with true in HS.
        apply Nat.ltb_lt in L2. rewrite L2 in HS. cbn [andb] in HS.
        destruct (_ =? 0); discriminate HS. }
      assert (forall i, ~ rx l i) as NR by (intros i (_ & R); auto).
      apply NEXT; auto; [cbn; lia|]. cbn [put_ps s_st].
      destruct E4 as [->|(-> & E4 & _)]; [reflexivity|].
      exfalso. apply NL.
      (* staying in front: only behind a mark, and then the slash is read *)
      assert (s_st s = FPPastWhitespace) as ES.
      { unfold cur_st in E4. destruct (s_st s); try discriminate; auto. }
      unfold pf_step in HS. rewrite ES in HS.
      change (ceq "/" "|") with false in HS.
        change (ceq "/" "@") with false in HS. change (ceq "/" "!") with false in HS.
        change (ceq "/" "[") with false in HS. change (ceq "/" CR) with false in HS.
        change (ceq "/" LF) with false in HS. change (ceq "/" TAB) with false in HS.
        change (ceq "/" " ") with false in HS. change (ceq "/" "/") with true in HS.
      cbv zeta in HS. cbn [is_dataonly is_onebar andb orb is_start_or_past] in HS.
      unfold cstr in HS. rewrite rd_app1 in HS by lia. unfold rd in HS.
      rewrite (last_nth l NUL) in HS by (rewrite El; now destruct a).
      cbn [bind] in HS. destruct (ceq_spec (last l NUL) "/") as [L1|L1]; cbn [andb] in HS.
      + split; auto. destruct (Nat.ltb_spec 1 (length l)); auto.
        apply put_inv in HS. unfold put_ps, cur_st in HS. rewrite ES in HS. discriminate HS.
      + apply put_inv in HS. unfold put_ps, cur_st in HS. rewrite ES in HS. discriminate HS. }
  destruct (front_step (s_st s) c) as [st'|] eqn:FS.
  { assert (pf_step pres (cstr l) (length l) (length b) c (cstr b) s =
      Ok (ANext1 (front_next st' c s))) as HS'.
    { apply front_some; auto.
      - destruct HJ as (J1 & _). lia.
      - destruct (ceq_spec c "/"); auto. }
    rewrite HS in HS'. injection HS' as ->.
    split; [cbn; lia|]. cbn [front_next s_st s_data s_f].
    assert (front st' = true) as F'.
    { unfold front_step in FS. destruct (s_st s); try discriminate;
        destruct (ceq c "@"); try (injection FS as <-; reflexivity);
        destruct (blankb c); try (injection FS as <-; reflexivity);
        destruct (fillerb c); try (injection FS as <-; reflexivity); discriminate. }
    split; [|congruence]. intros _. split.
    - rewrite <- I4. cbn [scan]. rewrite SL, FS.
      destruct (puts (s_st s) c); [rewrite app_length; cbn [length]; now rewrite Nat.add_1_r|auto].
    - destruct (is_oneat (s_st s) && ceq c "@"); [rewrite <- I5; reflexivity|exact I5]. }
  specialize (ENDS (or_intror (conj eq_refl (conj eq_refl eq_refl)))).
  destruct SC as [E|E1 E2|E1 E2|E1 E2 E3 E4|E1 E2|E1 E2|E1 E2|E1 E2|E1 E2 E3 E4 E5
        |E1 E2 E3|E1 E2 E3|E1 E2 E3|st' E1 E2 E3 E4 E5].
  - rewrite E in F. discriminate.
  - apply NEXT; auto. cbn. lia.
  - apply NEXT; auto. cbn. lia.
  - apply NEXT; auto. cbn. lia.
  - exfalso. subst c. destruct (s_st s); try discriminate E2; discriminate FS.
  - exfalso. subst c. rewrite E2 in FS. discriminate FS.
  - apply OUT; auto. intros f [= <-]. discriminate.
  - exfalso. rewrite E2 in FS. cbn in FS. assert (blankb c = true) as Bl by (apply blankb_ok; destruct E1; [left|right]; auto).
    rewrite Bl in FS. destruct (ceq c "@"); discriminate FS.
  - exfalso. subst c. rewrite E2 in SL. discriminate SL.
  - intros Nb. split; [destruct b; [easy|]; cbn in *; lia|]. split; [discriminate|auto].
  - apply OUT; auto. intros f [=].
  - intros Nb. split; [destruct b; [easy|]; cbn in *; lia|]. split; [discriminate|auto].
  - apply NEXT; auto; [cbn; lia|]. cbn [put_ps s_st].
    destruct E4 as [->|(-> & E4 & E6)]; [reflexivity|]. exfalso.
    assert (cur_st c s = s_st s) as CS.
    { unfold cur_st. destruct (s_st s); auto; discriminate. }
    rewrite CS in E4.
    unfold lead_char in E6. cbn in E6.
    assert (c = "!"%char \/ c = "["%char \/ exists st', front_step (s_st s) c = Some st') as K.
    { destruct (front_case _ F) as [K|[K|K]]; rewrite K in *; [discriminate| |];
        destruct E6 as [<-|[<-|[<-|[<-|[<-|[<-|[]]]]]]]; eauto; try discriminate SL;
        right; right; eexists; reflexivity. }
    destruct K as [->|[->|(x & K)]]; [| |congruence].
    + destruct (front_case _ F) as [K|[K|K]]; rewrite K in *; try discriminate.
      unfold pf_step in HS. rewrite K in HS. cbn in HS. discriminate HS.
    + destruct (front_case _ F) as [K|[K|K]]; rewrite K in *; try discriminate.
      unfold pf_step in HS. rewrite K in HS. cbn in HS. discriminate HS.
Qed.

Lemma fr_loop pres l :
  line_text l -> length l < 2048 ->
  exists o, pf_loop pres (cstr l) (length l) (length l) (cstr l)
              (mkPs FPStart filter0 [] 0 0 0) = Ok o /\ fr_out pres l o.
Proof.
  intros Hl L.
  apply (loop_ind2 pres l (fr_inv l) (fr_out pres l) Hl) with (n := length l) (a := @nil ascii);
    auto.
  - intros p s (I1 & _) Np Lp. destruct p; [easy|]. cbn in I1. lia.
  - intros s (I1 & I2 & I3). split; [|intros f [=]].
    intros i R. exfalso. destruct (front (s_st s)) eqn:F; [|now apply (I3 eq_refl i)].
    destruct (I2 eq_refl) as [E _]. destruct R as [R _]. rewrite <- E in R. discriminate R.
  - intros a c b s act El Ep HJ Lp HI SC HS. exact (fr_step pres l a c b s act El Ep HJ Lp HI SC HS).
  - apply J0.
  - split; [reflexivity|]. cbn. split; [auto|discriminate].
Qed.

Lemma regex_pline pres l i :
  line_text l -> length l < 2048 -> rx l i ->
  pline pres l = (regex_filter pres l i, false).
Proof.
  intros Hl L R. destruct (fr_loop pres l Hl L) as (o & E & K & _).
  pose proof (parse_filter_cstr pres l Hl) as EP. unfold parse_filter in EP.
  rewrite E, (K i R) in EP. cbn [bind] in EP. congruence.
Qed.

Lemma pline_regex pres l :
  line_text l -> length l < 2048 ->
  has (f_type (fst (pline pres l))) FTRegex = true -> exists i, rx l i.
Proof.
  intros Hl L H. destruct (fr_loop pres l Hl L) as (o & E & _ & K).
  pose proof (pline_ok pres l Hl) as RO.
  pose proof (parse_filter_cstr pres l Hl) as EP. unfold parse_filter in EP.
  rewrite E in EP. cbn [bind] in EP.
  destruct RO as (_ & _ & _ & _ & R5).
  destruct o as [f|s].
  - assert (pline pres l = (f, false)) as P by congruence. rewrite P in *. cbn [fst snd] in *.
    destruct R5 as [[_ R5]|(_ & _ & _ & R5)].
    + rewrite (types_no_regex _ R5) in H. discriminate H.
    + exact (K f eq_refl R5).
  - destruct (is_start (s_st s)).
    + assert (pline pres l = (set_type (s_f s) FTEmpty, false)) as P by congruence.
      rewrite P in H. discriminate H.
    + apply bind_ok in EP as (x & _ & EP).
      assert (snd (pline pres l) = true) as P by (destruct (pline pres l); cbn; congruence).
      rewrite P in R5. destruct R5 as [_ R5].
      rewrite types_no_regex in H; [discriminate H|]. right. right. exact R5.
Qed.

(** ** The front of a line as a grammar *)
Lemma between_app a b : between_marks (a ++ b) = between_marks a + between_marks b.
Proof. unfold between_marks. now rewrite filter_app, app_length. Qed.

Lemma between_cons c a :
  between_marks (c :: a) = (if ceq c "@" then 0 else 1) + between_marks a.
Proof.
  unfold between_marks. cbn [List.filter].
  destruct (ceq_spec c "@") as [->|N]; [reflexivity|].
  apply Ascii.eqb_neq in N. rewrite N. reflexivity.
Qed.

Lemma between_fill x : (forall c, In c x -> filler c) -> between_marks x = length x.
Proof.
  induction x as [|y x IH]; [reflexivity|]. intros Hx.
  rewrite between_cons, IH by (intros c I; apply Hx; cbn; auto).
  assert (filler y) as Fy by (apply Hx; cbn; auto).
  destruct (ceq_spec y "@") as [->|]; [|reflexivity].
  exfalso. destruct Fy as [[|]|[|[|]]]; discriminate.
Qed.

Definition shape_of (st : pstate) (p : bytes) (k : nat) : Prop :=
  match st with
  | FPStart => exists b a r, (forall c, In c b -> blank c) /\ marks a /\
      p = b ++ a ++ "/"%char :: r /\ k = between_marks a
  | FPPastWhitespace => exists b a r, (forall c, In c b -> blank c) /\ marks a /\
      p = b ++ a ++ "/"%char :: r /\ k = length b + between_marks a
  | FPOneAt => exists m w a r, (forall c, In c m -> filler c) /\
      (forall c, In c w -> blank c) /\ marks a /\
      p = m ++ "@"%char :: w ++ a ++ "/"%char :: r /\
      k = length m + length w + between_marks a
  | _ => False
  end.

Lemma scan_shape p : forall st i j, scan st p i = Some j ->
  exists k, j = i + k /\ shape_of st p k.
Proof.
  induction p as [|c p IH]; intros st i j H; [discriminate H|].
  cbn [scan] in H. destruct (ceq c "/" && is_start_or_past st) eqn:SL.
  { injection H as <-. exists 0. split; [lia|].
    apply andb_true_iff in SL as [S1 S2]. apply ceq_eq in S1. subst c.
    destruct st; try discriminate S2; exists [], [], p; cbn;
      (split; [tauto|]; split; [constructor|auto]). }
  destruct (front_step st c) as [st'|] eqn:FS; [|discriminate H].
  apply IH in H as (k & -> & K). clear IH.
  destruct st; try discriminate FS; cbn [front_step] in FS.
  - destruct (ceq_spec c "@") as [->|N].
    + injection FS as <-. destruct K as (m & w & a & r & M1 & M2 & M3 & -> & ->).
      exists (length m + length w + between_marks a). split; [reflexivity|].
      exists [], ("@"%char :: m ++ "@"%char :: w ++ a), r.
      split; [intros ? []|]. split; [now constructor|]. split.
      * cbn [app]. rewrite <- !app_assoc. cbn [app]. now rewrite <- app_assoc.
      * rewrite between_cons, between_app, between_cons, between_app. cbn [ceq].
        change (ceq "@" "@") with true.
        rewrite (between_fill m), (between_fill w); auto; [lia|]. intros x I. left. auto.
    + destruct (blankb c) eqn:BL; [|discriminate FS]. injection FS as <-.
      destruct K as (b & a & r & M1 & M2 & -> & ->).
      exists (between_marks a). split; [reflexivity|].
      exists (c :: b), a, r. split; [|auto].
      intros x [<-|I]; auto. now apply blankb_ok.
  - destruct (ceq_spec c "@") as [->|N].
    + injection FS as <-. destruct K as (m & w & a & r & M1 & M2 & M3 & -> & ->).
      exists (length m + length w + between_marks a). split; [reflexivity|].
      exists [], ("@"%char :: m ++ "@"%char :: w ++ a), r.
      split; [intros ? []|]. split; [now constructor|]. split.
      * cbn [app]. rewrite <- !app_assoc. cbn [app]. now rewrite <- app_assoc.
      * cbn [length]. rewrite between_cons, between_app, between_cons, between_app. cbn [ceq].
        change (ceq "@" "@") with true.
        rewrite (between_fill m), (between_fill w); auto; [lia|]. intros x I. left. auto.
    + destruct (blankb c) eqn:BL; [|discriminate FS]. injection FS as <-.
      destruct K as (b & a & r & M1 & M2 & -> & ->).
      exists (length (c :: b) + between_marks a).
      unfold puts. cbn [is_start negb andb]. rewrite (ceq_f _ _ N). cbn [negb length].
      split; [lia|].
      exists (c :: b), a, r. split; [|auto].
      intros x [<-|I]; auto. now apply blankb_ok.
  - destruct (ceq_spec c "@") as [->|N].
    + injection FS as <-. destruct K as (b & a & r & M1 & M2 & -> & ->).
      exists (length b + between_marks a). split; [reflexivity|].
      exists [], b, a, r. split; [intros ? []|]. cbn. auto.
    + destruct (fillerb c) eqn:BL; [|discriminate FS]. injection FS as <-.
      destruct K as (m & w & a & r & M1 & M2 & M3 & -> & ->).
      exists (length (c :: m) + length w + between_marks a).
      unfold puts. cbn [is_start negb andb]. rewrite (ceq_f _ _ N). cbn [negb length].
      split; [lia|].
      exists (c :: m), w, a, r. split; [|auto].
      intros x [<-|I]; auto. now apply fillerb_ok.
Qed.

Lemma scan_blanks w : forall st p i, st = FPStart \/ st = FPPastWhitespace ->
  (forall c, In c w -> blank c) ->
  scan st (w ++ p) i = scan st p (if is_start st then i else i + length w).
Proof.
  induction w as [|c w IH]; intros st p i S Hw.
  - cbn. destruct (is_start st); [auto|now rewrite Nat.add_0_r].
  - cbn [app scan].
    assert (c = " "%char \/ c = TAB) as Hc by (apply Hw; cbn; auto).
    assert (ceq c "/" = false /\ ceq c "@" = false /\ blankb c = true) as (C1 & C2 & C3)
      by (destruct Hc as [->| ->]; auto).
    rewrite C1. cbn [andb].
    destruct S as [->| ->]; cbn [front_step puts is_start negb andb];
      unfold puts; cbn [is_start negb andb]; rewrite C2, C3, IH by (cbn in Hw; auto); cbn [is_start negb length].
    + reflexivity.
    + f_equal. lia.
Qed.

Lemma scan_fill m : forall p i, (forall c, In c m -> filler c) ->
  scan FPOneAt (m ++ p) i = scan FPOneAt p (i + length m).
Proof.
  induction m as [|c m IH]; intros p i Hm.
  - cbn. now rewrite Nat.add_0_r.
  - cbn [app scan is_start_or_past]. rewrite andb_false_r.
    assert (filler c) as Hc by (apply Hm; cbn; auto).
    assert (ceq c "@" = false) as C.
    { destruct (ceq_spec c "@") as [->|]; auto. exfalso.
      destruct Hc as [[|]|[|[|]]]; discriminate. }
    apply fillerb_ok in Hc. cbn [front_step]. unfold puts. rewrite C, Hc.
    cbn [is_start negb andb]. rewrite IH by (cbn in Hm; auto). f_equal. cbn. lia.
Qed.

Lemma scan_marks a : marks a -> forall st r i, st = FPStart \/ st = FPPastWhitespace ->
  scan st (a ++ "/"%char :: r) i = Some (i + between_marks a).
Proof.
  induction 1 as [|m w a Hm Hw Ha IH]; intros st r i S.
  - cbn. assert (is_start_or_past st = true) as -> by (destruct S as [->| ->]; auto).
    f_equal. lia.
  - cbn [app]. rewrite <- app_assoc. cbn [app]. rewrite <- app_assoc.
    cbn [scan]. change (ceq "@" "/") with false. cbn [andb].
    assert (front_step st "@" = Some FPOneAt /\ puts st "@" = false) as [-> ->].
    { destruct S as [->| ->]; auto. }
    rewrite scan_fill by auto. cbn [scan]. change (ceq "@" "/") with false. cbn [andb].
    change (front_step FPOneAt "@") with (Some FPPastWhitespace).
    change (puts FPOneAt "@") with false. cbv iota.
    rewrite scan_blanks by auto. cbn [is_start]. rewrite IH by auto. f_equal.
    rewrite between_cons, between_app, between_cons, between_app.
    change (ceq "@" "@") with true.
    rewrite (between_fill m), (between_fill w); auto; [lia|]. intros x I. left. auto.
Qed.

Lemma slashed_scan l a : slashed l a -> scan FPStart l 0 = Some (between_marks a).
Proof.
  intros (_ & b & r & Hb & Ha & ->). rewrite scan_blanks by auto. cbn [is_start].
  now rewrite scan_marks by auto.
Qed.

Lemma scan_slashed l i : last l NUL = "/"%char -> scan FPStart l 0 = Some i ->
  exists a, slashed l a /\ i = between_marks a.
Proof.
  intros La H. apply scan_shape in H as (k & -> & b & a & r & H1 & H2 & H3 & ->).
  exists a. split; [|reflexivity]. split; auto. exists b, r. auto.
Qed.

Lemma rx_line l : regex_line l <-> exists i, rx l i.
Proof.
  split.
  - intros (L & a & S). exists (between_marks a). split; [now apply slashed_scan|].
    split; [apply S|auto].
  - intros (i & R & La & L). split; auto. destruct (scan_slashed l i La R) as (a & S & _).
    eauto.
Qed.

(** ** Leading blanks *)
Lemma loop_sh2 pres bl l n p s a :
  line_text l -> length bl + length l < 2048 ->
  l = a ++ p -> s_pos s = length a -> length p <= n ->
  scan FPStart l 0 = None -> fr_inv l p s -> J s ->
  pf_loop pres (bl ++ cstr l) (length bl + length l) (length p) (cstr p)
          (sh (length bl) s) =
  rmap (sh_out (length bl)) (pf_loop pres (cstr l) (length l) (length p) (cstr p) s).
Proof.
  intros Hl HL. revert p s a. induction n as [|n IH]; intros p s a El Ep Hn HC HF HJ.
  - destruct p; [reflexivity|cbn in Hn; lia].
  - destruct p as [|c b]; [reflexivity|].
    assert (length l = length a + S (length b)) as Ll
      by (rewrite El, app_length; reflexivity).
    cbn [length]. change (cstr (c :: b)) with (c :: cstr b). cbn [pf_loop].
    cbn [sh s_pos]. fold (sh (length bl) s).
    unfold kMaxLineLength.
    destruct (Nat.leb_spec (2048 - 1) (length bl + s_pos s)) as [L|L]; [lia|].
    destruct (Nat.leb_spec (2048 - 1) (s_pos s)) as [L'|L']; [lia|].
    rewrite pf_step_sh.
    2:{ lia. }
    2:{ intros -> Es. exfalso. destruct HF as (_ & F2 & _).
        destruct F2 as [F2 _]; [unfold front; now rewrite Es|].
        rewrite HC in F2. cbn [scan] in F2. rewrite Es in F2. discriminate F2. }
    destruct (pf_step_sim pres l a c b NUL [] s El Ep HJ) as (act & _ & E2 & E3);
      auto; [left; auto|].
    change (b ++ [NUL]) with (cstr b) in E2. change (l ++ [NUL]) with (cstr l) in E2.
    rewrite E2. cbn [rmap bind].
    pose proof (pf_step_cases pres l a c b s act El Ep HJ) as SC.
    specialize (SC ltac:(unfold kMaxLineLength; lia) Hl E2).
    pose proof (fr_step pres l a c b s act El Ep HJ ltac:(lia) HF SC E2) as NX.
    destruct act as [s'|s'|f|s']; cbn [sh_act]; auto.
    + destruct E3 as [HJ' Ep']. apply IH with (a := a ++ [c]); auto.
      * now rewrite <- app_assoc.
      * rewrite app_length. cbn. lia.
      * cbn in Hn. lia.
    + destruct E3 as [HJ' [Ep' Nb]]. destruct b as [|c2 b]; [easy|].
      cbn [length]. change (cstr (c2 :: b)) with (c2 :: cstr b). cbn [app].
      apply IH with (a := a ++ [c; c2]); auto.
      * now rewrite <- app_assoc.
      * rewrite app_length. cbn. lia.
      * cbn in Hn. lia.
Qed.

Lemma fr_start l : fr_inv l l (mkPs FPStart filter0 [] 0 0 0).
Proof. split; [reflexivity|]. cbn. split; [auto|discriminate]. Qed.

Lemma blanks_pline2 pres bl l :
  line_text l -> (forall c, In c bl -> blank c) ->
  length bl + length l < 2048 ->
  (last l NUL <> "/"%char \/ scan FPStart l 0 = None) ->
  pline pres (bl ++ l) = pline pres l.
Proof.
  intros Hl Hb HL [HC|HC]; [apply blanks_pline; auto|].
  assert (line_text (bl ++ l)) as Hbl.
  { apply line_text_app. split; auto. intros c I.
    destruct (Hb c I) as [->| ->]; repeat split; discriminate. }
  pose proof (parse_filter_cstr pres l Hl) as E1.
  pose proof (parse_filter_cstr pres (bl ++ l) Hbl) as E2.
  assert (parse_filter pres (cstr (bl ++ l)) (length (bl ++ l)) =
          parse_filter pres (cstr l) (length l)); [|congruence].
  unfold parse_filter. rewrite app_length.
  replace (cstr (bl ++ l)) with (bl ++ cstr l)
    by (unfold cstr; now rewrite <- app_assoc).
  rewrite loop_blanks by (auto; lia). rewrite Nat.add_0_l.
  pose proof (loop_sh2 pres bl l (length l) l (mkPs FPStart filter0 [] 0 0 0) [])
    as LS.
  unfold sh in LS at 1. cbn [s_st s_f s_data s_rs s_re s_pos] in LS.
  rewrite Nat.add_0_r in LS. rewrite LS; auto.
  - destruct (pf_loop pres (cstr l) (length l) (length l) (cstr l) _) as [o|] eqn:EL;
      [|reflexivity]. cbn [rmap bind]. destruct o as [f|s]; [reflexivity|].
    cbn [sh_out sh s_st s_f s_data]. destruct (is_start (s_st s)); [reflexivity|].
    unfold rule_text. cbn [sh s_re s_rs]. destruct pres; [|reflexivity].
    rewrite app_length.
    destruct (Nat.leb_spec (length bl + s_re s) (length bl + length (cstr l))),
      (Nat.leb_spec (s_re s) (length (cstr l))); try lia; [|reflexivity].
    replace (length bl + s_re s - (length bl + s_rs s)) with (s_re s - s_rs s) by lia.
    rewrite skipn_app. replace (length bl + s_rs s - length bl) with (s_rs s) by lia.
    rewrite (skipn_all2 bl) by lia. reflexivity.
  - apply fr_start.
  - apply J0.
Qed.

Lemma last_app_ne (b l : bytes) : l <> [] -> last (b ++ l) NUL = last l NUL.
Proof.
  intros N. induction b as [|c b IH]; [reflexivity|]. cbn [app last].
  destruct (b ++ l) eqn:E; [destruct b; [now destruct l|discriminate]|exact IH].
Qed.

Lemma rx_bound l i : line_text l -> length l < 2048 -> rx l i -> i + 2 <= length l.
Proof.
  intros Hl L (R & La & L1). destruct (scan_slashed l i La R) as (a & (_ & b & r & Hb & Ha & ->) & ->).
  destruct Ha as [|m w a Hm Hw Ha].
  - change (between_marks []) with 0. lia.
  - assert (between_marks ("@"%char :: m ++ "@"%char :: w ++ a) + 2 <=
            length ("@"%char :: m ++ "@"%char :: w ++ a)) as K.
    { assert (forall x, between_marks x <= length x) as Q.
      { intros x. unfold between_marks. clear. induction x as [|y x IH]; cbn; [lia|].
        destruct (negb _); cbn; lia. }
      rewrite between_cons, between_app, between_cons.
      change (ceq "@" "@") with true. cbn [length]. rewrite app_length. cbn [length].
      pose proof (Q m). pose proof (Q (w ++ a)). lia. }
    rewrite !app_length. cbn [length] in *. lia.
Qed.

Lemma blanks_exact pres bl l :
  line_text l -> bl <> [] -> (forall c, In c bl -> blank c) ->
  length bl + length l < 2048 ->
  (parse_filter pres (cstr (bl ++ l)) (length (bl ++ l)) =
   parse_filter pres (cstr l) (length l) <-> ~ exists a, slashed l a).
Proof.
  intros Hl Nb Hb HL.
  assert (line_text (bl ++ l)) as Hbl.
  { apply line_text_app. split; auto. intros c I.
    destruct (Hb c I) as [->| ->]; repeat split; discriminate. }
  rewrite !parse_filter_cstr by auto. split.
  - intros H (a & S). assert (pline pres (bl ++ l) = pline pres l) as E by congruence. clear H.
    assert (l <> []) as Nl by (intros ->; destruct S as [? _]; discriminate).
    pose proof (slashed_scan l a S) as R. destruct S as (La & _).
    assert (length bl > 0 /\ length l > 0) as [P1 P2] by (destruct bl, l; cbn; try easy; lia).
    assert (rx (bl ++ l) (between_marks a)) as R1.
    { split; [|split].
      - now rewrite scan_blanks by auto.
      - now rewrite last_app_ne.
      - rewrite app_length. lia. }
    rewrite (regex_pline pres (bl ++ l) _ Hbl ltac:(rewrite app_length; lia) R1) in E.
    assert (has (f_type (fst (pline pres l))) FTRegex = true) as T.
    { rewrite <- E. now destruct pres. }
    apply (pline_regex pres l Hl ltac:(lia)) in T as (j & R2).
    assert (j = between_marks a) as -> by (destruct R2 as [R2 _]; congruence).
    rewrite (regex_pline pres l _ Hl ltac:(lia) R2) in E.
    pose proof (rx_bound l _ Hl ltac:(lia) R2) as Q.
    apply (f_equal (fun x => f_data (fst x))) in E. unfold regex_filter in E. cbv zeta in E.
    assert (firstn (length (bl ++ l) - between_marks a - 2) (skipn (between_marks a + 1) (bl ++ l)) =
            firstn (length l - between_marks a - 2) (skipn (between_marks a + 1) l)) as E'.
    { destruct pres; cbn in E; congruence. }
    apply (f_equal (@length ascii)) in E'.
    rewrite !firstn_length, !skipn_length, app_length in E'. lia.
  - intros N. f_equal. apply blanks_pline2; auto.
    destruct (ascii_dec (last l NUL) "/") as [La|La]; auto. right.
    destruct (scan FPStart l 0) as [i|] eqn:R; auto. exfalso. apply N.
    destruct (scan_slashed l i La R) as (a & S & _). eauto.
Qed.

(** ** What becomes of an expression *)
Lemma regex_class E pres l i : classify E (regex_filter pres l i) = Ok (CList KNoFp).
Proof. unfold regex_filter. cbv zeta. destruct pres; reflexivity. Qed.

(** ** Exception lines *)
Definition exc_inv2 (s : ps) : Prop :=
  In (f_type (s_f s)) (exc_types ++ only_types) /\
  (s_st s = FPDataOnly -> In (f_type (s_f s)) only_types) /\
  (s_st s <> FPDataOnly -> In (f_type (s_f s)) exc_types) /\
  (is_start_or_past (s_st s) = true \/ s_st s = FPOneAt \/ s_st s = FPOneBar ->
     f_type (s_f s) = FTException) /\
  s_st s <> FPStart.

Definition exc_out2 (o : pout) : Prop :=
  match o with
  | PReturn f => never_block f \/ f_type f = FTRegex
  | PEnd s => In (f_type (s_f s)) (exc_types ++ only_types)
  end.

Lemma exc_step2 pres l c b s act :
  exc_inv2 s -> step_case pres l c b s act ->
  match act with
  | ANext1 s' => exc_inv2 s'
  | ANext2 s' => b <> [] -> exc_inv2 s'
  | AReturn f => exc_out2 (PReturn f)
  | ABreak s' => exc_out2 (PEnd s')
  end.
Proof.
  intros (H1 & H2 & H3 & H5 & H6) SC.
  destruct SC as [E|E1 E2|E1 E2|E1 E2 E3 E4|E1 E2|E1 E2|E1 E2|E1 E2|E1 E2 E3 E4 E5
    |E1 E2 E3|E1 E2 E3|E1 E2 E3|st' E1 E2 E3 E4 E5].
  - unfold exc_inv2. cbn [put_ps s_st s_f]. split; [auto|]. split; [auto|].
    split; [easy|].
    split; [intros [|[|]]; discriminate|discriminate].
  - unfold exc_inv2. cbn [skip_ps s_st s_f]. split; [auto|]. split; [easy|].
    split. { intros _. apply H3. intros E; now rewrite E in E2. }
    split; [|discriminate].
    intros _. apply H5. auto.
  - unfold exc_inv2. cbn [skip_ps s_st s_f]. cbv zeta.
    assert (f_type (s_f s) = FTException) as ET by (apply H5; auto).
    assert (In (f_type (if line_hostonly b
       then add_type (set_host (add_type (s_f s) FTHostAnchored) (line_host b)) FTHostOnly
       else set_host (add_type (s_f s) FTHostAnchored) (line_host b))) exc_types) as K.
    { apply memN_In. destruct (line_hostonly b); cbn [add_type set_type set_host f_type];
        rewrite ET; reflexivity. }
    split; [apply in_or_app; auto|]. split; [easy|]. split; [auto|].
    split; [intros [|[|]]; discriminate|discriminate].
  - unfold exc_inv2. cbn [skip_ps s_st s_f add_type set_type f_type].
    assert (In (N.lor (f_type (s_f s)) FTRightAnchored) exc_types) as K.
    { apply (exc_closed (fun t => N.lor t FTRightAnchored)); auto. }
    split; [apply in_or_app; auto|]. split; [easy|]. split; [auto|].
    split; [intros [|[|]]; discriminate|discriminate].
  - unfold exc_inv2. cbn [skip_ps s_st s_f]. split; [auto|]. split; [easy|].
    split. { intros _. apply H3. intros E; now rewrite E in E2. }
    split; [|discriminate].
    intros _. apply H5. auto.
  - unfold exc_inv2. cbn [skip_ps s_st s_f set_type f_type].
    split; [apply memN_In; reflexivity|]. split; [easy|].
    split; [intros _; apply memN_In; reflexivity|].
    split; [auto|discriminate].
  - left. left. reflexivity.
  - congruence.
  - right. cbn. now destruct pres.
  - intros _. unfold exc_inv2. cbn [s_st s_f set_type f_type].
    split; [apply memN_In; reflexivity|]. split; [cbn; auto|]. split; [easy|].
    split; [intros [|[|]]; discriminate|discriminate].
  - cbn [exc_out2 s_f].
    destruct (options_frame (split_on "," b)
      (mkF (f_type (cur_f c s)) 0 0 (f_data (cur_f c s)) (f_dom (cur_f c s))
        (f_tag (cur_f c s)) (f_host (cur_f c s)) (f_rule (cur_f c s))))
      as (O1 & _). rewrite O1. cbn [f_type]. unfold cur_f.
    destruct (is_onebar (s_st s) && negb (ceq c "|")) eqn:EO; [|auto].
    apply andb_true_iff in EO as [EO _].
    cbn [add_type set_type f_type]. rewrite H5; [apply memN_In; reflexivity|].
    destruct (s_st s); auto; discriminate.
  - intros _. unfold exc_inv2. cbn [s_st s_f set_type f_type].
    assert (In (if ceq (hd NUL b) "#" then FTElementHiding
                else FTElementHidingException) only_types) as K
      by (destruct (ceq (hd NUL b) "#"); cbn; auto).
    split; [apply in_or_app; auto|]. split; [auto|]. split; [easy|].
    split; [intros [|[|]]; discriminate|discriminate].
  - unfold exc_inv2. cbn [put_ps s_st s_f].
    assert (In (f_type (cur_f c s)) exc_types) as K.
    { unfold cur_f. destruct (is_onebar (s_st s) && negb (ceq c "|")) eqn:EO; [|auto].
      apply andb_true_iff in EO as [EO _].
      cbn [add_type set_type f_type]. rewrite H5; [apply memN_In; reflexivity|].
      destruct (s_st s); auto; discriminate. }
    split; [apply in_or_app; auto|].
    destruct E4 as [->|(-> & E4 & E6)].
    + split; [easy|]. split; [auto|].
      split; [intros [|[|]]; discriminate|discriminate].
    + unfold cur_st, cur_f in *. destruct (is_onebar (s_st s) && negb (ceq c "|")) eqn:EO.
      * split; [easy|]. split; [auto|].
        split; [intros [|[|]]; discriminate|discriminate].
      * split; [easy|]. split; [auto|]. split; auto.
Qed.

Lemma exception_line2 pres b r :
  line_text (b ++ B "@@" ++ r) -> (forall c, In c b -> blank c) ->
  length b < 2046 ->
  never_block (fst (pline pres (b ++ B "@@" ++ r))) \/
  f_type (fst (pline pres (b ++ B "@@" ++ r))) = FTRegex.
Proof.
  intros Hl Hb Lb.
  set (l := b ++ B "@@" ++ r) in *.
  set (k := length b).
  set (s0 := mkPs FPPastWhitespace (set_type filter0 FTException) [] k (2 + k) (2 + k)).
  assert (length l = length b + S (S (length r))) as Ll.
  { unfold l. rewrite !app_length. reflexivity. }
  assert (pf_loop pres (cstr l) (length l) (length l) (cstr l)
            (mkPs FPStart filter0 [] 0 0 0) =
          pf_loop pres (cstr l) (length l) (length r) (cstr r) s0) as EL.
  { replace (cstr l) with (b ++ B "@@" ++ cstr r) at 2.
    2:{ unfold l, cstr. rewrite <- !app_assoc. reflexivity. }
    rewrite Ll at 2. rewrite loop_blanks by (auto; lia).
    cbn [B list_ascii_of_string app]. rewrite Nat.add_0_l.
    rewrite loop_cons by lia.
    change (pf_step pres (cstr l) (length l) (S (length r)) "@" ("@"%char :: cstr r)
              (mkPs FPStart filter0 [] (length b) (length b) (length b)))
      with (Ok (skip1 FPOneAt filter0 (mkPs FPStart filter0 [] k k k))).
    cbn [bind skip1 s_data s_rs s_re s_pos]. rewrite loop_cons by (unfold k; lia).
    reflexivity. }
  destruct (loop_ind pres l (fun _ => exc_inv2) exc_out2 Hl) with (n := length r)
    (p := r) (a := b ++ B "@@") (s := s0) as (o & E1 & K); auto.
  - intros p s (H1 & H2 & H3 & H5 & H6) _ _. left. do 2 right. auto.
  - intros s (H1 & _). exact H1.
  - intros a c b' s act El _ _ _ HP SC.
    pose proof (exc_step2 pres l c b' s act HP SC) as K. destruct act; auto.
  - unfold l. now rewrite <- app_assoc.
  - cbn. rewrite app_length. cbn. unfold k. lia.
  - unfold J. cbn. repeat split; try lia; try discriminate.
  - unfold exc_inv2. cbn [s0 s_st s_f set_type f_type].
    split; [apply memN_In; reflexivity|]. split; [easy|].
    split; [intros _; apply memN_In; reflexivity|].
    split; [auto|discriminate].
  - pose proof (parse_filter_cstr pres l Hl) as EP. unfold parse_filter in EP.
    rewrite EL, E1 in EP. cbn [bind] in EP. destruct o as [f|s].
    + assert (pline pres l = (f, false)) as -> by congruence. exact K.
    + left. destruct (is_start (s_st s)).
      * assert (pline pres l = (set_type (s_f s) FTEmpty, false)) as -> by congruence.
        right. left. reflexivity.
      * apply bind_ok in EP as (x & _ & EP).
        assert (pline pres l =
          (set_data (if pres then set_rule (s_f s) x else s_f s) (s_data s), true))
          as -> by congruence.
        cbn [exc_out2] in K. do 2 right. now destruct pres.
Qed.

Lemma exception_exact E pres b r f x k :
  line_text (b ++ B "@@" ++ r) -> (forall c, In c b -> blank c) ->
  length (b ++ B "@@" ++ r) < 2048 ->
  parse_filter pres (cstr (b ++ B "@@" ++ r)) (length (b ++ B "@@" ++ r)) = Ok (f, x) ->
  classify E f = Ok k ->
  (category_of k = BlockRule <-> regex_line (b ++ B "@@" ++ r)).
Proof.
  intros Hl Hb L HP HK. rewrite parse_filter_cstr in HP by auto.
  assert (pline pres (b ++ B "@@" ++ r) = (f, x)) as P by congruence.
  assert (length b < 2046) as Lb by (rewrite !app_length in L; cbn in L; lia).
  split.
  - intros C. destruct (exception_line2 pres b r Hl Hb Lb) as [NB|T]; rewrite P in *;
      cbn [fst] in *.
    + exfalso. pose proof (never_block_class E f k NB HK) as K.
      destruct k as [|[]|[]]; cbn in K, C; discriminate.
    + apply rx_line. apply (pline_regex pres); auto. rewrite P. cbn [fst]. rewrite T. reflexivity.
  - intros R. apply rx_line in R as (i & R).
    rewrite (regex_pline pres _ i Hl L R) in P. injection P as <- _.
    rewrite regex_class in HK. injection HK as <-. reflexivity.
Qed.

Lemma regex_exact pres l f x :
  line_text l -> length l < 2048 ->
  parse_filter pres (cstr l) (length l) = Ok (f, x) ->
  (has (f_type f) FTRegex = true <-> regex_line l).
Proof.
  intros Hl L HP. rewrite parse_filter_cstr in HP by auto.
  assert (pline pres l = (f, x)) as P by congruence. split.
  - intros T. apply rx_line. apply (pline_regex pres); auto. rewrite P. exact T.
  - intros R. apply rx_line in R as (i & R). rewrite (regex_pline pres _ i Hl L R) in P.
    injection P as <- _. now destruct pres.
Qed.

Lemma regex_result pres l a :
  line_text l -> 1 < length l < 2048 -> slashed l a ->
  parse_filter pres (cstr l) (length l) =
  Ok (mkF FTRegex 0 0 (Some (regex_pattern l a, [NUL])) None [] None
          (if pres then Some (regex_pattern l a) else None), false).
Proof.
  intros Hl [L1 L2] S. rewrite parse_filter_cstr by auto. f_equal.
  rewrite (regex_pline pres l (between_marks a)); auto.
  - unfold regex_filter, regex_pattern. cbv zeta. now destruct pres.
  - split; [now apply slashed_scan|]. split; [apply S|auto].
Qed.

Lemma slashed_plain m : slashed (B "/" ++ m ++ B "/") [] /\
  regex_pattern (B "/" ++ m ++ B "/") [] = m.
Proof.
  assert (last (B "/" ++ m ++ B "/") NUL = "/"%char) as La.
  { change (B "/") with ["/"%char]. rewrite app_assoc. apply last_last. }
  split.
  - split; [exact La|]. exists [], (m ++ B "/"). split; [intros ? []|].
    split; [constructor|reflexivity].
  - unfold regex_pattern. change (between_marks []) with 0. cbn [B list_ascii_of_string app Nat.add skipn length].
    rewrite app_length. cbn [length].
    replace (S (length m + 1) - 0 - 2) with (length m) by lia.
    apply firstn_app_exact.
Qed.

Lemma network_text2 E l f x k :
  line_text l -> length l < 2048 ->
  parse_filter true (cstr l) (length l) = Ok (f, x) ->
  classify E f = Ok k ->
  category_of k = BlockRule \/ category_of k = ExceptionRule ->
  (~ regex_line l /\ exists t, unblanked l t /\ f_rule f = Some t) \/
  (exists a, slashed l a /\ 1 < length l /\ f_rule f = Some (regex_pattern l a) /\
     f_data f = Some (regex_pattern l a, [NUL])).
Proof.
  intros Hl L HP HK HC. pose proof (regex_exact true l f x Hl L HP) as RE.
  destruct (has (f_type f) FTRegex) eqn:T.
  - right. destruct (proj1 RE eq_refl) as (L1 & a & S). exists a. split; auto. split; auto.
    rewrite (regex_result true l a Hl (conj L1 L) S) in HP. injection HP as <- _. auto.
  - left. split; [intros R; apply RE in R; discriminate|].
    eapply network_text; eauto.
Qed.

(** ** The text kept with cosmetic and HTML rules *)
Definition tx2 (l p : bytes) (s : ps) : Prop :=
  s_pos s + length p = length l /\ tx_inv l p s /\
  (s_st s = FPDataOnly ->
     (exists b t, l = b ++ t /\ length b = s_rs s /\
        (forall c, In c b -> blank c) /\ ~ blank (hd NUL t)) /\
     s_pos s = s_re s + (if N.eqb (f_type (s_f s)) FTHTMLFiltering then 0 else 2) /\
     s_rs s <= s_re s).

Lemma tx2_enter l c b s f re' k :
  tx2 l (c :: b) s -> s_st s <> FPDataOnly -> ~ blank c -> b <> [] ->
  In (f_type f) only_types ->
  2 + s_pos s = re' + k -> s_rs s <= re' -> k = (if N.eqb (f_type f) FTHTMLFiltering then 0 else 2) ->
  tx2 l (tl b) (mkPs FPDataOnly f [] (s_rs s) re' (2 + s_pos s)).
Proof.
  intros (T1 & T2 & _) ND Nc Nb Tf E1 E3 E2. split; [|split].
  - destruct b; [easy|]. cbn in *. lia.
  - left. auto.
  - intros _. cbn [s_rs s_pos s_re s_f]. split; [|rewrite <- E2; auto].
    destruct T2 as [[E _]|(_ & E & T2)]; [congruence|].
    destruct (is_start (s_st s)).
    + destruct T2 as (b0 & F1 & F2 & F3 & F4). exists b0, (c :: b). auto.
    + exact T2.
Qed.

Lemma tx2_step pres l a c b s act :
  l = a ++ c :: b -> s_pos s = length a -> J s -> tx2 l (c :: b) s ->
  step_case pres l c b s act ->
  match act with
  | ANext1 s' => tx2 l b s'
  | ANext2 s' => b <> [] -> tx2 l (tl b) s'
  | AReturn f => True
  | ABreak s' => s_st s' <> FPDataOnly /\ In (f_type (s_f s')) net_types \/ True
  end.
Proof.
  intros El Ep HJ HT SC. pose proof HT as (T1 & T2 & T3).
  destruct HJ as (_ & _ & _ & _ & J5).
  pose proof (tx_step pres l a c b s act El Ep T2 SC) as K. cbn [length] in T1.
  destruct SC as [E|E1 E2|E1 E2|E1 E2 E3 E4|E1 E2|E1 E2|E1 E2|E1 E2|E1 E2 E3 E4 E5
    |E1 E2 E3|E1 E2 E3|E1 E2 E3|st' E1 E2 E3 E4 E5]; auto.
  - split; [cbn; lia|]. split; [auto|]. intros _. destruct (T3 E) as (A1 & A2 & A3).
    cbn [put_ps s_rs s_pos s_re s_f]. split; [auto|]. lia.
  - split; [cbn; lia|]. split; [auto|discriminate].
  - split; [cbn; lia|]. split; [auto|discriminate].
  - split; [cbn; lia|]. split; [auto|discriminate].
  - split; [cbn; lia|]. split; [auto|discriminate].
  - split; [cbn; lia|]. split; [auto|discriminate].
  - split; [cbn; lia|]. split; [auto|discriminate].
  - intros Nb. assert (s_re s = s_pos s) as R.
    { destruct T2 as [[E _]|(_ & E & _)]; congruence. }
    eapply tx2_enter with (k := 0); eauto; [subst c; intros [|]; discriminate|cbn; auto|lia|lia].
  - intros Nb. assert (s_re s = s_pos s) as R.
    { destruct T2 as [[E _]|(_ & E & _)]; congruence. }
    eapply tx2_enter with (k := 2); eauto; [subst c; intros [|]; discriminate| |lia|].
    + cbn. destruct (ceq (hd NUL b) "#"); auto.
    + cbn. destruct (ceq (hd NUL b) "#"); reflexivity.
  - split; [cbn; lia|]. split; [auto|]. cbn [put_ps s_st].
    destruct E4 as [->|(-> & _)]; [discriminate|].
    unfold cur_st. destruct (_ && _); [discriminate|]. intros; congruence.
Qed.

Definition tx2_out (l : bytes) (o : pout) : Prop :=
  match o with
  | PReturn f => ~ In (f_type f) only_types
  | PEnd s => In (f_type (s_f s)) only_types -> 
      s_pos s = length l /\
      (exists b t, l = b ++ t /\ length b = s_rs s /\
        (forall c, In c b -> blank c) /\ ~ blank (hd NUL t)) /\
      s_pos s = s_re s + (if N.eqb (f_type (s_f s)) FTHTMLFiltering then 0 else 2) /\
      s_rs s <= s_re s
  end.

Lemma only_not_net t : In t only_types -> ~ In t net_types.
Proof.
  intros I J. assert (forallb (fun t => negb (memN t net_types)) only_types = true) as K
    by reflexivity.
  rewrite forallb_forall in K. apply K in I. apply negb_true_iff in I.
  apply memN_In in J. congruence.
Qed.

Lemma ps_ok_net s : ps_ok s -> s_st s <> FPDataOnly -> In (f_type (s_f s)) net_types.
Proof.
  intros (H1 & H2 & H3 & H4) N. destruct (s_st s).
  - rewrite H4. apply start_net. cbn; auto.
  - rewrite H4. apply start_net. cbn; auto.
  - now apply start_net.
  - now apply start_net.
  - exact H4.
  - easy.
Qed.

Lemma cosmetic_text_loop l :
  line_text l -> length l < 2048 ->
  exists o, pf_loop true (cstr l) (length l) (length l) (cstr l)
              (mkPs FPStart filter0 [] 0 0 0) = Ok o /\ tx2_out l o.
Proof.
  intros Hl L.
  apply (loop_ind true l (fun p s => tx2 l p s /\ ps_ok s) (tx2_out l) Hl)
    with (n := length l) (a := @nil ascii); auto.
  - intros p s [(T1 & _) _] Np Lp. destruct p; [easy|]. cbn in T1. lia.
  - intros s [(T1 & T2 & T3) PO] I. rewrite Nat.add_0_r in T1. split; [auto|].
    destruct (s_st s) eqn:ES; try (exfalso; apply (only_not_net _ I); apply ps_ok_net; auto;
      rewrite ES; discriminate). auto.
  - intros a c b s act El Ep HJ Lp [HT PO] SC.
    assert (line_text (c :: b)) as Hcb.
    { rewrite El in Hl. now apply line_text_app in Hl. }
    pose proof (step_ok true l c b s act Hl Hcb PO SC) as K.
    pose proof (tx2_step true l a c b s act El Ep HJ HT SC) as K2.
    destruct act as [s'|s'|f|s']; auto.
    + intros I. inversion SC; subst.
      * cbn in I. destruct I as [I|[I|[I|[]]]]; discriminate I.
      * cbn in I. destruct I as [I|[I|[I|[]]]]; discriminate I.
    + intros I. exfalso. inversion SC; subst. cbn [s_f] in I.
      destruct (options_frame (split_on "," b)
        (mkF (f_type (cur_f "$" s)) 0 0 (f_data (cur_f "$" s)) (f_dom (cur_f "$" s))
          (f_tag (cur_f "$" s)) (f_host (cur_f "$" s)) (f_rule (cur_f "$" s)))) as (O1 & _).
      rewrite O1 in I. cbn [f_type] in I. apply (only_not_net _ I).
      assert (s_st s <> FPDataOnly) as ND by assumption.
      destruct (cur_f_ok "$" s PO ND ltac:(discriminate)) as (_ & _ & _ & F4). exact F4.
  - apply J0.
  - split.
    + split; [reflexivity|]. split; [|discriminate]. right. cbn. split; [discriminate|].
      split; auto. exists []. cbn. split; auto. split; auto. split; auto. tauto.
    + split; [easy|]. split; [|easy]. sp5; easy.
Qed.

Lemma cosmetic_text E l f x k :
  line_text l -> length l < 2048 ->
  parse_filter true (cstr l) (length l) = Ok (f, x) ->
  classify E f = Ok k ->
  (category_of k = Cosmetic -> exists t y z, unblanked l (t ++ [y; z]) /\ f_rule f = Some t) /\
  (category_of k = HtmlRule -> exists t, unblanked l t /\ f_rule f = Some t).
Proof.
  intros Hl L HP HK.
  destruct (cosmetic_text_loop l Hl L) as (o & E1 & K).
  pose proof HP as HP0. unfold parse_filter in HP. rewrite E1 in HP. cbn [bind] in HP.
  assert ((category_of k = Cosmetic -> In (f_type f) [FTElementHiding; FTElementHidingException]) /\
          (category_of k = HtmlRule -> f_type f = FTHTMLFiltering)) as [T1 T2].
  { rewrite (any_category E true l f x k Hl HP0 HK). unfold type_category.
    pose proof HP0 as HP1. rewrite parse_filter_cstr in HP1 by auto.
    pose proof (pline_ok true l Hl) as RO.
    assert (pline true l = (f, x)) as Ef by congruence. rewrite Ef in RO.
    destruct RO as (_ & _ & _ & _ & R5).
    assert (In (f_type f) (FTRegex :: FTComment :: FTEmpty :: net_types ++ only_types)) as I.
    { destruct x.
      - destruct R5 as (_ & R5). do 3 right. auto.
      - cbn [fst snd] in R5. destruct R5 as [[_ R5]|(_ & _ & _ & R5)]; [right; auto|left; auto]. }
    assert (forallb (fun t =>
      implb (has t (N.lor FTElementHiding FTElementHidingException))
            (memN t [FTElementHiding; FTElementHidingException; FTComment; FTEmpty]) &&
      implb (has t FTHTMLFiltering) (N.eqb t FTHTMLFiltering || memN t [FTComment; FTEmpty]))
      (FTRegex :: FTComment :: FTEmpty :: net_types ++ only_types) = true) as Q by reflexivity.
    rewrite forallb_forall in Q. apply Q in I. clear Q. apply andb_true_iff in I as [I1 I2].
    destruct (hasUnsupportedOptions f); [split; discriminate|].
    destruct (has (f_type f) (N.lor FTComment FTEmpty)) eqn:H0; [split; discriminate|].
    assert (f_type f <> FTComment /\ f_type f <> FTEmpty) as [N1 N2].
    { split; intros Z; rewrite Z in H0; discriminate H0. }
    destruct (has (f_type f) (N.lor FTElementHiding FTElementHidingException)).
    { split; [|discriminate]. intros _. cbn [implb] in I1. apply memN_In in I1.
      destruct I1 as [I1|[I1|[I1|[I1|[]]]]]; [left; auto|right; left; auto|congruence..]. }
    destruct (has (f_type f) FTHTMLFiltering).
    { split; [discriminate|]. intros _. cbn [implb] in I2. apply orb_true_iff in I2 as [I2|I2].
      - now apply N.eqb_eq in I2.
      - apply memN_In in I2. destruct I2 as [I2|[I2|[]]]; congruence. }
    destruct (has (f_type f) FTException); split; discriminate. }
  assert (In (f_type f) only_types -> exists t u, unblanked l (t ++ u) /\ f_rule f = Some t /\
    length u = (if N.eqb (f_type f) FTHTMLFiltering then 0 else 2)) as M.
  { intros I. destruct o as [f1|s].
    - assert (f = f1) as -> by congruence. now destruct (K I).
    - destruct (is_start (s_st s)) eqn:ES.
      + assert (f = set_type (s_f s) FTEmpty) as -> by congruence.
        destruct I as [I|[I|[I|[]]]]; discriminate I.
      + apply bind_ok in HP as (y & Ey & HP).
        assert (f = set_data (set_rule (s_f s) y) (s_data s)) as -> by congruence.
        cbn [set_data set_rule f_type f_rule] in *.
        destruct (K I) as (P1 & (b & t & F1 & F2 & F3 & F4) & P2 & P3).
        unfold rule_text in Ey. destruct (_ <=? _); [|discriminate].
        assert (y = Some (firstn (s_re s - s_rs s) (skipn (s_rs s) (cstr l)))) as -> by congruence.
        set (g := if (f_type (s_f s) =? FTHTMLFiltering)%N then 0 else 2) in *.
        assert (length l = length b + length t) as Ll by (rewrite F1; apply app_length).
        assert (length t >= g) as Lg.
        { lia. }
        exists (firstn (length t - g) t), (skipn (length t - g) t).
        rewrite firstn_skipn. split; [exists b; auto|]. split.
        * f_equal. rewrite F1 at 1. unfold cstr. rewrite <- app_assoc, <- F2, skipn_app.
          rewrite skipn_all, Nat.sub_diag. cbn [skipn app].
          replace (s_re s - length b) with (length t - g) by lia.
          rewrite firstn_app. replace (length t - g - length t) with 0 by lia.
          cbn [firstn]. now rewrite app_nil_r.
        * rewrite skipn_length. lia. }
  split; intros C.
  - specialize (T1 C). destruct (M ltac:(cbn in *; tauto)) as (t & u & U & R & Lu).
    assert (N.eqb (f_type f) FTHTMLFiltering = false) as Z
      by (destruct T1 as [<-|[<-|[]]]; reflexivity).
    rewrite Z in Lu. destruct u as [|y [|z [|]]]; cbn in Lu; try discriminate. eauto 6.
  - specialize (T2 C). destruct (M ltac:(rewrite T2; cbn; tauto)) as (t & u & U & R & Lu).
    rewrite T2 in Lu. destruct u; [|discriminate Lu]. rewrite app_nil_r in U. eauto.
Qed.
