(** What any line is read as. *)
From Verif Require Import Base Flags Url Sets FilterM ParseM ClientM Spec SpecM SpecG SpecLine
  P_Base P_Url P_Match P_Rule P_Parse P_List P_Shape P_Fp P_Line P_Props2 P_Props3
  P_Line2 P_Line3 P_Line4 P_Line5 P_Rx.

(** Behind the loop of [parseFilter]. *)
Definition concl (pres : bool) (l : bytes) (o : pout) : res (filter * bool) :=
  match o with
  | PReturn f => Ok (f, false)
  | PEnd s =>
      if is_start (s_st s) then Ok (set_type (s_f s) FTEmpty, false)
      else
        r <- rule_text pres (cstr l) s ;;
        let f1 := if pres then set_rule (s_f s) r else s_f s in
        Ok (set_data f1 (s_data s), true)
  end.

Section Read.
  Context (pres : bool) (l : bytes).
  Notation loop := (pf_loop pres (cstr l) (length l)).

  Lemma read_blanks b : forall n q f d rs re pos,
    (forall c, In c b -> blank c) -> pos + length b <= 2047 ->
    loop (length b + n) (b ++ q) (mkPs FPStart f d rs re pos) =
    loop n q (mkPs FPStart f d (rs + length b) (re + length b) (pos + length b)).
  Proof.
    induction b as [|c b IH]; intros n q f d rs re pos Hb L.
    - cbn [length app]. now rewrite !Nat.add_0_r.
    - cbn [length app] in *. rewrite Nat.add_succ_l, loop_cons by lia.
      assert (blank c) as Hc by (apply Hb; cbn; auto).
      assert (pf_step pres (cstr l) (length l) (length b + n) c (b ++ q) (mkPs FPStart f d rs re pos)
              = Ok (ANext1 (mkPs FPStart f d (S rs) (S re) (S pos)))) as ->
        by (destruct Hc as [-> | ->]; reflexivity).
      cbn [bind]. rewrite IH; [|intros; apply Hb; cbn; auto|lia].
      f_equal. f_equal; lia.
  Qed.

  Lemma read_past w : forall n q f d rs re pos,
    (forall c, In c w -> blank c) -> length d <= pos -> pos + length w <= 2047 ->
    loop (length w + n) (w ++ q) (mkPs FPPastWhitespace f d rs re pos) =
    loop n q (mkPs FPPastWhitespace f (d ++ w) rs (re + length w) (pos + length w)).
  Proof.
    induction w as [|c w IH]; intros n q f d rs re pos Hb Hd L.
    - cbn [length app]. now rewrite app_nil_r, !Nat.add_0_r.
    - cbn [length app] in *. rewrite Nat.add_succ_l, loop_cons by lia.
      assert (blank c) as Hc by (apply Hb; cbn; auto).
      rewrite (front_some _ _ _ _ _ _ _ FPPastWhitespace);
        [|destruct Hc as [-> | ->]; reflexivity|cbn; lia|left; destruct Hc as [-> | ->]; discriminate].
      cbn [bind]. unfold front_next, puts. cbn [s_st s_f s_data s_rs s_re s_pos is_oneat is_start negb andb].
      assert (ceq c "@" = false) as -> by (destruct Hc as [-> | ->]; reflexivity). cbn [negb].
      rewrite IH; [|intros; apply Hb; cbn; auto|rewrite app_length; cbn; lia|lia].
      rewrite <- app_assoc. cbn [app]. f_equal. f_equal; lia.
  Qed.

  Lemma read_fill m : forall n q f d rs re pos,
    (forall c, In c m -> filler c) -> length d <= pos -> pos + length m <= 2047 ->
    loop (length m + n) (m ++ q) (mkPs FPOneAt f d rs re pos) =
    loop n q (mkPs FPOneAt f (d ++ m) rs (re + length m) (pos + length m)).
  Proof.
    induction m as [|c m IH]; intros n q f d rs re pos Hb Hd L.
    - cbn [length app]. now rewrite app_nil_r, !Nat.add_0_r.
    - cbn [length app] in *. rewrite Nat.add_succ_l, loop_cons by lia.
      assert (filler c) as Hc by (apply Hb; cbn; auto).
      assert (ceq c "@" = false) as Ca.
      { destruct Hc as [[-> | ->]|[->|[-> | ->]]]; reflexivity. }
      rewrite (front_some _ _ _ _ _ _ _ FPOneAt); [| |cbn; lia|right; reflexivity].
      2:{ cbn [front_step s_st]. rewrite Ca. now rewrite (proj2 (fillerb_ok c) Hc). }
      cbn [bind]. unfold front_next, puts. cbn [s_st s_f s_data s_rs s_re s_pos is_oneat is_start negb andb].
      rewrite Ca. cbn [negb].
      rewrite IH; [|intros; apply Hb; cbn; auto|rewrite app_length; cbn; lia|lia].
      rewrite <- app_assoc. cbn [app]. f_equal. f_equal; lia.
  Qed.

  Lemma unmarked_app a b : unmarked (a ++ b) = unmarked a ++ unmarked b.
  Proof. apply filter_app. Qed.
  Lemma unmarked_fill m : (forall c, In c m -> filler c) -> unmarked m = m.
  Proof.
    induction m as [|c m IH]; [reflexivity|]. intros H. cbn [unmarked List.filter].
    assert (filler c) as Hc by (apply H; cbn; auto).
    assert (Ascii.eqb c "@" = false) as -> by (destruct Hc as [[-> | ->]|[->|[-> | ->]]]; reflexivity).
    cbn [negb]. f_equal. apply IH. intros; apply H; cbn; auto.
  Qed.
  Lemma unmarked_short a : length (unmarked a) <= length a.
  Proof. induction a as [|c a IH]; cbn; [lia|]. destruct (negb _); cbn; unfold unmarked in IH; lia. Qed.

  (** The rule so far: nothing, or an exception. *)
  Definition fexc (e : bool) : filter := if e then set_type filter0 FTException else filter0.

  Lemma read_marks a : marks a -> forall st e n q d rs re pos,
    st = FPStart \/ st = FPPastWhitespace -> length d <= pos -> pos + length a <= 2047 ->
    loop (length a + n) (a ++ q) (mkPs st (fexc e) d rs re pos) =
    loop n q (mkPs (if nonempty a then FPPastWhitespace else st) (fexc (e || nonempty a))
                   (d ++ unmarked a) rs (re + length a) (pos + length a)).
  Proof.
    induction 1 as [|m w a Hm Hw Ha IH]; intros st e n q d rs re pos HS Hd L.
    - cbn [length app nonempty unmarked List.filter]. now rewrite app_nil_r, !Nat.add_0_r, orb_false_r.
    - cbn [app nonempty]. rewrite orb_true_r.
      repeat (rewrite <- app_assoc; cbn [app]). cbn [length].
      cbn [length] in L. rewrite app_length in L. cbn [length] in L. rewrite app_length in L.
      rewrite app_length. cbn [length]. rewrite app_length.
      replace (S (length m + S (length w + length a)) + n)
        with (S (length m + S (length w + (length a + n)))) by lia.
      rewrite loop_cons by lia.
      assert (pf_step pres (cstr l) (length l) (length m + S (length w + (length a + n))) "@"
                (m ++ "@"%char :: w ++ a ++ q) (mkPs st (fexc e) d rs re pos) =
              Ok (ANext1 (mkPs FPOneAt (fexc e) d rs (S re) (S pos)))) as ->.
      { destruct HS as [-> | ->]; reflexivity. }
      cbn [bind]. rewrite read_fill by (auto; lia).
      rewrite loop_cons by lia.
      assert (forall n p f d rs re pos, pf_step pres (cstr l) (length l) n "@" p (mkPs FPOneAt f d rs re pos)
               = Ok (ANext1 (mkPs FPPastWhitespace (set_type f FTException) d rs (S re) (S pos)))) as ->
        by reflexivity.
      cbn [bind].
      replace (set_type (fexc e) FTException) with (fexc true) by (destruct e; reflexivity).
      rewrite read_past by (auto; try (rewrite app_length); lia).
      rewrite IH by (auto; try (rewrite !app_length); lia).
      assert (unmarked ("@"%char :: m ++ "@"%char :: w ++ a) = m ++ w ++ unmarked a) as ->.
      { change ("@"%char :: m ++ "@"%char :: w ++ a) with (B "@" ++ m ++ B "@" ++ w ++ a).
        rewrite !unmarked_app, (unmarked_fill m), (unmarked_fill w); auto. intros c I. left. auto. }
      cbn [orb]. rewrite !app_assoc. f_equal.
      replace (if nonempty a then FPPastWhitespace else FPPastWhitespace) with FPPastWhitespace
        by (destruct (nonempty a); reflexivity).
      f_equal; lia.
  Qed.

  (** ** The text behind the front *)
  Definition rbar (body : bytes) (f : filter) : filter :=
    if existsb (fun c => ceq c "|") body then add_type f FTRightAnchored else f.

  Lemma add_twice f t : add_type (add_type f t) t = add_type f t.
  Proof. unfold add_type, set_type. cbn [f_type f_opt f_anti f_data f_dom f_tag f_host f_rule].
    f_equal. now rewrite <- N.lor_assoc, N.lor_diag. Qed.

  Definition no_mark (y : bytes) : Prop :=
    ~ begins (B "$") y /\ ~ begins (B "##") y /\ ~ begins (B "#@") y.

  Lemma read_body w body : forall n f d rs re pos,
    length w = n -> (forall x y, body = x ++ y -> y <> [] -> no_mark (y ++ w)) ->
    line_text body -> line_text w ->
    length d <= pos -> pos + length body <= 2047 ->
    loop (length body + n) (body ++ cstr w) (mkPs FPData f d rs re pos) =
    loop n (cstr w) (mkPs FPData (rbar body f) (d ++ without_bars body) rs
                          (re + length body) (pos + length body)).
  Proof.
    induction body as [|c body IH]; intros n f d rs re pos Hn Hm Hl Hw Hd L.
    - cbn [length app]. unfold rbar. cbn [existsb without_bars List.filter]. now rewrite app_nil_r, !Nat.add_0_r.
    - cbn [length app] in *. rewrite Nat.add_succ_l, loop_cons by lia.
      destruct (Hm [] (c :: body) eq_refl) as (M1 & M2 & M3); [discriminate|].
      apply line_text_cons in Hl as [(C1 & C2 & C3) Hl].
      assert (c <> "$"%char) as Nd.
      { intros ->. apply M1. exists (body ++ w). reflexivity. }
      assert (c = "#"%char -> exists y p, body ++ cstr w = y :: p /\ y <> "#"%char /\ y <> "@"%char) as Nh.
      { intros ->. unfold cstr. rewrite app_assoc. cbn [app] in M2, M3.
        destruct (body ++ w) as [|y p] eqn:E.
        - exists NUL, []. split; [reflexivity|]. split; discriminate.
        - exists y, (p ++ [NUL]). split; [reflexivity|].
          split; intros ->; [apply M2|apply M3]; now exists p. }
      assert (pf_step pres (cstr l) (length l) (length body + n) c (body ++ cstr w)
                (mkPs FPData f d rs re pos) =
              Ok (ANext1 (mkPs FPData (if ceq c "|" then add_type f FTRightAnchored else f)
                     (d ++ (if ceq c "|" then [] else [c])) rs (S re) (S pos)))) as ->.
      { unfold pf_step. cbn [s_st is_dataonly is_onebar andb is_start_or_past is_oneat is_start s_f].
        cbv zeta. destruct (ceq_spec c "|") as [->|N1].
        { unfold skip1. cbn. now rewrite app_nil_r. }
        rewrite !put_run by lia. rewrite (ceq_f _ _ Nd).
        destruct (ceq c "@"); auto. destruct (ceq c "!" || ceq c "["); auto.
        destruct (ceq c CR || ceq c LF || ceq c TAB || ceq c " "); auto.
        destruct (ceq c "/"); auto.
        destruct (ceq_spec c "#") as [E|N2]; auto.
        destruct (Nh E) as (y & p & -> & Y1 & Y2). cbn [deref bind andb].
        now rewrite (ceq_f _ _ Y1), (ceq_f _ _ Y2). }
      cbn [bind]. rewrite IH; auto.
      + f_equal. unfold rbar. cbn [existsb without_bars List.filter].
        rewrite <- app_assoc. unfold ceq.
        destruct (Ascii.eqb c "|"); cbn [orb negb app];
          (f_equal; try lia).
        destruct (existsb _ body); auto. apply add_twice.
      + intros x y E. apply (Hm (c :: x) y). now rewrite E.
      + destruct (ceq c "|"); rewrite app_length; cbn; lia.
      + lia.
  Qed.

  (** ** The end of a rule *)
  Definition setr (f : filter) (x : bytes) : filter := if pres then set_rule f (Some x) else f.

  Definition finished (e : finish) (f : filter) (d x : bytes) : filter :=
    match e with
    | AtEnd => set_data (setr f x) d
    | WithOptions o =>
        set_data (setr (fold_left parseOption (split_on "," o)
          (mkF (f_type f) 0 0 (f_data f) (f_dom f) (f_tag f) (f_host f) (f_rule f))) x) d
    | WithSelector k s =>
        set_data (setr (set_type (take_domains f d) k)
          (if N.eqb k FTHTMLFiltering then x else firstn (length x - 2) x)) s
    end.

  Lemma text_of s : s_re s <= length l ->
    rule_text pres (cstr l) s =
    Ok (if pres then Some (firstn (s_re s - s_rs s) (skipn (s_rs s) l)) else None).
  Proof.
    intros H. unfold rule_text, cstr. destruct pres; auto.
    rewrite (proj2 (Nat.leb_le _ _)) by (rewrite app_length; lia). do 2 f_equal.
    destruct (Nat.le_gt_cases (s_rs s) (length l)) as [A|A].
    - rewrite skipn_app. replace (s_rs s - length l) with 0 by lia.
      rewrite firstn_app, skipn_length.
      replace (s_re s - s_rs s - _) with 0 by lia. now rewrite app_nil_r.
    - replace (s_re s - s_rs s) with 0 by lia. reflexivity.
  Qed.

  Lemma read_options st f d rs re pos n o b0 :
    st <> FPDataOnly -> st <> FPOneBar -> line_text l -> l = b0 ++ B "$" ++ o -> pos = length b0 ->
    re = pos -> pos < 2047 -> n = length o -> begins_not (fun c => c = "$"%char) o ->
    loop (S n) (cstr (B "$" ++ o)) (mkPs st f d rs re pos) =
    Ok (PEnd (mkPs st (fold_left parseOption (split_on "," o)
       (mkF (f_type f) 0 0 (f_data f) (f_dom f) (f_tag f) (f_host f) (f_rule f))) d rs (length l) pos)).
  Proof.
    intros N1 N2 Hl El Ep -> Lp -> Ho. change (cstr (B "$" ++ o)) with ("$"%char :: cstr o).
    rewrite loop_cons by lia. unfold pf_step. cbn [s_st s_f s_data s_rs s_re s_pos].
    assert (is_dataonly st = false) as -> by (destruct st; try reflexivity; exfalso; auto).
    assert (is_onebar st = false) as -> by (destruct st; try reflexivity; exfalso; auto).
    cbv zeta. cbn [andb ceq]. change (ceq "$" "|") with false. change (ceq "$" "@") with false.
    change (ceq "$" "!" || ceq "$" "[") with false.
    change (ceq "$" CR || ceq "$" LF || ceq "$" TAB || ceq "$" " ") with false.
    change (ceq "$" "/") with false. change (ceq "$" "$") with true. cbv iota.
    assert (line_text o) as Hto.
    { rewrite El in Hl. apply line_text_app in Hl as [_ Hl]. now apply line_text_app in Hl as [_ Hl]. }
    assert (exists y p, cstr o = y :: p /\ ceq y "$" = false) as (y & p & Ey & Ny).
    { destruct o as [|y o]; [exists NUL, []; auto|]. exists y, (cstr o). split; [reflexivity|].
      apply ceq_f. apply (Ho y o eq_refl). }
    rewrite Ey. cbn [deref bind]. rewrite Ny, <- Ey.
    assert (pos <= length l) as Lpl by (rewrite El, app_length; lia).
    assert (option_text (skipn pos (cstr l)) = Ok (skipn pos l)) as ->.
    { unfold cstr. rewrite skipn_app. replace (pos - length l) with 0 by lia. cbn [skipn].
      apply option_text_term; [|left; auto]. now apply line_text_skipn. }
    cbn [bind]. unfold cstr at 1. rewrite parseOptions_term by (auto; left; auto). cbn [bind].
    do 3 f_equal. rewrite skipn_length. lia.
  Qed.

  (** The ending, which begins at [pos], is read before the scanner gives up. *)
  Definition reach (e : finish) (pos : nat) : Prop :=
    match e with
    | AtEnd => pos <= 2047
    | WithOptions _ => pos < 2047
    | WithSelector _ s => pos < 2047 /\ (s = [] \/ 2 + pos + length s <= 2047)
    end.

  Lemma reach_le e pos : reach e pos -> pos <= 2047.
  Proof. destruct e; cbn [reach]; lia. Qed.

  Lemma loop_rest s q f d rs re pos :
    length d <= pos -> s = [] \/ pos + length s <= 2047 ->
    loop (length s) (s ++ q) (mkPs FPDataOnly f d rs re pos) =
    Ok (PEnd (mkPs FPDataOnly f (d ++ s) rs (re + length s) (pos + length s))).
  Proof.
    intros Ld [->|L]; [|now apply loop_only].
    cbn [length pf_loop]. now rewrite app_nil_r, !Nat.add_0_r.
  Qed.

  Lemma read_end e w f d rs re pos b0 :
    finish_text e w -> line_text l -> l = b0 ++ w -> pos = length b0 -> re = pos -> rs <= pos ->
    reach e pos ->
    bind (loop (length w) (cstr w) (mkPs FPData f d rs re pos)) (concl pres l) =
    Ok (finished e f d (skipn rs l), true).
  Proof.
    intros F Hl El Ep -> Lr Ll. assert (length l = pos + length w) as Ln by (rewrite El, app_length; lia).
    assert (skipn rs l = firstn (length l - rs) (skipn rs l)) as Ef.
    { symmetry. apply firstn_all2. rewrite skipn_length. lia. }
    assert (forall s, loop (length s) (cstr s) = loop (length s) (s ++ [NUL])) as Ec by reflexivity.
    destruct F as [|o Ho|s|s|s]; cbn [reach] in Ll.
    - cbn [length] in *. cbn [pf_loop bind concl s_st is_start]. rewrite text_of by (cbn; lia).
      cbn [bind s_re s_rs s_f s_data finished]. replace pos with (length l) by lia.
      rewrite <- Ef. unfold setr. now destruct pres.
    - cbn [B list_ascii_of_string app length] in Ln |- *.
      change (cstr ("$"%char :: o)) with (cstr (B "$" ++ o)).
      rewrite (read_options FPData f d rs pos pos (length o) o b0) by (auto; try discriminate; lia).
      cbn [bind concl s_st is_start]. rewrite text_of by (cbn; lia).
      cbn [bind s_re s_rs s_f s_data finished]. rewrite <- Ef. unfold setr. now destruct pres.
    - cbn [B list_ascii_of_string app length] in Ln |- *.
      change (cstr ("$"%char :: "$"%char :: s)) with ("$"%char :: "$"%char :: s ++ [NUL]).
      rewrite loop_cons by lia.
      change (pf_step pres (cstr l) (length l) (S (length s)) "$" ("$"%char :: s ++ [NUL])
         (mkPs FPData f d rs pos pos)) with
        (Ok (ANext2 (mkPs FPDataOnly (set_type (take_domains f d) FTHTMLFiltering) [] rs (2 + pos) (2 + pos)))).
      cbn [bind]. rewrite loop_rest by (cbn; try lia; apply Ll). cbn [bind concl s_st is_start].
      rewrite text_of by (cbn; lia). cbn [bind s_re s_rs s_f s_data finished app].
      replace (2 + pos + length s) with (length l) by lia. rewrite <- Ef.
      change (N.eqb FTHTMLFiltering FTHTMLFiltering) with true. unfold setr. now destruct pres.
    - cbn [B list_ascii_of_string app length] in Ln |- *.
      change (cstr ("#"%char :: "#"%char :: s)) with ("#"%char :: "#"%char :: s ++ [NUL]).
      rewrite loop_cons by lia.
      change (pf_step pres (cstr l) (length l) (S (length s)) "#" ("#"%char :: s ++ [NUL])
         (mkPs FPData f d rs pos pos)) with
        (Ok (ANext2 (mkPs FPDataOnly (set_type (take_domains f d) FTElementHiding) [] rs pos (2 + pos)))).
      cbn [bind]. rewrite loop_rest by (cbn; try lia; apply Ll). cbn [bind concl s_st is_start].
      rewrite text_of by (cbn; lia). cbn [bind s_re s_rs s_f s_data finished app].
      change (N.eqb FTElementHiding FTHTMLFiltering) with false. rewrite skipn_length.
      replace (length l - rs - 2) with (pos + length s - rs) by lia. unfold setr. now destruct pres.
    - cbn [B list_ascii_of_string app length] in Ln |- *.
      change (cstr ("#"%char :: "@"%char :: s)) with ("#"%char :: "@"%char :: s ++ [NUL]).
      rewrite loop_cons by lia.
      change (pf_step pres (cstr l) (length l) (S (length s)) "#" ("@"%char :: s ++ [NUL])
         (mkPs FPData f d rs pos pos)) with
        (Ok (ANext2 (mkPs FPDataOnly (set_type (take_domains f d) FTElementHidingException) [] rs pos (2 + pos)))).
      cbn [bind]. rewrite loop_rest by (cbn; try lia; apply Ll). cbn [bind concl s_st is_start].
      rewrite text_of by (cbn; lia). cbn [bind s_re s_rs s_f s_data finished app].
      change (N.eqb FTElementHidingException FTHTMLFiltering) with false. rewrite skipn_length.
      replace (length l - rs - 2) with (pos + length s - rs) by lia. unfold setr. now destruct pres.
  Qed.

  (** From the state FPData to the end of the line. *)
  Lemma read_contents t body e f d rs re pos b0 :
    contents t body e -> line_text l -> l = b0 ++ t -> pos = length b0 -> re = pos -> rs <= pos ->
    length d <= pos -> reach e (pos + length body) ->
    bind (loop (length t) (cstr t) (mkPs FPData f d rs re pos)) (concl pres l) =
    Ok (finished e (rbar body f) (d ++ without_bars body) (skipn rs l), true).
  Proof.
    intros (w & F & -> & M) Hl El Ep -> Lr Ld Ll.
    assert (line_text body /\ line_text w) as [Hb Hw].
    { rewrite El in Hl. apply line_text_app in Hl as [_ Hl]. now apply line_text_app. }
    assert (length l = pos + length body + length w) as Ln by (rewrite El, !app_length; lia).
    rewrite app_length. replace (cstr (body ++ w)) with (body ++ cstr w)
      by (unfold cstr; now rewrite app_assoc).
    rewrite read_body; auto; [|now apply reach_le in Ll].
    apply read_end with (b0 := b0 ++ body); auto.
    - now rewrite El, app_assoc.
    - rewrite app_length. lia.
    - lia.
  Qed.
End Read.
