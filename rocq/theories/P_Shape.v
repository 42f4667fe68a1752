(** What [parseFilter] makes of a rule line in the usual syntax. *)
From Verif Require Import Base Flags Url Sets FilterM ParseM ClientM Spec P_Base
  P_Url P_Match P_Rule P_Parse.

Lemma ceq_f a b : a <> b -> ceq a b = false.
Proof. apply ceq_neq. Qed.

(** ** Running the loop *)
Section Run.
  Context (pres : bool) (input : bytes) (ilen : nat).
  Notation loop := (pf_loop pres input ilen).

  Lemma loop_cons n c p st f d rs re pos :
    pos < 2047 ->
    loop (S n) (c :: p) (mkPs st f d rs re pos) =
    bind (pf_step pres input ilen n c p (mkPs st f d rs re pos))
      (fun a => match a with
          | ANext1 s' => loop n p s'
          | ANext2 s' =>
              match n, p with
              | S n2, _ :: p2 => loop n2 p2 s'
              | _, _ => UB
              end
          | AReturn f => Ok (PReturn f)
          | ABreak s' => Ok (PEnd s')
          end).
  Proof.
    intros H. cbn [pf_loop s_pos].
    assert (kMaxLineLength - 1 <=? pos = false) as ->.
    { apply Nat.leb_gt. exact H. }
    reflexivity.
  Qed.

  Lemma put_run st f c st0 f0 d rs re pos :
    length d < 2048 ->
    put st f c (mkPs st0 f0 d rs re pos) =
    Ok (ANext1 (mkPs st f (d ++ [c]) rs (S re) (S pos))).
  Proof.
    intros H. unfold put. cbn [s_data s_rs s_re s_pos].
    assert (length d <? kMaxLineLength = true) as ->.
    { apply Nat.ltb_lt. exact H. }
    reflexivity.
  Qed.

  Lemma step_data n c p f d rs re pos :
    body_char c -> length d < 2048 ->
    pf_step pres input ilen n c p (mkPs FPData f d rs re pos) =
    Ok (ANext1 (mkPs FPData f (d ++ [c]) rs (S re) (S pos))).
  Proof.
    intros (H1 & H2 & H3 & H4 & H5 & H6) L. unfold pf_step.
    cbn [s_st is_dataonly is_onebar andb is_start_or_past is_oneat is_start s_f].
    cbv zeta. rewrite (ceq_f _ _ H1), (ceq_f _ _ H2), (ceq_f _ _ H3).
    rewrite !put_run by auto.
    destruct (ceq c "@"); auto. destruct (ceq c "!" || ceq c "["); auto.
    destruct (ceq c CR || ceq c LF || ceq c TAB || ceq c " "); auto.
    destruct (ceq c "/"); auto.
  Qed.

  Lemma loop_data s n q f d rs re pos :
    (forall c, In c s -> body_char c) ->
    length d <= pos -> pos + length s <= 2047 ->
    loop (length s + n) (s ++ q) (mkPs FPData f d rs re pos) =
    loop n q (mkPs FPData f (d ++ s) rs (re + length s) (pos + length s)).
  Proof.
    revert d re pos; induction s as [|c s IH]; intros d re pos Hs Hd Hp.
    - cbn [length app]. now rewrite app_nil_r, !Nat.add_0_r.
    - cbn [length app] in Hp |- *. rewrite Nat.add_succ_l.
      rewrite loop_cons by lia.
      rewrite step_data by (try apply Hs; cbn; auto; lia). cbn [bind].
      rewrite IH.
      + rewrite <- app_assoc. cbn [app]. f_equal. f_equal; lia.
      + intros; apply Hs; cbn; auto.
      + rewrite app_length. cbn. lia.
      + lia.
  Qed.

  (** The first character of an unanchored body. *)
  Lemma step_first st n c p f d rs re pos :
    is_start_or_past st = true -> length d < 2048 -> length input <> 0 ->
    body_char c -> ~ In c (B "@![ ") -> c <> TAB ->
    (c = "/"%char -> exists x, rd input (ilen - 1) = Ok x /\
                               (x <> "/"%char \/ ilen <= 1)) ->
    pf_step pres input ilen n c p (mkPs st f d rs re pos) =
    Ok (ANext1 (mkPs FPData f (d ++ [c]) rs (S re) (S pos))).
  Proof.
    intros Hst L Hi (H1 & H2 & H3 & H4 & H5 & H6) N1 N2 Hr. unfold pf_step.
    cbn [s_st s_f s_data].
    assert (is_dataonly st = false) as -> by now destruct st.
    assert (is_onebar st = false) as -> by now destruct st.
    cbv zeta. cbn [andb]. rewrite Hst.
    cbn [B list_ascii_of_string In] in N1.
    assert (c <> "@"%char /\ c <> "!"%char /\ c <> "["%char /\ c <> " "%char)
      as (M1 & M2 & M3 & M4) by intuition congruence.
    rewrite (ceq_f _ _ H1), (ceq_f _ _ M1), (ceq_f _ _ M2), (ceq_f _ _ M3),
      (ceq_f _ _ H5), (ceq_f _ _ H6), (ceq_f _ _ N2), (ceq_f _ _ M4),
      (ceq_f _ _ H2), (ceq_f _ _ H3). cbn [orb].
    rewrite !put_run by auto.
    destruct (ceq_spec c "/") as [E|N]; auto.
    destruct (Hr E) as (x & -> & D). cbn [bind].
    assert (ceq x "/" && (1 <? ilen) = false) as ->; auto.
    destruct D as [D|D].
    - now rewrite (ceq_f _ _ D).
    - rewrite (proj2 (Nat.ltb_ge _ _)) by auto. apply andb_false_r.
  Qed.
End Run.

Definition anchor_bits (a : anchor) : N :=
  match a with
  | NoAnchor => 0 | LeftBar => FTLeftAnchored | HostBars => FTHostAnchored
  end.

(** A "||" rule that names a host and nothing else. *)
Definition host_only (r : rule_syntax) : bool :=
  match x_anchor r with
  | HostBars =>
      negb (x_right r) &&
      (beq (x_body r) (host_prefix (x_body r))
       || beq (x_body r) (host_prefix (x_body r) ++ B "^"))
  | _ => false
  end.

Definition shape_type (r : rule_syntax) : N :=
  let t0 := if x_exception r then FTException else 0%N in
  let t1 := match x_anchor r with
            | NoAnchor => t0
            | LeftBar => N.lor t0 FTLeftAnchored
            | HostBars => if host_only r
                          then N.lor (N.lor t0 FTHostAnchored) FTHostOnly
                          else N.lor t0 FTHostAnchored
            end in
  if x_right r then N.lor t1 FTRightAnchored else t1.

Definition shape_host (r : rule_syntax) : option bytes :=
  match x_anchor r with HostBars => Some (host_prefix (x_body r)) | _ => None end.

(** The rule before its options are applied. *)
Definition shape_base (r : rule_syntax) : filter :=
  mkF (shape_type r) 0 0 None None [] (shape_host r) None.

Definition apply_options (o : option bytes) (f : filter) : filter :=
  match o with
  | None => f
  | Some o => fold_left parseOption (split_on "," o) f
  end.

Definition shape (pres : bool) (r : rule_syntax) : filter :=
  let f := apply_options (x_options r) (shape_base r) in
  set_data (if pres then set_rule f (Some (rule_line r)) else f) (x_body r).

Lemma host_prefix_app_nosep a b :
  (forall c, In c a -> isSeparatorChar c = false) ->
  host_prefix (a ++ b) = a ++ host_prefix b.
Proof.
  induction a as [|c a IH]; intros H; cbn; auto.
  rewrite (H c) by (cbn; auto). rewrite IH; auto. intros; apply H; cbn; auto.
Qed.

Lemma host_prefix_app_sep a c q b :
  a = host_prefix a ++ c :: q -> isSeparatorChar c = true ->
  host_prefix (a ++ b) = host_prefix a.
Proof.
  intros E Hc. rewrite E at 1. rewrite <- app_assoc. cbn [app].
  rewrite host_prefix_app_nosep.
  - cbn [host_prefix]. rewrite Hc. apply app_nil_r.
  - intros x I. destruct (host_prefix_split a) as (rest & _ & K & _).
    apply sep_false. now apply K.
Qed.

Definition tail_line (r : rule_syntax) : bytes :=
  x_body r ++ (if x_right r then B "|" else [])
  ++ match x_options r with None => [] | Some o => B "$" ++ o end.

Lemma trim_bar_nobar h : ~ In "|"%char h -> trim_bar h = h.
Proof.
  intros N. unfold trim_bar. destruct (ceq_spec (last h NUL) "|") as [E|]; auto.
  exfalso. destruct h as [|x h] using rev_ind; [discriminate E|].
  rewrite last_last in E. subst x. apply N, in_or_app. cbn. auto.
Qed.

Lemma trim_bar_snoc h : trim_bar (h ++ B "|") = h.
Proof.
  unfold trim_bar. cbn [B list_ascii_of_string]. rewrite last_last.
  change (ceq "|" "|") with true. cbn iota. now rewrite removelast_last.
Qed.

Lemma tail_line_host r :
  (forall c, In c (x_body r) -> body_char c) ->
  line_host (tail_line r) = host_prefix (x_body r) /\
  (x_anchor r = HostBars -> line_hostonly (tail_line r) = host_only r).
Proof.
  intros Hb.
  destruct (host_prefix_split (x_body r)) as (rest & E1 & K & R).
  assert (~ In "|"%char (host_prefix (x_body r))) as Nb.
  { intros I. apply host_prefix_In in I. apply Hb in I.
    destruct I as [I _]. easy. }
  assert (line_host (tail_line r) = host_prefix (x_body r)) as LH.
  { unfold line_host, tail_line.
    destruct R as [->|(c & q & -> & S)].
    - rewrite app_nil_r in E1.
      rewrite host_prefix_app_nosep.
      2:{ intros x I. apply sep_false, K. now rewrite <- E1. }
      destruct (x_right r).
      + rewrite host_prefix_app_nosep.
        2:{ intros x [<-|[]]. reflexivity. }
        rewrite <- E1.
        replace (host_prefix _) with (@nil ascii) by now destruct (x_options r).
        rewrite app_nil_r. apply trim_bar_snoc.
      + cbn [app].
        replace (host_prefix match x_options r with
                             | Some o => _ | None => [] end)
          with (@nil ascii) by now destruct (x_options r).
        rewrite app_nil_r, <- E1. apply trim_bar_nobar. now rewrite E1.
    - apply isSeparatorChar_spec in S.
      rewrite (host_prefix_app_sep _ c q); auto. now apply trim_bar_nobar. }
  split; auto. intros HA. unfold line_hostonly. rewrite LH. unfold tail_line, host_only.
  rewrite HA. rewrite E1 at 2. rewrite <- app_assoc, skipn_app_exact.
  rewrite E1 at 1 3.
  assert (forall a (b : bytes), beq (a ++ b) a = beq b []) as B1.
  { intros a b. destruct (beq_spec (a ++ b) a) as [E|N], (beq_spec b []) as [E'|N']; auto.
    - rewrite <- (app_nil_r a) in E at 2. apply app_inv_head in E. easy.
    - subst b. rewrite app_nil_r in N. easy. }
  assert (forall a (b c : bytes), beq (a ++ b) (a ++ c) = beq b c) as B2.
  { intros a b c.
    destruct (beq_spec (a ++ b) (a ++ c)) as [E|N], (beq_spec b c) as [E'|N']; auto.
    - apply app_inv_head in E. easy.
    - subst. easy. }
  rewrite B1, B2.
  destruct rest as [|c q].
  - cbn [beq orb app]. destruct (x_right r); [reflexivity|].
    now destruct (x_options r).
  - cbn [app beq orb B list_ascii_of_string].
    assert (In c (x_body r)) as I0.
    { rewrite E1. apply in_or_app. cbn. auto. }
    apply Hb in I0. destruct I0 as (H1 & H2 & H3 & H4 & H5 & H6).
    destruct (ceq c "^"); cbn [andb].
    + destruct q as [|y q].
      * cbn [app beq]. destruct (x_right r); [reflexivity|].
        now destruct (x_options r).
      * cbn [app beq]. rewrite andb_false_r.
        assert (In y (x_body r)) as I1.
        { rewrite E1. apply in_or_app. cbn. auto. }
        apply Hb in I1. destruct I1 as (G1 & G2 & G3 & G4 & G5 & G6).
        unfold eol_or, isEndOfLine.
        now rewrite (ceq_f _ _ G4), (ceq_f _ _ G2), (ceq_f _ _ G5), (ceq_f _ _ G6).
    + rewrite andb_false_r. unfold eol_or, isEndOfLine.
      now rewrite (ceq_f _ _ H4), (ceq_f _ _ H2), (ceq_f _ _ H5), (ceq_f _ _ H6).
Qed.

(** ** From the body to the end of the line *)
Lemma skipn_eq {A} (l pre w : list A) : l = pre ++ w -> skipn (length pre) l = w.
Proof. intros ->. apply skipn_app_exact. Qed.

Definition tail_rest (right : bool) (opts : option bytes) : bytes :=
  (if right then B "|" else [])
  ++ match opts with None => [] | Some o => B "$" ++ o end.

Lemma loop_opts pres l pre o f d pos :
  l = pre ++ match o with None => [] | Some o => B "$" ++ o end ->
  line_text l -> length l < 2048 -> pos = length pre ->
  (forall x, o = Some x -> hd_error x <> Some "$"%char) ->
  f_opt f = 0%N -> f_anti f = 0%N ->
  exists pos',
  pf_loop pres (cstr l) (length l) (length l - length pre)
    (cstr (skipn (length pre) l)) (mkPs FPData f d 0 pos pos) =
  Ok (PEnd (mkPs FPData (apply_options o f) d 0 (length l) pos')).
Proof.
  intros El Hl Hlen Ep Ho F1 F2. subst pos. destruct o as [o|].
  - assert (length l = length pre + S (length o)) as Ll.
    { rewrite El, !app_length. reflexivity. }
    rewrite (skipn_eq _ _ _ El).
    replace (length l - length pre) with (S (length o)) by lia.
    change (cstr (B "$" ++ o)) with ("$"%char :: cstr o).
    rewrite loop_cons by lia. unfold pf_step.
    cbn [s_st is_dataonly is_onebar andb is_start_or_past is_oneat is_start s_f].
    cbv zeta.
    change (ceq "$" "|") with false. change (ceq "$" "@") with false.
    change (ceq "$" "!" || ceq "$" "[") with false.
    change (ceq "$" CR || ceq "$" LF || ceq "$" TAB || ceq "$" " ") with false.
    change (ceq "$" "/") with false. change (ceq "$" "$") with true. cbn iota.
    assert (line_text o) as Hlo.
    { rewrite El in Hl. apply line_text_app in Hl as [_ Hl].
      now apply line_text_cons in Hl. }
    assert (exists y, deref (cstr o) = Ok y /\ ceq y "$" = false) as (y & Ey1 & Ey2).
    { specialize (Ho o eq_refl). destruct o as [|y o]; cbn.
      - exists NUL. auto.
      - exists y. split; auto. apply ceq_f. intros ->. now apply Ho. }
    rewrite Ey1. cbn [bind]. rewrite Ey2. cbn [bind s_re s_data s_rs s_pos].
    replace (skipn (length pre) (cstr l)) with (cstr (B "$" ++ o)).
    2:{ symmetry. apply skipn_eq. rewrite El. unfold cstr.
        now rewrite <- !app_assoc. }
    unfold cstr. rewrite option_text_term; [|now apply line_text_cons|left; auto].
    cbn [bind]. rewrite parseOptions_term by (auto; left; auto). cbn [bind].
    exists (length pre). unfold apply_options. do 3 f_equal.
    + destruct f; cbn in F1, F2 |- *. now subst.
    + cbn. lia.
  - rewrite app_nil_r in El. subst pre. rewrite Nat.sub_diag. exists (length l).
    reflexivity.
Qed.

Lemma loop_tail pres l pre s right o f d pos :
  l = pre ++ s ++ tail_rest right o -> line_text l -> length l < 2048 ->
  (forall c, In c s -> body_char c) -> pos = length pre -> length d <= pos ->
  (forall x, o = Some x -> hd_error x <> Some "$"%char) ->
  f_opt f = 0%N -> f_anti f = 0%N ->
  exists pos',
  pf_loop pres (cstr l) (length l) (length l - length pre)
    (cstr (skipn (length pre) l)) (mkPs FPData f d 0 pos pos) =
  Ok (PEnd (mkPs FPData
     (apply_options o (if right then add_type f FTRightAnchored else f))
     (d ++ s) 0 (length l) pos')).
Proof.
  intros El Hl Hlen Hs Ep Hd Ho F1 F2.
  assert (length l = length pre + (length s + length (tail_rest right o))) as Ll.
  { rewrite El, !app_length. lia. }
  rewrite (skipn_eq _ _ _ El).
  replace (length l - length pre) with (length s + length (tail_rest right o))
    by lia.
  unfold cstr at 2. rewrite <- app_assoc, loop_data by (auto; lia).
  subst pos. change (tail_rest right o ++ [NUL]) with (cstr (tail_rest right o)).
  unfold tail_rest in *. destruct right.
  - change (length (B "|" ++ _)) with
      (S (length (match o with Some o0 => B "$" ++ o0 | None => [] end))) in *.
    set (w := match o with Some o0 => B "$" ++ o0 | None => [] end) in *.
    change (cstr (B "|" ++ w)) with ("|"%char :: cstr w).
    rewrite loop_cons by lia. unfold pf_step.
    cbn [s_st is_dataonly is_onebar andb is_start_or_past is_oneat is_start s_f].
    cbv zeta. change (ceq "|" "|") with true. cbn iota.
    cbn [bind]. unfold skip1. cbn [s_data s_rs s_re s_pos].
    assert (l = (pre ++ s ++ B "|") ++ w) as E2.
    { rewrite El, <- !app_assoc. reflexivity. }
    destruct (loop_opts pres l (pre ++ s ++ B "|") o (add_type f FTRightAnchored)
                (d ++ s) _ E2 Hl Hlen eq_refl Ho F1 F2) as (pos' & E).
    exists pos'. rewrite <- E. rewrite (skipn_eq _ _ _ E2).
    rewrite !app_length. cbn [B list_ascii_of_string length].
    f_equal; [lia|]. f_equal; lia.
  - cbn [app length] in *.
    set (w := match o with Some o0 => B "$" ++ o0 | None => [] end) in *.
    assert (l = (pre ++ s) ++ w) as E2 by now rewrite El, <- app_assoc.
    destruct (loop_opts pres l (pre ++ s) o f
                (d ++ s) _ E2 Hl Hlen eq_refl Ho F1 F2) as (pos' & E).
    exists pos'. rewrite <- E. rewrite (skipn_eq _ _ _ E2).
    rewrite !app_length. f_equal; lia.
Qed.

Lemma good_rule_line r : good_rule r -> line_text (rule_line r).
Proof.
  intros (G1 & G2 & G3 & G4 & G5). unfold rule_line, pattern_line.
  assert (forall s, s = [] \/ s = B "@@" \/ s = B "|" \/ s = B "||" \/ s = B "$" ->
                    line_text s) as K.
  { intros s H c I.
    assert (c = "@"%char \/ c = "|"%char \/ c = "$"%char) as D.
    { destruct H as [->|[->|[->|[->| ->]]]]; cbn in I; intuition. }
    destruct D as [->|[->| ->]]; repeat split; discriminate. }
  rewrite !line_text_app. split; [split; [|split; [|split]]|].
  - destruct (x_exception r); apply K; auto.
  - destruct (x_anchor r); apply K; auto.
  - intros c I. apply G2 in I. destruct I as (_ & _ & _ & I). exact I.
  - destruct (x_right r); apply K; auto.
  - destruct (x_options r) as [o|]; [|apply K; auto].
    destruct (G4 o eq_refl) as [G6 _].
    apply line_text_app. split; [apply K; auto 8|exact G6].
Qed.

Definition ex_text (r : rule_syntax) : bytes :=
  if x_exception r then B "@@" else [].

Lemma rule_line_tail r :
  rule_line r =
  ex_text r
  ++ match x_anchor r with
     | NoAnchor => [] | LeftBar => B "|" | HostBars => B "||"
     end ++ x_body r ++ tail_rest (x_right r) (x_options r).
Proof.
  unfold rule_line, pattern_line, tail_rest, ex_text. now rewrite <- !app_assoc.
Qed.

(** The start of a line: after the optional "@@". *)
Definition start_state (r : rule_syntax) : ps :=
  if x_exception r
  then mkPs FPPastWhitespace (set_type filter0 FTException) [] 0 2 2
  else mkPs FPStart filter0 [] 0 0 0.

Lemma loop_start pres r :
  length (rule_line r) < 2048 ->
  pf_loop pres (cstr (rule_line r)) (length (rule_line r))
    (length (rule_line r)) (cstr (rule_line r)) (mkPs FPStart filter0 [] 0 0 0) =
  pf_loop pres (cstr (rule_line r)) (length (rule_line r))
    (length (rule_line r) - s_pos (start_state r))
    (cstr (skipn (s_pos (start_state r)) (rule_line r))) (start_state r).
Proof.
  intros H. unfold start_state. destruct (x_exception r) eqn:EX.
  - cbn [s_pos]. remember (rule_line r) as l eqn:El.
    unfold rule_line, pattern_line in El. rewrite EX in El.
    rewrite <- !app_assoc in El.
    match type of El with l = _ ++ ?w => set (u := w) in * end.
    cbn [B list_ascii_of_string app] in El.
    replace (pf_loop pres (cstr l) (length l) (length l) (cstr l))
      with (pf_loop pres (cstr l) (length l) (S (S (length u)))
              ("@"%char :: "@"%char :: cstr u)).
    2:{ rewrite El. reflexivity. }
    rewrite loop_cons by lia.
    change (pf_step pres (cstr l) (length l) (S (length u)) "@"
      ("@"%char :: cstr u) (mkPs FPStart filter0 [] 0 0 0))
      with (Ok (ANext1 (mkPs FPOneAt filter0 [] 0 1 1))).
    cbn [bind]. rewrite loop_cons by lia.
    change (pf_step pres (cstr l) (length l) (length u) "@" (cstr u)
      (mkPs FPOneAt filter0 [] 0 1 1))
      with (Ok (ANext1 (mkPs FPPastWhitespace (set_type filter0 FTException)
                          [] 0 2 2))).
    cbn [bind]. rewrite El. cbn [length skipn Nat.sub]. now rewrite Nat.sub_0_r.
  - cbn [s_pos]. now rewrite Nat.sub_0_r.
Qed.

Lemma shape_loop pres r :
  good_rule r ->
  exists pos',
  pf_loop pres (cstr (rule_line r)) (length (rule_line r))
    (length (rule_line r)) (cstr (rule_line r)) (mkPs FPStart filter0 [] 0 0 0) =
  Ok (PEnd (mkPs FPData (apply_options (x_options r) (shape_base r))
              (x_body r) 0 (length (rule_line r)) pos')).
Proof.
  intros G. pose proof (good_rule_line r G) as Hl.
  pose proof G as (G1 & G2 & G3 & G4 & G5).
  assert (forall x, x_options r = Some x -> hd_error x <> Some "$"%char) as Ho
    by (intros x Hx; now apply (G4 x)).
  rewrite loop_start by auto.
  pose proof (rule_line_tail r) as EL.
  set (l := rule_line r) in *.
  set (ex := ex_text r) in *.
  set (t0 := if x_exception r then FTException else 0%N).
  set (f0 := mkF t0 0 0 None None [] None None).
  assert (start_state r = mkPs (if x_exception r then FPPastWhitespace else FPStart)
     f0 [] 0 (length ex) (length ex)) as ES.
  { unfold start_state, f0, t0, ex, ex_text. now destruct (x_exception r). }
  assert (is_start_or_past (if x_exception r then FPPastWhitespace else FPStart)
          = true) as Hst by now destruct (x_exception r).
  rewrite ES. set (st := if x_exception r then FPPastWhitespace else FPStart) in *.
  cbn [s_pos].
  assert (length ex <= 2) as Lex by (unfold ex, ex_text; destruct (x_exception r); cbn; lia).
  unfold shape_base, shape_type, shape_host. fold t0.
  destruct (x_anchor r) eqn:HA.
  - (* no anchor *)
    specialize (G3 eq_refl). unfold plain_start in G3.
    destruct (x_body r) as [|c body] eqn:EB; [easy|].
    destruct G3 as (N1 & N2 & N3). cbn [app] in EL.
    rewrite (skipn_eq _ _ _ EL).
    assert (length l = length ex + S (length body + length (tail_rest (x_right r) (x_options r))))
      as Ll.
    { rewrite EL, !app_length. cbn [length]. rewrite app_length. lia. }
    replace (length l - length ex)
      with (S (length body + length (tail_rest (x_right r) (x_options r)))) by lia.
    change (cstr (c :: ?w)) with (c :: cstr w).
    rewrite loop_cons by lia. rewrite step_first; auto.
    + cbn [bind].
      assert (l = (ex ++ [c]) ++ body ++ tail_rest (x_right r) (x_options r)) as E2.
      { rewrite EL, <- app_assoc. reflexivity. }
      destruct (loop_tail pres l (ex ++ [c]) body (x_right r) (x_options r) f0
                  [c] _ E2 Hl G5 ltac:(intros; apply G2; cbn; auto) eq_refl) as (pos' & E); auto.
      * rewrite app_length. cbn. lia.
      * exists pos'. rewrite (skipn_eq _ _ _ E2) in E.
        rewrite !app_length in E. cbn [length] in E.
        replace (length l - (length ex + 1)) with
          (length body + length (tail_rest (x_right r) (x_options r))) in E by lia.
        rewrite Nat.add_1_r in E.
        cbn [app]. rewrite E. unfold add_type, set_type, f0.
        cbn [f_type f_opt f_anti f_data f_dom f_tag f_host f_rule app].
        now destruct (x_right r).
    + cbn. lia.
    + rewrite EL. unfold cstr. rewrite !app_length. cbn. lia.
    + apply G2. cbn. auto.
    + intros ->. specialize (N3 eq_refl). fold l in N3.
      assert (l <> []) as NE by (rewrite EL; now destruct ex).
      exists (last l NUL). split.
      * unfold cstr. rewrite rd_app1 by lia. unfold rd.
        now rewrite (last_nth l NUL).
      * destruct N3; [right; lia|left; auto].
  - (* "|" *)
    assert (l = ex ++ "|"%char :: x_body r ++ tail_rest (x_right r) (x_options r))
      as EL1 by exact EL.
    destruct (x_body r) as [|c body] eqn:EB; [easy|]. cbn [app] in EL1.
    rewrite (skipn_eq _ _ _ EL1).
    set (w := tail_rest (x_right r) (x_options r)) in *.
    assert (length l = length ex + S (S (length body + length w))) as Ll.
    { rewrite EL1, !app_length. cbn [length]. rewrite app_length. lia. }
    replace (length l - length ex) with (S (S (length body + length w))) by lia.
    change (cstr (?x :: ?y :: ?w)) with (x :: y :: cstr w).
    rewrite loop_cons by lia.
    replace (pf_step pres (cstr l) (length l) (S (length body + length w)) "|"
      (c :: cstr (body ++ w)) (mkPs st f0 [] 0 (length ex) (length ex)))
      with (Ok (ANext1 (mkPs FPOneBar f0 [] 0 (S (length ex)) (S (length ex))))).
    2:{ unfold st. now destruct (x_exception r). }
    cbn [bind]. rewrite loop_cons by lia.
    assert (body_char c) as Hc by (apply G2; cbn; auto).
    replace (pf_step pres (cstr l) (length l) (length body + length w) c
       (cstr (body ++ w)) (mkPs FPOneBar f0 [] 0 (S (length ex)) (S (length ex))))
      with (pf_step pres (cstr l) (length l) (length body + length w) c
       (cstr (body ++ w)) (mkPs FPData (add_type f0 FTLeftAnchored) [] 0
              (S (length ex)) (S (length ex)))).
    2:{ unfold pf_step.
        cbn [s_st is_dataonly is_onebar andb s_f]. cbv zeta.
        destruct Hc as (H1 & _). rewrite (ceq_f _ _ H1). reflexivity. }
    rewrite step_data by (auto; cbn; lia). cbn [bind].
    assert (l = (ex ++ ["|"%char; c]) ++ body ++ w) as E2.
    { rewrite EL1, <- app_assoc. reflexivity. }
    destruct (loop_tail pres l (ex ++ ["|"%char; c]) body (x_right r) (x_options r)
                (add_type f0 FTLeftAnchored) [c] _ E2 Hl G5 ltac:(intros; apply G2; cbn; auto) eq_refl) as (pos' & E); auto.
    + rewrite app_length. cbn. lia.
    + exists pos'. rewrite (skipn_eq _ _ _ E2) in E.
      rewrite !app_length in E. cbn [length] in E.
      replace (length l - (length ex + 2)) with (length body + length w) in E by lia.
      replace (length ex + 2) with (S (S (length ex))) in E by lia.
      cbn [app]. rewrite E. unfold add_type, set_type, f0.
      cbn [f_type f_opt f_anti f_data f_dom f_tag f_host f_rule app].
      now destruct (x_right r).
  - (* "||" *)
    set (w := tail_rest (x_right r) (x_options r)) in *.
    assert (l = ex ++ "|"%char :: "|"%char :: x_body r ++ w) as EL1 by exact EL.
    rewrite (skipn_eq _ _ _ EL1).
    assert (length l = length ex + S (S (length (x_body r ++ w)))) as Ll.
    { rewrite EL1, !app_length. cbn [length]. rewrite app_length. lia. }
    replace (length l - length ex) with (S (S (length (x_body r ++ w)))) by lia.
    change (cstr (?x :: ?y :: ?w)) with (x :: y :: cstr w).
    rewrite loop_cons by lia.
    replace (pf_step pres (cstr l) (length l) (S (length (x_body r ++ w))) "|"
      ("|"%char :: cstr (x_body r ++ w)) (mkPs st f0 [] 0 (length ex) (length ex)))
      with (Ok (ANext1 (mkPs FPOneBar f0 [] 0 (S (length ex)) (S (length ex))))).
    2:{ unfold st. now destruct (x_exception r). }
    cbn [bind]. rewrite loop_cons by lia.
    assert (x_body r ++ w = tail_line r) as ET.
    { reflexivity. }
    assert (line_text (tail_line r)) as Ht.
    { rewrite <- ET. rewrite EL1 in Hl. apply line_text_app in Hl as [_ Hl].
      apply line_text_cons in Hl as [_ Hl]. now apply line_text_cons in Hl. }
    destruct (tail_line_host r G2) as [LH LO]. specialize (LO HA).
    unfold pf_step at 1.
    cbn [s_st is_dataonly is_onebar andb is_start_or_past s_f]. cbv zeta.
    change (negb (ceq "|" "|")) with false. change (ceq "|" "|") with true.
    cbn iota. cbn [is_start_or_past is_onebar].
    assert (parse_host (cstr (x_body r ++ w)) (length (x_body r ++ w)) =
            Ok (line_host (tail_line r), line_hostonly (tail_line r))) as EH.
    { rewrite ET. apply parse_host_term; auto. left; auto. }
    rewrite EH. cbn [bind fst snd]. rewrite LH, LO. unfold skip1 at 1. cbn [s_data s_rs s_re s_pos].
    assert (l = (ex ++ B "||") ++ x_body r ++ w) as E2.
    { rewrite EL1, <- app_assoc. reflexivity. }
    set (f2 := if host_only r then _ else _).
    destruct (loop_tail pres l (ex ++ B "||") (x_body r) (x_right r) (x_options r)
                f2 [] _ E2 Hl G5 G2 eq_refl) as (pos' & E); auto.
    + cbn. lia.
    + unfold f2. now destruct (host_only r).
    + unfold f2. now destruct (host_only r).
    + exists pos'. rewrite (skipn_eq _ _ _ E2) in E.
      rewrite app_length in E. change (length (B "||")) with 2 in E.
      replace (length l - (length ex + 2)) with (length (x_body r ++ w)) in E by lia.
      replace (length ex + 2) with (S (S (length ex))) in E by lia.
      cbn [app] in E. rewrite E. unfold f2, add_type, set_type, set_host, f0.
      cbn [f_type f_opt f_anti f_data f_dom f_tag f_host f_rule app].
      destruct (host_only r), (x_right r); reflexivity.
Qed.

Theorem parse_rule_line pres r :
  good_rule r -> pline pres (rule_line r) = (shape pres r, true).
Proof.
  intros G. destruct (shape_loop pres r G) as (pos' & E).
  unfold pline, parse_filter. rewrite E. cbn [bind s_st is_start].
  unfold rule_text. cbn [s_rs s_re s_f s_data]. unfold shape.
  destruct pres; cbn [bind]; auto.
  rewrite (proj2 (Nat.leb_le _ _)) by (unfold cstr; rewrite app_length; lia).
  cbn [bind]. rewrite Nat.sub_0_r. cbn [skipn]. unfold cstr.
  now rewrite firstn_app_exact.
Qed.
