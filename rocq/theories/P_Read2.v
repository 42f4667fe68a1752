(** What any line is read as: the fronts put together. *)
From Verif Require Import Base Flags Url Sets FilterM ParseM ClientM Spec SpecM SpecG SpecLine
  P_Base P_Url P_Match P_Rule P_Parse P_List P_Shape P_Fp P_Line P_Props2 P_Props3
  P_Line2 P_Line3 P_Line4 P_Line5 P_Rx P_Read.

Section Front.
  Context (pres : bool) (l : bytes).
  Notation loop := (pf_loop pres (cstr l) (length l)).
  Notation step := (pf_step pres (cstr l) (length l)).

  Lemma last_read x : l <> [] -> rd (cstr l) (length l - 1) = Ok x -> x = last l NUL.
  Proof.
    intros NE H. unfold cstr in H.
    assert (0 < length l) by (destruct l; [easy|cbn; lia]).
    rewrite rd_app1 in H by lia. unfold rd in H.
    rewrite (last_nth l NUL) in H by auto. congruence.
  Qed.
  Lemma last_read_ok : l <> [] -> rd (cstr l) (length l - 1) = Ok (last l NUL).
  Proof.
    intros NE. unfold cstr.
    assert (0 < length l) by (destruct l; [easy|cbn; lia]).
    rewrite rd_app1 by lia. unfold rd. now rewrite (last_nth l NUL).
  Qed.

  (** Behind blanks and marks, a character that opens nothing special. *)
  Lemma switch_plain st t f d rs re pos b0 :
    st = FPStart \/ st = FPPastWhitespace ->
    (st = FPStart -> t <> [] /\ (begins (B "$") t -> begins (B "$$") t)) ->
    begins_not (fun c => blank c \/ c = "@"%char \/ c = "|"%char) t ->
    (t <> [] -> ~ comment_text t) ->
    (forall r, t = "/"%char :: r -> ~ (last l NUL = "/"%char /\ 1 < length l)) ->
    line_text l -> l = b0 ++ t -> pos = length b0 -> re = pos -> length d <= pos -> (t <> [] -> pos < 2047) ->
    bind (loop (length t) (cstr t) (mkPs st f d rs re pos)) (concl pres l) =
    bind (loop (length t) (cstr t) (mkPs FPData f d rs re pos)) (concl pres l).
  Proof.
    intros HS H0 H1 H2 H3 Hl El Ep Er Ld Ll. destruct t as [|c r].
    { cbn [length pf_loop bind concl s_st is_start].
      destruct HS as [-> | ->]; [|reflexivity]. now destruct (H0 eq_refl). }
    assert (length l = pos + S (length r)) as Ln by (rewrite El, app_length; cbn; lia).
    specialize (Ll ltac:(discriminate)).
    change (cstr (c :: r)) with (c :: cstr r). cbn [length].
    rewrite !loop_cons by lia.
    assert (line_text (c :: r)) as Ht by (rewrite El in Hl; now apply line_text_app in Hl as [_ Hl]).
    apply line_text_cons in Ht as [(C1 & C2 & C3) Ht].
    destruct (ascii_dec c "$") as [->|Nd].
    { assert ((exists r', r = "$"%char :: r') \/ begins_not (fun c => c = "$"%char) r) as [(r' & ->)|Nr].
      { destruct r as [|y r]; [right; intros ? ? [=]|].
        destruct (ascii_dec y "$") as [->|Ny]; [left; eauto|]. right. now intros ? ? [= <- _]. }
      - assert (step (length ("$"%char :: r')) "$" (cstr ("$"%char :: r')) (mkPs st f d rs re pos) =
                step (length ("$"%char :: r')) "$" (cstr ("$"%char :: r')) (mkPs FPData f d rs re pos)) as ->.
        { destruct HS as [-> | ->]; reflexivity. }
        reflexivity.
      - assert (st = FPPastWhitespace) as ->.
        { destruct HS as [-> | ->]; [|reflexivity]. exfalso. destruct (H0 eq_refl) as [_ H].
          destruct H as [z Hz]; [now exists r|]. injection Hz as ->. now apply (Nr "$"%char z eq_refl). }
        rewrite <- !loop_cons by lia.
        change ("$"%char :: cstr r) with (cstr (B "$" ++ r)).
        rewrite !(read_options pres l _ f d rs re pos (length r) r b0)
          by (auto; try discriminate; lia).
        reflexivity. }
    assert (step (length r) c (cstr r) (mkPs st f d rs re pos) =
            step (length r) c (cstr r) (mkPs FPData f d rs re pos)) as ->; [|reflexivity].
    pose proof (H1 c r eq_refl) as Nc.
    assert (c <> "@"%char /\ c <> "|"%char /\ c <> TAB /\ c <> " "%char) as (N1 & N2 & N3 & N4).
    { unfold blank in Nc. repeat split; intros ->; tauto. }
    assert (c <> "!"%char /\ c <> "["%char /\ ~ (c = "#"%char /\ exists z, r = " "%char :: z)) as (N5 & N6 & N7).
    { assert (~ comment_text (c :: r)) as H by (apply H2; discriminate). unfold comment_text in H.
      repeat split; [intros ->|intros ->|intros (-> & z & ->)]; apply H; eauto 6. }
    unfold pf_step. cbn [s_st s_f s_data s_rs s_re s_pos].
    assert (is_dataonly st = false /\ is_onebar st = false /\ is_start_or_past st = true /\ is_oneat st = false)
      as (Q1 & Q2 & Q3 & Q4) by (destruct HS as [-> | ->]; auto).
    rewrite Q1, Q2. cbn [is_dataonly is_onebar andb]. cbv zeta. rewrite Q3.
    cbn [is_start_or_past is_oneat is_start andb negb].
    rewrite (ceq_f _ _ N1), (ceq_f _ _ N2), (ceq_f _ _ N3), (ceq_f _ _ N4), (ceq_f _ _ N5), (ceq_f _ _ N6),
      (ceq_f _ _ C2), (ceq_f _ _ C3), (ceq_f _ _ Nd). cbn [orb].
    destruct (ceq_spec c "/") as [->|N8].
    { rewrite last_read_ok by (rewrite El; now destruct b0). cbn [bind].
      assert (ceq (last l NUL) "/" && (1 <? length l) = false) as ->; [|reflexivity].
      pose proof (H3 r eq_refl) as K.
      destruct (ceq_spec (last l NUL) "/") as [E|E]; [|reflexivity]. cbn [andb].
      apply Nat.ltb_ge. destruct (Nat.le_gt_cases (length l) 1); auto. exfalso. auto. }
    destruct (ceq_spec c "#") as [->|N9]; [|reflexivity].
    destruct r as [|y r]; cbn [cstr app deref bind]; [reflexivity|].
    destruct (ceq_spec y " ") as [->|]; [|reflexivity]. exfalso. apply N7. eauto.
  Qed.

  (** Behind a single '@'. *)
  Lemma switch_at t f d rs re pos b0 :
    begins_not (fun c => filler c \/ c = "@"%char) t ->
    line_text l -> l = b0 ++ t -> pos = length b0 -> re = pos -> length d <= pos -> (t <> [] -> pos < 2047) ->
    bind (loop (length t) (cstr t) (mkPs FPOneAt f d rs re pos)) (concl pres l) =
    bind (loop (length t) (cstr t) (mkPs FPData f d rs re pos)) (concl pres l).
  Proof.
    intros H1 Hl El Ep Er Ld Ll. destruct t as [|c r]; [reflexivity|].
    assert (length l = pos + S (length r)) as Ln by (rewrite El, app_length; cbn; lia).
    specialize (Ll ltac:(discriminate)).
    change (cstr (c :: r)) with (c :: cstr r). cbn [length].
    rewrite !loop_cons by lia.
    assert (line_text (c :: r)) as Ht by (rewrite El in Hl; now apply line_text_app in Hl as [_ Hl]).
    apply line_text_cons in Ht as [(C1 & C2 & C3) Ht].
    pose proof (H1 c r eq_refl) as Nc. unfold filler, blank in Nc.
    destruct (ascii_dec c "$") as [->|Nd].
    { assert ((exists r', r = "$"%char :: r') \/ begins_not (fun c => c = "$"%char) r) as [(r' & ->)|Nr].
      { destruct r as [|y r]; [right; intros ? ? [=]|].
        destruct (ascii_dec y "$") as [->|Ny]; [left; eauto|]. right. now intros ? ? [= <- _]. }
      - reflexivity.
      - rewrite <- !loop_cons by lia.
        change ("$"%char :: cstr r) with (cstr (B "$" ++ r)).
        rewrite !(read_options pres l _ f d rs re pos (length r) r b0)
          by (auto; try discriminate; lia).
        reflexivity. }
    assert (step (length r) c (cstr r) (mkPs FPOneAt f d rs re pos) =
            step (length r) c (cstr r) (mkPs FPData f d rs re pos)) as ->; [|reflexivity].
    unfold pf_step. cbn [s_st s_f s_data s_rs s_re s_pos is_dataonly is_onebar is_start_or_past is_oneat is_start andb].
    cbv zeta. cbn [negb].
    destruct (ceq_spec c "|") as [->|N1]; [reflexivity|].
    assert (c <> "@"%char /\ c <> "/"%char /\ c <> TAB /\ c <> " "%char /\ c <> "!"%char /\ c <> "["%char)
      as (N2 & N3 & N4 & N5 & N6 & N7) by (repeat split; intros ->; tauto).
    rewrite (ceq_f _ _ N2), (ceq_f _ _ N3), (ceq_f _ _ N4), (ceq_f _ _ N5), (ceq_f _ _ N6), (ceq_f _ _ N7),
      (ceq_f _ _ C2), (ceq_f _ _ C3), (ceq_f _ _ Nd). reflexivity.
  Qed.

  (** Behind a single '|'. *)
  Lemma switch_bar t f d rs re pos :
    t <> [] -> begins_not (fun c => c = "|"%char) t -> pos < 2047 ->
    loop (length t) (cstr t) (mkPs FPOneBar f d rs re pos) =
    loop (length t) (cstr t) (mkPs FPData (add_type f FTLeftAnchored) d rs re pos).
  Proof.
    intros H0 H1 Lp. destruct t as [|c r]; [easy|].
    change (cstr (c :: r)) with (c :: cstr r). cbn [length]. rewrite !loop_cons by lia.
    assert (step (length r) c (cstr r) (mkPs FPOneBar f d rs re pos) =
            step (length r) c (cstr r) (mkPs FPData (add_type f FTLeftAnchored) d rs re pos)) as ->; [|reflexivity].
    pose proof (H1 c r eq_refl) as N. unfold pf_step.
    cbn [s_st s_f s_data s_rs s_re s_pos is_dataonly is_onebar is_start_or_past is_oneat is_start andb].
    rewrite (ceq_f _ _ N). reflexivity.
  Qed.

  Definition fopen (e : bool) (a : anchor) (t : bytes) : filter :=
    match a with
    | NoAnchor => fexc e
    | LeftBar => add_type (fexc e) FTLeftAnchored
    | HostBars =>
        let f1 := set_host (add_type (fexc e) FTHostAnchored) (line_host t) in
        if line_hostonly t then add_type f1 FTHostOnly else f1
    end.

  Lemma read_rule b x e k a t body fin :
    line_text l -> (forall w, finish_text fin w -> reach fin (length l - length w)) ->
    (forall c, In c b -> blank c) -> l = b ++ x -> ~ regex_line l ->
    opening x e k a t -> contents t body fin ->
    parse_filter pres (cstr l) (length l) =
    Ok (finished pres fin (rbar body (fopen e a t)) (k ++ without_bars body) x, true).
  Proof.
    intros Hl HR Hb El Nr O C.
    pose proof C as (w & Fw & Et & _). specialize (HR w Fw).
    assert (length t = length body + length w) as Lt by (rewrite Et, app_length; lia).
    assert (exists p, x = p ++ t) as (p & Ep).
    { clear -O. destruct O as [a0 t|a0 m t|a0|a0 t|a0 t].
      - eauto.
      - exists (a0 ++ B "@" ++ m). now rewrite <- !app_assoc.
      - exists (a0 ++ B "|"). now rewrite app_nil_r.
      - exists (a0 ++ B "|"). now rewrite <- app_assoc.
      - exists (a0 ++ B "||"). now rewrite <- app_assoc. }
    assert (length l = length b + length p + length body + length w) as Lp.
    { rewrite El, Ep, !app_length. lia. }
    pose proof (reach_le _ _ HR) as Ll.
    assert (forall q, q + length w = length l -> reach fin q) as RR.
    { intros q Eq. now replace q with (length l - length w) by lia. }
    assert (t <> [] -> length b + length p < 2047) as Lpos.
    { intros Nt. destruct body as [|c0 body]; [|cbn [length] in *; lia].
      destruct fin as [|o|kd s0]; cbn [reach length] in HR.
      - inversion Fw; subst. now elim Nt.
      - lia.
      - lia. }
    change (bind (loop (length l) (cstr l) (mkPs FPStart filter0 [] 0 0 0)) (concl pres l) =
            Ok (finished pres fin (rbar body (fopen e a t)) (k ++ without_bars body) x, true)).
    assert (loop (length l) (cstr l) (mkPs FPStart filter0 [] 0 0 0) =
            loop (length x) (cstr x) (mkPs FPStart (fexc false) [] (length b) (length b) (length b))) as ->.
    { assert (length l = length b + length x /\ cstr l = b ++ cstr x) as [K1 K2].
      { rewrite El, app_length. unfold cstr. now rewrite app_assoc. }
      transitivity (loop (length b + length x) (b ++ cstr x) (mkPs FPStart filter0 [] 0 0 0));
        [now rewrite <- K1, <- K2|].
      rewrite read_blanks by (auto; lia). reflexivity. }
    assert (skipn (length b) l = x) as Ex by (now rewrite El, skipn_app, skipn_all, Nat.sub_diag).
    assert (length l = length b + length x) as Ln by (rewrite El, app_length; lia).
    rewrite <- Ex at 3.
    assert (length x = length p + length t) as Lx by (rewrite Ep, app_length; lia). clear Ep.
    assert (forall a y, marks a -> length t <= length y -> x = a ++ y ->
      loop (length x) (cstr x) (mkPs FPStart (fexc false) [] (length b) (length b) (length b)) =
      loop (length y) (cstr y) (mkPs (if nonempty a then FPPastWhitespace else FPStart) (fexc (nonempty a))
        (unmarked a) (length b) (length (b ++ a)) (length (b ++ a)))) as RM.
    { intros a0 y Ma Ly Exx.
      assert (length x = length a0 + length y /\ cstr x = a0 ++ cstr y) as [K1 K2].
      { rewrite Exx, app_length. unfold cstr. now rewrite app_assoc. }
      rewrite K1, K2. rewrite read_marks; auto.
      - cbn [orb app]. now rewrite app_length.
      - cbn; lia.
      - rewrite Exx, app_length in Lx. lia. }
    destruct O as [a0 t Ma H1 H2 H3|a0 m t Ma Hm H2|a0 Ma|a0 t Ma H1 H2|a0 t Ma];
      pose proof (unmarked_short a0) as US.
    - rewrite (RM a0 t Ma (le_n _) eq_refl). rewrite app_length in Lx.
      assert (length (b ++ a0) = length b + length p) as Lb by (rewrite app_length; lia).
      rewrite switch_plain with (b0 := b ++ a0); auto; try lia.
      + cbn [fopen]. apply read_contents with (b0 := b ++ a0); auto; try lia.
        * now rewrite El, app_assoc.
        * apply RR. lia.
      + destruct (nonempty a0); auto.
      + intros E. apply H1. destruct a0; [reflexivity|discriminate E].
      + intros r -> [E1 E2]. apply Nr. split; auto. exists a0. split; auto. exists b, r. auto.
      + now rewrite El, app_assoc.
      + intros Nt. specialize (Lpos Nt). lia.
    - rewrite (RM a0 (B "@" ++ m ++ t) Ma) by (reflexivity || (rewrite !app_length; cbn; lia)).
      rewrite !app_length in Ln. rewrite !app_length in Lx. cbn [B list_ascii_of_string app length] in Lx.
      cbn [B list_ascii_of_string app length] in Ln |- *. rewrite app_length.
      change (cstr ("@"%char :: m ++ t)) with ("@"%char :: (m ++ t) ++ [NUL]). rewrite <- app_assoc.
      rewrite loop_cons by (rewrite app_length; lia).
      assert (forall n p, step n "@" p (mkPs (if nonempty a0 then FPPastWhitespace else FPStart)
          (fexc (nonempty a0)) (unmarked a0) (length b) (length (b ++ a0)) (length (b ++ a0))) =
        Ok (ANext1 (mkPs FPOneAt (fexc (nonempty a0)) (unmarked a0) (length b)
              (S (length (b ++ a0))) (S (length (b ++ a0)))))) as ->
        by (intros; destruct (nonempty a0); reflexivity).
      cbn [bind].
      rewrite read_fill by (auto; rewrite app_length; lia).
      assert (l = (b ++ a0 ++ B "@" ++ m) ++ t) as El2.
      { rewrite El. repeat rewrite <- app_assoc. reflexivity. }
      assert (S (length (b ++ a0)) + length m = length (b ++ a0 ++ B "@" ++ m)) as ->.
      { rewrite !app_length. cbn. lia. }
      change (t ++ [NUL]) with (cstr t).
      assert (length (b ++ a0 ++ B "@" ++ m) = length b + length p) as Lb.
      { rewrite !app_length. cbn. lia. }
      rewrite switch_at with (b0 := b ++ a0 ++ B "@" ++ m); auto; try lia.
      + cbn [fopen].
        apply read_contents with (b0 := b ++ a0 ++ B "@" ++ m); auto; try (rewrite ?Lb, ?app_length; lia).
        apply RR. lia.
      + rewrite Lb, app_length. lia.
      + intros Nt. specialize (Lpos Nt). lia.
    - rewrite (RM a0 (B "|") Ma) by (reflexivity || (rewrite ?app_length; cbn; lia)).
      rewrite !app_length in Ln. rewrite !app_length in Lx. cbn [B list_ascii_of_string app length] in Lx, Ln.
      clear Fw. symmetry in Et. apply app_eq_nil in Et as [-> ->]. cbn [length] in *.
      cbn [B list_ascii_of_string app length] in Ln |- *.
      change (cstr ["|"%char]) with ["|"%char; NUL].
      rewrite loop_cons by (rewrite app_length; lia).
      assert (forall n p, step n "|" p (mkPs (if nonempty a0 then FPPastWhitespace else FPStart)
          (fexc (nonempty a0)) (unmarked a0) (length b) (length (b ++ a0)) (length (b ++ a0))) =
        Ok (ANext1 (mkPs FPOneBar (fexc (nonempty a0)) (unmarked a0) (length b)
              (S (length (b ++ a0))) (S (length (b ++ a0)))))) as ->
        by (intros; destruct (nonempty a0); reflexivity).
      cbn [bind pf_loop].
      rewrite <- (read_contents pres l [] [] fin (fopen (nonempty a0) NoAnchor []) (unmarked a0) (length b)
                  (length l) (length l) l); auto; try lia.
      + cbn [length pf_loop bind fopen]. rewrite !app_length.
        replace (S (length b + length a0)) with (length l) by lia. reflexivity.
      + now rewrite app_nil_r.
      + apply RR. cbn [length]. lia.
    - rewrite (RM a0 (B "|" ++ t) Ma) by (reflexivity || (rewrite ?app_length; cbn; lia)).
      rewrite !app_length in Ln. rewrite !app_length in Lx. cbn [B list_ascii_of_string app length] in Lx.
      cbn [B list_ascii_of_string app length] in Ln |- *.
      change (cstr ("|"%char :: t)) with ("|"%char :: cstr t).
      specialize (Lpos H1).
      assert (length (b ++ a0 ++ B "|") = length b + length p) as Lb by (rewrite !app_length; cbn; lia).
      rewrite loop_cons by (rewrite app_length; lia).
      assert (forall n p, step n "|" p (mkPs (if nonempty a0 then FPPastWhitespace else FPStart)
          (fexc (nonempty a0)) (unmarked a0) (length b) (length (b ++ a0)) (length (b ++ a0))) =
        Ok (ANext1 (mkPs FPOneBar (fexc (nonempty a0)) (unmarked a0) (length b)
              (S (length (b ++ a0))) (S (length (b ++ a0)))))) as ->
        by (intros; destruct (nonempty a0); reflexivity).
      cbn [bind]. rewrite switch_bar by (auto; rewrite app_length; lia). cbn [fopen].
      apply read_contents with (b0 := b ++ a0 ++ B "|"); auto; try (rewrite ?Lb, ?app_length; lia).
      + rewrite El. repeat rewrite <- app_assoc. reflexivity.
      + apply RR. rewrite app_length. lia.
    - rewrite (RM a0 (B "||" ++ t) Ma) by (reflexivity || (rewrite ?app_length; cbn; lia)).
      rewrite !app_length in Ln. rewrite !app_length in Lx. cbn [B list_ascii_of_string app length] in Lx.
      cbn [B list_ascii_of_string app length] in Ln |- *.
      assert (length (b ++ a0 ++ B "||") = length b + length p) as Lb by (rewrite !app_length; cbn; lia).
      change (cstr ("|"%char :: "|"%char :: t)) with ("|"%char :: "|"%char :: cstr t).
      rewrite loop_cons by (rewrite app_length; lia).
      assert (forall n p, step n "|" p (mkPs (if nonempty a0 then FPPastWhitespace else FPStart)
          (fexc (nonempty a0)) (unmarked a0) (length b) (length (b ++ a0)) (length (b ++ a0))) =
        Ok (ANext1 (mkPs FPOneBar (fexc (nonempty a0)) (unmarked a0) (length b)
              (S (length (b ++ a0))) (S (length (b ++ a0)))))) as ->
        by (intros; destruct (nonempty a0); reflexivity).
      cbn [bind]. rewrite loop_cons by (rewrite app_length; lia).
      assert (line_text t) as Ht.
      { rewrite El in Hl. apply line_text_app in Hl as [_ Hl]. apply line_text_app in Hl as [_ Hl].
        now apply line_text_app in Hl as [_ Hl]. }
      unfold pf_step. cbn [s_st s_f s_data s_rs s_re s_pos is_dataonly is_onebar is_start_or_past is_oneat is_start andb].
      change (negb (ceq "|" "|")) with false. change (ceq "|" "|") with true. cbv zeta iota.
      cbn [is_start_or_past is_onebar].
      change (parse_host (cstr t) (length t)) with (parse_host (t ++ [NUL]) (length t)).
      rewrite parse_host_term by (auto; left; auto). cbn [bind fst snd].
      unfold skip1. cbn [s_data s_rs s_re s_pos].
      change (if line_hostonly t then add_type (set_host (add_type (fexc (nonempty a0)) FTHostAnchored) (line_host t)) FTHostOnly
              else set_host (add_type (fexc (nonempty a0)) FTHostAnchored) (line_host t))
        with (fopen (nonempty a0) HostBars t).
      apply read_contents with (b0 := b ++ a0 ++ B "||"); auto; try (rewrite ?Lb, ?app_length; lia).
      + rewrite El. repeat rewrite <- app_assoc. reflexivity.
      + apply RR. rewrite app_length. lia.
  Qed.
End Front.
