(** What any line is read as, and where the reader gives up. *)
From Verif Require Import Base Flags Url Sets FilterM ParseM ClientM Spec SpecM SpecG
  P_Base P_Url P_Match P_Rule P_Parse P_List P_Shape P_Fp P_Line P_Props2 P_Props3
  P_Line2 P_Line3 P_Line4 P_Line5 P_Opt P_Abb P_Match2 P_Rx P_End P_Cond SpecLine P_Read P_Read2 P_Read3 P_Read4.

Lemma split_len (s : bytes) n : n <= length s -> exists x y, s = x ++ y /\ length x = n.
Proof.
  intros L. exists (firstn n s), (skipn n s). split; [now rewrite firstn_skipn|].
  rewrite firstn_length. lia.
Qed.

Lemma cut_exc e : given_up (fexc e).
Proof. destruct e; repeat split; now left. Qed.

Section Cut.
  Context (pres : bool) (l : bytes).
  Notation loop := (pf_loop pres (cstr l) (length l)).

  Lemma cut_blanks b n q f d rs re pos :
    (forall c, In c b -> blank c) -> pos <= 2047 -> 2047 < pos + length b ->
    loop (length b + n) (b ++ q) (mkPs FPStart f d rs re pos) = Ok (PReturn f).
  Proof.
    intros Hb L1 L2. destruct (split_len b (2047 - pos)) as (x & y & -> & Lx); [lia|].
    rewrite app_length in *. rewrite <- app_assoc, <- Nat.add_assoc, read_blanks.
    - rewrite loop_stop; [reflexivity|lia|cbn [s_pos]; lia].
    - intros c I. apply Hb, in_or_app. auto.
    - lia.
  Qed.

  Lemma cut_past b n q f d rs re pos :
    (forall c, In c b -> blank c) -> length d <= pos -> pos <= 2047 -> 2047 < pos + length b ->
    loop (length b + n) (b ++ q) (mkPs FPPastWhitespace f d rs re pos) = Ok (PReturn f).
  Proof.
    intros Hb Ld L1 L2. destruct (split_len b (2047 - pos)) as (x & y & -> & Lx); [lia|].
    rewrite app_length in *. rewrite <- app_assoc, <- Nat.add_assoc, read_past.
    - rewrite loop_stop; [reflexivity|lia|cbn [s_pos]; lia].
    - intros c I. apply Hb, in_or_app. auto.
    - exact Ld.
    - lia.
  Qed.

  Lemma cut_fill b n q f d rs re pos :
    (forall c, In c b -> filler c) -> length d <= pos -> pos <= 2047 -> 2047 < pos + length b ->
    loop (length b + n) (b ++ q) (mkPs FPOneAt f d rs re pos) = Ok (PReturn f).
  Proof.
    intros Hb Ld L1 L2. destruct (split_len b (2047 - pos)) as (x & y & -> & Lx); [lia|].
    rewrite app_length in *. rewrite <- app_assoc, <- Nat.add_assoc, read_fill.
    - rewrite loop_stop; [reflexivity|lia|cbn [s_pos]; lia].
    - intros c I. apply Hb, in_or_app. auto.
    - exact Ld.
    - lia.
  Qed.

  Lemma cut_marks a : marks a -> forall st e n q d rs re pos,
    st = FPStart \/ st = FPPastWhitespace -> length d <= pos -> pos <= 2047 -> 2047 < pos + length a ->
    exists e', loop (length a + n) (a ++ q) (mkPs st (fexc e) d rs re pos) = Ok (PReturn (fexc e')).
  Proof.
    induction 1 as [|m w a Hm Hw Ha IH]; intros st e n q d rs re pos HS Hd L1 L2.
    - cbn [length] in L2. lia.
    - cbn [app]. repeat (rewrite <- app_assoc; cbn [app]). cbn [length].
      cbn [length] in L2. rewrite app_length in L2. cbn [length] in L2. rewrite app_length in L2.
      rewrite app_length. cbn [length]. rewrite app_length.
      replace (S (length m + S (length w + length a)) + n)
        with (S (length m + S (length w + (length a + n)))) by lia.
      destruct (Nat.eq_dec pos 2047) as [E1|E1].
      { exists e. rewrite loop_stop; [reflexivity|lia|cbn [s_pos]; lia]. }
      rewrite loop_cons by lia.
      assert (pf_step pres (cstr l) (length l) (length m + S (length w + (length a + n))) "@"
                (m ++ "@"%char :: w ++ a ++ q) (mkPs st (fexc e) d rs re pos) =
              Ok (ANext1 (mkPs FPOneAt (fexc e) d rs (S re) (S pos)))) as ->.
      { destruct HS as [-> | ->]; reflexivity. }
      cbn [bind].
      destruct (Nat.le_gt_cases (S pos + length m) 2047) as [E2|E2].
      2:{ exists e. rewrite cut_fill; auto; lia. }
      rewrite read_fill by (auto; lia).
      destruct (Nat.eq_dec (S pos + length m) 2047) as [E3|E3].
      { exists e. rewrite loop_stop; [reflexivity|lia|cbn [s_pos]; lia]. }
      rewrite loop_cons by lia.
      assert (forall n p f d rs re pos, pf_step pres (cstr l) (length l) n "@" p (mkPs FPOneAt f d rs re pos)
               = Ok (ANext1 (mkPs FPPastWhitespace (set_type f FTException) d rs (S re) (S pos)))) as ->
        by reflexivity.
      cbn [bind].
      replace (set_type (fexc e) FTException) with (fexc true) by (destruct e; reflexivity).
      destruct (Nat.le_gt_cases (S (S pos + length m) + length w) 2047) as [E4|E4].
      2:{ exists true. rewrite cut_past; auto; try (rewrite app_length; lia); lia. }
      rewrite read_past by (auto; try (rewrite app_length); lia).
      apply IH; auto; try (rewrite !app_length); lia.
  Qed.

  (** Blanks and marks that are too long. *)
  Lemma cut_front b a y :
    2047 < length (b ++ a) -> (forall c, In c b -> blank c) -> marks a -> l = b ++ a ++ y ->
    exists f, parse_filter pres (cstr l) (length l) = Ok (f, false) /\ given_up f.
  Proof.
    intros Ll Hb Ma El. rewrite app_length in Ll.
    change (parse_filter pres (cstr l) (length l)) with
      (bind (loop (length l) (cstr l) (mkPs FPStart filter0 [] 0 0 0)) (concl pres l)).
    assert (length l = length b + (length a + length y) /\ cstr l = b ++ a ++ cstr y) as [K1 K2].
    { rewrite El, !app_length. unfold cstr. now rewrite !app_assoc. }
    assert (loop (length l) (cstr l) (mkPs FPStart filter0 [] 0 0 0) =
            loop (length b + (length a + length y)) (b ++ a ++ cstr y) (mkPs FPStart (fexc false) [] 0 0 0)) as ->
      by (now rewrite <- K1, <- K2).
    destruct (Nat.le_gt_cases (length b) 2047) as [Lb|Lb].
    - rewrite read_blanks by (auto; lia).
      destruct (cut_marks a Ma FPStart false (length y) (cstr y) [] (0 + length b) (0 + length b) (0 + length b))
        as (e & ->); auto; try lia; [cbn; lia|].
      exists (fexc e). split; [reflexivity|]. apply cut_exc.
    - rewrite cut_blanks by (auto; lia). exists (fexc false). split; [reflexivity|]. apply cut_exc.
  Qed.

  (** At a position behind the blanks and the marks where something follows. *)
  Lemma cut_here b a y :
    length (b ++ a) = 2047 -> (forall c, In c b -> blank c) -> marks a -> l = b ++ a ++ y -> y <> [] ->
    exists f, parse_filter pres (cstr l) (length l) = Ok (f, false) /\ given_up f.
  Proof.
    intros Ll Hb Ma El Ny. rewrite (read_front pres l b a y) by (auto; lia).
    rewrite loop_stop; [|destruct y; [easy|cbn; lia]|cbn [s_pos]; lia].
    exists (fexc (nonempty a)). split; [reflexivity|]. apply cut_exc.
  Qed.

  Lemma cut_near b a y :
    2047 <= length (b ++ a) -> (forall c, In c b -> blank c) -> marks a -> l = b ++ a ++ y -> y <> [] ->
    exists f, parse_filter pres (cstr l) (length l) = Ok (f, false) /\ given_up f.
  Proof.
    intros Ll Hb Ma El Ny. destruct (Nat.eq_dec (length (b ++ a)) 2047) as [E|E].
    - now apply (cut_here b a y).
    - apply (cut_front b a y); auto. lia.
  Qed.

  (** The rule so far may be left without its pattern. *)
  Definition bare_rule (f : filter) : Prop :=
    f_data f = None /\ f_rule f = None /\ no_options f /\ f_dom f = None.

  Lemma bare_given f : bare_rule f -> given_up f.
  Proof. intros (A1 & A2 & A3 & A4). unfold given_up. auto. Qed.

  Lemma bare_rbar body f : bare_rule f -> bare_rule (rbar body f).
  Proof. unfold rbar. destruct (existsb _ body); auto. Qed.

  Lemma bare_open e a t : bare_rule (fopen e a t).
  Proof. unfold fopen. destruct e, a; try destruct (line_hostonly t); repeat split. Qed.

  Lemma bare_selector f d k :
    bare_rule f -> In k [FTHTMLFiltering; FTElementHiding; FTElementHidingException] ->
    given_up (set_type (take_domains f d) k).
  Proof.
    intros (A1 & A2 & (A3 & A4 & A5) & A6) I. unfold take_domains, given_up, no_options.
    destruct d; cbn [set_type set_dom f_data f_rule f_opt f_anti f_tag f_dom f_type]; auto 9.
  Qed.

  Lemma cut_rest s q f d rs re pos :
    length d <= pos -> s <> [] -> 2047 < pos + length s ->
    loop (length s) (s ++ q) (mkPs FPDataOnly f d rs re pos) = Ok (PReturn f).
  Proof.
    intros Ld Ns L. destruct (Nat.le_gt_cases 2047 pos) as [E|E].
    { rewrite loop_stop; [reflexivity|destruct s; [easy|cbn; lia]|exact E]. }
    remember (length s) as n eqn:En.
    revert s En d rs re pos Ld Ns L E. induction n as [|n IH]; intros [|c s] En d rs re pos Ld Ns L E; try easy.
    cbn [length] in En. injection En as En. cbn [app].
    rewrite loop_cons by lia. unfold pf_step. cbn [s_st is_dataonly s_f].
    rewrite put_run by lia. cbn [bind].
    destruct (Nat.le_gt_cases 2047 (S pos)) as [E2|E2].
    { rewrite loop_stop; [reflexivity|lia|exact E2]. }
    apply IH; auto.
    - rewrite app_length. cbn. lia.
    - intros ->. cbn in En. lia.
    - lia.
  Qed.

  Lemma cut_data t body e f d rs re pos :
    contents t body e -> line_text t -> bare_rule f -> length d <= pos -> pos <= 2047 ->
    ~ reach e (pos + length body) ->
    exists g, loop (length t) (cstr t) (mkPs FPData f d rs re pos) = Ok (PReturn g) /\ given_up g.
  Proof.
    intros (w & F & -> & M) Hl Bf Ld Lp NR. apply line_text_app in Hl as [Hb Hw].
    rewrite app_length. replace (cstr (body ++ w)) with (body ++ cstr w)
      by (unfold cstr; now rewrite app_assoc).
    destruct (Nat.le_gt_cases (pos + length body) 2047) as [E|E].
    2:{ destruct (split_len body (2047 - pos)) as (x & y & -> & Lx); [lia|].
        rewrite app_length in *. apply line_text_app in Hb as [Hx Hy].
        replace ((x ++ y) ++ cstr w) with (x ++ cstr (y ++ w))
          by (unfold cstr; now rewrite !app_assoc).
        rewrite <- Nat.add_assoc, read_body; auto.
        - exists (rbar x f). rewrite loop_stop; [|lia|cbn [s_pos]; lia]. split; [reflexivity|].
          now apply bare_given, bare_rbar.
        - now rewrite app_length.
        - intros x0 y0 -> N. specialize (M x0 (y0 ++ y)). rewrite <- !app_assoc in M.
          rewrite app_assoc. unfold no_mark. rewrite <- app_assoc. apply M; auto. now destruct y0.
        - now apply line_text_app.
        - lia. }
    rewrite read_body; auto.
    assert (forall n q s, 0 < n -> s_pos s = 2047 -> s_f s = rbar body f ->
      exists g, loop n q s = Ok (PReturn g) /\ given_up g) as Stop.
    { intros n q s Hn Hs Hf. exists (rbar body f). rewrite loop_stop by lia. rewrite Hf. split; auto.
      now apply bare_given, bare_rbar. }
    destruct F as [|o Ho|s|s|s]; cbn [reach] in NR; [lia|apply Stop; [cbn; lia|cbn; lia|reflexivity]|..];
      (destruct (Nat.eq_dec (pos + length body) 2047) as [E2|E2]; [apply Stop; [cbn; lia|cbn; lia|reflexivity]|]);
      assert (s <> []) as Ns by (intros ->; apply NR; split; [lia|auto]);
      assert (2047 < 2 + (pos + length body) + length s) as Ls by lia;
      cbn [B list_ascii_of_string app length].
    - change (cstr ("$"%char :: "$"%char :: s)) with ("$"%char :: "$"%char :: s ++ [NUL]).
      rewrite loop_cons by lia.
      match goal with |- context [pf_step ?p ?i ?n ?m ?c ?q (mkPs ?st ?f0 ?d0 ?r1 ?r2 ?ps)] =>
        change (pf_step p i n m c q (mkPs st f0 d0 r1 r2 ps)) with
          (Ok (ANext2 (mkPs FPDataOnly (set_type (take_domains f0 d0) FTHTMLFiltering) [] r1 (2 + r2) (2 + ps)))) end.
      cbn [bind]. rewrite cut_rest by (auto; cbn; lia).
      eexists. split; [reflexivity|]. apply bare_selector; [now apply bare_rbar|cbn; auto].
    - change (cstr ("#"%char :: "#"%char :: s)) with ("#"%char :: "#"%char :: s ++ [NUL]).
      rewrite loop_cons by lia.
      match goal with |- context [pf_step ?p ?i ?n ?m ?c ?q (mkPs ?st ?f0 ?d0 ?r1 ?r2 ?ps)] =>
        change (pf_step p i n m c q (mkPs st f0 d0 r1 r2 ps)) with
          (Ok (ANext2 (mkPs FPDataOnly (set_type (take_domains f0 d0) FTElementHiding) [] r1 r2 (2 + ps)))) end.
      cbn [bind]. rewrite cut_rest by (auto; cbn; lia).
      eexists. split; [reflexivity|]. apply bare_selector; [now apply bare_rbar|cbn; auto].
    - change (cstr ("#"%char :: "@"%char :: s)) with ("#"%char :: "@"%char :: s ++ [NUL]).
      rewrite loop_cons by lia.
      match goal with |- context [pf_step ?p ?i ?n ?m ?c ?q (mkPs ?st ?f0 ?d0 ?r1 ?r2 ?ps)] =>
        change (pf_step p i n m c q (mkPs st f0 d0 r1 r2 ps)) with
          (Ok (ANext2 (mkPs FPDataOnly (set_type (take_domains f0 d0) FTElementHidingException) [] r1 r2 (2 + ps)))) end.
      cbn [bind]. rewrite cut_rest by (auto; cbn; lia).
      eexists. split; [reflexivity|]. apply bare_selector; [now apply bare_rbar|cbn; auto].
  Qed.
End Cut.

Lemma cut_rule pres l b x e k a t body fin w :
  line_text l -> (forall c, In c b -> blank c) -> l = b ++ x -> ~ regex_line l ->
  opening x e k a t -> contents t body fin -> finish_text fin w -> t = body ++ w ->
  ~ reach fin (length l - length w) ->
  exists f, parse_filter pres (cstr l) (length l) = Ok (f, false) /\ given_up f.
Proof.
  intros Hl Hb El Nr O C Fw Et NR.
  assert (length t = length body + length w) as Lt by (rewrite Et, app_length; lia).
  assert (line_text t) as Ht.
  { assert (exists p, l = p ++ t) as (p & ->).
    { rewrite El. destruct O as [a0 t|a0 m t|a0|a0 t|a0 t].
      - exists (b ++ a0). now rewrite <- !app_assoc.
      - exists (b ++ a0 ++ B "@" ++ m). now rewrite <- !app_assoc.
      - exists (b ++ a0 ++ B "|"). now rewrite app_nil_r.
      - exists (b ++ a0 ++ B "|"). now rewrite <- !app_assoc.
      - exists (b ++ a0 ++ B "||"). now rewrite <- !app_assoc. }
    now apply line_text_app in Hl as [_ Hl]. }
  assert (t = [] -> fin = AtEnd /\ w = []) as Tn.
  { intros ->. symmetry in Et. apply app_eq_nil in Et as [-> ->]. split; auto. now inversion Fw. }
  assert (forall p, length l = p + length t -> ~ reach fin (p + length body)) as NR'.
  { intros p Ep. now replace (p + length body) with (length l - length w) by lia. }
  assert (forall s0 f0 d0 rs0 re0 p,
     (f0 = fopen e a t) -> length d0 <= p -> p <= 2047 -> length l = p + length t ->
     s0 = mkPs FPData f0 d0 rs0 re0 p ->
     exists f, bind (pf_loop pres (cstr l) (length l) (length t) (cstr t) s0) (concl pres l) = Ok (f, false)
       /\ given_up f) as Data.
  { intros s0 f0 d0 rs0 re0 p -> L1 L2 Ep ->.
    destruct (cut_data pres l t body fin (fopen e a t) d0 rs0 re0 p) as (g & Q & G); auto.
    - apply bare_open.
    - rewrite Q. exists g. auto. }
  assert (forall n q s, 0 < n -> 2047 <= s_pos s -> s_f s = fexc e ->
      exists g, bind (pf_loop pres (cstr l) (length l) n q s) (concl pres l) = Ok (g, false) /\ given_up g) as Stop.
  { intros n q s Hn Hs Hf. exists (fexc e). rewrite loop_stop by lia. rewrite Hf. split; auto. apply cut_exc. }
  assert (forall a0 y, marks a0 -> l = b ++ a0 ++ y -> y <> [] ->
     (length (b ++ a0) < 2047 ->
        exists f, parse_filter pres (cstr l) (length l) = Ok (f, false) /\ given_up f) ->
     exists f, parse_filter pres (cstr l) (length l) = Ok (f, false) /\ given_up f) as Near.
  { intros a0 y Ma E Ny H. destruct (Nat.le_gt_cases 2047 (length (b ++ a0))) as [L|L]; auto.
    now apply (cut_near pres l b a0 y). }
  destruct O as [a0 t Ma H1 H2 H3|a0 m t Ma Hm H2|a0 Ma|a0 t Ma H1 H2|a0 t Ma];
    pose proof (unmarked_short a0) as US.
  - destruct t as [|c0 t0] eqn:Etc.
    { destruct (Tn eq_refl) as [-> ->]. cbn [reach length] in NR.
      apply (cut_front pres l b a0 []); auto. rewrite app_nil_r in El. rewrite El, app_length in NR.
      rewrite app_length. lia. }
    rewrite <- Etc in *. assert (t <> []) as Nt by (rewrite Etc; discriminate). clear Etc.
    apply (Near a0 t Ma El Nt). intros L. rewrite (read_front pres l b a0 t) by (auto; lia).
    assert (length l = length (b ++ a0) + length t) as Ln by (rewrite El, !app_length; lia).
    rewrite switch_plain with (b0 := b ++ a0); auto; try lia.
    + eapply Data; [reflexivity| | |exact Ln|reflexivity]; [rewrite app_length; lia|lia].
    + destruct (nonempty a0); auto.
    + intros E. apply H1. destruct a0; [reflexivity|discriminate E].
    + intros r -> [E1 E2]. apply Nr. split; auto. exists a0. split; auto. exists b, r. auto.
    + now rewrite El, app_assoc.
    + rewrite app_length; lia.
  - apply (Near a0 (B "@" ++ m ++ t) Ma El); [discriminate|]. intros L.
    rewrite (read_front pres l b a0 (B "@" ++ m ++ t)) by (auto; lia).
    assert (length l = length (b ++ a0) + 1 + length m + length t) as Ln by (rewrite El, !app_length; cbn; lia).
    cbn [B list_ascii_of_string app length]. rewrite app_length.
    change (cstr ("@"%char :: m ++ t)) with ("@"%char :: (m ++ t) ++ [NUL]). rewrite <- app_assoc.
    rewrite loop_cons by lia.
    assert (forall n p, pf_step pres (cstr l) (length l) n "@" p (mkPs (if nonempty a0 then FPPastWhitespace else FPStart)
        (fexc (nonempty a0)) (unmarked a0) (length b) (length (b ++ a0)) (length (b ++ a0))) =
      Ok (ANext1 (mkPs FPOneAt (fexc (nonempty a0)) (unmarked a0) (length b)
            (S (length (b ++ a0))) (S (length (b ++ a0)))))) as ->
      by (intros; destruct (nonempty a0); reflexivity).
    cbn [bind]. assert (length (unmarked a0) <= length (b ++ a0)) as Lu by (rewrite app_length; lia).
    destruct (Nat.le_gt_cases (S (length (b ++ a0)) + length m) 2047) as [E2|E2].
    2:{ rewrite cut_fill by (auto; lia). exists (fexc (nonempty a0)). split; [reflexivity|]. apply cut_exc. }
    rewrite read_fill by (auto; lia).
    destruct t as [|c0 t0] eqn:Etc.
    { destruct (Tn eq_refl) as [-> ->]. cbn [reach length] in NR. cbn [length] in Ln. lia. }
    rewrite <- Etc in *. assert (t <> []) as Nt by (rewrite Etc; discriminate).
    assert (0 < length t) as Lt0 by (rewrite Etc; cbn; lia). clear Etc.
    destruct (Nat.eq_dec (S (length (b ++ a0)) + length m) 2047) as [E3|E3].
    { apply Stop; [exact Lt0|cbn [s_pos]; lia|reflexivity]. }
    change (t ++ [NUL]) with (cstr t).
    assert (length (b ++ a0 ++ B "@" ++ m) = S (length (b ++ a0)) + length m) as Lb.
    { rewrite !app_length. cbn. lia. }
    rewrite switch_at with (b0 := b ++ a0 ++ B "@" ++ m); auto; try lia.
    + eapply Data; [reflexivity| | | |reflexivity]; [rewrite app_length; lia|lia|lia].
    + rewrite El. repeat rewrite <- app_assoc. reflexivity.
    + rewrite app_length. lia.
  - apply (Near a0 (B "|") Ma El); [discriminate|]. intros L.
    destruct (Tn eq_refl) as [-> ->]. cbn [reach length] in NR. exfalso. apply NR.
    rewrite El, !app_length. rewrite app_length in L. cbn. lia.
  - apply (Near a0 (B "|" ++ t) Ma El); [discriminate|]. intros L.
    rewrite (read_front pres l b a0 (B "|" ++ t)) by (auto; lia).
    assert (length l = length (b ++ a0) + 1 + length t) as Ln by (rewrite El, !app_length; cbn; lia).
    cbn [B list_ascii_of_string app length].
    change (cstr ("|"%char :: t)) with ("|"%char :: cstr t).
    assert (0 < length t) as Lt0 by (destruct t; [easy|cbn; lia]).
    rewrite loop_cons by lia.
    assert (forall n p, pf_step pres (cstr l) (length l) n "|" p (mkPs (if nonempty a0 then FPPastWhitespace else FPStart)
        (fexc (nonempty a0)) (unmarked a0) (length b) (length (b ++ a0)) (length (b ++ a0))) =
      Ok (ANext1 (mkPs FPOneBar (fexc (nonempty a0)) (unmarked a0) (length b)
            (S (length (b ++ a0))) (S (length (b ++ a0)))))) as ->
      by (intros; destruct (nonempty a0); reflexivity).
    cbn [bind].
    destruct (Nat.eq_dec (S (length (b ++ a0))) 2047) as [E3|E3].
    { apply Stop; [exact Lt0|cbn [s_pos]; lia|reflexivity]. }
    rewrite switch_bar by (auto; lia).
    eapply Data; [reflexivity| | | |reflexivity]; [rewrite app_length; lia|lia|lia].
  - apply (Near a0 (B "||" ++ t) Ma El); [discriminate|]. intros L.
    rewrite (read_front pres l b a0 (B "||" ++ t)) by (auto; lia).
    assert (length l = length (b ++ a0) + 2 + length t) as Ln by (rewrite El, !app_length; cbn; lia).
    cbn [B list_ascii_of_string app length].
    change (cstr ("|"%char :: "|"%char :: t)) with ("|"%char :: "|"%char :: cstr t).
    rewrite loop_cons by lia.
    assert (forall n p, pf_step pres (cstr l) (length l) n "|" p (mkPs (if nonempty a0 then FPPastWhitespace else FPStart)
        (fexc (nonempty a0)) (unmarked a0) (length b) (length (b ++ a0)) (length (b ++ a0))) =
      Ok (ANext1 (mkPs FPOneBar (fexc (nonempty a0)) (unmarked a0) (length b)
            (S (length (b ++ a0))) (S (length (b ++ a0)))))) as ->
      by (intros; destruct (nonempty a0); reflexivity).
    cbn [bind].
    destruct (Nat.eq_dec (S (length (b ++ a0))) 2047) as [E3|E3].
    { apply Stop; [lia|cbn [s_pos]; lia|reflexivity]. }
    rewrite loop_cons by lia.
    unfold pf_step. cbn [s_st s_f s_data s_rs s_re s_pos is_dataonly is_onebar is_start_or_past is_oneat is_start andb].
    change (negb (ceq "|" "|")) with false. change (ceq "|" "|") with true. cbv zeta iota.
    cbn [is_start_or_past is_onebar].
    change (parse_host (cstr t) (length t)) with (parse_host (t ++ [NUL]) (length t)).
    rewrite parse_host_term by (auto; left; auto). cbn [bind fst snd].
    unfold skip1. cbn [s_data s_rs s_re s_pos].
    eapply Data; [| | | |reflexivity]; [reflexivity|rewrite app_length; lia|lia|lia].
Qed.

Lemma reach_within l exc k a t body fin x w :
  finish_text fin w -> length w <= length l ->
  reach fin (length l - length w) <-> within l (IsRule exc k a t body fin x).
Proof.
  intros F L.
  assert (forall s : bytes, 2 + length s <= length l ->
    length l - S (S (length s)) < 2047 /\ (s = [] \/ 2 + (length l - S (S (length s))) + length s <= 2047) <->
    length l < 2048 \/ s = [] /\ length l = 2048) as K.
  { intros [|c s] H; cbn [length] in *.
    - split; [intros [H1 _]|intros [H1|[_ H1]]; split; auto; lia].
      destruct (Nat.eq_dec (length l) 2048); [right; auto|left; lia].
    - split; [intros [H1 [H2|H2]]|intros [H1|[H1 _]]]; try discriminate; [left; lia|].
      split; [lia|right; lia]. }
  destruct F as [|o Ho|s|s|s]; cbn [within reach B list_ascii_of_string app length] in *; try lia; now apply K.
Qed.

(** An expression, however long the line is. *)
Lemma read_expression pres l b a r :
  length (b ++ a) < 2047 -> (forall c, In c b -> blank c) -> marks a -> l = b ++ a ++ "/"%char :: r ->
  last l NUL = "/"%char -> 1 < length l ->
  parse_filter pres (cstr l) (length l) =
  Ok (mkF FTRegex 0 0 (Some (regex_pattern l a, [NUL])) None [] None
        (if pres then Some (regex_pattern l a) else None), false).
Proof.
  intros L Hb Ma El La Ll. rewrite (read_front pres l b a ("/"%char :: r)) by (auto; lia).
  change (cstr ("/"%char :: r)) with ("/"%char :: cstr r). cbn [length].
  rewrite loop_cons by exact L. unfold pf_step. cbn [s_st s_f s_data s_rs s_re s_pos].
  set (st := if nonempty a then FPPastWhitespace else FPStart).
  assert (is_dataonly st = false /\ is_onebar st = false /\ is_start_or_past st = true) as (Q1 & Q2 & Q3)
    by (unfold st; destruct (nonempty a); auto).
  rewrite Q1, Q2. cbn [andb]. cbv zeta.
  change (ceq "/" "|") with false. change (ceq "/" "@") with false.
  change (ceq "/" "!" || ceq "/" "[") with false.
  change (ceq "/" CR || ceq "/" LF || ceq "/" TAB || ceq "/" " ") with false.
  change (ceq "/" "/") with true. cbv iota. rewrite Q3.
  rewrite last_read_ok by (rewrite El; destruct b, a; discriminate). cbn [bind].
  rewrite La. change (ceq "/" "/") with true. rewrite (proj2 (Nat.ltb_lt _ _) Ll). cbn [andb].
  assert (length (unmarked a) = between_marks a) as -> by reflexivity.
  assert (between_marks a <= length a) as Lm by apply unmarked_short.
  assert (length l = length b + length a + S (length r)) as Ln by (rewrite El, !app_length; cbn; lia).
  assert (between_marks a + 2 <= length l) as Lk.
  { destruct a as [|a0 a1]; [cbn; lia|].
    assert (between_marks (a0 :: a1) < length (a0 :: a1)); [|lia].
    inversion Ma; subst. unfold between_marks. cbn [List.filter].
    change (Ascii.eqb "@" "@") with true. cbn [negb length].
    match goal with |- length (List.filter ?g ?z) < _ => pose proof (unmarked_short z) as H9 end.
    unfold unmarked in H9. lia. }
  assert (length l - between_marks a - 1 =? 0 = false) as -> by (apply Nat.eqb_neq; lia).
  assert (firstn (length l - between_marks a - 2) (skipn (between_marks a + 1) (cstr l)) = regex_pattern l a) as ->.
  { unfold regex_pattern, cstr. rewrite skipn_app, firstn_app, skipn_length.
    replace (length l - between_marks a - 2 - (length l - (between_marks a + 1))) with 0 by lia.
    cbn [firstn]. now rewrite app_nil_r. }
  unfold fexc. destruct pres, (nonempty a); reflexivity.
Qed.

Theorem reading_any pres l m :
  line_text l -> reads l m ->
  exists f b, parse_filter pres (cstr l) (length l) = Ok (f, b) /\
    (within l m -> agrees pres m f) /\ (~ within l m -> b = false /\ given_up f).
Proof.
  intros Hl R. destruct R as [H|b a s Hb Ma Ns C El|a L S|b o Hb Ho El|b x e k a t body fin Hb El Nr O C].
  - cbn [within]. destruct (Nat.le_gt_cases 2048 (length l)) as [L|L].
    + destruct (cut_front pres l l [] []) as (f & P & G); auto; [rewrite app_nil_r; lia|constructor|now rewrite !app_nil_r|].
      exists f, false. split; auto. split; [lia|auto].
    + rewrite read_empty by auto. do 2 eexists. split; [reflexivity|]. split; [reflexivity|lia].
  - destruct (Nat.le_gt_cases 2047 (length (b ++ a))) as [L|L].
    + destruct (cut_near pres l b a s) as (f & P & G); auto. exists f, false. split; auto. split; auto.
      intros (s' & Ns' & C' & b' & a' & Hb' & Ma' & El' & L').
      assert (b ++ a ++ s = b' ++ a' ++ s') as E by congruence.
      apply parts_unique in E as (<- & <- & _); auto using comment_stuck. lia.
    + rewrite (read_comment pres l b a s) by auto. do 2 eexists. split; [reflexivity|].
      split; [reflexivity|]. intros N. elim N. exists s. split; auto. split; auto. exists b, a. auto.
  - destruct S as (La & b & r & Hb & Ma & El).
    destruct (Nat.le_gt_cases 2047 (length (b ++ a))) as [L'|L'].
    + destruct (cut_near pres l b a ("/"%char :: r)) as (f & P & G); auto; [discriminate|].
      exists f, false. split; auto. split; auto.
      intros (r' & b' & a' & Hb' & Ma' & El' & L'').
      assert (b ++ a ++ "/"%char :: r = b' ++ a' ++ "/"%char :: r') as E by congruence.
      apply parts_unique in E as (<- & <- & _); auto; try (apply stuck_head; [intros [F|F]; discriminate F|discriminate]).
      lia.
    + rewrite (read_expression pres l b a r) by auto. do 2 eexists. split; [reflexivity|].
      split; [reflexivity|]. intros N. elim N. exists r, b, a. auto.
  - assert (length l = length b + S (length o)) as Ln by (rewrite El, app_length; reflexivity).
    cbn [within]. destruct (Nat.le_gt_cases 2047 (length b)) as [L|L].
    + destruct (cut_near pres l b [] (B "$" ++ o)) as (f & P & G); auto;
        [now rewrite app_nil_r|constructor|discriminate|].
      exists f, false. split; auto. split; [lia|auto].
    + rewrite (read_front pres l b [] (B "$" ++ o)) by (auto; try constructor; rewrite app_nil_r; lia).
      cbn [nonempty unmarked List.filter app length]. rewrite app_nil_r.
      change (length (B "$" ++ o)) with (S (length o)).
      rewrite (read_options pres l FPStart (fexc false) [] (length b) (length b) (length b) (length o) o b)
        by (auto; try discriminate; lia).
      cbn [bind concl s_st is_start s_f]. do 2 eexists. split; [reflexivity|]. split; [intros _|lia].
      set (g := mkF _ _ _ _ _ _ _ _). cbn [agrees set_type f_type f_data f_host f_rule].
      destruct (options_frame (split_on "," o) g) as (_ & O2 & O3 & O4).
      split; auto. split; auto. split; auto. split; auto.
      exists (split_on "," o). split; [apply split_cut|].
      exact (options_read (split_on "," o) g eq_refl eq_refl eq_refl eq_refl).
  - assert (exists p, x = p ++ t) as (p & Ex).
    { destruct O as [a0 t|a0 m t|a0|a0 t|a0 t].
      - eauto.
      - exists (a0 ++ B "@" ++ m). now rewrite <- !app_assoc.
      - exists (a0 ++ B "|"). now rewrite app_nil_r.
      - exists (a0 ++ B "|"). now rewrite <- app_assoc.
      - exists (a0 ++ B "||"). now rewrite <- app_assoc. }
    pose proof C as (w & Fw & Et & _).
    assert (length w <= length l) as Lw by (rewrite El, Ex, Et, !app_length; lia).
    pose proof (reach_within l e k a t body fin x w Fw Lw) as RW.
    assert (reach fin (length l - length w) \/ ~ reach fin (length l - length w)) as [RR|RR].
    { destruct fin as [|o|kd s]; cbn [reach]; try lia.
      destruct (Nat.lt_ge_cases (length l - length w) 2047) as [K1|K1]; [|right; lia].
      destruct s as [|c s]; [left; auto|].
      destruct (Nat.le_gt_cases (2 + (length l - length w) + length (c :: s)) 2047) as [K2|K2]; [left; auto|].
      right. intros [_ [K3|K3]]; [discriminate K3|lia]. }
    + rewrite (read_rule pres l b x e k a t body fin) by
        (auto; intros w' Fw'; now replace w' with w by (destruct Fw; inversion Fw'; subst; congruence)).
      do 2 eexists. split; [reflexivity|]. split; [intros _|intros N; elim N; now apply RW].
      apply rule_agrees. rewrite El, Ex in Hl. apply line_text_app in Hl as [_ Hl].
      now apply line_text_app in Hl as [_ Hl].
    + destruct (cut_rule pres l b x e k a t body fin w) as (f & P & G); auto.
      exists f, false. split; auto. split; auto. intros W. elim RR. now apply RW.
Qed.

Lemma short_within l m : reads l m -> length l < 2048 -> within l m.
Proof.
  intros R L. destruct R as [H|b a s Hb Ma Ns C El|a Ll S|b o Hb Ho El|b x e k a t body fin Hb El Nr O C];
    cbn [within]; auto.
  - exists s. split; auto. split; auto. exists b, a. split; auto. split; auto. split; auto.
    rewrite El, !app_length in L. rewrite app_length. destruct s; [easy|cbn in L; lia].
  - destruct S as (La & b & r & Hb & Ma & El). exists r, b, a. split; auto. split; auto. split; auto.
    rewrite El, !app_length in L. rewrite app_length. cbn in L. lia.
  - lia.
  - destruct fin; auto; lia.
Qed.

Theorem reading_holds pres l m :
  line_text l -> length l < 2048 -> reads l m ->
  exists f b, parse_filter pres (cstr l) (length l) = Ok (f, b) /\ agrees pres m f.
Proof.
  intros Hl L R. destruct (reading_any pres l m Hl R) as (f & b & P & A & _).
  exists f, b. split; auto. apply A. now apply short_within.
Qed.

Lemma within_dec l m : reads l m -> within l m \/ ~ within l m.
Proof.
  intros R. destruct R as [H|b a s Hb Ma Ns C El|a L S|b o Hb Ho El|b x e k a t body fin Hb El Nr O C];
    cbn [within]; try lia.
  - destruct (Nat.lt_ge_cases (length (b ++ a)) 2047) as [L|L].
    + left. exists s. split; auto. split; auto. exists b, a. auto.
    + right. intros (s' & Ns' & C' & b' & a' & Hb' & Ma' & El' & L').
      assert (b ++ a ++ s = b' ++ a' ++ s') as E by congruence.
      apply parts_unique in E as (<- & <- & _); auto using comment_stuck. lia.
  - destruct S as (La & b & r & Hb & Ma & El).
    destruct (Nat.lt_ge_cases (length (b ++ a)) 2047) as [L'|L'].
    + left. exists r, b, a. auto.
    + right. intros (r' & b' & a' & Hb' & Ma' & El' & L'').
      assert (b ++ a ++ "/"%char :: r = b' ++ a' ++ "/"%char :: r') as E by congruence.
      apply parts_unique in E as (<- & <- & _); auto; try (apply stuck_head; [intros [F|F]; discriminate F|discriminate]).
      lia.
  - destruct fin as [|o|kd s]; try lia.
    destruct (Nat.lt_ge_cases (length l) 2048) as [L|L]; [auto|].
    destruct s as [|c s]; [|right; intros [K|[K _]]; [lia|discriminate K]].
    destruct (Nat.eq_dec (length l) 2048); [left; auto|right; lia].
Qed.
