(** The option text that the parser reads. *)
From Verif Require Import Base Flags Sets FilterM ParseM ClientM SerialM OwnM OwnT
  Spec SpecM SpecC SpecE SpecU P_Base P_Parse P_Line P_Line5 P_Shape P_Opt P_Props2 P_List.

Definition clean (f : filter) : Prop := N.land (f_type f) 1030 = 0%N.

Lemma clean_add f t : clean f -> N.land t 1030 = 0%N -> clean (add_type f t).
Proof.
  unfold clean, add_type, set_type. cbn [f_type]. intros A B.
  now rewrite N.land_lor_distr_l, A, B.
Qed.

Lemma clean_cur c s : clean (s_f s) -> clean (cur_f c s).
Proof.
  intros H. unfold cur_f. destruct (_ && _); auto. now apply clean_add.
Qed.

Lemma options_type l f : f_type (fold_left parseOption l f) = f_type f.
Proof. apply options_frame. Qed.

(** What the option text is, and how the loop ends. *)
Definition opts_post (p : bytes) (s : ps) (op : option bytes) (o : pout) : Prop :=
  match op with
  | Some x =>
      s_st s <> FPDataOnly /\
      exists pre s', p = pre ++ "$"%char :: x /\ ~ In "$"%char pre /\ o = PEnd s' /\
        (clean (s_f s) -> clean (s_f s')) /\
        (is_start (s_st s') = true -> is_start (s_st s) = true /\ forall c, In c pre -> blank c)
  | None =>
      s_st s <> FPDataOnly -> forall s', o = PEnd s' -> s_st s' <> FPDataOnly -> ~ In "$"%char p
  end.

Lemma opts_sim pres l t r n :
  line_text l -> term t ->
  forall p a s, length p <= n -> l = a ++ p -> s_pos s = length a -> J s ->
  exists o op,
    pf_opts pres (l ++ t :: r) (length l) (length p) (p ++ t :: r) s = Ok op /\
    pf_loop pres (cstr l) (length l) (length p) (cstr p) s = Ok o /\
    opts_post p s op o /\
    (s_st s = FPDataOnly -> forall s', o = PEnd s' -> s_st s' = FPDataOnly).
Proof.
  intros Hl T. induction n as [|n IH]; intros p a s Hn El Ep HJ.
  - destruct p; [|cbn in Hn; lia]. exists (PEnd s), None. repeat split; auto.
    + intros _ s' _ _ [].
    + intros H s' [= <-]. exact H.
  - destruct p as [|c b].
    { exists (PEnd s), None. repeat split; auto.
      + intros _ s' _ _ [].
      + intros H s' [= <-]. exact H. }
    cbn [length app]. change (cstr (c :: b)) with (c :: cstr b).
    cbn [pf_loop pf_opts].
    destruct (Nat.leb_spec (kMaxLineLength - 1) (s_pos s)) as [L|L].
    { exists (PReturn (s_f s)), None. repeat split; auto; intros; easy. }
    destruct (pf_step_sim pres l a c b t r s El Ep HJ L Hl T) as (act & E1 & E2 & E3).
    pose proof (pf_step_cases pres l a c b s act El Ep HJ L Hl E2) as SC.
    rewrite E1, E2. cbn [bind]. destruct act as [s'|s'|f|s'].
    + destruct E3 as [HJ' Ep'].
      destruct (IH b (a ++ [c]) s') as (o & op & X1 & X2 & X3 & X4); auto.
      { cbn in Hn. lia. } { now rewrite <- app_assoc. } { rewrite app_length. cbn. lia. }
      exists o, op. split; [exact X1|]. split; [exact X2|]. split.
      * assert (K1 : s_st s <> FPDataOnly -> c <> "$"%char /\ s_st s' <> FPDataOnly).
        { intros ND. inversion SC; subst; cbn; try (split; easy); try easy.
          - match goal with H : _ \/ _ |- _ => destruct H as [-> | ->] end; split; easy.
          - split; auto. intros Q.
            match goal with H : st' = FPData \/ _ |- _ => destruct H as [Q'|[Q' _]] end;
              rewrite Q in Q'; [discriminate|].
            clear -Q' ND. unfold cur_st in Q'. destruct (_ && _); congruence. }
        assert (K2 : s_st s = FPDataOnly -> s_st s' = FPDataOnly).
        { intros Q. inversion SC; subst; try reflexivity; try congruence;
            match goal with H : is_start_or_past _ = _ |- _ => rewrite Q in H; discriminate end. }
        assert (K3 : clean (s_f s) -> s_st s <> FPDataOnly -> clean (s_f s')).
        { intros C ND. inversion SC; subst; cbn [skip_ps put_ps s_f]; auto;
            try (apply clean_add; auto; fail).
          - cbv zeta. destruct (line_hostonly b);
              [apply clean_add; [|reflexivity]|];
              apply (clean_add (s_f s) FTHostAnchored); auto.
          - reflexivity.
          - now apply clean_cur. }
        assert (K4 : is_start (s_st s') = true -> s_st s <> FPDataOnly ->
                     is_start (s_st s) = true /\ blank c).
        { intros Q ND. inversion SC; subst; cbn in Q; try discriminate; try easy.
          - split; [|auto]. match goal with H : s_st s = _ |- _ => now rewrite H end.
          - match goal with H : st' = FPData \/ _ |- _ => destruct H as [->|[_ [H _]]] end;
            [discriminate|congruence]. }
        destruct op as [x|]; cbn [opts_post] in *.
        -- destruct X3 as (ND' & pre & s2 & -> & Np & -> & C & SB).
           assert (ND : s_st s <> FPDataOnly) by (intros Q; now apply K2 in Q).
           destruct (K1 ND) as [Nc _].
           split; [exact ND|]. exists (c :: pre), s2. split; [reflexivity|].
           split; [cbn; intros [Q|Q]; auto|]. split; [reflexivity|]. split; [auto|].
           intros Q. destruct (SB Q) as [SB1 SB2]. destruct (K4 SB1 ND) as [Q1 Q2].
           split; [exact Q1|]. intros y [<-|I]; auto.
        -- intros ND s2 E ND2 [Q|Q]; destruct (K1 ND); auto. now apply (X3 H0 s2).
      * intros Q. apply X4. inversion SC; subst; try reflexivity; try congruence;
            match goal with H : is_start_or_past _ = _ |- _ => rewrite Q in H; discriminate end.
    + destruct E3 as [HJ' [Ep' Nb]]. destruct b as [|c2 b]; [easy|].
      cbn [length app]. change (cstr (c2 :: b)) with (c2 :: cstr b).
      destruct (IH b (a ++ [c; c2]) s') as (o & op & X1 & X2 & X3 & X4); auto.
      { cbn in Hn. lia. } { now rewrite <- app_assoc. } { rewrite app_length. cbn. lia. }
      assert (DO : s_st s' = FPDataOnly) by (inversion SC; reflexivity).
      exists o, op. split; [exact X1|]. split; [exact X2|]. split.
      * destruct op as [x|]; cbn [opts_post] in *; [now destruct X3|].
        intros _ s2 E ND. now destruct (ND (X4 DO s2 E)).
      * intros _. apply X4, DO.
    + exists (PReturn f), None. repeat split; auto; intros; easy.
    + assert (line_text b) as Hb.
      { rewrite El in Hl. apply line_text_app in Hl as [_ Hl]. now apply line_text_cons in Hl. }
      rewrite option_text_term by auto. exists (PEnd s'), (Some b).
      split; [reflexivity|]. split; [reflexivity|].
      inversion SC; subst. split; [|intros Q; congruence].
      split; [auto|]. eexists [], _. split; [reflexivity|]. split; [easy|].
      split; [reflexivity|].
      split.
      * intros C. unfold clean. cbn [s_f]. rewrite options_type. cbn [f_type].
        apply (clean_cur "$" s C).
      * cbn [s_st]. intros Q. split; [|easy]. clear -Q. unfold cur_st in Q.
        destruct (_ && _); [discriminate|exact Q].
Qed.

Lemma options_line pres l t r :
  line_text l -> term t ->
  exists op o,
    options_read pres (l ++ t :: r, length l) = Ok op /\
    pf_loop pres (cstr l) (length l) (length l) (cstr l) (mkPs FPStart filter0 [] 0 0 0) = Ok o /\
    opts_post l (mkPs FPStart filter0 [] 0 0 0) op o.
Proof.
  intros Hl T.
  destruct (opts_sim pres l t r (length l) Hl T l [] (mkPs FPStart filter0 [] 0 0 0)
              (le_n _) eq_refl eq_refl (J0 filter0)) as (o & op & A & B & C & _).
  exists op, o. auto.
Qed.

(** ** Counting *)

Lemma sets_domains_gives s : sets_domains s = gives (B "domain") s.
Proof.
  unfold sets_domains, gives, unnegated. destruct s as [|c s]; [reflexivity|].
  destruct (ceq_spec c "~") as [->|N].
  - reflexivity.
  - change (B "~" ++ B "domain" ++ B "=") with ("~"%char :: B "domain=").
    cbn [prefixb]. rewrite (proj2 (ceq_neq "~" c)) by congruence.
    cbn [andb]. rewrite orb_false_r. reflexivity.
Qed.

Lemma prefixb_both c d a b s : c <> d -> prefixb (c :: a) s && prefixb (d :: b) s = false.
Proof.
  intros N. destruct s as [|x s]; [reflexivity|]. cbn [prefixb].
  destruct (ceq_spec c x) as [->|]; [|reflexivity].
  rewrite (proj2 (ceq_neq d x)) by congruence. cbn [andb]. apply andb_false_r.
Qed.

Lemma sets_tag_gives s : sets_tag s = gives (B "tag") s.
Proof.
  unfold sets_tag, gives, sets_domains, unnegated. destruct s as [|c s]; [reflexivity|].
  assert (P : forall x, negb (prefixb (B "domain=") x) && prefixb (B "tag=") x =
                        prefixb (B "tag=") x).
  { intros x. pose proof (prefixb_both "d" "t" (B "omain=") (B "ag=") x) as Q.
    change ("d"%char :: B "omain=") with (B "domain=") in Q.
    change ("t"%char :: B "ag=") with (B "tag=") in Q.
    destruct (prefixb (B "domain=") x), (prefixb (B "tag=") x); auto.
    specialize (Q ltac:(discriminate)). discriminate Q. }
  destruct (ceq_spec c "~") as [->|N].
  - rewrite P. reflexivity.
  - rewrite P. change (B "~" ++ B "tag" ++ B "=") with ("~"%char :: B "tag=").
    cbn [prefixb]. rewrite (proj2 (ceq_neq "~" c)) by congruence.
    cbn [andb]. rewrite orb_false_r. reflexivity.
Qed.

Lemma lost_repeats o parts :
  cut_at "," o parts -> lost_by_options (Some o) = repeats parts.
Proof.
  intros C. apply cut_unique in C. subst parts.
  unfold lost_by_options, repeats, again, segments.
  rewrite (filter_ext _ _ sets_domains_gives), (filter_ext _ _ sets_tag_gives). lia.
Qed.

Lemma dollar_unique (a b x y : bytes) :
  ~ In "$"%char a -> ~ In "$"%char b -> a ++ "$"%char :: x = b ++ "$"%char :: y -> x = y.
Proof.
  revert b; induction a as [|c a IH]; intros [|d b] Na Nb E; cbn [app] in E.
  - congruence.
  - injection E as <- _. destruct Nb. now left.
  - injection E as -> _. destruct Na. now left.
  - injection E as <- E. apply (IH b); auto; intro; [apply Na|apply Nb]; now right.
Qed.

Lemma dollar_lost pres l t r op n :
  line_text l -> term t -> dollar_repeats l n ->
  options_read pres (l ++ t :: r, length l) = Ok op -> lost_by_options op <= n.
Proof.
  intros Hl T D E. destruct (options_line pres l t r Hl T) as (op' & o & E1 & _ & P).
  rewrite E in E1. assert (op' = op) as -> by congruence. clear E1.
  destruct op as [x|]; [|apply Nat.le_0_l]. cbn [opts_post] in P.
  destruct P as (_ & pre & s' & -> & N & _).
  inversion D as [l' Nd|a y parts Na C]; subst.
  - destruct Nd. apply in_or_app. right. now left.
  - match goal with H : _ ++ _ = _ ++ _ |- _ =>
      apply dollar_unique in H; auto; subst y end.
    now rewrite (lost_repeats _ _ C).
Qed.

Lemma pattern_no_dollar r : good_rule r -> ~ In "$"%char (pattern_line r).
Proof.
  intros (_ & G & _). unfold pattern_line.
  assert (X : ~ In "$"%char (x_body r)) by (intros I; now destruct (G _ I) as (_ & ? & _)).
  intros I.
  repeat (apply in_app_or in I as [I|I]); auto;
    repeat match type of I with
           | In _ (if ?b then _ else _) => destruct b
           | In _ (match ?b with _ => _ end) => destruct b
           end; cbn in I; repeat destruct I as [I|I]; easy.
Qed.

Lemma first_nonblank (bl pre z y : bytes) c d :
  (forall x, In x bl -> blank x) -> (forall x, In x pre -> blank x) -> ~ blank c -> ~ blank d ->
  bl ++ c :: z = pre ++ d :: y -> c = d.
Proof.
  revert pre; induction bl as [|b bl IH]; intros [|p pre] Hb Hp Nc Nd E; cbn [app] in E.
  - congruence.
  - injection E as -> _. destruct Nc. apply Hp. now left.
  - injection E as <- _. destruct Nd. apply Hb. now left.
  - injection E as _ E. apply (IH pre); auto; intros; [apply Hb|apply Hp]; now right.
Qed.

Lemma usual_lost pres l t r op n :
  line_text l -> term t -> line_repeats l n ->
  options_read pres (l ++ t :: r, length l) = Ok op -> lost_by_options op = n.
Proof.
  intros Hl T D E. destruct (options_line pres l t r Hl T) as (op' & o & E1 & E2 & P).
  rewrite E in E1. assert (op' = op) as -> by congruence. clear E1.
  destruct D as [l N|x parts G O].
  - destruct op as [y|]; [|reflexivity]. exfalso. cbn [opts_post] in P.
    destruct P as (_ & pre & s' & El & Np & -> & C & SB).
    assert (Eq : parse_filter pres (cstr l) (length l) =
      if is_start (s_st s') then Ok (set_type (s_f s') FTEmpty, false)
      else r <- rule_text pres (cstr l) s' ;;
           Ok (set_data (if pres then set_rule (s_f s') r else s_f s') (ParseM.s_data s'), true))
      by (unfold parse_filter; rewrite E2; reflexivity).
    rewrite parse_filter_cstr in Eq by auto.
    destruct N as [bl s Hb Hs Len|d m s Hd Hm Len].
    + assert (Ts : line_text s) by (intros c I; apply Hl; apply in_or_app; auto).
      destruct (comment_pline pres bl s Hb Hs Ts Len) as (f & X1 & _ & _).
      rewrite X1 in Eq. destruct (is_start (s_st s')) eqn:Q.
      2:{ destruct (rule_text pres (cstr (bl ++ s)) s'); discriminate Eq. }
      destruct (SB eq_refl) as [_ SB'].
      destruct Hs as [->|[(z & ->)|[(z & ->)|(z & ->)]]].
      * rewrite app_nil_r in El. destruct (Hb "$"%char) as [W|W]; [|discriminate W..].
        rewrite El. apply in_or_app. right. now left.
      * apply first_nonblank in El; auto; try discriminate; intros [W|W]; discriminate W.
      * apply first_nonblank in El; auto; try discriminate; intros [W|W]; discriminate W.
      * apply first_nonblank in El; auto; try discriminate; intros [W|W]; discriminate W.
    + assert (Ts : line_text s) by (intros c I; apply Hl; apply in_or_app; right; apply in_or_app; auto).
      destruct (cosmetic_rule (mkEnv [] [] [] (fun _ => 0%N) (fun _ _ => false)) pres d m s Hd Ts Len Hm)
        as (f & X1 & _ & X3 & _).
      rewrite parse_filter_cstr in X1 by auto.
      injection X1 as X1. rewrite X1 in Eq.
      destruct (is_start (s_st s')); [discriminate|].
      assert (CF : clean f).
      { destruct (rule_text pres _ s') as [rt|]; cbn [bind] in Eq; [|discriminate].
        injection Eq as ->. unfold clean. destruct pres; apply C; reflexivity. }
      unfold clean in CF. rewrite X3 in CF.
      destruct (beq m (B "##")), (beq m (B "#@")); discriminate CF.
  - destruct (shape_loop pres x G) as (pos & E3). rewrite E2 in E3.
    injection E3 as ->. unfold option_parts in O. unfold rule_line in *.
    destruct (x_options x) as [y|] eqn:EO.
    + destruct op as [y'|]; cbn [opts_post] in P.
      * destruct P as (_ & pre & s' & El & Np & _).
        change (B "$" ++ y) with ("$"%char :: y) in El.
        apply dollar_unique in El; auto; [|now apply pattern_no_dollar].
        subst y'. now apply lost_repeats.
      * exfalso. refine (P _ _ eq_refl _ _); try discriminate.
        apply in_or_app. right. now left.
    + subst parts. destruct op as [y'|]; [|reflexivity]. exfalso. cbn [opts_post] in P.
      destruct P as (_ & pre & s' & El & _). rewrite app_nil_r in El.
      apply (pattern_no_dollar x G). rewrite El. apply in_or_app. right. now left.
Qed.
