(** The options that are read, in terms of the reading of the line. *)
From Verif Require Import Base Flags Url Sets FilterM ParseM ClientM SerialM OwnM OwnT
  Spec SpecM SpecC SpecE SpecG SpecLine SpecU SpecProc P_Base P_Parse P_Line P_Line5 P_Shape P_Opt
  P_Props2 P_List P_OwnT P_Read3 P_Read4 P_Read5.

Definition plain (f : filter) : Prop :=
  f_data f = None /\ N.land (f_type f) 1351 = 0%N.

Lemma plain_add f t : plain f -> N.land t 1351 = 0%N -> plain (add_type f t).
Proof.
  unfold plain, add_type, set_type. cbn [f_type f_data]. intros [A B] C. split; auto.
  now rewrite N.land_lor_distr_l, B, C.
Qed.

Lemma plain_cur c s : plain (s_f s) -> plain (cur_f c s).
Proof. intros H. unfold cur_f. destruct (_ && _); auto. now apply plain_add. Qed.

Definition marked (f : filter) : Prop :=
  f_data f = None /\ In (f_type f) [FTHTMLFiltering; FTElementHiding; FTElementHidingException].

Definition fits_state (s : ps) : Prop :=
  match s_st s with FPDataOnly => marked (s_f s) | _ => plain (s_f s) end.

Definition opts_found (p : bytes) (s : ps) (op : option bytes) (o : pout) : Prop :=
  match op with
  | Some x =>
      s_st s <> FPDataOnly /\
      exists pre s', p = pre ++ "$"%char :: x /\ ~ In "$"%char pre /\
        begins_not (fun c => c = "$"%char) x /\ s_pos s + length pre < 2047 /\
        o = PEnd s' /\ plain (s_f s') /\
        (is_start (s_st s') = true -> is_start (s_st s) = true /\ forall c, In c pre -> blank c)
  | None =>
      match o with
      | PReturn f => f_data f = None /\ f_type f <> FTEmpty \/ f_type f = FTRegex
      | PEnd s' => s_st s <> FPDataOnly /\ ~ In "$"%char p /\ s_st s' <> FPDataOnly \/
                   s_st s' = FPDataOnly /\ marked (s_f s')
      end
  end.

Lemma fits_returns s : fits_state s -> f_data (s_f s) = None /\ f_type (s_f s) <> FTEmpty.
Proof.
  unfold fits_state. destruct (s_st s); intros [A B]; split; auto; intros Q;
    try (rewrite Q in B; vm_compute in B; discriminate B).
  rewrite Q in B. cbn in B. repeat destruct B as [B|B]; easy.
Qed.

Lemma opts_finds pres l t r n :
  line_text l -> term t ->
  forall p a s, length p <= n -> l = a ++ p -> s_pos s = length a -> J s -> fits_state s ->
  exists o op,
    pf_opts pres (l ++ t :: r) (length l) (length p) (p ++ t :: r) s = Ok op /\
    pf_loop pres (cstr l) (length l) (length p) (cstr p) s = Ok o /\
    opts_found p s op o.
Proof.
  intros Hl T. induction n as [|n IH]; intros p a s Hn El Ep HJ HF.
  - destruct p; [|cbn in Hn; lia]. exists (PEnd s), None. split; auto. split; auto.
    cbn [opts_found]. unfold fits_state in HF. destruct (s_st s) eqn:Q; auto; left; repeat split; easy.
  - destruct p as [|c b].
    { exists (PEnd s), None. split; auto. split; auto.
      cbn [opts_found]. unfold fits_state in HF. destruct (s_st s) eqn:Q; auto; left; repeat split; easy. }
    cbn [length app]. change (cstr (c :: b)) with (c :: cstr b).
    cbn [pf_loop pf_opts].
    destruct (Nat.leb_spec (kMaxLineLength - 1) (s_pos s)) as [L|L].
    { exists (PReturn (s_f s)), None. split; auto. split; auto. left. now apply fits_returns. }
    destruct (pf_step_sim pres l a c b t r s El Ep HJ L Hl T) as (act & E1 & E2 & E3).
    pose proof (pf_step_cases pres l a c b s act El Ep HJ L Hl E2) as SC.
    rewrite E1, E2. cbn [bind]. destruct act as [s'|s'|f|s'].
    + destruct E3 as [HJ' Ep'].
      assert (K1 : s_st s <> FPDataOnly -> c <> "$"%char /\ s_st s' <> FPDataOnly).
      { intros ND. inversion SC; subst; cbn; try (split; easy); try easy.
        - match goal with H : _ \/ _ |- _ => destruct H as [-> | ->] end; split; easy.
        - split; auto. intros Q.
          match goal with H : st' = FPData \/ _ |- _ => destruct H as [Q'|[Q' _]] end;
            rewrite Q in Q'; [discriminate|].
          clear -Q' ND. unfold cur_st in Q'. destruct (_ && _); congruence. }
      assert (K2 : s_st s = FPDataOnly -> s_st s' = FPDataOnly /\ s_f s' = s_f s).
      { intros Q. inversion SC; subst; try (split; reflexivity); try congruence;
          match goal with H : is_start_or_past _ = _ |- _ => rewrite Q in H; discriminate end. }
      assert (K3 : s_st s <> FPDataOnly -> plain (s_f s')).
      { intros ND. assert (C : plain (s_f s)).
        { unfold fits_state in HF. destruct (s_st s); auto. now elim ND. }
        inversion SC; subst; cbn [skip_ps put_ps s_f]; auto;
          try (apply plain_add; auto; fail).
        - cbv zeta. destruct (line_hostonly b);
            [apply plain_add; [|reflexivity]|];
            apply (plain_add (s_f s) FTHostAnchored); auto.
        - split; [apply C|reflexivity].
        - now apply plain_cur. }
      assert (K4 : is_start (s_st s') = true -> s_st s <> FPDataOnly ->
                   is_start (s_st s) = true /\ blank c).
      { intros Q ND. inversion SC; subst; cbn in Q; try discriminate; try easy.
        - split; [|auto]. match goal with H : s_st s = _ |- _ => now rewrite H end.
        - match goal with H : st' = FPData \/ _ |- _ => destruct H as [->|[_ [H _]]] end;
          [discriminate|congruence]. }
      assert (D : s_st s = FPDataOnly \/ s_st s <> FPDataOnly) by (destruct (s_st s); auto; right; discriminate).
      assert (HF' : fits_state s').
      { destruct D as [D|D].
        - destruct (K2 D) as [Q1 Q2]. unfold fits_state in *. rewrite Q1, Q2. now rewrite D in HF.
        - pose proof (K3 D). destruct (K1 D) as [_ N]. unfold fits_state. destruct (s_st s'); auto.
          now elim N. }
      destruct (IH b (a ++ [c]) s') as (o & op & X1 & X2 & X3); auto.
      { cbn in Hn. lia. } { now rewrite <- app_assoc. } { rewrite app_length. cbn. lia. }
      exists o, op. split; [exact X1|]. split; [exact X2|].
      destruct op as [x|]; cbn [opts_found] in *.
      * destruct X3 as (ND' & pre & s2 & -> & Np & Bx & Ln & -> & C & SB).
        assert (ND : s_st s <> FPDataOnly) by (intros Q; now apply K2 in Q as [Q _]).
        destruct (K1 ND) as [Nc _].
        split; [exact ND|]. exists (c :: pre), s2. split; [reflexivity|].
        split; [cbn; intros [Q|Q]; auto|]. split; [exact Bx|]. split; [cbn; lia|].
        split; [reflexivity|]. split; [exact C|].
        intros Q. destruct (SB Q) as [SB1 SB2]. destruct (K4 SB1 ND) as [Q1 Q2].
        split; [exact Q1|]. intros y [<-|I]; auto.
      * destruct o as [f|s2]; [exact X3|]. destruct X3 as [(ND' & Np & E)|X3]; [|now right].
        left. assert (ND : s_st s <> FPDataOnly) by (intros Q; now apply K2 in Q as [Q _]).
        destruct (K1 ND) as [Nc _]. split; auto. split; auto. cbn. intros [Q|Q]; auto.
    + destruct E3 as [HJ' [Ep' Nb]]. destruct b as [|c2 b]; [easy|].
      cbn [length app]. change (cstr (c2 :: b)) with (c2 :: cstr b).
      assert (HM : s_st s' = FPDataOnly /\ marked (s_f s')).
      { inversion SC; subst; cbn [s_st s_f]; split; auto; unfold fits_state in HF;
          (assert (C : plain (s_f s)) by (destruct (s_st s); auto; easy));
          (split; [|cbn [f_type set_type];
             first [now left|destruct (ceq _ _); cbn; auto]]);
          apply (plain_cur "$") in C as C1; apply (plain_cur "#") in C as C2;
          unfold take_domains; destruct (ParseM.s_data s); cbn [f_data set_type set_dom];
          first [apply C1|apply C2]. }
      destruct HM as [DO HM].
      assert (HF' : fits_state s') by (unfold fits_state; now rewrite DO).
      destruct (IH b (a ++ [c; c2]) s') as (o & op & X1 & X2 & X3); auto.
      { cbn in Hn. lia. } { now rewrite <- app_assoc. } { rewrite app_length. cbn. lia. }
      exists o, op. split; [exact X1|]. split; [exact X2|].
      destruct op as [x|]; cbn [opts_found] in *; [now destruct X3|].
      destruct o as [f|s2]; [exact X3|]. destruct X3 as [(ND & _)|X3]; [now elim ND|now right].
    + exists (PReturn f), None. split; auto. split; auto. cbn [opts_found].
      inversion SC; subst.
      * left. cbn [f_data f_type set_type]. split; [|discriminate]. now apply fits_returns in HF as [? _].
      * right. destruct pres; reflexivity.
    + assert (line_text b) as Hb.
      { rewrite El in Hl. apply line_text_app in Hl as [_ Hl]. now apply line_text_cons in Hl. }
      rewrite option_text_term by auto. exists (PEnd s'), (Some b).
      split; [reflexivity|]. split; [reflexivity|].
      inversion SC; subst.
      split; [auto|]. eexists [], _. split; [reflexivity|]. split; [easy|].
      split. { intros x y -> ->. match goal with H : hd _ _ <> _ |- _ => now apply H end. }
      split; [cbn; unfold kMaxLineLength in L; lia|].
      split; [reflexivity|].
      split.
      * assert (C : plain (s_f s)) by (unfold fits_state in HF; destruct (s_st s); auto; easy).
        apply (plain_cur "$") in C. destruct C as [C1 C2]. split; cbn [s_f].
        -- now rewrite (proj1 (proj2 (options_frame _ _))).
        -- rewrite options_type. exact C2.
      * cbn [s_st]. intros Q. split; [|easy]. clear -Q. unfold cur_st in Q.
        destruct (_ && _); [discriminate|exact Q].
Qed.

(** ** In terms of the reading *)

Lemma no_dollar_blank (b : bytes) : (forall c, In c b -> blank c) -> ~ In "$"%char b.
Proof. intros H I. destruct (H _ I) as [Q|Q]; discriminate Q. Qed.

Lemma no_dollar_filler (b : bytes) : (forall c, In c b -> filler c) -> ~ In "$"%char b.
Proof. intros H I. destruct (H _ I) as [[Q|Q]|[Q|[Q|Q]]]; discriminate Q. Qed.

Lemma no_dollar_marks a : marks a -> ~ In "$"%char a.
Proof.
  induction 1 as [|m w a Hm Hw Ma IH]; [easy|]. intros [Q|I]; [discriminate Q|].
  apply in_app_or in I as [I|[Q|I]]; [now apply (no_dollar_filler m)|discriminate Q|].
  apply in_app_or in I as [I|I]; [now apply (no_dollar_blank w)|auto].
Qed.

Lemma opening_front x exc k a t :
  opening x exc k a t -> exists F, x = F ++ t /\ ~ In "$"%char F.
Proof.
  intros [a' t' Ma _ _ _|a' m t' Ma Hm _|a' Ma|a' t' Ma _ _|a' t' Ma]; apply no_dollar_marks in Ma.
  - exists a'. auto.
  - exists (a' ++ B "@" ++ m). split; [now rewrite <- !app_assoc|].
    intros I. apply in_app_or in I as [I|[Q|I]]; [auto|discriminate Q|].
    now apply (no_dollar_filler m).
  - exists (a' ++ B "|"). split; [now rewrite app_nil_r|].
    intros I. apply in_app_or in I as [I|[Q|[]]]; [auto|discriminate Q].
  - exists (a' ++ B "|"). split; [now rewrite <- app_assoc|].
    intros I. apply in_app_or in I as [I|[Q|[]]]; [auto|discriminate Q].
  - exists (a' ++ B "||"). split; [now rewrite <- app_assoc|].
    intros I. apply in_app_or in I as [I|[Q|[Q|[]]]]; [auto|discriminate Q..].
Qed.

Lemma body_no_dollar t body e : contents t body e -> ~ In "$"%char body.
Proof.
  intros (w & _ & _ & M) I. apply in_split in I as (x & y & ->).
  destruct (M x ("$"%char :: y) eq_refl) as [N _]; [discriminate|]. apply N. now exists (y ++ w).
Qed.

Lemma reads_dollar l exc k a t body e x :
  reads l (IsRule exc k a t body e x) ->
  exists F w, finish_text e w /\ l = F ++ w /\ ~ In "$"%char F.
Proof.
  intros R. inversion R; subst.
  match goal with H : opening _ _ _ _ _ |- _ => destruct (opening_front _ _ _ _ _ H) as (F & -> & NF) end.
  match goal with H : contents _ _ _ |- _ =>
    pose proof (body_no_dollar _ _ _ H) as NB; destruct H as (w & Fw & -> & _) end.
  exists (b ++ F ++ body), w. split; auto. split; [now rewrite <- !app_assoc|].
  intros I. repeat (apply in_app_or in I as [I|I]); auto. now apply (no_dollar_blank b).
Qed.

Lemma line_options pres l t r m :
  line_text l -> term t -> reads l m ->
  exists op, OwnT.options_read pres (l ++ t :: r, length l) = Ok op /\
    (within l m -> op = options_of m) /\ (~ within l m -> op = None).
Proof.
  intros Hl T R.
  destruct (opts_finds pres l t r (length l) Hl T l [] (mkPs FPStart filter0 [] 0 0 0)
              (le_n _) eq_refl eq_refl (J0 filter0)) as (o & op & E1 & E2 & P).
  { split; reflexivity. }
  exists op. split; [exact E1|].
  destruct (reading_any pres l m Hl R) as (f & bb & PF & Ag & Gu).
  unfold parse_filter in PF. rewrite E2 in PF. cbn [bind] in PF.
  destruct op as [x|]; cbn [opts_found] in P.
  - destruct P as (_ & pre & s' & El & Np & Bx & Ln & -> & [Pd Pt] & SB). cbn [s_pos] in Ln.
    destruct (is_start (s_st s')) eqn:Q.
    + destruct (SB eq_refl) as [_ Hb].
      assert (R' : reads l (IsOptions x)) by (apply (reads_options l pre x); auto).
      rewrite (reading_unique _ _ _ R R'). cbn [within options_of]. split; auto.
      intros N. elim N. rewrite El, app_length. cbn [length]. lia.
    + destruct (rule_text pres (cstr l) s') as [rt|]; [cbn [bind] in PF|discriminate PF].
      injection PF as Ef Eb. symmetry in Eb.
      assert (Fd : exists d, f_data f = Some d) by (rewrite <- Ef; destruct pres; eexists; reflexivity).
      assert (Ft : f_type f = f_type (s_f s')) by (rewrite <- Ef; destruct pres; reflexivity).
      destruct (within_dec l m R) as [W|W]; [|destruct (Gu W); congruence].
      split; [|tauto]. intros _. specialize (Ag W). destruct Fd as (d & Fd).
      destruct m as [| |p|o|exc k a t' body e x']; cbn [agrees] in Ag.
      * rewrite Ag in Fd. discriminate Fd.
      * rewrite Ag in Fd. discriminate Fd.
      * rewrite Ag in Ft. cbn [f_type] in Ft. rewrite <- Ft in Pt. vm_compute in Pt. discriminate Pt.
      * destruct Ag as (_ & Q' & _). congruence.
      * destruct (reads_dollar _ _ _ _ _ _ _ _ R) as (F & w & Fw & Ew & NF).
        inversion Fw; subst e w.
        -- exfalso. rewrite app_nil_r in Ew. apply NF. rewrite <- Ew, El. apply in_or_app. right. now left.
        -- cbn [options_of]. rewrite El in Ew. apply dollar_unique in Ew; auto. now f_equal.
        -- destruct Ag as (Ty & _). rewrite <- Ft, Ty in Pt. discriminate Pt.
        -- destruct Ag as (Ty & _). rewrite <- Ft, Ty in Pt. discriminate Pt.
        -- destruct Ag as (Ty & _). rewrite <- Ft, Ty in Pt. discriminate Pt.
  - split; auto. intros W. specialize (Ag W). symmetry.
    destruct (options_of m) as [o'|] eqn:O; auto. exfalso.
    destruct m as [| |p|o''|exc k a t' body [|o''|] x']; try discriminate O; injection O as ->; cbn [agrees] in Ag.
    + destruct Ag as (Ty & Da & _). assert (D : In "$"%char l).
      { inversion R; subst. apply in_or_app. right. now left. }
      destruct o as [g|s'].
      * injection PF as -> _. destruct P as [[_ P]|P]; [auto|]. rewrite Ty in P. discriminate P.
      * destruct P as [(_ & P & _)|(P & _)]; [auto|]. rewrite P in PF. cbn [is_start] in PF.
        destruct (rule_text pres (cstr l) s') as [rt|]; [cbn [bind] in PF|discriminate PF].
        injection PF as Ef _. rewrite <- Ef in Da. destruct pres; discriminate Da.
    + destruct Ag as ((_ & _ & _ & _ & _ & Ty) & Da & _). assert (D : In "$"%char l).
      { destruct (reads_dollar _ _ _ _ _ _ _ _ R) as (F & w & Fw & Ew & _).
        inversion Fw; subst w. rewrite Ew. apply in_or_app. right. now left. }
      destruct o as [g|s'].
      * injection PF as -> _. destruct P as [[P _]|P]; [congruence|].
        specialize (Ty FTRegex (or_introl eq_refl)). rewrite P in Ty. discriminate Ty.
      * destruct P as [(_ & P & _)|(P & (_ & Mk))]; [auto|]. rewrite P in PF. cbn [is_start] in PF.
        destruct (rule_text pres (cstr l) s') as [rt|]; [cbn [bind] in PF|discriminate PF].
        injection PF as Ef _.
        assert (Ft : f_type f = f_type (s_f s')) by (rewrite <- Ef; destruct pres; reflexivity).
        rewrite <- Ft in Mk.
        assert (K : has (f_type f) (f_type f) = false) by (apply Ty; cbn in Mk |- *; tauto).
        cbn in Mk. repeat destruct Mk as [Mk|Mk]; try easy; rewrite <- Mk in K; discriminate K.
Qed.
