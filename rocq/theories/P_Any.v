(** What any rule says about a request. *)
From Verif Require Import Base Flags Protocol Url Sets FilterM ParseM ClientM Spec SpecM
  SpecC SpecQ SpecE SpecN SpecG SpecH P_Base P_Protocol P_Url P_Match P_Rule P_Parse P_List P_Shape P_Fp P_Line P_Line2
  P_Line3 P_Line4 P_Line5 P_Fp2 P_Props1 P_Props2 P_Props3 P_Opt P_Opt2 P_Rx P_Abb P_Abb2 P_Match2 P_Set P_Client P_Decide P_Hist
  P_Dec2 P_Dec5 P_Safe P_End P_Exact SpecR P_Over SpecLine P_Read3 P_Read4 P_Read5 SpecAny.
From Verif Require Import SpecC.

(** ** The stored rule *)
Record facts (q : terms) (f : filter) : Prop := mkFacts {
  fa_exc : has (f_type f) FTException = q_exception q;
  fa_left : has (f_type f) FTLeftAnchored = (match q_anchor q with LeftBar => true | _ => false end);
  fa_host : has (f_type f) FTHostAnchored = (match q_anchor q with HostBars => true | _ => false end);
  fa_right : has (f_type f) FTRightAnchored = q_right q;
  fa_only : has (f_type f) FTHostOnly = true <-> only_host q;
  fa_none : forall m, In m [FTRegex; FTElementHiding; FTElementHidingException; FTHTMLFiltering;
                       FTEmpty; FTComment] -> has (f_type f) m = false;
  fa_data : f_data f = Some (q_pattern q, [NUL]);
  fa_name : host_of (q_anchor q) (q_rest q) (f_host f);
  fa_opts : exists parts, parts_of q parts /\ has_options parts f
}.

Lemma has_bar_spec s : has_bar s = true <-> In "|"%char s.
Proof.
  unfold has_bar. rewrite existsb_exists. split.
  - intros (c & I & H). apply Ascii.eqb_eq in H as <-. auto.
  - intros I. exists "|"%char. split; auto.
Qed.

Lemma none_options f : no_options f -> f_dom f = None -> has_options [] f.
Proof.
  intros (H1 & H2 & H3) H4. unfold has_options. rewrite H1, H2, H3, H4.
  split; [|split; [|split]].
  - intros i. rewrite N.bits_0. split; [discriminate|]. now intros (n & c & [[] _] & _).
  - intros i. rewrite N.bits_0. split; [discriminate|]. now intros (n & c & [] & _).
  - now intros s [].
  - right. split; auto. now intros s [].
Qed.

Lemma states_facts pres l f b q :
  line_text l -> parse_filter pres (cstr l) (length l) = Ok (f, b) ->
  states l q -> facts q f.
Proof.
  intros Hl HP S.
  assert (forall m, reads l m -> within l m -> agrees pres m f) as AG.
  { intros m R W. destruct (reading_any pres l m Hl R) as (f' & b' & HP' & A & _).
    rewrite HP in HP'. injection HP' as <- _. auto. }
  assert (forall body, has (f_type f) FTRightAnchored = true <-> In "|"%char body ->
    has (f_type f) FTRightAnchored = has_bar body) as RB.
  { intros body H. apply eq_true_iff_eq. rewrite has_bar_spec. exact H. }
  destruct S as [exc k a t body x R Ln|exc k a t body o x R Ln]; apply AG in R; auto; cbn [agrees] in R;
    destruct R as ((A1 & A2 & A3 & A4 & A5 & A6) & A7 & A8 & A9 & _);
    constructor; cbn [q_exception q_anchor q_rest q_pattern q_right q_options]; auto.
  - unfold parts_of. cbn [q_options]. exists []. split; auto. now apply none_options.
Qed.

(** ** Options *)
Definition codes : list N := map snd option_table ++ [FOCSP; FORedirect; FOUnknown].

Lemma denotes_code n c : denotes n c -> In c codes.
Proof.
  intros [n' before m c' after E _ _|n' _|n' _|n' _ _ _ _ _]; unfold codes; apply in_or_app.
  - left. rewrite E, map_app. apply in_or_app. right. left. reflexivity.
  - right. cbn; auto.
  - right. cbn; auto.
  - right. cbn; auto.
Qed.

Definition type_codes : list N :=
  map snd (List.filter (fun e => existsb (beq (fst e)) resource_types) option_table).

Lemma type_bit_code c : type_bit c <-> In c type_codes.
Proof.
  unfold type_bit, type_codes. rewrite in_map_iff. split.
  - intros (n & H1 & H2). exists (n, c). split; auto. apply filter_In. split; auto.
    apply existsb_exists. exists n. split; auto. now apply beq_eq.
  - intros ([n c'] & <- & H). apply filter_In in H as [H1 H2]. apply existsb_exists in H2 as (n' & H2 & H3).
    cbn [fst snd] in *. apply beq_eq in H3 as <-. eauto.
Qed.

Lemma in_eqb (c : N) l : existsb (N.eqb c) l = true <-> In c l.
Proof.
  rewrite existsb_exists. split.
  - intros (x & I & H). apply N.eqb_eq in H as <-. auto.
  - intros I. exists c. split; auto. apply N.eqb_refl.
Qed.

Lemma code_facts c : In c codes ->
  (common c FOUnsupportedSoSkipCheck <-> In c not_supported) /\
  (common c FOResourcesOnly <-> type_bit c) /\
  (type_bit c -> N.ldiff c FOResourcesOnly = 0%N) /\
  (common c FODocument <-> c = FODocument) /\
  (common c FOThirdParty <-> c = FOThirdParty) /\
  (N.ldiff c BehavioralFilterOnly = 0%N <-> In c not_about_types).
Proof.
  assert (forallb (fun c =>
    Bool.eqb (has c FOUnsupportedSoSkipCheck) (existsb (N.eqb c) not_supported) &&
    Bool.eqb (has c FOResourcesOnly) (existsb (N.eqb c) type_codes) &&
    (negb (existsb (N.eqb c) type_codes) || N.eqb (N.ldiff c FOResourcesOnly) 0) &&
    Bool.eqb (has c FODocument) (N.eqb c FODocument) &&
    Bool.eqb (has c FOThirdParty) (N.eqb c FOThirdParty) &&
    Bool.eqb (N.eqb (N.ldiff c BehavioralFilterOnly) 0) (existsb (N.eqb c) not_about_types)) codes = true) as K
    by (vm_compute; reflexivity).
  rewrite forallb_forall in K. intros I. apply K in I. clear K.
  rewrite !andb_true_iff in I. destruct I as [[[[[I1 I2] I3] I4] I5] I6].
  apply Bool.eqb_prop in I1, I2, I4, I5, I6.
  rewrite <- !has_common, !type_bit_code, <- !in_eqb, <- !N.eqb_eq, <- I1, <- I2, <- I4, <- I5, <- I6.
  repeat (split; [tauto|]). split; [|tauto].
  rewrite I2. intros H. rewrite H in I3. exact I3.
Qed.

Section Opts.
  Context (parts : list bytes) (f : filter) (HO : has_options parts f).

  Lemma listed_common m : common (f_opt f) m <-> exists c, listed parts c /\ common c m.
  Proof.
    destruct HO as (X & _). split.
    - intros (i & T1 & T2). apply X in T1 as (n & c & P & D & T). exists c. split; [exists n; auto|exists i; auto].
    - intros (c & (n & P & D) & i & T1 & T2). exists i. split; auto. apply X. eauto.
  Qed.
  Lemma negated_common m : common (f_anti f) m <-> exists c, negated parts c /\ common c m.
  Proof.
    destruct HO as (_ & X & _). split.
    - intros (i & T1 & T2). apply X in T1 as (n & c & P & D & T). exists c. split; [exists n; auto|exists i; auto].
    - intros (c & (n & P & D) & i & T1 & T2). exists i. split; auto. apply X. eauto.
  Qed.

  Lemma listed_code c : listed parts c -> In c codes.
  Proof. intros (n & _ & D). eapply denotes_code; eauto. Qed.
  Lemma negated_code c : negated parts c -> In c codes.
  Proof. intros (n & _ & D). eapply denotes_code; eauto. Qed.

  Lemma unsupported_iff :
    common (f_opt f) FOUnsupportedSoSkipCheck <-> exists c, listed parts c /\ In c not_supported.
  Proof.
    rewrite listed_common. split; intros (c & L & H); exists c;
      destruct (code_facts c (listed_code c L)) as (K & _); (split; [exact L|]); apply K; exact H.
  Qed.

  Lemma value_unique name v v' :
    name <> [] -> ~ begins (B "~") name -> last_value name parts v -> last_value name parts v' -> v = v'.
  Proof.
    intros N0 Nn (x & y & s & E & Hs & N) (x' & y' & s' & E' & Hs' & N').
    assert (s = s') as <-.
    { assert (forall s0, s0 = name ++ v \/ s0 = B "~" ++ name ++ v \/
                         s0 = name ++ v' \/ s0 = B "~" ++ name ++ v' ->
              begins name s0 \/ begins (B "~" ++ name) s0) as K.
      { intros s0 [-> | [-> | [-> | ->]]]; [left; now exists v|right; exists v; now rewrite <- app_assoc|
          left; now exists v'|right; exists v'; now rewrite <- app_assoc]. }
      rewrite E in E'. clear E. apply app_eq_app in E' as (z & [[E1 E2]|[E1 E2]]).
      - destruct z as [|z0 z]; [now injection E2|]. injection E2 as <- E2. exfalso.
        destruct (N' s); [rewrite E2; apply in_or_app; cbn; auto|].
        destruct (K s); [tauto|auto|auto].
      - destruct z as [|z0 z]; [now injection E2|]. injection E2 as <- E2. exfalso.
        destruct (N s'); [rewrite E2; apply in_or_app; cbn; auto|].
        destruct (K s'); [tauto|auto|auto]. }
    assert (forall u w, name ++ u = B "~" ++ w -> False) as Q.
    { intros u w H. destruct name as [|c name]; [now elim N0|]. injection H as -> _. elim Nn. now exists name. }
    destruct Hs as [-> | ->], Hs' as [Hs' | Hs'].
    - now apply app_inv_head in Hs'.
    - elim (Q _ _ Hs').
    - symmetry in Hs'. elim (Q _ _ Hs').
    - injection Hs' as Hs'. now apply app_inv_head in Hs'.
  Qed.

  Lemma no_last name v : no_value name parts -> ~ last_value name parts v.
  Proof.
    intros N (x & y & s & E & Hs & _). destruct (N s) as [N1 N2].
    { rewrite E. apply in_or_app. cbn; auto. }
    destruct Hs as [-> | ->]; [apply N1; now exists v|apply N2; exists v; now rewrite <- app_assoc].
  Qed.

  Lemma domain_value dl : f_dom f = Some dl <-> last_value (B "domain=") parts dl.
  Proof.
    destruct HO as (_ & _ & X & _). destruct (f_dom f) as [dl'|].
    - split; [now intros [= <-]|]. intros L. f_equal.
      eapply value_unique; eauto; [discriminate|]. intros (w & H). discriminate H.
    - split; [discriminate|]. intros L. now apply (no_last _ _ X) in L.
  Qed.

  Lemma tag_value :
    (forall t, last_value (B "tag=") parts t -> f_tag f = t) /\
    (f_tag f = [] \/ last_value (B "tag=") parts (f_tag f)).
  Proof.
    destruct HO as (_ & _ & _ & X). split.
    - intros t L. destruct X as [X|[_ X]].
      + eapply value_unique; eauto; [discriminate|]. intros (w & H). discriminate H.
      + now apply (no_last _ _ X) in L.
    - tauto.
  Qed.

  Context (context : N) (page : option bytes) (uh : bytes).
  Let ctx := party_context context page uh.

  Lemma type_common c :
    In c codes -> (common c (N.land FOResourcesOnly ctx) <-> type_bit c /\ common c context).
  Proof.
    intros I. destruct (code_facts c I) as (_ & K1 & K2 & _). unfold ctx. split.
    - intros (i & T1 & T2). rewrite N.land_spec, andb_true_iff in T2. destruct T2 as [T2 T3].
      rewrite any_types in T3 by auto. split; [apply K1|]; exists i; auto.
    - intros (T & i & T1 & T2). exists i. rewrite N.land_spec.
      assert (N.testbit FOResourcesOnly i = true) as R.
      { apply K2 in T. rewrite ldiff_bits in T. auto. }
      rewrite R, any_types, T2 by auto. auto.
  Qed.

  Lemma allow_iff : matchesOptions f ctx page = true <-> options_allow parts context uh page.
  Proof.
    rewrite matchesOptions_exact. unfold ctx. rewrite any_not, any_third, unsupported_iff.
    assert (common (party_context context page uh) FODocument <-> common context FODocument) as E2.
    { split; intros (i & T1 & T2); exists i; (split; auto); rewrite any_types in *; auto;
        change FODocument with (2 ^ 7)%N in T2; rewrite N.pow2_bits_eqb in T2;
        apply N.eqb_eq in T2 as <-; reflexivity. }
    assert (common (f_opt f) FODocument <-> listed parts FODocument) as E3.
    { rewrite listed_common. split.
      - intros (c & L & K). destruct (code_facts c (listed_code c L)) as (_ & _ & _ & Q & _).
        apply Q in K as ->. exact L.
      - intros L. exists FODocument. split; auto. exists 7%N. auto. }
    assert (common (f_opt f) FOThirdParty <-> listed parts FOThirdParty) as E8.
    { rewrite listed_common. split.
      - intros (c & L & K). destruct (code_facts c (listed_code c L)) as (_ & _ & _ & _ & Q & _).
        apply Q in K as ->. exact L.
      - intros L. exists FOThirdParty. split; auto. exists 13%N. auto. }
    assert (common (f_anti f) FOThirdParty <-> negated parts FOThirdParty) as E9.
    { rewrite negated_common. split.
      - intros (c & L & K). destruct (code_facts c (negated_code c L)) as (_ & _ & _ & _ & Q & _).
        apply Q in K as ->. exact L.
      - intros L. exists FOThirdParty. split; auto. exists 13%N. auto. }
    assert (N.ldiff (f_opt f) BehavioralFilterOnly = 0%N <->
            forall c, listed parts c -> In c not_about_types) as E4.
    { destruct HO as (X & _). rewrite ldiff_bits. split.
      - intros H c L. destruct (code_facts c (listed_code c L)) as (_ & _ & _ & _ & _ & Q).
        apply Q, ldiff_bits. intros i T. apply H, X. destruct L as (n & P & D). eauto.
      - intros H i T. apply X in T as (n & c & P & D & T).
        assert (listed parts c) as L by (exists n; auto).
        destruct (code_facts c (listed_code c L)) as (_ & _ & _ & _ & _ & Q).
        apply H, Q in L. rewrite ldiff_bits in L. auto. }
    assert (common (f_opt f) (N.land FOResourcesOnly (party_context context page uh)) <->
            exists c, listed parts c /\ type_bit c /\ common c context) as E5.
    { rewrite listed_common. split; intros (c & L & K); exists c; (split; [exact L|]);
        apply (type_common c (listed_code c L)); exact K. }
    assert (common (f_anti f) (N.land FOResourcesOnly (party_context context page uh)) <->
            exists c, negated parts c /\ type_bit c /\ common c context) as E6.
    { rewrite negated_common. split; intros (c & L & K); exists c; (split; [exact L|]);
        apply (type_common c (negated_code c L)); exact K. }
    assert (domain_ok f page <->
            forall dl d, last_value (B "domain=") parts dl -> page = Some d -> domain_applies dl d) as E7.
    { unfold domain_ok. destruct page as [d|].
      - destruct (f_dom f) as [dl|] eqn:Q.
        + rewrite (contextDomain_spec f dl d Q). pose proof (proj1 (domain_value dl) Q) as LV. split.
          * intros H dl' d' L [= <-]. apply domain_value in L. rewrite Q in L. now injection L as <-.
          * intros H. apply H; auto.
        + split; auto. intros _ dl d' L. apply domain_value in L. rewrite Q in L. discriminate.
      - split; [|now destruct (f_dom f)]. intros _ dl d _ [=]. }
    assert (common (f_opt f) FOResourcesOnly <-> exists c, listed parts c /\ type_bit c) as E10.
    { rewrite listed_common. split; intros (c & L & K); exists c;
        destruct (code_facts c (listed_code c L)) as (_ & Q & _); (split; [exact L|]); apply Q; exact K. }
    assert (common (f_anti f) FOResourcesOnly <-> exists c, negated parts c /\ type_bit c) as E11.
    { rewrite negated_common. split; intros (c & L & K); exists c;
        destruct (code_facts c (negated_code c L)) as (_ & Q & _); (split; [exact L|]); apply Q; exact K. }
    rewrite E2, E3, E7, E8, E9. clear E2 E3 E7 E8 E9. unfold options_allow.
    assert ((if (party_context context page uh =? 0)%N
             then ~ common (f_opt f) FOResourcesOnly /\ ~ common (f_anti f) FOResourcesOnly
             else (N.ldiff (f_opt f) BehavioralFilterOnly = 0%N \/
                   common (N.land (f_opt f) FOResourcesOnly) (party_context context page uh)) /\
                  ~ common (N.land (f_anti f) FOResourcesOnly) (party_context context page uh)) <->
            (bare_request context page -> forall c, listed parts c \/ negated parts c -> ~ type_bit c) /\
            (~ bare_request context page ->
             ((forall c, listed parts c -> In c not_about_types) \/
              exists c, listed parts c /\ type_bit c /\ common c context) /\
             forall c, negated parts c -> type_bit c -> ~ common c context)) as E12.
    { pose proof (any_zero context page uh) as Z.
      destruct (party_context context page uh =? 0)%N.
      - assert (bare_request context page) as BR by (now apply Z).
        rewrite E10, E11. split.
        + intros [H1 H2]. split; [|easy]. intros _ c [P|P] I; [apply H1|apply H2]; eauto.
        + intros [H1 _]. specialize (H1 BR).
          split; intros (c & P & I); apply (H1 c); auto.
      - assert (~ bare_request context page) as BR by (intros X; apply Z in X; discriminate).
        rewrite !common_land, E4, E5, E6. split.
        + intros [H1 H2]. split; [easy|]. intros _. split; auto.
          intros c P K Q. apply H2. eauto.
        + intros [_ H1]. destruct (H1 BR) as [H2 H3]. split; auto.
          intros (c & P & K & Q). now apply (H3 c). }
    rewrite E12. clear E12 E4 E5 E6 E10 E11.
    assert ((forall c, listed parts c -> ~ In c not_supported) <->
            ~ (exists c, listed parts c /\ In c not_supported)) as ->.
    { split; [intros H (c & L & K); now apply (H c)|]. intros H c L K. apply H. eauto. }
    tauto.
  Qed.
End Opts.

(** ** The whole rule *)
Lemma parts_unique q parts parts' : parts_of q parts -> parts_of q parts' -> parts' = parts.
Proof.
  unfold parts_of. destruct (q_options q).
  - intros H H'. apply cut_unique in H, H'. congruence.
  - congruence.
Qed.

Lemma after_colon_none s : ~ In ":"%char s -> after_colon s = [].
Proof.
  induction s as [|c s IH]; intros N; [reflexivity|]. cbn [after_colon].
  destruct (ceq_spec c ":") as [->|C]; [cbn in N; tauto|]. apply IH. cbn in N. tauto.
Qed.

Lemma asked_hostOf url uh : host_asked url uh -> hostOf url = uh.
Proof.
  intros [H|[N ->]]; [now apply hostOf_spec|]. unfold hostOf. now rewrite after_colon_none.
Qed.

Lemma host_asked_exists url : exists uh, host_asked url uh.
Proof.
  destruct (in_dec ascii_dec ":"%char url) as [I|N].
  - exists (hostOf url). left. now apply hostOf_exists.
  - exists []. now right.
Qed.

Lemma web_colon url : web_url url -> In ":"%char url.
Proof.
  intros (_ & pre & scheme & rest & -> & _). rewrite !in_app_iff. cbn. auto.
Qed.

Lemma host_asked_unique url uh uh' : host_asked url uh -> host_asked url uh' -> uh = uh'.
Proof. intros H H'. now rewrite <- (asked_hostOf _ _ H), (asked_hostOf _ _ H'). Qed.

Section Key.
  Context (E : env) (calls : list call) (q : terms) (f : filter) (F : facts q f) (W : wf_rule f)
    (url : bytes) (Hu : nonul url) (uh : bytes) (Huh : host_asked url uh)
    (context : N) (page : option bytes).

  Lemma pattern_iff : tmatch E f url = true <-> pattern_meets q url uh.
  Proof.
    unfold tmatch, patb. rewrite (fa_data q f F), (fa_left q f F), (fa_right q f F).
    rewrite (fa_none q f F FTRegex) by (cbn; auto).
    assert (wildb url (split_on "*" (q_pattern q)) 0 = true <-> pieces_in (q_pattern q) url) as Wd.
    { rewrite wildb_spec. unfold pieces_in. split.
      - intros H. exists (split_on "*" (q_pattern q)). split; auto. apply split_pieces_of.
      - intros (p & H1 & H2). now apply pieces_of_unique in H1 as ->. }
    unfold pattern_meets, hostchk. pose proof (fa_name q f F) as Nm. rewrite (fa_host q f F).
    destruct (q_anchor q), (q_right q); cbn [andb orb negb].
    - apply endsWith_spec.
    - exact Wd.
    - rewrite beq_eq. split; auto.
    - apply prefixb_spec.
    - apply endsWith_spec.
    - destruct Nm as (h & B & Eh). unfold hkey. rewrite Eh.
      rewrite andb_true_iff, negb_true_iff, isThirdPartyHost_spec, (asked_hostOf _ _ Huh), Wd.
      split.
      + intros (H1 & H2). exists h. auto.
      + intros (h' & H1 & H2 & H3). apply behind_unique in H1, B. subst. auto.
  Qed.

  Lemma overruns_iff :
    overruns q url <-> unanchored f /\ overreads (searched E None) url 0 (split_on "*" (q_pattern q)).
  Proof.
    unfold overruns, unanchored.
    rewrite (fa_none q f F FTRegex) by (cbn; auto). rewrite (fa_left q f F), (fa_right q f F).
    assert (overreads (fun _ => True) url 0 (split_on "*" (q_pattern q)) <->
            overreads (searched E None) url 0 (split_on "*" (q_pattern q))) as <-.
    { split; intros H.
      - induction H; [apply or_here|apply or_next with i]; auto. easy.
      - induction H; [apply or_here|apply or_next with i]; auto. }
    split.
    - intros (H1 & H2 & p & H3 & H4). apply pieces_of_unique in H3 as ->.
      split; auto. split; auto. split; auto. now destruct (q_anchor q).
    - intros ((_ & H1 & H2) & H3). split; [intros Q; rewrite Q in H1; discriminate|]. split; auto.
      exists (split_on "*" (q_pattern q)). split; auto. apply split_pieces_of.
  Qed.

  Lemma eval_any ctx :
    filter_matches E f (cstr url) (length url) ctx page None [] = Ok true <->
    (matchesOptions f ctx page = true /\ pattern_meets q url uh) /\ ~ overruns q url.
  Proof.
    rewrite <- pattern_iff, overruns_iff.
    pose proof (wf_ub E f url ctx page None [] W Hu (or_introl eq_refl) ltac:(easy)) as U.
    pose proof (wf_eval_some E f url ctx page None [] true W Hu (or_introl eq_refl) ltac:(easy)) as T.
    destruct (filter_matches E f (cstr url) (length url) ctx page None []) as [v|] eqn:V.
    - assert (v = matchesOptions f ctx page && tmatch E f url) as Ev.
      { apply (wf_eval_some E f url ctx page None [] v W Hu (or_introl eq_refl)); [easy|exact V]. }
      split.
      + intros [= ->]. symmetry in Ev. apply andb_true_iff in Ev. split; auto.
        intros [H1 H2]. assert (Ok true = UB) as X; [|discriminate X]. apply U.
        exists (q_pattern q). split; [apply (fa_data q f F)|]. split; [tauto|]. split; auto. split; auto.
        destruct Ev as [_ Ev]. unfold tmatch, patb in Ev. rewrite (fa_data q f F) in Ev.
        destruct H1 as (H1 & H3 & H4). rewrite H1, H3, H4 in Ev. cbn [andb orb] in Ev.
        now apply andb_true_iff in Ev.
      + intros [[H1 H2] _]. rewrite H1, H2 in Ev. now subst.
    - split; [discriminate|]. intros [_ N]. exfalso. apply N.
      destruct (proj1 U eq_refl) as (d & Hd & _ & H1 & _ & H2). rewrite (fa_data q f F) in Hd.
      injection Hd as <-. auto.
  Qed.

  Lemma terms_iff : applies E calls f url context page <-> terms_apply calls q url uh context page.
  Proof.
    destruct (fa_opts q f F) as (parts & PO & HO).
    assert (getUrlHost (cstr url) = Ok uh) as GH.
    { rewrite getUrlHost_cstr by auto. now rewrite (asked_hostOf _ _ Huh). }
    assert (matches_alone E f url context page <->
            (options_allow parts context uh page /\ pattern_meets q url uh) /\ ~ overruns q url) as M.
    { unfold matches_alone.
      rewrite <- (allow_iff parts f HO context page uh), <- eval_any. split.
      - intros (h & H1 & H2). assert (h = uh) as -> by congruence. exact H2.
      - intros H. exists uh. split; auto. }
    destruct (tag_value parts f HO) as [T1 T2].
    unfold applies, terms_apply, terms_meet. rewrite M. unfold tag_on. split.
    - intros [[[H1 H2] N] H3]. split; auto. split; auto. exists parts. split; auto. split; auto.
      intros t L. apply T1 in L as <-. exact H3.
    - intros ((H1 & p & H2 & H3 & H4) & N).
      assert (p = parts) as -> by (eapply parts_unique; eauto). split; auto.
      destruct T2 as [T2|T2]; auto.
  Qed.
End Key.
