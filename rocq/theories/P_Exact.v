(** The decision read off the text for every request (C79), and the exact
    difference between the two entry points (C34). *)
From Verif Require Import Base Flags Protocol Url Sets FilterM ParseM ClientM Spec SpecM
  SpecC SpecQ SpecE SpecN P_Base P_Protocol P_Url P_Match P_Rule P_Parse P_List P_Shape P_Fp P_Line P_Line2
  P_Line3 P_Line4 P_Line5 P_Fp2 P_Props1 P_Props2 P_Props3 P_Opt P_Opt2 P_Match2 P_Set P_Client P_Decide P_Hist
  P_Dec2 P_Dec5 P_Safe P_End.
From Verif Require Import SpecC.

(** ** C34 *)
Lemma find_decision E calls c url context dom v :
  history calls -> after E calls = Ok c -> nonul url ->
  findMatchingFilters E c (cstr url) context dom = Ok v ->
  v_block v = true <->
  (exists f, visible E calls false url f /\ applies E calls f url context dom) /\
  ~ (exists f, visible E calls true url f /\ applies E calls f url context dom).
Proof.
  intros H A Hu M. destruct (hist_view E calls c H A) as (rs & V).
  destruct (find_spec E c rs url context dom v (w_rep _ _ _ _ V) Hu M)
    as (F1 & F2 & _ & ->).
  assert (forall e o, found E c url context dom (present E rs e (hostOf url)) o ->
    (o <> None <-> exists f, visible E calls e url f /\ applies E calls f url context dom)) as K.
  { intros e o X. split.
    - destruct o as [g|]; [intros _|easy]. destruct X as (f & X1 & X2 & X3).
      exists f. split; [now apply (visible_present E calls c rs)|].
      now apply (fires_applies E calls c rs).
    - intros (f & X1 & X2) ->. apply (X f).
      + now apply (visible_present E calls c rs).
      + now apply (fires_applies E calls c rs). }
  destruct (v_filter v) as [g|] eqn:Q.
  - pose proof (K false (Some g) F1) as K1. specialize (F2 ltac:(discriminate)).
    pose proof (K true _ F2) as K2. destruct (v_exc v).
    + split; [discriminate|]. intros [_ Z]. exfalso. apply Z, K2. discriminate.
    + split; auto. intros _. split; [apply K1; discriminate|]. intros Z. now apply K2 in Z.
  - split; [discriminate|]. intros [Z _]. pose proof (K false None F1) as K1. now apply K1 in Z.
Qed.

Lemma probed_dec d s : probed d s \/ ~ probed d s.
Proof.
  unfold probed, wide_suffix.
  assert (s = d \/ s <> d) as A.
  { destruct (beq s d) eqn:Q; [left; now apply beq_eq|right].
    intros ->. assert (beq d d = true) by now apply beq_eq. congruence. }
  assert ((exists p, d = p ++ B "." ++ s) \/ ~ (exists p, d = p ++ B "." ++ s)) as X.
  { destruct (endsWith d (B "." ++ s)) eqn:Q; [left|right].
    - now apply endsWith_spec.
    - intros P. apply endsWith_spec in P. congruence. }
  assert (In "."%char s \/ ~ In "."%char s) as I
    by (destruct (in_dec ascii_dec "."%char s); auto).
  tauto.
Qed.

Lemma some_dec {A} (P : A -> Prop) (xs : list A) :
  (forall x, P x \/ ~ P x) -> (exists x, In x xs /\ P x) \/ ~ (exists x, In x xs /\ P x).
Proof.
  intros D. induction xs as [|x xs IH]; [right; intros (x & [] & _)|].
  destruct (D x) as [X|X]; [left; exists x; cbn; auto|].
  destruct IH as [(y & I & Y)|N]; [left; exists y; cbn; auto|].
  right. intros (y & [->|I] & Y); auto. apply N. eauto.
Qed.

Lemma gate_hit_dec E n xs dom : gate_hit E n xs dom \/ ~ gate_hit E n xs dom.
Proof.
  unfold gate_hit. destruct dom as [d|].
  - destruct (some_dec (probed d) xs (probed_dec d)) as [(s & I & P)|N].
    + left. eauto.
    + right. intros (s & P & I). apply N. eauto.
  - destruct (some_dec (fun x => x = []) xs) as [(s & I & ->)|N].
    + intros [|]; auto. right; discriminate.
    + destruct (N.eq_dec (e_hash E [] mod n) 0); [left; auto|right; tauto].
    + right. intros [I _]. apply N. eauto.
Qed.

Lemma page_excluded_dec E calls c e dom :
  history calls -> after E calls = Ok c ->
  page_excluded E calls e dom \/ ~ page_excluded E calls e dom.
Proof.
  intros H A. destruct (hist_view E calls c H A) as (rs & V).
  rewrite <- (anti_hit E calls rs e dom); [apply gate_hit_dec| |].
  - apply (w_lines _ _ _ _ V).
  - destruct (w_rep _ _ _ _ V) as (PO & _). exact PO.
Qed.

Lemma visible_split E calls c e url dom f :
  history calls -> after E calls = Ok c -> nonul url -> web_url url ->
  (visible E calls e url f <-> heeded E calls e url dom f \/ overlooked E calls e dom f).
Proof.
  intros H A Hu Hw. split.
  - intros [(k & X & C)|(host & h & X1 & X2 & X3 & X4)].
    + destruct (page_excluded_dec E calls c e dom H A) as [PX|PX];
      destruct e, k; cbn in C; try discriminate.
      all: first [left; now apply heeded_fingerprint|left; now apply heeded_plain
          |left; apply heeded_excluded; [exact X|exact PX]
          |right; right; split; [exact X|exact PX]|idtac].
      all: destruct dom; [left; apply heeded_listed; [exact X|discriminate]|
                          right; left; split; [exact X|reflexivity]].
    + left. apply (heeded_host E calls e url dom f host h); auto.
      apply web_host; auto. rewrite getUrlHost_cstr in X2 by auto. congruence.
  - intros [X|[[X _]|[X _]]].
    + destruct X as [g X|g X|g X Y|g X Y|g host h X1 X2 X3 X4].
      1-4: left; eexists; split; [exact X|now destruct e].
      right. exists host, h. split; auto. split; auto.
      rewrite getUrlHost_cstr by auto. now rewrite (hostOf_spec _ _ X2).
    + left; eexists; split; [exact X|now destruct e].
    + left; eexists; split; [exact X|now destruct e].
Qed.

Lemma differ_iff E calls c url context dom v c' w :
  history calls -> after E calls = Ok c -> nonul url -> web_url url ->
  matches E c (cstr url) context dom = Ok (v, c') ->
  findMatchingFilters E c (cstr url) context dom = Ok w ->
  let on P e := exists f, P e f /\ applies E calls f url context dom in
  let heard e := heeded E calls e url dom in
  let missed e := overlooked E calls e dom in
  (v_block v = true /\ v_block w = false <->
     on heard false /\ ~ on heard true /\ on missed true) /\
  (v_block v = false /\ v_block w = true <->
     ~ on heard false /\ on missed false /\ ~ on heard true /\ ~ on missed true).
Proof.
  intros H A Hu Hw M F. cbv zeta.
  pose proof (decision E calls c url context dom v c' H A Hu Hw M) as D1.
  pose proof (find_decision E calls c url context dom w H A Hu F) as D2.
  assert (forall e, (exists f, visible E calls e url f /\ applies E calls f url context dom) <->
    (exists f, heeded E calls e url dom f /\ applies E calls f url context dom) \/
    (exists f, overlooked E calls e dom f /\ applies E calls f url context dom)) as K.
  { intros e. split.
    - intros (f & X & Y). apply (visible_split E calls c e url dom f H A Hu Hw) in X as [X|X];
        [left|right]; eauto.
    - intros [(f & X & Y)|(f & X & Y)]; exists f; (split; auto);
        apply (visible_split E calls c e url dom f H A Hu Hw); auto. }
  assert (v_block v = true -> v_block w = false ->
    exists f, visible E calls true url f /\ applies E calls f url context dom) as X.
  { intros V W. apply D1 in V as [(f & V1 & V2) _].
    destruct (find_reports E calls c url context dom w H A Hu F) as (R1 & R2 & R3).
    rewrite R3 in W. destruct (v_filter w) as [g|].
    - destruct (v_exc w) as [x|]; [|discriminate]. specialize (R2 ltac:(discriminate)).
      destruct R2 as (f' & _ & Y1 & Y2 & _). eauto.
    - exfalso. apply (R1 f); auto. apply (visible_split E calls c false url dom f H A Hu Hw). auto. }
  rewrite !K in D2. rewrite K in X. clear K. split.
  - split.
    + intros [V W]. specialize (X V W). apply D1 in V as [V1 V2]. tauto.
    + intros (B1 & B2 & B3). split; [now apply D1|]. apply not_true_iff_false. tauto.
  - split.
    + intros [V W]. apply D2 in W. apply not_true_iff_false in V. rewrite D1 in V. tauto.
    + intros (B1 & B2 & B3 & B4). split; [apply not_true_iff_false; tauto|]. apply D2. tauto.
Qed.

(** ** C79: options against any request *)
Section AnyParty.
  Context (context : N) (page : option bytes) (uh : bytes).
  Let ctx := party_context context page uh.
  Let flags := N.lor FOThirdParty FONotThirdParty.

  Lemma any_case :
    ctx = context /\ (common context flags \/ page = None) \/
    ~ common context flags /\ exists d, page = Some d /\
      ((first_party d uh /\ ctx = N.lor context FONotThirdParty) \/
       (~ first_party d uh /\ ctx = N.lor context FOThirdParty)).
  Proof.
    unfold ctx, flags. destruct page as [d|]; [|left; split; auto; reflexivity].
    destruct (has context (N.lor FOThirdParty FONotThirdParty)) eqn:Q.
    - left. apply has_common in Q. split; auto. destruct (party_derived context (Some d) uh) as (X & _). auto.
    - right. apply has_false in Q. split; auto. exists d. split; auto. now apply party_case.
  Qed.

  Lemma any_zero : (ctx =? 0)%N = true <-> bare_request context page.
  Proof.
    rewrite N.eqb_eq. unfold bare_request.
    destruct any_case as [[-> [X|X]]|(X & d & -> & [[_ ->]|[_ ->]])].
    - split; [intros ->|now intros [-> _]]. destruct X as (i & T & _). now rewrite N.bits_0 in T.
    - split; auto. now intros [-> _].
    - split; [|now intros []]. intros Z. apply N.lor_eq_0_iff in Z as [_ Z]. discriminate.
    - split; [|now intros []]. intros Z. apply N.lor_eq_0_iff in Z as [_ Z]. discriminate.
  Qed.

  Lemma any_types i :
    N.testbit FOResourcesOnly i = true -> N.testbit ctx i = N.testbit context i.
  Proof.
    intros R. destruct any_case as [[-> _]|(X & d & Q & _)]; auto.
    unfold ctx. rewrite Q. now apply party_types.
  Qed.

  Lemma any_not : common ctx FONotThirdParty <-> same_party context page uh.
  Proof.
    unfold same_party. fold flags. destruct any_case as [[-> X]|(X & d & Q & _)].
    - split; auto. intros [Y|(Y & d & Q & _)]; auto. destruct X as [X|X]; [easy|congruence].
    - unfold ctx. rewrite Q. rewrite (party_not context d uh X). split.
      + intros F. right. split; auto. exists d. auto.
      + intros [Y|(_ & d' & [= <-] & F)]; auto.
        exfalso. apply (party_none context X FONotThirdParty); auto.
  Qed.

  Lemma any_third : common ctx FOThirdParty <-> other_party context page uh.
  Proof.
    unfold other_party. fold flags. destruct any_case as [[-> X]|(X & d & Q & _)].
    - split; auto. intros [Y|(Y & d & Q & _)]; auto. destruct X as [X|X]; [easy|congruence].
    - unfold ctx. rewrite Q. rewrite (party_third context d uh X). split.
      + intros F. right. split; auto. exists d. auto.
      + intros [Y|(_ & d' & [= <-] & F)]; auto.
        exfalso. apply (party_none context X FOThirdParty); auto.
  Qed.
End AnyParty.

Section AnyFit.
  Context (pres : bool) (r : rule_syntax) (f : filter) (b : bool) (parts : list bytes)
    (G : good_rule r) (O : option_parts r parts) (U : usual_options parts)
    (HP : parse_filter pres (cstr (rule_line r)) (length (rule_line r)) = Ok (f, b))
    (context : N) (page : option bytes) (uh : bytes).
  Let ctx := party_context context page uh.

  Lemma any_common_types c n :
    name_bit n c ->
    (common c (N.land FOResourcesOnly ctx) <-> declared context n).
  Proof.
    intros H. rewrite declared_bit. unfold ctx. split.
    - intros (i & T1 & T2). rewrite N.land_spec, andb_true_iff in T2. destruct T2 as [T2 T3].
      rewrite any_types in T3 by auto. exists c, i. auto.
    - intros (c' & i & H' & T1 & T2 & T3). exists i. rewrite N.land_spec, T2.
      rewrite any_types, T3 by auto. split; auto.
      destruct (nonresource_names n c' i H' T1 T2) as [_ J].
      now rewrite <- (name_bit_unique n c' c J H).
  Qed.

  Lemma resource_bit c n : name_bit n c -> (common c FOResourcesOnly <-> In n resource_types).
  Proof.
    intros H. split.
    - intros (i & T1 & T2). now apply (nonresource_names n c i).
    - intros I.
      assert (exists c', In (n, c') option_table /\ common c' FOResourcesOnly) as (c' & J & i & T1 & T2).
      { assert (forallb (fun n => existsb (fun e => beq (fst e) n && has (snd e) FOResourcesOnly)
                  option_table) resource_types = true) as X by reflexivity.
        rewrite forallb_forall in X. apply X in I. apply existsb_exists in I as ([m c'] & I & Q).
        cbn [fst snd] in Q. apply andb_prop in Q as [Q1 Q2]. apply beq_eq in Q1 as ->.
        exists c'. split; auto. now apply has_common. }
      exists i. split; auto. now rewrite <- (name_bit_unique n c' c J H).
  Qed.

  Lemma options_meet_iff :
    matchesOptions f ctx page = true <-> options_meet parts context uh page.
  Proof.
    rewrite matchesOptions_exact. unfold ctx. rewrite any_not, any_third.
    pose proof (common_opt pres r f b parts G O U HP) as CO.
    pose proof (common_anti pres r f b parts G O U HP) as CA.
    assert (common (f_opt f) FOUnsupportedSoSkipCheck <->
            exists n, positive_option parts n /\ unsupported_option n) as E1.
    { rewrite CO. split.
      - intros (n & c & P & H & K). exists n. split; auto. eapply unsupported_bits; eauto.
      - intros (n & P & K). pose proof K as (c & H & _). exists n, c. split; auto. split; auto.
        now apply (unsupported_bits n c H). }
    assert (common (party_context context page uh) FODocument <->
            declared context (B "document")) as E2.
    { rewrite declared_document. split; intros (i & T1 & T2); exists i; (split; auto).
      - change FODocument with (2 ^ 7)%N in T2. rewrite N.pow2_bits_eqb in T2.
        apply N.eqb_eq in T2 as <-. now rewrite any_types in T1.
      - change FODocument with (2 ^ 7)%N in T2. rewrite N.pow2_bits_eqb in T2.
        apply N.eqb_eq in T2 as <-. now rewrite any_types. }
    assert (common (f_opt f) FODocument <-> positive_option parts (B "document")) as E3.
    { rewrite CO. split.
      - intros (n & c & P & H & K). apply (document_option n c H) in K as ->; auto.
      - intros P. exists (B "document"), FODocument. split; auto.
        split; [apply nb_known; cbn; tauto|]. exists 7%N. auto. }
    assert (N.ldiff (f_opt f) BehavioralFilterOnly = 0%N <->
            forall n, positive_option parts n -> untyped_option n) as E4.
    { destruct (opt_facts pres r f b parts G O U HP) as (X & _). rewrite ldiff_bits. split.
      - intros H n P. destruct (name_cases n) as [N|[N|(c & N)]].
        + right. auto.
        + right. auto.
        + apply (behavioral_names n c N). apply ldiff_bits. intros i T. apply H, X. eauto.
      - intros H i T. apply X in T as (n & c & P & N & T).
        apply H, (behavioral_names n c N) in P. rewrite ldiff_bits in P. auto. }
    assert (common (f_opt f) (N.land FOResourcesOnly (party_context context page uh)) <->
            exists n, positive_option parts n /\ declared context n) as E5.
    { rewrite CO. split.
      - intros (n & c & P & H & K). exists n. split; auto. eapply any_common_types; eauto.
      - intros (n & P & K). pose proof K as (_ & c & I & _). exists n, c. split; auto.
        split; [now apply nb_known|]. apply (any_common_types c n); auto. now apply nb_known. }
    assert (common (f_anti f) (N.land FOResourcesOnly (party_context context page uh)) <->
            exists n, negative_option parts n /\ declared context n) as E6.
    { rewrite CA. split.
      - intros (n & c & P & H & K). exists n. split; auto. eapply any_common_types; eauto.
      - intros (n & P & K). pose proof K as (_ & c & I & _). exists n, c. split; auto.
        split; [now apply nb_known|]. apply (any_common_types c n); auto. now apply nb_known. }
    assert (domain_ok f page <->
            forall dl d, last_domain parts dl -> page = Some d -> domain_applies dl d) as E7.
    { unfold domain_ok. pose proof (dom_facts pres r f b parts G O U HP) as D.
      destruct page as [d|].
      - destruct (f_dom f) as [dl|] eqn:Q.
        + rewrite (contextDomain_spec f dl d Q). split.
          * intros H dl' d' L [= <-]. apply D in L. now injection L as <-.
          * intros H. apply H; auto. now apply D.
        + split; auto. intros _ dl d' L. apply D in L. discriminate.
      - split; [|now destruct (f_dom f)]. intros _ dl d _ [=]. }
    assert (common (f_opt f) FOThirdParty <-> positive_option parts (B "third-party")) as E8.
    { rewrite CO. split.
      - intros (n & c & P & H & K). apply (third_option n c H) in K as ->; auto.
      - intros P. exists (B "third-party"), FOThirdParty. split; auto.
        split; [apply nb_known; cbn; tauto|]. exists 13%N. auto. }
    assert (common (f_anti f) FOThirdParty <-> negative_option parts (B "third-party")) as E9.
    { rewrite CA. split.
      - intros (n & c & P & H & K). apply (third_option n c H) in K as ->; auto.
      - intros P. exists (B "third-party"), FOThirdParty. split; auto.
        split; [apply nb_known; cbn; tauto|]. exists 13%N. auto. }
    assert (forall n, In n resource_types -> exists c, name_bit n c) as RB.
    { intros n I. assert (forallb (fun n => existsb (fun e => beq (fst e) n) option_table)
        resource_types = true) as X by reflexivity.
      rewrite forallb_forall in X. apply X in I. apply existsb_exists in I as ([m c'] & I & Q).
      cbn [fst] in Q. apply beq_eq in Q as ->. exists c'. now apply nb_known. }
    assert (common (f_opt f) FOResourcesOnly <->
            exists n, positive_option parts n /\ In n resource_types) as E10.
    { rewrite CO. split.
      - intros (n & c & P & H & K). exists n. split; auto. now apply (resource_bit c n).
      - intros (n & P & K). destruct (RB n K) as (c & H). exists n, c. split; auto.
        split; auto. now apply (resource_bit c n). }
    assert (common (f_anti f) FOResourcesOnly <->
            exists n, negative_option parts n /\ In n resource_types) as E11.
    { rewrite CA. split.
      - intros (n & c & P & H & K). exists n. split; auto. now apply (resource_bit c n).
      - intros (n & P & K). destruct (RB n K) as (c & H). exists n, c. split; auto.
        split; auto. now apply (resource_bit c n). }
    assert ((if (party_context context page uh =? 0)%N
             then ~ common (f_opt f) FOResourcesOnly /\ ~ common (f_anti f) FOResourcesOnly
             else (N.ldiff (f_opt f) BehavioralFilterOnly = 0%N \/
                   common (N.land (f_opt f) FOResourcesOnly) (party_context context page uh)) /\
                  ~ common (N.land (f_anti f) FOResourcesOnly) (party_context context page uh)) <->
            types_fit parts context page) as E12.
    { unfold types_fit. pose proof (any_zero context page uh) as Z.
      destruct (party_context context page uh =? 0)%N.
      - assert (bare_request context page) as BR by (now apply Z).
        rewrite E10, E11. split.
        + intros [H1 H2]. split; [|easy]. intros _ n [P|P] I; [apply H1|apply H2]; eauto.
        + intros [H1 _]. specialize (H1 BR).
          split; intros (n & P & I); apply (H1 n); auto.
      - assert (~ bare_request context page) as BR by (intros X; apply Z in X; discriminate).
        rewrite !common_land, E4, E5, E6. split.
        + intros [H1 H2]. split; [easy|]. intros _. split; auto.
          intros n P K. apply H2. eauto.
        + intros [_ H1]. destruct (H1 BR) as [H2 H3]. split; auto.
          intros (n & P & K). now apply (H3 n). }
    rewrite E1, E2, E3, E12, E7, E8, E9. unfold options_meet.
    split.
    - intros (H1 & H2 & H3 & H4 & H5 & H6).
      split; [intros n P Q; apply H1; eauto|]. split; auto. tauto.
    - intros (H1 & H2 & H3 & H4 & H5 & H6).
      split; [intros (n & P & Q); now apply (H1 n)|]. split; auto. split; auto. split; auto. tauto.
  Qed.
End AnyFit.

Section AnyKey.
  Context (E : env) (calls : list call) (pres : bool) (r : rule_syntax) (f : filter)
    (b : bool) (parts : list bytes)
    (G : good_rule r) (S : safe_syntax r) (O : option_parts r parts) (U : usual_options parts)
    (HP : parse_filter pres (cstr (rule_line r)) (length (rule_line r)) = Ok (f, b))
    (url : bytes) (Hu : nonul url) (uh : bytes) (Huh : url_has_host url uh)
    (context : N) (page : option bytes).

  Lemma meets_iff : applies E calls f url context page <-> rule_meets calls r url uh context page.
  Proof.
    assert (getUrlHost (cstr url) = Ok uh) as GH.
    { rewrite getUrlHost_cstr by auto. now rewrite (hostOf_spec _ _ Huh). }
    assert (matches_alone E f url context page <->
            options_meet parts context uh page /\ pattern_fits r url uh) as M.
    { unfold matches_alone.
      assert (forall ctx, filter_matches E f (cstr url) (length url) ctx page None [] =
         Ok (matchesOptions f ctx page && tmatch E f url)) as EV.
      { intros ctx. eapply safe_rule_eval; eauto. }
      rewrite <- (pattern_iff E pres r f b G HP url uh Huh).
      rewrite <- (options_meet_iff pres r f b parts G O U HP context page uh). split.
      - intros (h & H1 & H2). assert (h = uh) as -> by congruence.
        rewrite EV in H2. apply andb_true_iff. congruence.
      - intros H. exists uh. split; auto. rewrite EV. apply andb_true_iff in H. congruence. }
    destruct (tag_facts pres r f b parts G O U HP) as [T1 T2].
    unfold applies, rule_meets. rewrite M. unfold tag_on. split.
    - intros [[H1 H2] H3]. split; auto. exists parts. split; auto. split; auto.
      intros t L. apply T1 in L as <-. exact H3.
    - intros (H1 & p & H2 & H3 & H4).
      assert (p = parts) as -> by (eapply parts_unique; eauto). split; auto.
      destruct T2 as [T2|T2]; auto.
  Qed.
End AnyKey.

(** ** C79: the decision *)
Lemma some_domain dl : domainsOf dl <> [] \/ antiDomainsOf dl <> [].
Proof.
  unfold domainsOf, antiDomainsOf. destruct (split_on "|" dl) as [|x xs] eqn:Q.
  - now apply split_on_nonempty in Q.
  - cbn [List.filter]. destruct (is_anti x); cbn [negb]; [right|left]; discriminate.
Qed.

Section Text.
  Context (E : env) (calls : list call) (c : client) (url uh : bytes) (context : N)
    (page : option bytes)
    (H : history calls) (A : after E calls = Ok c)
    (Hu : nonul url) (Huh : url_has_host url uh) (UL : usual_list calls).

  Lemma line_shape pres r : good_rule r -> exists b,
    parse_filter pres (cstr (rule_line r)) (length (rule_line r)) = Ok (shape pres r, b).
  Proof.
    intros G. pose proof (good_rule_line r G) as Hl.
    rewrite parse_filter_cstr, parse_rule_line by auto. eexists. reflexivity.
  Qed.

  Lemma host_line pres l f e :
    In (pres, l) (loaded_lines calls) -> parses_to pres l f -> host_rule e f ->
    exists r, l = rule_line r /\ usual_rule r.
  Proof.
    intros I P HR. destruct (UL pres l I) as [N|(r & -> & U)]; [|eauto]. exfalso.
    destruct (hist_view E calls c H A) as (rs & V).
    pose proof (loaded_line_text calls pres l H I) as T1.
    destruct (F2_in_l _ _ _ _ (w_lines _ _ _ _ V) I) as ([[g' bb] k1] & J1 & LR).
    assert (f = g') as <- by (now apply (line_rule_parses E (pres, l) (g', bb, k1))).
    apply line_rule_ok in LR as [_ K1].
    destruct (no_network_class E pres l f k1 T1 N P K1) as (_ & _ & Z). now apply (Z e).
  Qed.

  Lemma first_text r :
    usual_rule r -> names_only_host r -> first_for_host calls r ->
    exists pres f, In (pres, rule_line r) (loaded_lines calls) /\
      parses_to pres (rule_line r) f /\
      first_host_rule calls (x_exception r) f /\ f_host f = Some (host_prefix (x_body r)).
  Proof.
    intros U NH (a & pres & b & L & N). destruct U as (G & S & O).
    destruct (line_shape pres r G) as (bb & HP).
    exists pres, (shape pres r).
    assert (In (pres, rule_line r) (loaded_lines calls)) as I.
    { rewrite L. apply in_or_app. cbn; auto. }
    assert (parses_to pres (rule_line r) (shape pres r)) as P by (eexists; eauto).
    destruct (rule_host_fields pres r _ (x_exception r) (host_prefix (x_body r)) G P) as [_ HF].
    destruct HF as [HR Hh]; [split; auto; split; auto; apply body_host_exists|].
    split; auto. split; auto. split; auto. split; auto.
    exists a, pres, (rule_line r), b, (host_prefix (x_body r)).
    split; auto. split; auto. split; auto.
    intros p1 l1 f1 I1 P1 HR1 Hh1.
    assert (In (p1, l1) (loaded_lines calls)) as I1'.
    { rewrite L. apply in_or_app. auto. }
    destruct (host_line p1 l1 f1 _ I1' P1 HR1) as (r1 & -> & U1).
    destruct (rule_host_fields p1 r1 f1 (x_exception r) (host_prefix (x_body r)) (proj1 U1) P1)
      as [HF1 _].
    destruct HF1 as (N1 & X1 & B1); auto.
    apply (N p1 r1 (host_prefix (x_body r))); auto. apply body_host_exists.
  Qed.

  Lemma text_first e f h :
    first_host_rule calls e f -> f_host f = Some h ->
    exists pres r, In (pres, rule_line r) (loaded_lines calls) /\
      parses_to pres (rule_line r) f /\ usual_rule r /\
      names_only_host r /\ x_exception r = e /\ body_host (x_body r) h /\
      first_for_host calls r.
  Proof.
    intros [HR (a & pres & l & b & h' & L & P & Hh & N)] Hh'.
    assert (h' = h) as -> by congruence.
    assert (In (pres, l) (loaded_lines calls)) as I.
    { rewrite L. apply in_or_app. cbn; auto. }
    destruct (host_line pres l f e I P HR) as (r & -> & U).
    destruct (rule_host_fields pres r f e h (proj1 U) P) as [HF _].
    destruct HF as (N1 & X1 & B1); auto.
    exists pres, r. split; auto. split; auto. split; auto. split; auto. split; auto. split; auto.
    exists a, pres, b. split; auto.
    intros p1 r1 h1 I1 U1 N2 X2 B2 B3.
    apply body_host_prefix in B1, B2. assert (h1 = h) as -> by congruence.
    destruct (line_shape p1 r1 (proj1 U1)) as (bb & HP).
    assert (parses_to p1 (rule_line r1) (shape p1 r1)) as P1 by (eexists; eauto).
    destruct (rule_host_fields p1 r1 _ e h (proj1 U1) P1) as [_ HF].
    destruct HF as [HR1 Hh1]; [split; auto; split; auto; congruence|].
    now apply (N p1 _ _ I1 P1 HR1).
  Qed.

  Lemma supported_bits pres r f :
    usual_rule r -> parses_to pres (rule_line r) f ->
    (hasUnsupportedOptions f = false <-> supported_rule r).
  Proof.
    intros (G & S & parts & O & U) [b HP]. unfold hasUnsupportedOptions.
    rewrite has_false, (common_opt pres r f b parts G O U HP). split.
    - intros X parts' n O' P UN.
      assert (parts' = parts) as -> by (eapply parts_unique; eauto).
      apply X. pose proof UN as (c0 & NB & _). exists n, c0. split; auto. split; auto.
      now apply (unsupported_bits n c0 NB).
    - intros X (n & c0 & P & NB & K). apply (X parts n O P). eapply unsupported_bits; eauto.
  Qed.

  Lemma fp_text pres r f b :
    good_rule r -> parse_filter pres (cstr (rule_line r)) (length (rule_line r)) = Ok (f, b) ->
    forall o, getFingerprint E f = Ok o -> (o = None <-> no_fp (e_bads E) (x_body r)).
  Proof.
    intros G HP o Ho. destruct (rule_fp E pres r f b G HP) as (o' & Ho' & R).
    assert (o' = o) as -> by congruence.
    assert (forall s w, first_fp (e_bads E) s w -> no_fp (e_bads E) s -> False) as X.
    { intros s w (G1 & i & (x & y & Q & _) & _) N. apply (N w); auto. exists x, y. exact Q. }
    assert (match o with
            | Some w => first_fp (e_bads E) (x_body r) w
            | None => no_fp (e_bads E) (x_body r)
            end -> (o = None <-> no_fp (e_bads E) (x_body r))) as Y.
    { destruct o as [w|]; [|tauto]. intros F. split; [discriminate|]. intros N. now apply X in F. }
    destruct (x_anchor r); auto.
    destruct (body_host_exists (x_body r)) as (rest & E1 & E2).
    destruct (R (host_prefix (x_body r)) rest) as [(w & -> & F)|[_ R']]; auto; [exists rest; auto|].
    split; [discriminate|]. intros N. exfalso. apply (X rest w); auto.
    intros w' (x & y & Q). apply N. exists (host_prefix (x_body r) ++ x), y.
    rewrite E1 at 1. rewrite Q, <- app_assoc. reflexivity.
  Qed.

  (** The class of a supported rule, from its text. *)
  Lemma class_text pres r f k :
    usual_rule r -> parses_to pres (rule_line r) f -> classify E f = Ok k -> k <> CSkip ->
    (names_only_host r /\ k = CHost (x_exception r)) \/
    (~ names_only_host r /\ exists j, k = CList j /\
       category_of k = blocker (x_exception r) /\
       (j = KFilters \/ j = KException <-> ~ no_fp (e_bads E) (x_body r)) /\
       (j = KNoFpDom \/ j = KNoFpDomExc <->
          exists dl, short_rule (e_bads E) r dl /\ forall s, ~ excludes_domain dl s) /\
       (j = KNoFpAnti \/ j = KNoFpAntiExc <->
          exists dl, short_rule (e_bads E) r dl /\ forall s, ~ lists_domain dl s)).
  Proof.
    intros (G & S & parts & O & U) [b HP] K NK.
    destruct (rule_category E pres r f b G HP) as (k' & K' & C).
    assert (k' = k) as -> by congruence.
    destruct (rule_collection E pres r f b k G HP K NK) as [HC LC].
    assert (hasUnsupportedOptions f = false) as NU.
    { destruct (hasUnsupportedOptions f) eqn:Q; auto. exfalso. apply NK. unfold classify in K.
      rewrite Q in K. congruence. }
    rewrite NU in C.
    destruct k as [ |e'|j]; [easy| |].
    - left. split; [apply HC; eauto|].
      destruct e', (x_exception r); try discriminate; reflexivity.
    - assert (~ names_only_host r) as NN by (intros X; apply HC in X as (? & ?); discriminate).
      right. split; auto. exists j. split; auto.
      split; [rewrite C; now destruct (x_exception r)|].
      destruct (LC j eq_refl) as (g & Hg & L1 & L2 & L3).
      pose proof (fp_text pres r f b G HP g Hg) as FT.
      pose proof (dom_facts pres r f b parts G O U HP) as D.
      split; [rewrite <- L1; tauto|].
      assert (forall dl, short_rule (e_bads E) r dl <-> g = None /\ f_dom f = Some dl) as SR.
      { intros dl. unfold short_rule. split.
        - intros (_ & N & p & O' & LD).
          assert (p = parts) as -> by (eapply parts_unique; eauto). split; [tauto|]. now apply D.
        - intros [Q1 Q2]. split; auto. split; [tauto|]. exists parts. split; auto. now apply D. }
      unfold f_domains, f_antiDomains in *.
      split; [rewrite L2|rewrite L3]; clear L1 L2 L3.
      + split.
        * intros (Q1 & Q2 & Q3). destruct (f_dom f) as [dl|]; [|easy]. exists dl.
          split; [apply SR; auto|]. intros s X. apply excludes_antiDomainsOf in X.
          rewrite Q3 in X. easy.
        * intros (dl & X1 & X2). apply SR in X1 as [X1 X3]. rewrite X3. split; auto.
          assert (antiDomainsOf dl = []) as Q3.
          { destruct (antiDomainsOf dl) as [|s l] eqn:Q; auto. exfalso. apply (X2 s).
            apply excludes_antiDomainsOf. rewrite Q. cbn; auto. }
          split; auto. destruct (some_domain dl); auto.
      + split.
        * intros (Q1 & Q2 & Q3). destruct (f_dom f) as [dl|]; [|easy]. exists dl.
          split; [apply SR; auto|]. intros s X. apply lists_domainsOf in X.
          rewrite Q2 in X. easy.
        * intros (dl & X1 & X2). apply SR in X1 as [X1 X3]. rewrite X3. split; auto.
          assert (domainsOf dl = []) as Q3.
          { destruct (domainsOf dl) as [|s l] eqn:Q; auto. exfalso. apply (X2 s).
            apply lists_domainsOf. rewrite Q. cbn; auto. }
          split; auto. destruct (some_domain dl); auto.
  Qed.

  Lemma short_unique bads r dl dl' : usual_rule r ->
    short_rule bads r dl -> short_rule bads r dl' -> dl' = dl.
  Proof.
    intros (G & S & parts & O & U) (_ & _ & p & O1 & L1) (_ & _ & p' & O2 & L2).
    destruct (line_shape true r G) as (b & HP).
    assert (p = parts) as -> by (eapply parts_unique; eauto).
    assert (p' = parts) as -> by (eapply parts_unique; eauto).
    apply (dom_facts true r _ b parts G O U HP) in L1, L2. congruence.
  Qed.

  Lemma supported_class pres r f :
    usual_rule r -> parses_to pres (rule_line r) f ->
    exists k, classify E f = Ok k /\ (k <> CSkip <-> supported_rule r).
  Proof.
    intros Us P. pose proof (supported_bits pres r f Us P) as SB.
    destruct Us as (G & S & parts & O & U). pose proof P as [b HP].
    destruct (rule_category E pres r f b G HP) as (k & K & C). exists k. split; auto.
    rewrite <- SB. destruct (hasUnsupportedOptions f) eqn:Q.
    - split; [|discriminate]. intros N. exfalso. apply N. unfold classify in K. rewrite Q in K. congruence.
    - split; auto. intros _ ->. destruct (x_exception r); discriminate.
  Qed.

  Lemma barred_iff e : page_barred E calls e page <-> page_excluded E calls e page.
  Proof.
    split.
    - intros (r & dl & s & [Us (pres & I)] & X & SU & SR & NL & XD & PG).
      pose proof Us as (G & S & parts & O & U).
      destruct (line_shape pres r G) as (b & HP).
      assert (parses_to pres (rule_line r) (shape pres r)) as P by (eexists; eauto).
      destruct (supported_class pres r _ Us P) as (k & K & NK). apply NK in SU.
      destruct (class_text pres r _ k Us P K SU) as [[N _]|(_ & j & -> & C & _ & _ & L3)].
      { now destruct SR as (SR & _). }
      exists (shape pres r), dl, s. split; [|split; [|split; auto]].
      + exists pres, (rule_line r). split; auto. split; auto. rewrite K.
        assert (j = KNoFpAnti \/ j = KNoFpAntiExc) as J by (apply L3; eauto).
        rewrite X in C. f_equal. destruct J as [-> | ->], e; try discriminate; reflexivity.
      + destruct SR as (_ & _ & p & O' & LD).
        assert (p = parts) as -> by (eapply parts_unique; eauto).
        now apply (dom_facts pres r _ b parts G O U HP).
    - intros (g & dl & s & (pres & l & I & P & K) & Q & XD & PG).
      assert (category_of (only_excluded e) = blocker e) as CB by now destruct e.
      destruct (loaded_usual E calls H UL pres l g _ e I P K CB) as (r & -> & R & X).
      pose proof R as [Us _]. pose proof Us as (G & S & parts & O & U).
      exists r, dl, s. split; auto. split; auto.
      assert (only_excluded e <> CSkip) as NK by now destruct e.
      split.
      { destruct (supported_class pres r g Us P) as (k & K' & NK'). apply NK'. congruence. }
      destruct (class_text pres r g _ Us P K NK) as [[_ N]|(_ & j & J & C & _ & _ & L3)].
      { destruct e; discriminate. }
      destruct (proj1 L3) as (dl' & S1 & S2).
      { destruct e; injection J as <-; auto. }
      assert (dl' = dl) as ->.
      { pose proof P as [b HP]. destruct S1 as (_ & _ & p & O' & LD).
        assert (p = parts) as -> by (eapply parts_unique; eauto).
        apply (dom_facts pres r g b parts G O U HP) in LD. congruence. }
      auto.
  Qed.

  Lemma usual_meets pres r f :
    usual_rule r -> parses_to pres (rule_line r) f ->
    (applies E calls f url context page <-> rule_meets calls r url uh context page).
  Proof.
    intros (G & S & parts & O & U) [b HP]. eapply meets_iff; eauto.
  Qed.

  Lemma applies_class pres r f :
    usual_rule r -> parses_to pres (rule_line r) f -> applies E calls f url context page ->
    exists k, classify E f = Ok k /\ k <> CSkip.
  Proof.
    intros Us P Ap. destruct (supported_class pres r f Us P) as (k & K & NK).
    exists k. split; auto. apply NK. apply (supported_bits pres r f Us P).
    destruct (hasUnsupportedOptions f) eqn:Q; auto. exfalso.
    destruct Ap as [(host & _ & M) _]. rewrite unsupported_never in M; auto. discriminate.
  Qed.

  Lemma list_noticed pres r f j :
    usual_rule r -> parses_to pres (rule_line r) f -> classify E f = Ok (CList j) ->
    ~ names_only_host r.
  Proof.
    intros Us P K. destruct (class_text pres r f _ Us P K) as [[_ N]|[N _]]; auto; discriminate.
  Qed.

  Lemma uh_host host : getUrlHost (cstr url) = Ok host -> host = uh.
  Proof.
    intros Q. rewrite getUrlHost_cstr in Q by auto. rewrite (hostOf_spec _ _ Huh) in Q. congruence.
  Qed.

  (** A rule for a host that is noticed. *)
  Lemma noticed_host r :
    rule_loaded calls r -> rule_meets calls r url uh context page -> noticed calls r uh ->
    names_only_host r ->
    exists f, first_host_rule calls (x_exception r) f /\
      f_host f = Some (host_prefix (x_body r)) /\ looked_up uh (host_prefix (x_body r)) /\
      applies E calls f url context page.
  Proof.
    intros [Us _] M NT NH. destruct (NT NH) as [FF LU].
    destruct (first_text r Us NH FF) as (p & f & I & P & FH & Hh).
    exists f. split; auto. split; auto. split; [apply LU, body_host_exists|].
    now apply (usual_meets p r f).
  Qed.

  Lemma host_noticed e f h :
    first_host_rule calls e f -> f_host f = Some h -> looked_up uh h ->
    applies E calls f url context page ->
    exists r, rule_loaded calls r /\ x_exception r = e /\ names_only_host r /\
      noticed calls r uh /\ rule_meets calls r url uh context page.
  Proof.
    intros FH Hh LU Ap.
    destruct (text_first e f h FH Hh) as (p & r & I & P & Us & NH & X & BH & FF).
    exists r. split; [split; eauto|]. split; auto. split; auto.
    split; [|now apply (usual_meets p r f)].
    intros _. split; auto. intros h' BH'. apply body_host_prefix in BH, BH'. congruence.
  Qed.

  Lemma visible_text e :
    (exists f, visible E calls e url f /\ applies E calls f url context page) <->
    exists r, rule_loaded calls r /\ x_exception r = e /\ noticed calls r uh /\
      rule_meets calls r url uh context page.
  Proof.
    split.
    - intros (f & [(k & (pres & l & I & P & K) & C)|(host & h & X1 & X2 & X3 & X4)] & Ap).
      + destruct (loaded_usual E calls H UL pres l f _ e I P K C) as (r & -> & R & X).
        exists r. split; auto. split; auto. destruct R as [Us _].
        split; [|now apply (usual_meets pres r f)].
        intros NH. now apply (list_noticed pres r f k) in NH.
      + apply uh_host in X2 as ->.
        destruct (host_noticed e f h X1 X3 X4 Ap) as (r & R1 & R2 & _ & R3 & R4). eauto 6.
    - intros (r & R & X & NT & M). pose proof R as [Us (pres & I)].
      destruct (line_shape pres r (proj1 Us)) as (b & HP).
      assert (parses_to pres (rule_line r) (shape pres r)) as P by (eexists; eauto).
      assert (applies E calls (shape pres r) url context page) as Ap
        by (now apply (usual_meets pres r)).
      destruct (applies_class pres r _ Us P Ap) as (k & K & NK).
      destruct (class_text pres r _ k Us P K NK) as [[NH _]|(_ & j & -> & C & _)].
      + destruct (noticed_host r R M NT NH) as (f & F1 & F2 & F3 & F4). exists f. split; auto.
        right. exists uh, (host_prefix (x_body r)). rewrite X in F1. split; auto. split; auto.
        rewrite getUrlHost_cstr by auto. now rewrite (hostOf_spec _ _ Huh).
      + exists (shape pres r). split; auto. left. exists j. split; [|congruence].
        exists pres, (rule_line r). auto.
  Qed.

  Lemma heeded_text e :
    (exists f, heeded E calls e url page f /\ applies E calls f url context page) <->
    exists r, rule_loaded calls r /\ x_exception r = e /\ listened E calls r uh page /\
      rule_meets calls r url uh context page.
  Proof.
    assert (forall j f, loaded_in E calls (CList j) f -> category_of (CList j) = blocker e ->
      applies E calls f url context page ->
      (j = KNoFpDom \/ j = KNoFpDomExc -> page <> None) ->
      (j = KNoFpAnti \/ j = KNoFpAntiExc -> ~ page_excluded E calls e page) ->
      exists r, rule_loaded calls r /\ x_exception r = e /\ listened E calls r uh page /\
        rule_meets calls r url uh context page) as Ls.
    { intros j f (pres & l & I & P & K) C Ap L1 L2.
      destruct (loaded_usual E calls H UL pres l f _ e I P K C) as (r & -> & R & X).
      exists r. split; auto. split; auto. destruct R as [Us _].
      split; [|now apply (usual_meets pres r f)].
      destruct (class_text pres r f _ Us P K) as [[_ N]|(N & j' & J & _ & C1 & C2 & C3)];
        [discriminate|discriminate|]. injection J as <-.
      split; [now intros NH|]. intros dl SR. split.
      - intros NX. apply L1, C2. eauto.
      - intros NX. rewrite X, barred_iff. apply L2, C3. eauto. }
    split.
    - intros (f & [g X|g X|g X Y|g X Y|g host h X1 X2 X3 X4] & Ap).
      + eapply Ls; eauto; destruct e; cbn; auto; intros [|]; discriminate.
      + eapply Ls; eauto; destruct e; cbn; auto; intros [|]; discriminate.
      + eapply Ls; eauto; destruct e; cbn; auto; intros [|]; discriminate.
      + eapply Ls; eauto; destruct e; cbn; auto; intros [|]; discriminate.
      + assert (host = uh) as ->.
        { apply uh_host. rewrite getUrlHost_cstr by auto. now rewrite (hostOf_spec _ _ X2). }
        destruct (host_noticed e g h X1 X3 X4 Ap) as (r & R1 & R2 & NH & R3 & R4).
        exists r. split; auto. split; auto. split; auto. split; auto.
        intros dl (N & _). easy.
    - intros (r & R & X & [NT LS] & M). pose proof R as [Us (pres & I)].
      destruct (line_shape pres r (proj1 Us)) as (b & HP).
      assert (parses_to pres (rule_line r) (shape pres r)) as P by (eexists; eauto).
      assert (applies E calls (shape pres r) url context page) as Ap
        by (now apply (usual_meets pres r)).
      destruct (applies_class pres r _ Us P Ap) as (k & K & NK).
      destruct (class_text pres r _ k Us P K NK) as [[NH _]|(_ & j & -> & C & C1 & C2 & C3)].
      + destruct (noticed_host r R M NT NH) as (f & F1 & F2 & F3 & F4). exists f. split; auto.
        rewrite X in F1. now apply (heeded_host E calls e url page f uh (host_prefix (x_body r))).
      + exists (shape pres r). split; auto. rewrite X in *.
        assert (loaded_in E calls (CList j) (shape pres r)) as LI by (exists pres, (rule_line r); auto).
        assert (j = KNoFpDom \/ j = KNoFpDomExc -> page <> None) as L1.
        { intros J. apply C2 in J as (dl & S1 & S2). now apply (LS dl S1). }
        assert (j = KNoFpAnti \/ j = KNoFpAntiExc -> ~ page_excluded E calls e page) as L2.
        { intros J. apply C3 in J as (dl & S1 & S2). rewrite <- barred_iff. now apply (LS dl S1). }
        clear C1 C2 C3 LS.
        destruct e; destruct j; try discriminate;
        first [ apply heeded_fingerprint; exact LI | apply heeded_plain; exact LI
              | apply heeded_listed; [exact LI|auto]
              | apply heeded_excluded; [exact LI|auto] ].
  Qed.

  Theorem text_decides :
    exists v c', matches E c (cstr url) context page = Ok (v, c') /\
    (v_block v = true <->
     web_url url /\
     (exists r, rule_loaded calls r /\ x_exception r = false /\ listened E calls r uh page /\
        rule_meets calls r url uh context page) /\
     ~ (exists r, rule_loaded calls r /\ x_exception r = true /\ listened E calls r uh page /\
        rule_meets calls r url uh context page)).
  Proof.
    destruct (asks_safe E calls c url context page H A Hu) as [(v & c' & M) _].
    { intros x f Hx L. now apply (usual_safe E calls H UL x f). }
    exists v, c'. split; auto. destruct (web_dec url Hu) as [Hw|Hw].
    - rewrite (decision E calls c url context page v c') by auto.
      rewrite !heeded_text. tauto.
    - rewrite matches_nonweb in M by auto. injection M as <- _. cbn [v_block].
      split; [discriminate|tauto].
  Qed.

  Theorem text_finds :
    exists v, findMatchingFilters E c (cstr url) context page = Ok v /\
    (v_block v = true <->
     (exists r, rule_loaded calls r /\ x_exception r = false /\ noticed calls r uh /\
        rule_meets calls r url uh context page) /\
     ~ (exists r, rule_loaded calls r /\ x_exception r = true /\ noticed calls r uh /\
        rule_meets calls r url uh context page)).
  Proof.
    destruct (asks_safe E calls c url context page H A Hu) as [_ (v & M)].
    { intros x f Hx L. now apply (usual_safe E calls H UL x f). }
    exists v. split; auto. rewrite (find_decision E calls c url context page v) by auto.
    now rewrite !visible_text.
  Qed.
End Text.

Lemma meets_fits calls r url uh context d :
  ~ common context (N.lor FOThirdParty FONotThirdParty) ->
  (rule_meets calls r url uh context (Some d) <-> rule_fits calls r url uh context d).
Proof.
  intros NP.
  assert (first_party d uh \/ ~ first_party d uh) as DF.
  { rewrite <- isThirdPartyHost_spec. destruct (isThirdPartyHost d uh); [right; discriminate|now left]. }
  assert (same_party context (Some d) uh <-> first_party d uh) as S1.
  { unfold same_party. split.
    - intros [X|(_ & d' & [= <-] & F)]; auto. exfalso. now apply (party_none context NP FONotThirdParty); auto.
    - intros F. right. split; auto. exists d. auto. }
  assert (other_party context (Some d) uh <-> ~ first_party d uh) as S2.
  { unfold other_party. split.
    - intros [X|(_ & d' & [= <-] & F)]; auto. exfalso. now apply (party_none context NP FOThirdParty); auto.
    - intros F. right. split; auto. exists d. auto. }
  assert (~ bare_request context (Some d)) as NB by (intros [_ Q]; discriminate).
  assert (forall parts, options_meet parts context uh (Some d) <-> options_fit parts context uh d) as K.
  { intros parts. unfold options_meet, options_fit, types_fit. rewrite S1, S2. split.
    - intros (H1 & H2 & [_ H3] & H4 & H5 & H6). destruct (H3 NB) as [H7 H8].
      split; auto. split; auto. split; auto. split; auto. split; [intros dl L; now apply (H4 dl d)|].
      tauto.
    - intros (H1 & H2 & H3 & H4 & H5 & H6 & H7).
      split; auto. split; auto. split; [split; [easy|auto]|]. split; [intros dl d' L [= <-]; auto|].
      tauto. }
  unfold rule_meets, rule_fits. split; intros (H1 & parts & H2 & H3 & H4); (split; auto);
    exists parts; (split; auto); (split; auto); now apply K.
Qed.
