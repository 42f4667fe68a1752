(** The decision read off the text of a list in the usual syntax (C79). *)
From Verif Require Import Base Flags Protocol Url Sets FilterM ParseM ClientM Spec SpecM
  SpecC SpecQ SpecE P_Base P_Protocol P_Url P_Match P_Rule P_Parse P_List P_Shape P_Fp P_Line P_Line2
  P_Line3 P_Line4 P_Line5 P_Fp2 P_Props1 P_Props2 P_Props3 P_Opt P_Opt2 P_Match2 P_Set P_Client P_Decide P_Hist
  P_Dec2 P_Dec5 P_Safe.
From Verif Require Import SpecC.

(** ** Options *)
Lemma last_some_split {A} (g : bytes -> option A) d l :
  (last_some g d l = d /\ forall t, In t l -> g t = None) \/
  exists a s b x, l = a ++ s :: b /\ g s = Some x /\ last_some g d l = Some x /\
    forall t, In t b -> g t = None.
Proof.
  induction l as [|y l IH] using rev_ind.
  - left. split; auto. easy.
  - unfold last_some in *. rewrite fold_left_app. cbn [fold_left].
    destruct (g y) as [x|] eqn:Gy.
    + right. exists l, y, [], x. repeat split; auto. easy.
    + destruct IH as [[I1 I2]|(a & s & b & x & -> & Gs & I1 & I2)].
      * left. split; auto. intros t I. apply in_app_or in I as [I|[<-|[]]]; auto.
      * right. exists a, s, (b ++ [y]), x. split; [now rewrite <- app_assoc|].
        split; auto. split; auto. intros t I. apply in_app_or in I as [I|[<-|[]]]; auto.
Qed.

Lemma prefixb_skip p s : prefixb p s = true -> s = p ++ skipn (length p) s.
Proof.
  revert s. induction p as [|x p IH]; intros s H; [reflexivity|].
  destruct s as [|y s]; [discriminate|]. cbn in H. apply andb_true_iff in H as [H1 H2].
  destruct (ceq_spec x y) as [->|N]; [|discriminate]. cbn. f_equal. now apply IH.
Qed.

Lemma seg_dom_some s dl :
  ~ begins (B "~domain=") s -> seg_dom s = Some dl -> s = B "domain=" ++ dl.
Proof.
  intros N H. unfold seg_dom in H.
  destruct (prefixb (B "domain=") (snd (seg_split s))) eqn:P; [|discriminate].
  injection H as <-. destruct s as [|c s]; [discriminate|]. cbn [seg_split] in *.
  destruct (ceq_spec c "~") as [->|K]; cbn [snd] in *.
  - exfalso. apply N. exists (skipn 7 s). apply prefixb_skip in P. rewrite P at 1. reflexivity.
  - apply prefixb_skip in P. exact P.
Qed.

Lemma seg_tag_some s t :
  ~ begins (B "~tag=") s -> seg_tag s = Some t -> s = B "tag=" ++ t.
Proof.
  intros N H. unfold seg_tag in H.
  destruct (prefixb (B "domain=") (snd (seg_split s))); [discriminate|].
  destruct (prefixb (B "tag=") (snd (seg_split s))) eqn:P; [|discriminate].
  injection H as <-. destruct s as [|c s]; [discriminate|]. cbn [seg_split] in *.
  destruct (ceq_spec c "~") as [->|K]; cbn [snd] in *.
  - exfalso. apply N. exists (skipn 4 s). apply prefixb_skip in P. rewrite P at 1. reflexivity.
  - apply prefixb_skip in P. exact P.
Qed.

Lemma seg_tag_none s :
  ~ begins (B "tag=") s -> ~ begins (B "~tag=") s -> seg_tag s = None.
Proof.
  intros H1 H2. destruct (seg_tag s) eqn:Q; auto.
  apply seg_tag_some in Q as ->; auto. destruct H1. eexists. reflexivity.
Qed.

Lemma seg_dom_here dl : seg_dom (B "domain=" ++ dl) = Some dl.
Proof. reflexivity. Qed.
Lemma seg_tag_here t : seg_tag (B "tag=" ++ t) = Some t.
Proof. reflexivity. Qed.

Section Opts.
  Context (pres : bool) (r : rule_syntax) (f : filter) (b : bool) (parts : list bytes)
    (G : good_rule r) (O : option_parts r parts) (U : usual_options parts)
    (HP : parse_filter pres (cstr (rule_line r)) (length (rule_line r)) = Ok (f, b)).

  Lemma opt_facts :
    (forall i, N.testbit (f_opt f) i = true <->
       exists n c, positive_option parts n /\ name_bit n c /\ N.testbit c i = true) /\
    (forall i, N.testbit (f_anti f) i = true <->
       exists n c, negative_option parts n /\ name_bit n c /\ N.testbit c i = true) /\
    f_dom f = last_some seg_dom None parts /\
    Some (f_tag f) = last_some seg_tag (Some []) parts.
  Proof.
    unfold option_parts in O. destruct (x_options r) as [o|] eqn:X.
    - destruct (options_exact pres r f b o parts G X O (proj1 U) HP) as [H1 H2].
      destruct (option_bits pres r f b o parts G X O HP) as (_ & _ & H3 & H4). auto.
    - rewrite O. rewrite (rule_shape pres r f b G HP). unfold shape. rewrite X.
      cbn [apply_options].
      assert (forall i (g : bytes -> Prop), (forall n, ~ g n) ->
        (N.testbit 0 i = true <-> exists n c, g n /\ name_bit n c /\ N.testbit c i = true)) as K.
      { intros i g Ng. rewrite N.bits_0. split; [discriminate|]. intros (n & c & Q & _). now apply Ng in Q. }
      destruct pres; cbn; (split; [|split; [|split; auto]]); intros i; apply K; intros n.
      1,3: now intros [[] _]. all: now intros [].
  Qed.

  Lemma dom_facts dl : f_dom f = Some dl <-> last_domain parts dl.
  Proof.
    destruct opt_facts as (_ & _ & -> & _). split.
    - intros H. destruct (last_some_split seg_dom None parts) as [[E _]|(a & s & b' & x & E & Gs & L & N)].
      + congruence.
      + assert (x = dl) as -> by congruence.
        assert (In s parts) as I by (rewrite E; apply in_or_app; cbn; auto).
        apply seg_dom_some in Gs as ->; [|now apply U].
        exists a, b'. split; auto. intros t It. split.
        * intros [v ->]. apply N in It. discriminate.
        * apply U. rewrite E. apply in_or_app. cbn; auto.
    - intros (x & y & -> & Hy). apply last_some_cut; [reflexivity|].
      intros t I. apply Hy in I as [I1 I2]. now apply seg_dom_none.
  Qed.

  Lemma tag_facts :
    (forall t, last_tag parts t -> f_tag f = t) /\ (f_tag f = [] \/ last_tag parts (f_tag f)).
  Proof.
    destruct opt_facts as (_ & _ & _ & H). split.
    - intros t (x & y & -> & Hy). rewrite (last_some_cut seg_tag _ x _ y t) in H.
      + congruence.
      + reflexivity.
      + intros s I. apply seg_tag_none; auto. apply U. apply in_or_app. cbn; auto.
    - destruct (last_some_split seg_tag (Some []) parts) as [[E _]|(a & s & b' & x & E & Gs & L & N)].
      + left. congruence.
      + right. assert (f_tag f = x) as -> by congruence.
        assert (In s parts) as I by (rewrite E; apply in_or_app; cbn; auto).
        apply seg_tag_some in Gs as ->; [|now apply U].
        exists a, b'. split; auto. intros t It [v ->]. apply N in It. discriminate.
  Qed.
End Opts.

Lemma begins_dec p n : begins p n \/ ~ begins p n.
Proof.
  destruct (prefixb p n) eqn:Q.
  - left. exists (skipn (length p) n). now apply prefixb_skip.
  - right. now apply not_begins.
Qed.

Lemma name_cases n :
  begins (B "domain=") n \/ begins (B "tag=") n \/ exists c, name_bit n c.
Proof.
  destruct (begins_dec (B "domain=") n); auto.
  destruct (begins_dec (B "tag=") n); auto.
  right; right.
  destruct (begins_dec (B "csp=") n); [eexists; now apply nb_csp|].
  destruct (begins_dec (B "redirect=") n); [eexists; now apply nb_redirect|].
  destruct (existsb (fun e => beq (fst e) n) option_table) eqn:Q.
  - apply existsb_exists in Q as ([m c] & I & Q). cbn [fst] in Q. apply beq_eq in Q as ->.
    exists c. now apply nb_known.
  - exists FOUnknown. apply nb_unknown; auto. intros c I.
    assert (existsb (fun e => beq (fst e) n) option_table = true); [|congruence].
    apply existsb_exists. exists (n, c). split; auto. cbn. now apply beq_eq.
Qed.

Lemma name_bit_mask n c : name_bit n c ->
  In c (map snd option_table ++ [FOCSP; FORedirect; FOUnknown]).
Proof.
  intros [m d I|m _|m _|m _ _ _ _ _].
  - apply in_or_app. left. apply (in_map snd) in I. exact I.
  - apply in_or_app. right. cbn. auto.
  - apply in_or_app. right. cbn. auto.
  - apply in_or_app. right. cbn. auto.
Qed.

Lemma unsupported_bits n c :
  name_bit n c -> (common c FOUnsupportedSoSkipCheck <-> unsupported_option n).
Proof.
  intros H. split.
  - intros K. exists c. split; auto. apply has_common in K.
    assert (forallb (fun c => negb (has c FOUnsupportedSoSkipCheck) ||
      existsb (N.eqb c) [FOPopup; FOCSP; FOElemHide; FOGenericHide; FOGenericBlock; FOEmpty; FOUnknown])
      (map snd option_table ++ [FOCSP; FORedirect; FOUnknown]) = true) as Q by (vm_compute; reflexivity).
    rewrite forallb_forall in Q. apply name_bit_mask in H. apply Q in H. rewrite K in H.
    cbn [negb orb] in H. apply existsb_exists in H as (x & I & H). apply N.eqb_eq in H as ->. auto.
  - intros (d & Hd & I).
    assert (d = c) as ->.
    { destruct H as [n c J|n Hb|n Hb|n N1 N2 N3 N4 N5].
      - symmetry. eapply name_bit_unique; eauto.
      - destruct Hd as [n c J|n Hc|n Hc|n M1 M2 M3 M4 M5]; auto.
        + apply known_prefix in J as (P1 & P2 & P3 & P4).
          destruct Hb as [v ->]. discriminate.
        + destruct Hb as [v ->]. destruct Hc as [w Hc]. discriminate.
        + easy.
      - destruct Hd as [n c J|n Hc|n Hc|n M1 M2 M3 M4 M5]; auto.
        + apply known_prefix in J as (P1 & P2 & P3 & P4).
          destruct Hb as [v ->]. discriminate.
        + destruct Hb as [v ->]. destruct Hc as [w Hc]. discriminate.
        + easy.
      - destruct Hd as [n c J|n Hc|n Hc|n M1 M2 M3 M4 M5]; auto.
        + now apply N1 in J.
        + easy.
        + easy. }
    apply has_common. repeat (destruct I as [<-|I]; [reflexivity|]). easy.
Qed.

Lemma behavioral_names n c :
  name_bit n c -> (N.ldiff c BehavioralFilterOnly = 0%N <-> untyped_option n).
Proof.
  intros H.
  assert (forall m d, In (m, d) option_table ->
    (N.ldiff d BehavioralFilterOnly = 0%N <->
     In m (map (fun s => B s) ["third-party"; "first-party"; "important"; "explicitcancel"]%string))) as K.
  { intros m d I.
    assert (forallb (fun e => Bool.eqb (N.ldiff (snd e) BehavioralFilterOnly =? 0)%N
      (memb (fst e) (map (fun s => B s) ["third-party"; "first-party"; "important"; "explicitcancel"]%string)))
      option_table = true) as Q by (vm_compute; reflexivity).
    rewrite forallb_forall in Q. apply Q in I. cbn [fst snd] in I. apply eqb_prop in I.
    rewrite <- N.eqb_eq, I. unfold memb. rewrite existsb_exists. split.
    - intros (x & J & E). apply beq_eq in E as ->. auto.
    - intros J. exists m. split; auto. now apply beq_eq. }
  destruct H as [n c I|n Hb|n Hb|n N1 N2 N3 N4 N5].
  - rewrite (K n c I). split; [now left|]. intros [J|J]; auto. exfalso.
    apply known_prefix in I as (P1 & P2 & P3 & P4).
    destruct J as [[v ->]|[[v ->]|[v ->]]]; discriminate.
  - split; [discriminate|]. intros J. exfalso. destruct Hb as [v ->].
    destruct J as [J|[[w J]|[[w J]|[w J]]]]; try discriminate.
    cbn in J. repeat (destruct J as [J|J]; [discriminate|]). easy.
  - split; [|reflexivity]. intros _. right. auto.
  - split; [discriminate|]. intros [J|[J|[J|J]]]; try easy. exfalso.
    assert (forall s, In s ["third-party"; "first-party"; "important"; "explicitcancel"]%string ->
      exists d, In (B s, d) option_table) as L.
    { intros s J'.
      assert (forallb (fun s => existsb (fun e => beq (fst e) (B s)) option_table)
        ["third-party"; "first-party"; "important"; "explicitcancel"]%string = true) as Q
        by (vm_compute; reflexivity).
      rewrite forallb_forall in Q. apply Q in J'. apply existsb_exists in J' as ([m d] & J' & E).
      cbn [fst] in E. apply beq_eq in E as ->. eauto. }
    apply in_map_iff in J as (s & <- & J). apply L in J as (d & J). now apply N1 in J.
Qed.

Lemma ldiff_bits a m : N.ldiff a m = 0%N <-> forall i, N.testbit a i = true -> N.testbit m i = true.
Proof.
  split.
  - intros H i T. destruct (N.testbit m i) eqn:M; auto.
    assert (N.testbit (N.ldiff a m) i = true) as K by (now rewrite N.ldiff_spec, T, M).
    rewrite H, N.bits_0 in K. discriminate.
  - intros H. apply N.bits_inj. intros i. rewrite N.ldiff_spec, N.bits_0.
    destruct (N.testbit a i) eqn:T; auto. rewrite (H i T). reflexivity.
Qed.

(** What the rules see of the request's types. *)
Section Party.
  Context (context : N) (d uh : bytes)
    (NP : ~ common context (N.lor FOThirdParty FONotThirdParty)).
  Let ctx := party_context context (Some d) uh.

  Lemma party_case :
    (first_party d uh /\ ctx = N.lor context FONotThirdParty) \/
    (~ first_party d uh /\ ctx = N.lor context FOThirdParty).
  Proof.
    destruct (party_derived context (Some d) uh) as (_ & H & _).
    destruct (H NP d eq_refl) as [H1 H2].
    destruct (isThirdPartyHost d uh) eqn:K.
    - right. assert (~ first_party d uh) as N.
      { intros F. apply isThirdPartyHost_spec in F. congruence. }
      split; auto.
    - left. apply isThirdPartyHost_spec in K. split; auto.
  Qed.

  Lemma party_nonzero : (ctx =? 0)%N = false.
  Proof.
    apply N.eqb_neq. destruct party_case as [[_ ->]|[_ ->]]; intros H;
      apply N.lor_eq_0_iff in H as [_ H]; discriminate.
  Qed.

  Lemma party_types i :
    N.testbit FOResourcesOnly i = true -> N.testbit ctx i = N.testbit context i.
  Proof.
    intros R. destruct party_case as [[_ ->]|[_ ->]]; rewrite N.lor_spec.
    - assert (N.testbit FONotThirdParty i = false) as ->; [|apply orb_false_r].
      destruct (N.testbit FONotThirdParty i) eqn:T; auto.
      change FONotThirdParty with (2 ^ 14)%N in T. rewrite N.pow2_bits_eqb in T.
      apply N.eqb_eq in T as <-. discriminate R.
    - assert (N.testbit FOThirdParty i = false) as ->; [|apply orb_false_r].
      destruct (N.testbit FOThirdParty i) eqn:T; auto.
      change FOThirdParty with (2 ^ 13)%N in T. rewrite N.pow2_bits_eqb in T.
      apply N.eqb_eq in T as <-. discriminate R.
  Qed.

  Lemma party_none x : x = FOThirdParty \/ x = FONotThirdParty -> ~ common context x.
  Proof.
    intros X (i & T1 & T2). apply NP. exists i. split; auto. rewrite N.lor_spec.
    destruct X as [-> | ->]; rewrite T2; auto. apply orb_true_r.
  Qed.

  Lemma common_lor a x y : common (N.lor a x) y <-> common a y \/ common x y.
  Proof.
    unfold common. split.
    - intros (i & T1 & T2). rewrite N.lor_spec, orb_true_iff in T1. destruct T1; [left|right]; eauto.
    - intros [(i & T1 & T2)|(i & T1 & T2)]; exists i; rewrite N.lor_spec, T1; auto using orb_true_r.
  Qed.

  Lemma party_not : common ctx FONotThirdParty <-> first_party d uh.
  Proof.
    destruct party_case as [[F ->]|[F ->]]; rewrite common_lor; split; auto.
    - intros _. right. exists 14%N. auto.
    - intros [H|H]; [now apply party_none in H; auto|]. apply has_common in H. discriminate.
    - easy.
  Qed.
  Lemma party_third : common ctx FOThirdParty <-> ~ first_party d uh.
  Proof.
    destruct party_case as [[F ->]|[F ->]]; rewrite common_lor; split; auto.
    - intros [H|H]; [now apply party_none in H; auto|]. apply has_common in H. discriminate.
    - easy.
    - intros _. right. exists 13%N. auto.
  Qed.
End Party.

Lemma option_of_bit n c d i j :
  In (n, c) option_table -> c = (2 ^ i)%N -> name_bit j d -> N.testbit d i = true ->
  (forall m e, In (m, e) option_table -> N.testbit e i = true -> m = n) ->
  N.testbit FOCSP i = false -> N.testbit FORedirect i = false -> N.testbit FOUnknown i = false ->
  j = n.
Proof.
  intros I -> H T K N1 N2 N3. destruct H as [j d J|j _|j _|j _ _ _ _ _]; eauto; congruence.
Qed.

Lemma document_option j d : name_bit j d -> common d FODocument -> j = B "document".
Proof.
  intros H (i & T & Ti). change FODocument with (2 ^ 7)%N in Ti.
  rewrite N.pow2_bits_eqb in Ti. apply N.eqb_eq in Ti as <-.
  apply (option_of_bit (B "document") FODocument d 7 j); auto.
  - cbn. tauto.
  - intros m e I Te.
    assert (forallb (fun e => negb (N.testbit (snd e) 7) || beq (fst e) (B "document"))
      option_table = true) as Q by (vm_compute; reflexivity).
    rewrite forallb_forall in Q. apply Q in I. cbn [fst snd] in I. rewrite Te in I.
    cbn [negb orb] in I. now apply beq_eq in I.
Qed.

Lemma third_option j d : name_bit j d -> common d FOThirdParty -> j = B "third-party".
Proof.
  intros H (i & T & Ti). change FOThirdParty with (2 ^ 13)%N in Ti.
  rewrite N.pow2_bits_eqb in Ti. apply N.eqb_eq in Ti as <-.
  apply (option_of_bit (B "third-party") FOThirdParty d 13 j); auto.
  - cbn. tauto.
  - intros m e I Te.
    assert (forallb (fun e => negb (N.testbit (snd e) 13) || beq (fst e) (B "third-party"))
      option_table = true) as Q by (vm_compute; reflexivity).
    rewrite forallb_forall in Q. apply Q in I. cbn [fst snd] in I. rewrite Te in I.
    cbn [negb orb] in I. now apply beq_eq in I.
Qed.

Lemma declared_bit context n :
  declared context n <->
  exists c i, name_bit n c /\ N.testbit c i = true /\ N.testbit FOResourcesOnly i = true /\
              N.testbit context i = true.
Proof.
  split.
  - intros (I & c & J & i & T1 & T2). exists c, i. split; [now apply nb_known|].
    split; auto. split; auto. apply resource_bits. eauto.
  - intros (c & i & H & T1 & T2 & T3). destruct (nonresource_names n c i H T1 T2) as [I J].
    split; auto. exists c. split; auto. exists i. auto.
Qed.

Lemma declared_document context : declared context (B "document") <-> common context FODocument.
Proof.
  split.
  - intros (_ & c & I & i & T1 & T2). exists i. split; auto.
    assert (c = FODocument) as <-; auto.
    apply (name_bit_unique (B "document")); auto. apply nb_known. cbn. tauto.
  - intros (i & T1 & T2). split; [cbn; tauto|]. exists FODocument. split; [cbn; tauto|].
    exists i. auto.
Qed.

Section Fit.
  Context (pres : bool) (r : rule_syntax) (f : filter) (b : bool) (parts : list bytes)
    (G : good_rule r) (O : option_parts r parts) (U : usual_options parts)
    (HP : parse_filter pres (cstr (rule_line r)) (length (rule_line r)) = Ok (f, b))
    (context : N) (d uh : bytes)
    (NP : ~ common context (N.lor FOThirdParty FONotThirdParty)).

  Lemma common_opt m :
    common (f_opt f) m <-> exists n c, positive_option parts n /\ name_bit n c /\ common c m.
  Proof.
    destruct (opt_facts pres r f b parts G O U HP) as (X & _). split.
    - intros (i & T1 & T2). apply X in T1 as (n & c & P & H & T). exists n, c.
      split; auto. split; auto. exists i. auto.
    - intros (n & c & P & H & i & T1 & T2). exists i. split; auto. apply X. eauto.
  Qed.

  Lemma common_anti m :
    common (f_anti f) m <-> exists n c, negative_option parts n /\ name_bit n c /\ common c m.
  Proof.
    destruct (opt_facts pres r f b parts G O U HP) as (_ & X & _). split.
    - intros (i & T1 & T2). apply X in T1 as (n & c & P & H & T). exists n, c.
      split; auto. split; auto. exists i. auto.
    - intros (n & c & P & H & i & T1 & T2). exists i. split; auto. apply X. eauto.
  Qed.

  Lemma common_land a m x : common (N.land a m) x <-> common a (N.land m x).
  Proof.
    unfold common. split; intros (i & T1 & T2); exists i;
      rewrite N.land_spec in *; rewrite andb_true_iff in *; tauto.
  Qed.

  Lemma common_types c n :
    name_bit n c ->
    (common c (N.land FOResourcesOnly (party_context context (Some d) uh)) <-> declared context n).
  Proof.
    intros H. rewrite declared_bit. split.
    - intros (i & T1 & T2). rewrite N.land_spec, andb_true_iff in T2. destruct T2 as [T2 T3].
      rewrite party_types in T3 by auto. exists c, i. auto.
    - intros (c' & i & H' & T1 & T2 & T3). exists i. rewrite N.land_spec, T2.
      rewrite party_types, T3 by auto. split; auto.
      destruct (nonresource_names n c' i H' T1 T2) as [_ J].
      now rewrite <- (name_bit_unique n c' c J H).
  Qed.

  Lemma options_fit_iff :
    matchesOptions f (party_context context (Some d) uh) (Some d) = true <->
    options_fit parts context uh d.
  Proof.
    rewrite matchesOptions_exact, party_nonzero by auto.
    rewrite !common_land, party_not, party_third by auto.
    assert (common (f_opt f) FOUnsupportedSoSkipCheck <->
            exists n, positive_option parts n /\ unsupported_option n) as E1.
    { rewrite common_opt. split.
      - intros (n & c & P & H & K). exists n. split; auto. eapply unsupported_bits; eauto.
      - intros (n & P & K). pose proof K as (c & H & _). exists n, c. split; auto. split; auto.
        now apply (unsupported_bits n c H). }
    assert (common (party_context context (Some d) uh) FODocument <->
            declared context (B "document")) as E2.
    { rewrite declared_document. split; intros (i & T1 & T2); exists i; (split; auto).
      - change FODocument with (2 ^ 7)%N in T2. rewrite N.pow2_bits_eqb in T2.
        apply N.eqb_eq in T2 as <-. now rewrite party_types in T1.
      - change FODocument with (2 ^ 7)%N in T2. rewrite N.pow2_bits_eqb in T2.
        apply N.eqb_eq in T2 as <-. now rewrite party_types. }
    assert (common (f_opt f) FODocument <-> positive_option parts (B "document")) as E3.
    { rewrite common_opt. split.
      - intros (n & c & P & H & K). apply (document_option n c H) in K as ->; auto.
      - intros P. exists (B "document"), FODocument. split; auto.
        split; [apply nb_known; cbn; tauto|]. exists 7%N. auto. }
    assert (N.ldiff (f_opt f) BehavioralFilterOnly = 0%N <->
            forall n, positive_option parts n -> untyped_option n) as E4.
    { destruct (opt_facts pres r f b parts G O U HP) as (X & _). rewrite ldiff_bits. split.
      - intros H n P. destruct (name_cases n) as [N|[N|(c & N)]].
        + right. auto.
        + right. auto.
        + apply (behavioral_names n c N). apply ldiff_bits. intros i T. apply H, X. eauto.
      - intros H i T. apply X in T as (n & c & P & N & T).
        apply H, (behavioral_names n c N) in P. rewrite ldiff_bits in P. auto. }
    assert (common (f_opt f) (N.land FOResourcesOnly (party_context context (Some d) uh)) <->
            exists n, positive_option parts n /\ declared context n) as E5.
    { rewrite common_opt. split.
      - intros (n & c & P & H & K). exists n. split; auto. eapply common_types; eauto.
      - intros (n & P & K). pose proof K as (_ & c & I & _). exists n, c. split; auto.
        split; [now apply nb_known|]. apply (common_types c n); auto. now apply nb_known. }
    assert (common (f_anti f) (N.land FOResourcesOnly (party_context context (Some d) uh)) <->
            exists n, negative_option parts n /\ declared context n) as E6.
    { rewrite common_anti. split.
      - intros (n & c & P & H & K). exists n. split; auto. eapply common_types; eauto.
      - intros (n & P & K). pose proof K as (_ & c & I & _). exists n, c. split; auto.
        split; [now apply nb_known|]. apply (common_types c n); auto. now apply nb_known. }
    assert (domain_ok f (Some d) <-> forall dl, last_domain parts dl -> domain_applies dl d) as E7.
    { unfold domain_ok. pose proof (dom_facts pres r f b parts G O U HP) as D.
      destruct (f_dom f) as [dl|] eqn:Q.
      - rewrite (contextDomain_spec f dl d Q). split.
        + intros H dl' L. apply D in L. now injection L as <-.
        + intros H. apply H. now apply D.
      - split; auto. intros _ dl L. apply D in L. discriminate. }
    assert (common (f_opt f) FOThirdParty <-> positive_option parts (B "third-party")) as E8.
    { rewrite common_opt. split.
      - intros (n & c & P & H & K). apply (third_option n c H) in K as ->; auto.
      - intros P. exists (B "third-party"), FOThirdParty. split; auto.
        split; [apply nb_known; cbn; tauto|]. exists 13%N. auto. }
    assert (common (f_anti f) FOThirdParty <-> negative_option parts (B "third-party")) as E9.
    { rewrite common_anti. split.
      - intros (n & c & P & H & K). apply (third_option n c H) in K as ->; auto.
      - intros P. exists (B "third-party"), FOThirdParty. split; auto.
        split; [apply nb_known; cbn; tauto|]. exists 13%N. auto. }
    assert (first_party d uh \/ ~ first_party d uh) as DF.
    { rewrite <- isThirdPartyHost_spec. destruct (isThirdPartyHost d uh); [right; discriminate|now left]. }
    rewrite E1, E2, E3, E4, E5, E6, E7, E8, E9. unfold options_fit.
    split.
    - intros (H1 & H2 & [H3 H4] & H5 & H6 & H7).
      split; [intros n P Q; apply H1; eauto|]. split; auto. split; auto.
      split; [intros n P Q; apply H4; eauto|]. split; auto. split; [tauto|]. tauto.
    - intros (H1 & H2 & H3 & H4 & H5 & H6 & H7).
      split; [intros (n & P & Q); now apply (H1 n)|]. split; auto.
      split; [split; auto; intros (n & P & Q); now apply (H4 n)|]. split; auto.
      split; tauto.
  Qed.
End Fit.

(** ** Pattern *)
Lemma body_host_exists body : body_host body (host_prefix body).
Proof. destruct (host_prefix_split body) as (rest & E & H1 & H2). exists rest. auto. Qed.

Section Key.
  Context (E : env) (calls : list call) (pres : bool) (r : rule_syntax) (f : filter)
    (b : bool) (parts : list bytes)
    (G : good_rule r) (S : safe_syntax r) (O : option_parts r parts) (U : usual_options parts)
    (HP : parse_filter pres (cstr (rule_line r)) (length (rule_line r)) = Ok (f, b))
    (url : bytes) (Hu : nonul url) (uh : bytes) (Huh : url_has_host url uh)
    (context : N) (d : bytes) (NP : ~ common context (N.lor FOThirdParty FONotThirdParty)).

  Lemma pattern_iff : tmatch E f url = true <-> pattern_fits r url uh.
  Proof.
    rewrite (rule_tmatch E pres r f b G HP url). unfold pattern_fits.
    assert (wildb url (split_on "*" (x_body r)) 0 = true <->
      exists pieces, pieces_of (x_body r) pieces /\ pieces_found url 0 pieces) as W.
    { rewrite wildb_spec. split.
      - intros H. exists (split_on "*" (x_body r)). split; auto. apply split_pieces_of.
      - intros (p & H1 & H2). now apply pieces_of_unique in H1 as ->. }
    destruct (x_anchor r), (x_right r).
    - apply endsWith_spec.
    - exact W.
    - rewrite beq_eq. split; auto.
    - apply prefixb_spec.
    - apply endsWith_spec.
    - rewrite andb_true_iff, negb_true_iff, isThirdPartyHost_spec, (hostOf_spec _ _ Huh), W.
      split.
      + intros (H1 & p & H2 & H3). exists (host_prefix (x_body r)), p.
        split; auto. apply body_host_exists.
      + intros (h & p & H1 & H2 & H3). apply body_host_prefix in H1 as ->. eauto.
  Qed.

  Lemma parts_unique parts' : option_parts r parts' -> parts' = parts.
  Proof.
    unfold option_parts in *. destruct (x_options r).
    - intros H. apply cut_unique in H, O. congruence.
    - congruence.
  Qed.

  Lemma fits_iff : applies E calls f url context (Some d) <-> rule_fits calls r url uh context d.
  Proof.
    assert (getUrlHost (cstr url) = Ok uh) as GH.
    { rewrite getUrlHost_cstr by auto. now rewrite (hostOf_spec _ _ Huh). }
    assert (matches_alone E f url context (Some d) <->
            options_fit parts context uh d /\ pattern_fits r url uh) as M.
    { unfold matches_alone.
      assert (forall ctx, filter_matches E f (cstr url) (length url) ctx (Some d) None [] =
         Ok (matchesOptions f ctx (Some d) && tmatch E f url)) as EV.
      { intros ctx. eapply safe_rule_eval; eauto. }
      rewrite <- pattern_iff.
      rewrite <- (options_fit_iff pres r f b parts G O U HP context d uh NP). split.
      - intros (h & H1 & H2). assert (h = uh) as -> by congruence.
        rewrite EV in H2. apply andb_true_iff. congruence.
      - intros H. exists uh. split; auto. rewrite EV. apply andb_true_iff in H. congruence. }
    destruct (tag_facts pres r f b parts G O U HP) as [T1 T2].
    unfold applies, rule_fits. rewrite M. unfold tag_on. split.
    - intros [[H1 H2] H3]. split; auto. exists parts. split; auto. split; auto.
      intros t L. apply T1 in L as <-. exact H3.
    - intros (H1 & p & H2 & H3 & H4). apply parts_unique in H2 as ->. split; auto.
      destruct T2 as [T2|T2]; auto.
  Qed.
End Key.

(** ** The decision *)
Lemma first_of_host E calls c rs e f h :
  view E calls c rs -> (exists pres l, In (pres, l) (loaded_lines calls) /\ parses_to pres l f) ->
  host_rule e f -> f_host f = Some h ->
  exists g, first_host_rule calls e g /\ f_host g = Some h.
Proof.
  intros V (pres & l & I & P) HR Hh. pose proof (w_lines _ _ _ _ V) as F.
  destruct (F2_in_l _ _ _ _ F I) as ([[f' bb] k] & J & LR).
  assert (f = f') as <- by (now apply (line_rule_parses E (pres, l) (f', bb, k))).
  assert (In f (hosts_in e rs)) as K.
  { apply in_map_iff. exists (f, bb, k). split; auto. apply filter_In. split; auto.
    apply (in_hosts_rule E); auto. now apply line_rule_ok in LR. }
  destruct (pick h (hosts_in e rs)) as [g|] eqn:Q.
  - exists g. now apply (first_host_pick E calls rs).
  - exfalso. unfold pick in Q. apply (find_none _ _ Q) in K. unfold hkey in K. rewrite Hh in K.
    assert (beq h h = true) by now apply beq_eq. congruence.
Qed.

Lemma wide_looked d s : In "."%char d -> looked_up d s -> wide_suffix d s.
Proof. intros D [->|H]; auto. split; auto. Qed.

Lemma exclusion_page dl d :
  (forall s, ~ lists_domain dl s) -> domain_applies dl d -> ~ excludes_page dl d.
Proof.
  intros N [(s & _ & L & _)|[H _]] (s' & W & X); [now apply N in L|]. now apply H in X.
Qed.

Section Decide.
  Context (E : env) (calls : list call) (c : client) (url uh d : bytes) (context : N)
    (H : history calls) (A : after E calls = Ok c)
    (Hu : nonul url) (Hw : web_url url) (Huh : url_has_host url uh)
    (NP : ~ common context (N.lor FOThirdParty FONotThirdParty)) (D : In "."%char d)
    (UL : usual_list calls) (UH : usual_hosts calls uh)
    (AG : agree_on_page (e_bads E) calls d).

  Lemma loaded_usual pres l f k e :
    In (pres, l) (loaded_lines calls) -> parses_to pres l f -> classify E f = Ok k ->
    category_of k = blocker e ->
    exists r, l = rule_line r /\ rule_loaded calls r /\ x_exception r = e.
  Proof.
    intros I P K C. destruct (UL pres l I) as [N|(r & -> & U)].
    - exfalso. destruct (no_network_class E pres l f k) as (X & Y & _); auto.
      + now apply (loaded_line_text calls pres).
      + destruct e; [now apply Y|now apply X].
    - exists r. split; auto. split; [split; eauto|]. destruct P as [b HP].
      destruct (rule_category E pres r f b (proj1 U) HP) as (k' & K' & C').
      assert (k' = k) as -> by congruence. rewrite C' in C.
      destruct (hasUnsupportedOptions f), (x_exception r), e; try discriminate; auto.
  Qed.

  Lemma usual_fits pres r f :
    usual_rule r -> parses_to pres (rule_line r) f ->
    (applies E calls f url context (Some d) <-> rule_fits calls r url uh context d).
  Proof.
    intros (G & S & parts & O & U) [b HP]. eapply fits_iff; eauto.
  Qed.

  Lemma rule_host_fields pres r f e h :
    good_rule r -> parses_to pres (rule_line r) f ->
    (host_rule e f /\ f_host f = Some h <->
     names_only_host r /\ x_exception r = e /\ body_host (x_body r) h).
  Proof.
    intros G [b HP]. pose proof (rule_shape pres r f b G HP) as ->.
    destruct (shape_fields pres r) as (F1 & F2 & F3 & _).
    destruct (shape_bits r) as (B1 & B2 & B3 & B4 & B5).
    unfold host_rule. rewrite F1, F2, F3, B3, host_only_spec. unfold shape_host.
    assert (has (shape_type r) FTException = x_exception r) as ->.
    { unfold shape_type. destruct (x_anchor r), (x_exception r), (x_right r), (host_only r); reflexivity. }
    split.
    - intros ((X1 & X2 & _) & X3). split; auto. split; auto. destruct X1 as [X1 _].
      rewrite X1 in X3. injection X3 as <-. apply body_host_exists.
    - intros (X1 & X2 & X3). pose proof X1 as [X4 _]. rewrite X4.
      split; [split; auto; split; [auto|discriminate]|]. f_equal. now apply body_host_prefix.
  Qed.

  Lemma fits_heeded e r :
    rule_loaded calls r -> x_exception r = e -> rule_fits calls r url uh context d ->
    exists f, heeded E calls e url (Some d) f /\ applies E calls f url context (Some d).
  Proof.
    intros L X Fit. pose proof L as [U (pres & I)]. pose proof U as (G & S & parts & O & UO).
    destruct (hist_view E calls c H A) as (rs & V).
    pose proof (good_rule_line r G) as Hl.
    assert (exists b, parse_filter pres (cstr (rule_line r)) (length (rule_line r)) =
      Ok (shape pres r, b)) as (b & HP).
    { rewrite parse_filter_cstr, parse_rule_line by auto. eexists. reflexivity. }
    set (f := shape pres r) in *.
    assert (parses_to pres (rule_line r) f) as P by (exists b; exact HP).
    assert (applies E calls f url context (Some d)) as Ap by (apply (usual_fits pres r); auto).
    assert (hasUnsupportedOptions f = false) as NU.
    { destruct (hasUnsupportedOptions f) eqn:Q; auto. exfalso.
      destruct Ap as [(host & _ & M) _]. rewrite unsupported_never in M; auto. discriminate. }
    destruct (rule_category E pres r f b G HP) as (k & K & C). rewrite NU, X in C.
    destruct (rule_collection E pres r f b k G HP K) as [HC LC].
    { intros ->. destruct e; discriminate. }
    assert (loaded_in E calls k f) as LI by (exists pres, (rule_line r); auto).
    destruct k as [ |e'|j].
    - destruct e; discriminate.
    - destruct HC as [HC _]. assert (names_only_host r) as NH by eauto.
      assert (e' = e) as -> by (destruct e', e; try discriminate; auto).
      destruct (rule_host_fields pres r f e (host_prefix (x_body r)) G P) as [_ HF].
      destruct HF as [HR Hh]; [split; auto; split; auto; apply body_host_exists|].
      destruct (first_of_host E calls c rs e f (host_prefix (x_body r)) V) as (g & FH & Hg); auto; [eauto|].
      exists g.
      pose proof FH as [HRg (a & p1 & l1 & b1 & h1 & E1 & P1 & Hg1 & _)].
      assert (In (p1, l1) (loaded_lines calls)) as I1.
      { rewrite E1. apply in_or_app. cbn; auto. }
      assert (exists r1, l1 = rule_line r1 /\ rule_loaded calls r1) as (r1 & -> & R1).
      { destruct (UL p1 l1 I1) as [N|(r1 & -> & U1)].
        - exfalso. pose proof (loaded_line_text calls p1 l1 H I1) as T1.
          destruct (F2_in_l _ _ _ _ (w_lines _ _ _ _ V) I1) as ([[g' bb] k1] & J1 & LR).
          assert (g = g') as <- by (now apply (line_rule_parses E (p1, l1) (g', bb, k1))).
          apply line_rule_ok in LR as [_ K1].
          destruct (no_network_class E p1 l1 g k1 T1 N P1 K1) as (_ & _ & Z). now apply (Z e).
        - exists r1. split; auto. split; eauto. }
      destruct (rule_host_fields p1 r1 g e (host_prefix (x_body r)) (proj1 (proj1 R1)) P1) as [HF1 _].
      destruct HF1 as (N1 & X1 & B1); auto.
      destruct UH as [UH1 UH2].
      assert (r1 = r) as ->.
      { apply (UH2 r r1 (host_prefix (x_body r))); auto; [congruence|apply body_host_exists]. }
      split; [|apply (usual_fits p1 r); auto].
      apply (heeded_host E calls e url (Some d) g uh (host_prefix (x_body r))); auto.
      destruct Fit as (PF & _). unfold pattern_fits in PF. destruct NH as (A1 & A2 & NH).
      rewrite A1, A2 in PF. destruct PF as (h & pieces & BH & FP & _).
      apply body_host_prefix in BH as <-.
      destruct (UH1 r _ L (conj A1 (conj A2 NH)) (body_host_exists (x_body r))) as [W|W].
      + right. split; auto. destruct FP as [FP|(sub & FP)]; [left; congruence|right; exists sub; exact FP].
      + left. exact W.
    - destruct (LC j eq_refl) as (g & Hg & L1 & L2 & L3).
      exists f. split; auto.
      assert (j = KNoFpAnti \/ j = KNoFpAntiExc ->
              ~ page_excluded E calls e (Some d)) as PX.
      { intros J. apply L3 in J as (-> & J1 & J2).
        assert (forall r0 p0 f0 b0, good_rule r0 ->
          parse_filter p0 (cstr (rule_line r0)) (length (rule_line r0)) = Ok (f0, b0) ->
          getFingerprint E f0 = Ok None -> no_fp (e_bads E) (x_body r0)) as NF.
        { intros r0 p0 f0 b0 G0 HP0 Q. destruct (rule_fp E p0 r0 f0 b0 G0 HP0) as (o & Ho & R).
          assert (o = None) as -> by congruence. destruct (x_anchor r0); auto.
          destruct (body_host_exists (x_body r0)) as (rest & E1 & E2).
          destruct (R (host_prefix (x_body r0)) rest) as [(w & W & _)|[_ R']]; auto; [exists rest; auto|discriminate]. }
        assert (forall r0 p0 f0 b0 parts0, good_rule r0 -> option_parts r0 parts0 ->
          usual_options parts0 ->
          parse_filter p0 (cstr (rule_line r0)) (length (rule_line r0)) = Ok (f0, b0) ->
          getFingerprint E f0 = Ok None -> f_domains f0 = [] -> forall dl, f_dom f0 = Some dl ->
          short_exclusion (e_bads E) r0 dl) as SE.
        { intros r0 p0 f0 b0 parts0 G0 O0 U0 HP0 Q0 N0 dl0 Q1. split; [eapply NF; eauto|].
          exists parts0. split; auto.
          split; [now apply (dom_facts p0 r0 f0 b0 parts0 G0 O0 U0 HP0)|].
          intros s0 L0. apply lists_domainsOf in L0. unfold f_domains in N0. rewrite Q1 in N0.
          rewrite N0 in L0. easy. }
        unfold f_antiDomains in J2. destruct (f_dom f) as [dl|] eqn:Q; [|easy].
        assert (last_domain parts dl) as LD by (apply (dom_facts pres r f b parts G O UO HP); auto).
        assert (short_exclusion (e_bads E) r dl) as SR by (eapply SE; eauto).
        intros (g0 & dl0 & s & (p0 & l0 & I0 & P0 & K0) & Q0 & X0 & W0).
        assert (category_of (only_excluded e) = blocker e) as CB by now destruct e.
        destruct (loaded_usual p0 l0 g0 _ e I0 P0 K0 CB) as (r0 & -> & R0 & X1).
        pose proof R0 as [(G0 & S0 & parts0 & O0 & U0) _]. destruct P0 as [b0 HP0].
        destruct (rule_collection E p0 r0 g0 b0 _ G0 HP0 K0) as [_ LC0]; [now destruct e|].
        destruct (LC0 _ eq_refl) as (fp0 & Hg0 & _ & _ & L03).
        assert (fp0 = None /\ f_domains g0 = [] /\ f_antiDomains g0 <> []) as (-> & Z1 & Z2).
        { apply L03. destruct e; auto. }
        assert (short_exclusion (e_bads E) r0 dl0) as SR0 by (eapply SE; eauto).
        assert (excludes_page dl d) as EP.
        { apply (AG r0 r dl0 dl R0 L); auto; [congruence|].
          exists s. split; auto. now apply wide_looked. }
        destruct Fit as (_ & parts' & O' & Of & _).
        assert (parts' = parts) as -> by (eapply parts_unique; eauto).
        destruct Of as (_ & _ & _ & _ & Of & _).
        destruct SR as (_ & parts'' & O'' & _ & NL).
        eapply exclusion_page; eauto. }
      destruct e; destruct j; try discriminate;
        first [ apply heeded_fingerprint; exact LI | apply heeded_plain; exact LI
              | apply heeded_listed; [exact LI|discriminate]
              | apply heeded_excluded; [exact LI|auto] ].
  Qed.

  Lemma heeded_fits e :
    (exists f, heeded E calls e url (Some d) f /\ applies E calls f url context (Some d)) <->
    exists r, rule_loaded calls r /\ x_exception r = e /\ rule_fits calls r url uh context d.
  Proof.
    split.
    - intros (f & HF & Ap). destruct (hist_view E calls c H A) as (rs & V).
      destruct (heeded_loaded E calls c rs e url context (Some d) f V HF Ap)
        as (k & (pres & l & I & P & K) & C).
      destruct (loaded_usual pres l f k e I P K C) as (r & -> & R & X).
      exists r. split; auto. split; auto. apply (usual_fits pres r f); auto. apply R.
    - intros (r & R & X & Fit). now apply (fits_heeded e r).
  Qed.

  Lemma usual_safe x f :
    x = BlockRule \/ x = ExceptionRule -> loaded E calls x f -> safe_pattern f.
  Proof.
    intros Hx (k & (pres & l & I & P & K) & C).
    assert (exists e, x = blocker e) as (e & ->).
    { destruct Hx as [-> | ->]; [now exists false|now exists true]. }
    destruct (loaded_usual pres l f k e I P K C) as (r & -> & R & _).
    destruct R as [(G & S & _) _]. eapply syntax_safe; eauto.
  Qed.

  Theorem end_to_end :
    exists v c', matches E c (cstr url) context (Some d) = Ok (v, c') /\
    (v_block v = true <->
     (exists r, rule_loaded calls r /\ x_exception r = false /\ rule_fits calls r url uh context d) /\
     ~ (exists r, rule_loaded calls r /\ x_exception r = true /\ rule_fits calls r url uh context d)).
  Proof.
    destruct (asks_safe E calls c url context (Some d) H A Hu) as [(v & c' & M) _].
    { intros x f Hx L. now apply (usual_safe x f). }
    exists v, c'. split; auto.
    rewrite (decision E calls c url context (Some d) v c') by auto.
    now rewrite !heeded_fits.
  Qed.
End Decide.

(** ** Reading a line back *)
Lemma rule_line_inj r r' :
  good_rule r -> good_rule r' -> rule_line r = rule_line r' -> r = r'.
Proof.
  intros G G' L. pose proof (good_rule_line r G) as Hl. pose proof (good_rule_line r' G') as Hl'.
  assert (shape false r = shape false r') as Sh.
  { assert (exists b, parse_filter false (cstr (rule_line r)) (length (rule_line r)) =
      Ok (shape false r, b)) as (b & HP).
    { rewrite parse_filter_cstr, parse_rule_line by auto. eexists. reflexivity. }
    rewrite L in HP. symmetry. now apply (rule_shape false r' _ b G') in HP. }
  destruct (shape_fields false r) as (F1 & F2 & _).
  destruct (shape_fields false r') as (F1' & F2' & _).
  rewrite Sh in F1, F2. rewrite F1 in F1'. rewrite F2 in F2'.
  assert (x_body r = x_body r') as Eb by congruence. clear F1 F2 F2'.
  destruct (shape_anchor_bits r) as (A1 & A2 & A3).
  destruct (shape_anchor_bits r') as (A1' & A2' & A3').
  assert (forall q, has (shape_type q) FTException = x_exception q) as Ex.
  { intros q. unfold shape_type.
    destruct (x_anchor q), (x_exception q), (x_right q), (host_only q); reflexivity. }
  pose proof (Ex r) as A4. pose proof (Ex r') as A4'.
  rewrite F1' in A1, A2, A3, A4.
  assert (x_right r = x_right r') as Er by congruence.
  assert (x_exception r = x_exception r') as Ee by congruence.
  assert (x_anchor r = x_anchor r') as Ea.
  { rewrite A1 in A1'. rewrite A3 in A3'. destruct (x_anchor r), (x_anchor r'); congruence. }
  assert (pattern_line r = pattern_line r') as Ep.
  { unfold pattern_line. now rewrite Er, Ee, Ea, Eb. }
  unfold rule_line in L. rewrite Ep in L. apply app_inv_head in L.
  clear - L Er Ee Ea Eb.
  destruct r as [e1 a1 b1 r1 o1], r' as [e2 a2 b2 r2 o2]. cbn in *. subst.
  f_equal. destruct o1 as [o1|], o2 as [o2|]; try discriminate; auto. cbn in L. now injection L as ->.
Qed.

Definition safe_syntaxb (r : rule_syntax) : bool :=
  (match x_anchor r with LeftBar => true | _ => false end || x_right r ||
   forallb (fun p => caret_safe (tl p)) (split_on "*" (x_body r))) &&
  (negb (host_only r) || negb (ceq (last (x_body r) NUL) "*")).

Lemma safe_syntaxb_ok r : safe_syntaxb r = true -> safe_syntax r.
Proof.
  unfold safe_syntaxb, safe_syntax. rewrite andb_true_iff. intros [H1 H2]. split.
  - rewrite !orb_true_iff in H1. destruct H1 as [[H1|H1]|H1]; auto.
    + left. now destruct (x_anchor r).
    + right; right. intros pieces p a b Hp I Q. apply pieces_of_unique in Hp as ->.
      rewrite forallb_forall in H1. apply H1 in I. apply caret_safe_spec in I.
      destruct a as [|x a]; auto. destruct b as [|y b]; auto. exfalso. apply I.
      exists a, (y :: b). split; [now rewrite Q|easy].
  - intros N Q. apply host_only_spec in N. rewrite N in H2. cbn [negb orb] in H2.
    rewrite Q in H2. discriminate.
Qed.

Definition usual_optionb (s : bytes) : bool :=
  let n := snd (seg_split s) in
  (existsb (fun e => beq (fst e) n) option_table ||
   negb (existsb (fun e => prefixb n (fst e)) option_table)) &&
  negb (prefixb (B "~domain=") s) && negb (prefixb (B "~tag=") s).

Lemma usual_optionsb_ok parts : forallb usual_optionb parts = true -> usual_options parts.
Proof.
  intros H. rewrite forallb_forall in H. split.
  - assert (forall n, (existsb (fun e => beq (fst e) n) option_table ||
      negb (existsb (fun e => prefixb n (fst e)) option_table)) = true -> ~ abbreviation n) as K.
    { intros n Q (m & c & rest & I & -> & N). apply orb_true_iff in Q as [Q|Q].
      - apply existsb_exists in Q as ([m' c'] & I' & Q). cbn [fst] in Q. apply beq_eq in Q as ->.
        now apply N in I'.
      - apply negb_true_iff in Q.
        assert (existsb (fun e => prefixb n (fst e)) option_table = true); [|congruence].
        apply existsb_exists. exists (n ++ rest, c). split; auto. apply prefixb_spec. exists rest. reflexivity. }
    intros n [[I N]|I]; apply K; apply H in I; unfold usual_optionb in I;
      rewrite !andb_true_iff in I; destruct I as [[I _] _].
    + destruct n as [|x n]; auto. cbn [seg_split] in I.
      destruct (ceq_spec x "~") as [->|Nx]; auto.
    + exact I.
  - intros s I. apply H in I. unfold usual_optionb in I. rewrite !andb_true_iff, !negb_true_iff in I.
    destruct I as [[_ I1] I2]. now split; apply not_begins.
Qed.

Definition usual_ruleb (r : rule_syntax) : bool :=
  good_ruleb r && safe_syntaxb r &&
  match x_options r with None => true | Some o => forallb usual_optionb (split_on "," o) end.

Lemma usual_ruleb_ok r : usual_ruleb r = true -> usual_rule r.
Proof.
  unfold usual_ruleb. rewrite !andb_true_iff. intros [[H1 H2] H3].
  split; [now apply good_ruleb_ok|]. split; [now apply safe_syntaxb_ok|].
  unfold option_parts. destruct (x_options r) as [o|].
  - exists (split_on "," o). split; [apply split_cut|]. now apply usual_optionsb_ok.
  - exists []. split; auto. apply usual_optionsb_ok. reflexivity.
Qed.

(** Which rules a list of lines holds. *)
Lemma loaded_cases calls rs r :
  (forall pres l, In (pres, l) (loaded_lines calls) ->
     (forall q, usual_rule q -> l <> rule_line q) \/ exists q, In q rs /\ l = rule_line q) ->
  Forall usual_rule rs -> rule_loaded calls r -> In r rs.
Proof.
  intros H F [U (pres & I)]. destruct (H pres _ I) as [N|(q & J & L)].
  - now destruct (N r U).
  - rewrite Forall_forall in F. assert (r = q) as ->; auto.
    apply rule_line_inj; auto; [apply U|apply F; auto].
Qed.

Lemma no_network_not_rule (E : env) (l : bytes) (r : rule_syntax) : usual_rule r -> no_network_line l -> l <> rule_line r \/
  exists n c, name_bit n c /\ common c FOUnsupportedSoSkipCheck /\
    exists parts, option_parts r parts /\ positive_option parts n.
Proof.
  intros (G & S & parts & O & U) N.
  pose proof (good_rule_line r G) as Hl.
  destruct (list_eq_dec ascii_dec l (rule_line r)) as [->|Ne]; auto. right.
  assert (exists b, parse_filter false (cstr (rule_line r)) (length (rule_line r)) =
      Ok (shape false r, b)) as (b & HP).
  { rewrite parse_filter_cstr, parse_rule_line by auto. eexists. reflexivity. }
  destruct (rule_category E false r _ b G HP) as (k & K & C).
  destruct (no_network_class E false (rule_line r) (shape false r) k Hl N) as (X & Y & _); auto.
  { exists b. exact HP. }
  destruct (hasUnsupportedOptions (shape false r)) eqn:Q.
  - apply has_common in Q. apply (common_opt false r _ b parts G O U HP) in Q as (n & c & P & M & Q).
    exists n, c. eauto 6.
  - destruct (x_exception r); congruence.
Qed.

Lemma last_domain_unique parts dl dl' :
  last_domain parts dl -> last_domain parts dl' -> dl = dl'.
Proof.
  intros (a & b & -> & Hb) (a' & b' & E & Hb').
  assert (forall x y, last_some seg_dom None (x ++ (B "domain=" ++ y) :: b') = Some y) as K'.
  { intros x y. apply last_some_cut; auto. intros t I. apply Hb' in I as [I1 I2]. now apply seg_dom_none. }
  assert (forall x y, last_some seg_dom None (x ++ (B "domain=" ++ y) :: b) = Some y) as K.
  { intros x y. apply last_some_cut; auto. intros t I. apply Hb in I as [I1 I2]. now apply seg_dom_none. }
  pose proof (K a dl) as K1. rewrite E, K' in K1. congruence.
Qed.

Lemma quiet_not_rule l r : no_network_line l -> ~ In "$"%char l -> usual_rule r -> l <> rule_line r.
Proof.
  intros N D U Q.
  destruct (no_network_not_rule (mkEnv [] [] [] (fun _ => 0%N) (fun _ _ => false)) l r U N)
    as [X|(n & c & _ & _ & parts & O & P & _)]; [easy|].
  unfold option_parts in O. destruct (x_options r) as [o|] eqn:X; [|now subst parts].
  apply D. rewrite Q. unfold rule_line. rewrite X. apply in_or_app. right. cbn. auto.
Qed.

(** ** Safe lists (C78) *)
Lemma usual_safe_history E calls :
  history calls ->
  (forall pres t l, In (Parse pres t) calls -> In l (text_lines t) ->
     (no_network_line l /\ safe_line l) \/
     exists r, l = rule_line r /\ good_rule r /\ safe_syntax r /\ domains_fit (rule_line r)) ->
  exists c, after E calls = Ok c /\
    forall url context dom, nonul url ->
      (exists v c', matches E c (cstr url) context dom = Ok (v, c')) /\
      (exists v, findMatchingFilters E c (cstr url) context dom = Ok v).
Proof.
  intros H L. apply safe_history; auto. intros pres t l I J.
  destruct (L pres t l I J) as [[N S]|(r & -> & G & S & D)].
  - split; auto. intros f k P K C.
    assert (line_text l) as T.
    { apply (text_lines_line t); auto. unfold history in H. rewrite Forall_forall in H.
      apply (H _ I). }
    destruct (no_network_class E pres l f k T N P K) as (X & Y & _). tauto.
  - split; [now apply good_rule_safe|]. intros f k P _ _. eapply syntax_safe; eauto.
Qed.
