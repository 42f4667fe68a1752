(** Proofs about the questions to one rule (C107). *)
From Verif Require Import Base Flags Url Sets FilterM ParseM ClientM Spec DomM SpecDom
  P_Base P_Rule P_Opt P_Opt2.

(** ** The loop over a domain list *)
Section Multi.
Context (multi : bool).

Definition put (s : option (list bytes) * option (list bytes)) (d : bytes) :=
  if is_anti d then (fst s, addDomain multi (snd s) (skipn 1 d))
  else (addDomain multi (fst s) d, snd s).

Lemma split_more c w x s : ~ In c w -> x <> c ->
  split_on c (w ++ x :: s) = split_on c ((w ++ [x]) ++ s).
Proof. intros _ _. now rewrite <- app_assoc. Qed.

Lemma deref_anti w t : t = "|"%char \/ t = NUL -> forall r, exists c0,
  deref (w ++ t :: r) = Ok c0 /\ ceq c0 "~" = is_anti w.
Proof.
  intros T r. destruct w as [|c w]; cbn [app deref is_anti].
  - exists t. split; auto. destruct T as [->| ->]; reflexivity.
  - now exists c.
Qed.

Lemma firstn_in (w r : bytes) : firstn (length w) (w ++ r) = w.
Proof. rewrite firstn_app, Nat.sub_diag, firstn_all. cbn. now rewrite app_nil_r. Qed.

Lemma piece_put w t r pos neg c0 :
  ceq c0 "~" = is_anti w ->
  (if ceq c0 "~"
   then (pos, addDomain multi neg (firstn (length w - 1) (skipn 1 (w ++ t :: r))))
   else (addDomain multi pos (firstn (length w) (w ++ t :: r)), neg)) = put (pos, neg) w.
Proof.
  intros ->. unfold put. cbn [fst snd]. destruct (is_anti w) eqn:A.
  - destruct w as [|c w]; [discriminate|]. cbn [app skipn length].
    replace (S (length w) - 1) with (length w) by lia. now rewrite firstn_in.
  - now rewrite firstn_in.
Qed.

Lemma loop_gen s : forall w pos neg, nonul s -> ~ In "|"%char w ->
  domainLoop multi (cstr s) (w ++ cstr s) (length w) pos neg
  = Ok (fold_left put (split_on "|" (w ++ s)) (pos, neg)).
Proof.
  induction s as [|x s IH]; intros w pos neg Hn Hw.
  - change (cstr []) with [NUL]. cbn [domainLoop]. change (ceq NUL "|" || ceq NUL NUL) with true.
    cbn beta iota. destruct (deref_anti w NUL (or_intror eq_refl) []) as (c0 & D & A).
    rewrite D. cbn [bind]. rewrite (piece_put w NUL [] pos neg c0 A).
    rewrite app_nil_r, split_on_none by auto. cbn [fold_left].
    now destruct (put (pos, neg) w).
  - apply nonul_cons in Hn as [Hx Hn]. change (cstr (x :: s)) with (x :: cstr s).
    cbn [domainLoop]. rewrite (proj2 (ceq_neq x NUL) Hx), orb_false_r.
    destruct (ceq_spec x "|") as [->|N].
    + destruct (deref_anti w "|"%char (or_introl eq_refl) (cstr s)) as (c0 & D & A).
      rewrite D. cbn [bind]. rewrite (piece_put w "|"%char (cstr s) pos neg c0 A).
      rewrite split_on_app by auto. cbn [fold_left].
      destruct (put (pos, neg) w) as [p1 n1] eqn:Ep.
      replace (skipn (length w + 1) (w ++ "|"%char :: cstr s)) with ([] ++ cstr s).
      2:{ rewrite skipn_app, skipn_all2 by lia.
          replace (length w + 1 - length w) with 1 by lia. reflexivity. }
      exact (IH [] p1 n1 Hn (fun F => F)).
    + replace (w ++ x :: s) with ((w ++ [x]) ++ s) by now rewrite <- app_assoc.
      replace (w ++ x :: cstr s) with ((w ++ [x]) ++ cstr s) by now rewrite <- app_assoc.
      replace (S (length w)) with (length (w ++ [x])) by (rewrite app_length; cbn; lia).
      apply IH; auto. rewrite in_app_iff. intros [I|[I|[]]]; auto.
Qed.

Lemma loop_all dl pos neg : nonul dl ->
  domainLoop multi (cstr dl) (cstr dl) 0 pos neg = Ok (fold_left put (split_on "|" dl) (pos, neg)).
Proof. intros H. exact (loop_gen dl [] pos neg H (fun F => F)). Qed.

Definition setOf (l : list bytes) : option (list bytes) := fold_left (addDomain multi) l None.

Lemma fold_put ps : forall pos neg,
  fold_left put ps (pos, neg) =
  (fold_left (addDomain multi) (List.filter (fun d => negb (is_anti d)) ps) pos,
   fold_left (addDomain multi) (map (skipn 1) (List.filter is_anti ps)) neg).
Proof.
  induction ps as [|d ps IH]; intros pos neg; auto. cbn [fold_left List.filter map].
  unfold put at 2. cbn [fst snd]. destruct (is_anti d) eqn:A; cbn [negb fold_left map]; apply IH.
Qed.

Lemma loop_sets dl : nonul dl ->
  domainLoop multi (cstr dl) (cstr dl) 0 None None = Ok (setOf (domainsOf dl), setOf (antiDomainsOf dl)).
Proof. intros H. rewrite loop_all, fold_put by auto. reflexivity. Qed.

(** ** The sets *)
Definition content (s : option (list bytes)) : list bytes := match s with Some l => l | None => [] end.

Lemma setOf_app l d : setOf (l ++ [d]) = addDomain multi (setOf l) d.
Proof. unfold setOf. now rewrite fold_left_app. Qed.

Lemma setOf_in l : forall d, In d (content (setOf l)) <-> In d l.
Proof.
  induction l as [|x l IH] using rev_ind; intros d; [reflexivity|]. rewrite setOf_app. unfold addDomain. cbn [content].
  change (match setOf l with Some l => l | None => [] end) with (content (setOf l)).
  destruct (negb multi && memb x (content (setOf l))) eqn:M.
  - apply andb_prop in M as [_ M]. apply memb_In in M.
    rewrite in_app_iff, IH. apply IH in M. cbn. split; auto. intros [I|[<-|[]]]; auto.
  - rewrite !in_app_iff, IH. reflexivity.
Qed.

Lemma setOf_counted l : counted multi l (setSize (setOf l)).
Proof.
  replace (setSize (setOf l)) with (length (content (setOf l))) by now destruct (setOf l).
  unfold counted. destruct multi eqn:Em.
  - induction l as [|x l IH] using rev_ind; [reflexivity|]. rewrite setOf_app. unfold addDomain. rewrite Em.
    cbn [negb andb content].
    change (match setOf l with Some l => l | None => [] end) with (content (setOf l)).
    rewrite !app_length. cbn. lia.
  - exists (content (setOf l)). split; [|split; auto; intros d; apply setOf_in].
    induction l as [|x l IH] using rev_ind; [apply NoDup_nil|]. rewrite setOf_app. unfold addDomain. rewrite Em.
    cbn [negb andb content].
    change (match setOf l with Some l => l | None => [] end) with (content (setOf l)).
    destruct (memb x (content (setOf l))) eqn:M; auto.
    rewrite <- rev_involutive. apply NoDup_rev. rewrite rev_app_distr. cbn [rev app].
    apply NoDup_cons.
    + rewrite <- in_rev. intros I. apply memb_In in I. congruence.
    + now apply NoDup_rev.
Qed.

Lemma setOf_some l : l <> [] -> exists x s, setOf l = Some (x :: s).
Proof.
  intros H. assert (S : exists s, setOf l = Some s).
  { induction l as [|x l _] using rev_ind; [easy|]. rewrite setOf_app. unfold addDomain. eauto. }
  destruct S as (s & E). destruct l as [|d l]; [easy|].
  assert (I : In d (content (setOf (d :: l)))) by (apply setOf_in; now left).
  rewrite E in I |- *. destruct s as [|x s]; [destruct I|]. eauto.
Qed.

Lemma setOf_size l : (setSize (setOf l) =? 0) = negb (nonempty l).
Proof.
  destruct l as [|d l]; [reflexivity|].
  destruct (setOf_some (d :: l)) as (x & s & ->); [easy|]. reflexivity.
Qed.

Lemma setOf_memb d l : match setOf l with None => false | Some s => memb d s end = memb d l.
Proof.
  transitivity (memb d (content (setOf l))); [now destruct (setOf l)|].
  destruct (memb d l) eqn:E.
  - apply memb_In. apply setOf_in. now apply memb_In.
  - apply not_true_iff_false. intros M. apply memb_In in M. apply (proj1 (setOf_in l d)) in M.
    apply (proj2 (memb_In d l)) in M. congruence.
Qed.

(** ** The invariant *)
Definition dom_list (m : option bytes) : list bytes := match m with Some dl => domainsOf dl | None => [] end.
Definition anti_list (m : option bytes) : list bytes := match m with Some dl => antiDomainsOf dl | None => [] end.

Definition Inv (o : robj) (s : filter * option bytes) : Prop :=
  let '(g, m) := s in
  ob_rule o = g /\ good_domains g /\
  ob_domains o = setOf (dom_list m) /\ ob_anti o = setOf (anti_list m) /\
  ob_parsed o = match m with Some _ => true | None => false end /\
  (m <> None -> f_dom g <> None).

Definition or_else (m : option bytes) (g : filter) : option bytes :=
  match m with Some dl => Some dl | None => f_dom g end.

Lemma parse_inv o g m : Inv o (g, m) ->
  exists o', parseDomainsObj multi o = Ok o' /\ Inv o' (g, or_else m g).
Proof.
  intros (R & G & D & A & P & N). unfold parseDomainsObj. rewrite R.
  destruct (f_dom g) as [dl|] eqn:E.
  - rewrite P. destruct m as [dl'|].
    + exists o. split; auto. repeat split; auto. congruence.
    + rewrite D, A. cbn [dom_list anti_list]. change (setOf []) with (@None (list bytes)).
      rewrite loop_sets by now apply G. cbn [bind fst snd]. eexists. split; [reflexivity|].
      unfold or_else. rewrite E. repeat split; auto. cbn. congruence.
  - destruct m as [dl'|]; [exfalso; now apply N|].
    exists o. split; auto. unfold or_else. rewrite E. repeat split; auto.
Qed.

Lemma or_else_twice m g : or_else (or_else m g) g = or_else m g.
Proof. unfold or_else. destruct m; auto. now destruct (f_dom g). Qed.

Lemma count_inv o g m anti : Inv o (g, m) -> exists o',
  getDomainCount multi o anti =
    Ok (setSize (setOf (if anti then anti_list (or_else m g) else dom_list (or_else m g))), o') /\
  Inv o' (g, or_else m g).
Proof.
  intros I. destruct (parse_inv o g m I) as (o' & E & I'). exists o'. split; auto.
  unfold getDomainCount. rewrite E. cbn [bind]. destruct I' as (_ & _ & D & A & _).
  destruct anti; [now rewrite A|now rewrite D].
Qed.

Lemma contains_inv o g m d anti : Inv o (g, m) ->
  containsDomain o d anti = memb d (if anti then anti_list m else dom_list m).
Proof.
  intros (_ & _ & D & A & _). unfold containsDomain. destruct anti.
  - rewrite A. apply setOf_memb.
  - rewrite D. apply setOf_memb.
Qed.

Lemma only_inv o g m anti : Inv o (g, m) -> exists o',
  isOnlyFilter multi o anti =
    Ok (nonempty (if anti then anti_list (or_else m g) else dom_list (or_else m g))
        && negb (nonempty (if anti then dom_list (or_else m g) else anti_list (or_else m g))), o') /\
  Inv o' (g, or_else m g).
Proof.
  intros I. destruct (parse_inv o g m I) as (o1 & E1 & I1).
  destruct (count_inv o1 g _ anti I1) as (o2 & E2 & I2). rewrite or_else_twice in E2, I2.
  destruct (count_inv o2 g _ (negb anti) I2) as (o3 & E3 & I3). rewrite or_else_twice in E3, I3.
  unfold isOnlyFilter. rewrite E1. cbn [bind]. rewrite E2. cbn [bind]. rewrite setOf_size.
  destruct (nonempty (if anti then _ else _)) eqn:N; cbn [negb andb].
  - rewrite E3. cbn [bind]. rewrite setOf_size. exists o3. split; auto. now destruct anti.
  - exists o2. split; auto.
Qed.

Lemma context_loop o g m p : Inv o (g, m) -> forall start,
  contextLoop o start p = ctx_walk (dom_list m) (anti_list m) start p.
Proof.
  intros I. induction p as [|c p IH]; intros start; auto. cbn [contextLoop ctx_walk].
  rewrite !(contains_inv o g m _ _ I), !IH. reflexivity.
Qed.

Lemma domains_with g m : f_domains (with_domains g m) = dom_list m.
Proof. now destruct m. Qed.
Lemma anti_with g m : f_antiDomains (with_domains g m) = anti_list m.
Proof. now destruct m. Qed.

Lemma context_inv o g m ctx : Inv o (g, m) -> exists o',
  contextDomainMatches multi o ctx =
    Ok (contextDomainMatchesFilter (with_domains g (or_else m g)) ctx, o') /\
  Inv o' (g, or_else m g).
Proof.
  intros I. destruct (count_inv o g m false I) as (o1 & E1 & I1).
  destruct (count_inv o1 g _ true I1) as (o2 & E2 & I2). rewrite or_else_twice in E2, I2.
  destruct (count_inv o2 g _ false I2) as (o3 & E3 & I3). rewrite or_else_twice in E3, I3.
  destruct (count_inv o3 g _ true I3) as (o4 & E4 & I4). rewrite or_else_twice in E4, I4.
  unfold contextDomainMatches, contextDomainMatchesFilter. rewrite domains_with, anti_with.
  rewrite E1. cbn [bind]. rewrite E2. cbn [bind]. rewrite !setOf_size.
  rewrite (context_loop o2 g _ ctx I2).
  destruct (negb (nonempty (dom_list (or_else m g))) && negb (nonempty (anti_list (or_else m g)))).
  - exists o2. auto.
  - destruct (ctx_walk _ _ ctx ctx) as [b|]; [exists o2; auto|].
    rewrite E3. cbn [bind]. rewrite E4. cbn [bind]. rewrite !setOf_size, negb_involutive.
    exists o4. split; auto.
    now destruct (negb (nonempty (dom_list (or_else m g))) && nonempty (anti_list (or_else m g))).
Qed.

Lemma matches_split f context dom :
  matchesOptions f context dom =
  (if typesAdmit f context then
     if (match f_dom f, dom with Some _, Some d => contextDomainMatchesFilter f d | _, _ => true end)
     then partyAdmits f context else false
   else false).
Proof.
  unfold matchesOptions, typesAdmit, partyAdmits, hasUnsupportedOptions.
  destruct (has (f_opt f) FOUnsupportedSoSkipCheck); auto.
  destruct (negb (has (f_opt f) FODocument) && has context FODocument); auto.
  replace (if negb (context =? 0)%N
           then if negb (N.ldiff (f_opt f) BehavioralFilterOnly =? 0)%N &&
                   negb (has (N.land (f_opt f) FOResourcesOnly) context) then false
                else if negb (N.ldiff (f_anti f) BehavioralFilterOnly =? 0)%N &&
                   has (N.land (f_anti f) FOResourcesOnly) context then false else true
           else if has (f_opt f) FOResourcesOnly then false
                else if has (f_anti f) FOResourcesOnly then false else true)
    with (if negb (context =? 0)%N
          then if negb (N.ldiff (f_opt f) BehavioralFilterOnly =? 0)%N &&
                  negb (has (N.land (f_opt f) FOResourcesOnly) context) then false
               else negb (negb (N.ldiff (f_anti f) BehavioralFilterOnly =? 0)%N &&
                  has (N.land (f_anti f) FOResourcesOnly) context)
          else negb (has (f_opt f) FOResourcesOnly) && negb (has (f_anti f) FOResourcesOnly)).
  2:{ repeat match goal with |- context [if ?b then _ else _] => destruct b end; reflexivity. }
  match goal with |- (if ?b then _ else _) = _ => destruct b end; auto.
  destruct (f_dom f) as [dl|], dom as [d|].
  1: destruct (contextDomainMatchesFilter f d); cbn [negb]; auto.
  all: destruct (has context (N.lor FOThirdParty FONotThirdParty)); auto.
  all: destruct (has (f_opt f) FOThirdParty && has context FONotThirdParty); auto.
  all: now destruct (has (f_anti f) FOThirdParty && has context FOThirdParty).
Qed.

Lemma types_with g m context : typesAdmit (with_domains g m) context = typesAdmit g context.
Proof. reflexivity. Qed.
Lemma party_with g m context : partyAdmits (with_domains g m) context = partyAdmits g context.
Proof. reflexivity. Qed.

Lemma admits_inv o g m context dom : Inv o (g, m) -> exists o',
  matchesOptionsObj multi o context dom =
    Ok (matchesOptions (with_domains g (or_else m g)) context dom, o') /\
  Inv o' (note (g, m) (Admits context dom)).
Proof.
  intros I. pose proof I as (R & _ & _ & _ & _ & N). rewrite matches_split, types_with, party_with.
  unfold matchesOptionsObj, note. cbn [looks]. rewrite R.
  destruct (typesAdmit g context) eqn:T.
  2:{ exists o. split; auto. now destruct dom. }
  cbn [with_domains f_dom]. destruct dom as [d|].
  - destruct (f_dom g) as [dl|] eqn:E.
    + destruct (context_inv o g m d I) as (o' & C & I'). rewrite C. cbn [bind].
      exists o'. pose proof I' as (R' & _). rewrite R'. split.
      * unfold or_else. rewrite E. now destruct m.
      * unfold or_else in I'. now rewrite E in I'.
    + destruct m as [dl|]; [exfalso; now apply N|]. cbn [bind]. exists o. rewrite R. split; auto.
      unfold or_else. now rewrite E.
  - exists o. cbn [bind]. split; [|exact I].
    destruct (f_dom g); cbn [bind]; rewrite R; now destruct (or_else m g).
Qed.

End Multi.

(** ** The loop over the options *)
Lemma options_gen p : forall w f, (forall c, In c w -> c <> ","%char) ->
  optionLoop p (w ++ p) (length w) f =
  rmap (fun txt => fold_left parseOption (split_on "," (w ++ txt)) f) (option_text p).
Proof.
  induction p as [|c p IH]; intros w f Hw; [reflexivity|]. cbn [optionLoop option_text].
  destruct (ceq c NUL || isEndOfLine c) eqn:E.
  - cbn [rmap bind]. rewrite app_nil_r, split_on_none by (intros I; now apply Hw in I).
    cbn [fold_left]. rewrite firstn_app, Nat.sub_diag, firstn_all. cbn. now rewrite app_nil_r.
  - destruct (ceq_spec c ",") as [->|N].
    + rewrite firstn_app, Nat.sub_diag, firstn_all. cbn [firstn]. rewrite app_nil_r.
      replace (skipn (length w + 1) (w ++ ","%char :: p)) with ([] ++ p).
      2:{ rewrite skipn_app, skipn_all2 by lia.
          replace (length w + 1 - length w) with 1 by lia. reflexivity. }
      change 0 with (length (@nil ascii)).
      rewrite (IH [] (parseOption f w)) by (intros c []).
      destruct (option_text p) as [txt|]; auto. cbn [rmap bind app].
      rewrite split_on_app by (intros I; now apply Hw in I). reflexivity.
    + replace (w ++ c :: p) with ((w ++ [c]) ++ p) by now rewrite <- app_assoc.
      replace (S (length w)) with (length (w ++ [c])) by (rewrite app_length; cbn; lia).
      rewrite IH.
      2:{ intros x I. apply in_app_iff in I as [I|[<-|[]]]; auto. }
      destruct (option_text p) as [txt|]; auto. cbn [rmap bind]. now rewrite <- app_assoc.
Qed.

Lemma options_obj o input :
  parseOptionsObj o input =
  rmap (fun g => mkObj g (ob_domains o) (ob_anti o) (ob_parsed o)) (parseOptions (ob_rule o) input).
Proof.
  unfold parseOptionsObj, parseOptions. cbv zeta.
  pose proof (options_gen input [] (mkF (f_type (ob_rule o)) FONoFilterOption FONoFilterOption
    (f_data (ob_rule o)) (f_dom (ob_rule o)) (f_tag (ob_rule o)) (f_host (ob_rule o))
    (f_rule (ob_rule o))) (fun c F => match F with end)) as G.
  cbn [app length] in G. rewrite G.
  now destruct (option_text input).
Qed.

Lemma option_text_cstr t : nonul t -> exists u, option_text (cstr t) = Ok u /\ (forall c, In c u -> In c t).
Proof.
  induction t as [|c t IH]; intros H.
  - exists []. split; auto.
  - apply nonul_cons in H as [Hc H]. change (cstr (c :: t)) with (c :: cstr t). cbn [option_text].
    destruct (ceq c NUL || isEndOfLine c); [exists []; split; auto; intros x []|].
    destruct (IH H) as (u & -> & I). exists (c :: u). split; auto.
    intros x [<-|J]; [now left|right; auto].
Qed.

Lemma parseOption_good f seg : nonul seg -> good_domains f -> good_domains (parseOption f seg) /\
  (f_dom f <> None -> f_dom (parseOption f seg) <> None).
Proof.
  intros Hs G. unfold parseOption.
  set (p := match seg with c :: s' => if ceq c "~" then (true, s') else (false, seg) | [] => (false, seg) end).
  assert (Np : nonul (snd p)).
  { subst p. destruct seg as [|c s]; auto. destruct (ceq c "~"); auto. apply nonul_cons in Hs. apply Hs. }
  destruct p as [anti s]. cbn [snd] in Np.
  destruct (prefixb (B "domain=") s).
  - split; [|now intros _]. intros dl E. cbn [f_dom] in E.
    assert (dl = skipn 7 s) by congruence. subst. now apply nonul_skipn.
  - destruct (prefixb (B "tag=") s); [split; auto|]. destruct anti; split; auto.
Qed.

Lemma options_good f t : nonul t -> good_domains f -> exists g, parseOptions f (cstr t) = Ok g /\
  good_domains g /\ (f_dom f <> None -> f_dom g <> None).
Proof.
  intros Ht G. unfold parseOptions. destruct (option_text_cstr t Ht) as (u & -> & I). cbn [bind].
  eexists. split; [reflexivity|].
  assert (Hu : nonul u) by (intros J; apply I in J; now apply Ht).
  assert (K : forall ps h, (forall p, In p ps -> nonul p) -> good_domains h ->
    good_domains (fold_left parseOption ps h) /\
    (f_dom h <> None -> f_dom (fold_left parseOption ps h) <> None)).
  { induction ps as [|p ps IH]; intros h Hp Gh; [auto|]. cbn [fold_left].
    destruct (parseOption_good h p) as [G1 G2]; auto; [apply Hp; now left|].
    destruct (IH (parseOption h p)) as [G3 G4]; auto. intros q J. apply Hp. now right. }
  apply (K (split_on "," u) (mkF (f_type f) FONoFilterOption FONoFilterOption (f_data f) (f_dom f)
    (f_tag f) (f_host f) (f_rule f))); [|exact G]. intros p J. eapply split_on_nonul; eauto.
Qed.

(** ** Steps and runs *)
Lemma entries_of ps : entries ps (List.filter (fun d => negb (is_anti d)) ps)
                              (map (skipn 1) (List.filter is_anti ps)).
Proof.
  induction ps as [|d ps IH]; [apply en_nil|]. cbn [List.filter].
  destruct (is_anti d) eqn:A; cbn [negb map].
  - destruct d as [|c d]; [discriminate|]. cbn [is_anti] in A. apply ceq_eq in A as ->.
    exact (en_excluded d ps _ _ IH).
  - apply en_listed; auto. intros (v & ->). discriminate.
Qed.

Lemma named_of m : named m (dom_list m) (anti_list m).
Proof.
  destruct m as [dl|]; [|split; reflexivity]. exists (split_on "|" dl). split; [apply split_cut|].
  apply entries_of.
Qed.

Lemma start_inv multi f : good_domains f -> Inv multi (newObj f) (f, None).
Proof. intros G. repeat split; auto. Qed.

Lemma consulted_else g m q : (forall d anti, q <> Contains d anti) -> consulted g m q = or_else m g.
Proof. intros H. destruct q; try reflexivity. exfalso. now apply (H d anti). Qed.

Lemma nonempty_iff {A} (l : list A) : nonempty l = true <-> l <> [].
Proof. now destruct l. Qed.

Lemma step_inv multi o g m q : Inv multi o (g, m) -> good_rop q ->
  exists a o', rstep multi o q = Ok (a, o') /\ answers_as multi g (consulted g m q) q a /\
    Inv multi o' (note (g, m) q).
Proof.
  intros I Gq. destruct q as [anti|anti|d anti|context dom|text|].
  - destruct (count_inv multi o g m anti I) as (o' & E & I'). cbn [rstep]. rewrite E. cbn [bind fst snd].
    do 2 eexists. split; [reflexivity|]. split; [|exact I'].
    rewrite (consulted_else g m) by easy. do 2 eexists. split; [apply named_of|].
    eexists. split; [reflexivity|]. destruct anti; apply setOf_counted.
  - destruct (only_inv multi o g m anti I) as (o' & E & I'). cbn [rstep]. rewrite E. cbn [bind fst snd].
    do 2 eexists. split; [reflexivity|]. split; [|exact I'].
    rewrite (consulted_else g m) by easy. do 2 eexists. split; [apply named_of|].
    eexists. split; [reflexivity|]. rewrite andb_true_iff, negb_true_iff.
    destruct anti; rewrite nonempty_iff.
    + now destruct (dom_list (or_else m g)).
    + now destruct (anti_list (or_else m g)).
  - cbn [rstep]. do 2 eexists. split; [reflexivity|]. split; [|exact I].
    do 2 eexists. split; [apply named_of|]. eexists. split; [reflexivity|].
    rewrite (contains_inv multi o g m d anti I), memb_In. cbn [consulted]. now destruct anti.
  - destruct (admits_inv multi o g m context dom I) as (o' & E & I'). cbn [rstep]. rewrite E. cbn [bind fst snd].
    do 2 eexists. split; [reflexivity|]. split; [|exact I'].
    rewrite (consulted_else g m) by easy. do 2 eexists. split; [apply named_of|]. reflexivity.
  - cbn [rstep note]. rewrite options_obj. destruct I as (R & G & D & A & P & N). rewrite R.
    destruct (options_good g text Gq G) as (h & -> & Gh & Nh). cbn [rmap bind].
    do 2 eexists. split; [reflexivity|]. split.
    + do 2 eexists. split; [apply named_of|reflexivity].
    + repeat split; auto.
  - cbn [rstep note]. do 2 eexists. split; [reflexivity|]. destruct I as (R & G & D & A & P & N). split.
    + do 2 eexists. split; [apply named_of|reflexivity].
    + repeat split; auto.
Qed.

Lemma run_inv multi qs : forall o s, Inv multi o s -> Forall good_rop qs ->
  exists l o', rrun multi o qs = Ok (l, o') /\ Inv multi o' (fold_left note qs s) /\
  forall before q after, qs = before ++ q :: after ->
    exists a, nth_error l (length before) = Some a /\
      let '(g, m) := fold_left note before s in answers_as multi g (consulted g m q) q a.
Proof.
  induction qs as [|q qs IH]; intros o s I F.
  - exists [], o. split; auto. split; auto. intros [|x b] y a E; discriminate.
  - inversion F as [|? ? Fq Fs]; subst. destruct s as [g m].
    destruct (step_inv multi o g m q I Fq) as (a & o1 & E1 & A1 & I1).
    destruct (IH o1 (note (g, m) q) I1 Fs) as (l & o2 & E2 & I2 & K).
    exists (a :: l), o2. cbn [rrun]. rewrite E1. cbn [bind]. rewrite E2. cbn [bind].
    split; auto. split; auto. intros [|x b] y c E.
    + injection E as <- <-. exists a. split; auto.
    + injection E as <- ->. apply (K b y c eq_refl).
Qed.

Theorem answers_all multi f qs : good_domains f -> Forall good_rop qs ->
  exists l o, rrun multi (newObj f) qs = Ok (l, o) /\ length l = length qs /\
  forall before q after, qs = before ++ q :: after ->
    exists a, nth_error l (length before) = Some a /\
      let '(g, m) := stands f before in answers_as multi g (consulted g m q) q a.
Proof.
  intros G F. destruct (run_inv multi qs (newObj f) (f, None) (start_inv multi f G) F) as (l & o & R & _ & K).
  exists l, o. split; auto. split; auto.
  clear -R. revert R. generalize (newObj f). revert l o. induction qs as [|q qs IH]; intros l o o0 R; cbn [rrun] in R.
  - assert (l = []) by congruence. now subst.
  - destruct (rstep multi o0 q) as [[a o1]|]; [|discriminate]. cbn [bind] in R.
    destruct (rrun multi o1 qs) as [[l' o2]|] eqn:E; [|discriminate]. cbn [bind] in R.
    assert (l = a :: l') by congruence. subst. cbn. f_equal. exact (IH l' o2 o1 E).
Qed.

(** Without a change of the options. *)
Lemma stands_plain f qs : (forall t, ~ In (SetOptions t) qs) ->
  fst (stands f qs) = f /\ (snd (stands f qs) = None \/ snd (stands f qs) = f_dom f).
Proof.
  unfold stands. induction qs as [|q qs IH] using rev_ind; intros H; [auto|].
  rewrite fold_left_app. cbn [fold_left].
  destruct IH as [E1 E2]; [intros t I; apply (H t), in_app_iff; auto|].
  destruct (fold_left note qs (f, None)) as [g m]. cbn [fst snd] in *. subst g.
  destruct q; cbn [note fst snd looks]; auto.
  - split; auto. right. destruct E2 as [->| ->]; auto. now destruct (f_dom f).
  - split; auto. right. destruct E2 as [->| ->]; auto. now destruct (f_dom f).
  - destruct dom; auto. destruct (typesAdmit f context); auto.
    split; auto. right. destruct E2 as [->| ->]; auto. now destruct (f_dom f).
  - exfalso. apply (H text), in_app_iff. right. now left.
Qed.

Lemma stands_looked f qs : (forall t, ~ In (SetOptions t) qs) ->
  snd (stands f qs) = f_dom f <->
  f_dom f = None \/
  exists b q r, qs = b ++ q :: r /\ looks f q = true /\ ~ In Copied r.
Proof.
  unfold stands. induction qs as [|q qs IH] using rev_ind; intros H.
  - cbn. split; [now left|]. intros [->|(b & x & r & E & _)]; auto. destruct b; discriminate.
  - assert (H' : forall t, ~ In (SetOptions t) qs) by (intros t I; apply (H t), in_app_iff; auto).
    rewrite fold_left_app. cbn [fold_left].
    destruct (stands_plain f qs H') as [E1 E2]. unfold stands in E1, E2. specialize (IH H').
    destruct (fold_left note qs (f, None)) as [g m]. cbn [fst snd] in *. subst g.
    destruct (looks f q) eqn:L.
    + assert (En : snd (note (f, m) q) = f_dom f).
      { destruct q; cbn [looks] in L; try discriminate; cbn [note snd looks].
        - destruct E2 as [->| ->]; auto. now destruct (f_dom f).
        - destruct E2 as [->| ->]; auto. now destruct (f_dom f).
        - destruct dom; [|discriminate]. rewrite L. destruct E2 as [->| ->]; auto. now destruct (f_dom f). }
      rewrite En. split; auto. intros _. right. exists qs, q, []. split; auto.
    + assert (Q : q = Copied \/ q <> Copied /\ snd (note (f, m) q) = m).
      { destruct q; cbn [looks] in L; try discriminate; auto; right; (split; [easy|]); cbn [note snd looks]; auto.
        - destruct dom; auto. now rewrite L. }
      destruct Q as [->|[Nq Q]].
      * cbn [note snd]. split.
        -- intros E. left. congruence.
        -- intros [->|(b & x & r & E & Lx & Nr)]; auto. exfalso.
           destruct r as [|y r] using rev_ind.
           ++ apply app_inj_tail in E as [_ <-]. discriminate.
           ++ change (b ++ x :: r ++ [y]) with (b ++ (x :: r) ++ [y]) in E. rewrite app_assoc in E.
              apply app_inj_tail in E as [_ <-]. apply Nr, in_app_iff. right. now left.
      * rewrite Q, IH. split; (intros [E|(b & x & r & E & Lx & Nr)]; [now left|right]).
        -- subst qs. exists b, x, (r ++ [q]). split; [now rewrite <- app_assoc|]. split; auto.
           intros I. apply in_app_iff in I as [I|[I|[]]]; auto.
        -- destruct r as [|y r] using rev_ind.
           ++ apply app_inj_tail in E as [_ <-]. congruence.
           ++ clear IHr. change (b ++ x :: r ++ [y]) with (b ++ (x :: r) ++ [y]) in E. rewrite app_assoc in E.
              apply app_inj_tail in E as [E _]. exists b, x, r. split; auto. split; auto.
              intros I. apply Nr, in_app_iff. auto.
Qed.
