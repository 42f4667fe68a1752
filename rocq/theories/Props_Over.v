(** C14 and C17, exactly: what a '^' at the end of a pattern and inside it
    matches, and when the search reads behind the URL. *)
From Verif Require Import Base Flags Url Sets FilterM ParseM ClientM Spec SpecM SpecR
  P_Base P_Url P_Match P_Rule P_Parse P_Shape P_Fp2 P_Line4 P_Line5 P_Match2 P_Over
  Props_List.

(** C17: a rule in the usual syntax reads behind the URL exactly when its options
    let the request through, it has no left or right bar, its host (if it is a
    '||' rule) is the request's, and the search for its pieces overreads. *)
Theorem C17_overread_iff :
  forall E pres r f url uh h pieces context dom bf host,
  good_rule r -> parses_to pres (rule_line r) f ->
  body_host (x_body r) h -> pieces_of (x_body r) pieces ->
  nonul url -> url_has_host url uh -> host_arg url host -> pairs_held E bf url ->
  (filter_matches E f (cstr url) (length url) context dom bf host = UB <->
   matchesOptions f context dom = true /\
   x_anchor r <> LeftBar /\ x_right r = false /\
   (x_anchor r = HostBars -> first_party h uh) /\
   overreads (searched E bf) url 0 pieces).
Proof.
  intros E pres r f url uh h pieces context dom bf host G [b HP]. intros.
  eapply rule_ub; eauto.
Qed.
Print Assumptions C17_overread_iff.

(** The same for any line whatever. *)
Theorem C17_any_line :
  forall E pres l f url uh context dom bf host,
  line_text l -> parses_to pres l f ->
  nonul url -> url_has_host url uh -> host_arg url host -> pairs_held E bf url ->
  (filter_matches E f (cstr url) (length url) context dom bf host = UB <->
   exists d t pieces, f_data f = Some (d, t) /\ pieces_of d pieces /\
   matchesOptions f context dom = true /\
   has (f_type f) FTRegex = false /\ has (f_type f) FTLeftAnchored = false /\
   has (f_type f) FTRightAnchored = false /\
   (has (f_type f) FTHostAnchored = true ->
    first_party (match f_host f with Some h => h | None => [] end) uh) /\
   overreads (searched E bf) url 0 pieces).
Proof.
  intros E pres l f url uh context dom bf host Hl [b HP] Hu Huh Hh Hb.
  assert (wf_rule f) as W by (eapply line_wf; eauto).
  rewrite (wf_ub E f url context dom bf host W Hu Hh Hb).
  assert (hostchk f url = true <->
    (has (f_type f) FTHostAnchored = true ->
     first_party (match f_host f with Some h => h | None => [] end) uh)) as K.
  { unfold hostchk, hkey. rewrite orb_true_iff, !negb_true_iff, isThirdPartyHost_spec,
      (hostOf_spec _ _ Huh).
    destruct (has (f_type f) FTHostAnchored); intuition discriminate. }
  unfold unanchored. split.
  - intros (d & H1 & H2 & (H3 & H4 & H5) & H6 & H7).
    exists d, [NUL], (split_on "*" d). split; auto. split; [apply split_pieces_of|].
    rewrite K in H6. auto 10.
  - intros (d & t & pieces & H1 & H2 & H3 & H4 & H5 & H6 & H7 & H8).
    apply pieces_of_unique in H2 as ->. destruct (wf_nonul f d t W H1) as [_ ->].
    exists d. rewrite K. auto 10.
Qed.
Print Assumptions C17_any_line.

(** Otherwise the answer is defined, and is the one of C13 and C16. *)
Theorem C17_defined_otherwise :
  forall E pres r f url uh h pieces context dom host,
  good_rule r -> x_anchor r <> LeftBar -> x_right r = false ->
  parses_to pres (rule_line r) f ->
  body_host (x_body r) h -> pieces_of (x_body r) pieces ->
  nonul url -> url_has_host url uh -> host_arg url host ->
  ~ overreads (searched E None) url 0 pieces ->
  forall bf, pairs_held E bf url ->
  exists v, filter_matches E f (cstr url) (length url) context dom bf host = Ok v /\
    (v = true <-> matchesOptions f context dom = true /\
       (x_anchor r = HostBars -> first_party h uh) /\ pieces_found url 0 pieces).
Proof.
  intros E pres r f url uh h pieces context dom host G A R [b HP] Bh P Hu Huh Hh N bf Hb.
  assert (pairs_held E None url) as HN by discriminate.
  pose proof (rule_ub E pres r f b url uh h pieces context dom None host
    G HP Bh P Hu Huh Hh HN) as U.
  destruct (filter_matches E f (cstr url) (length url) context dom None host) as [v|] eqn:V.
  2:{ exfalso. apply N. now apply U. }
  exists v. destruct (x_anchor r) eqn:An; [|easy|].
  - destruct (piece_rule E pres r f b url context dom bf host v pieces) as [H1 H2]; auto.
    split; auto. rewrite H2. split; [intros [? ?]|intros (? & _ & ?)]; repeat split; auto.
    discriminate.
  - destruct (host_rule E pres r f b url uh h context dom bf host v pieces)
      as [H1 H2]; auto. split; auto. rewrite H2.
    split; [intros (? & ? & ?)|intros (? & ? & ?)]; repeat split; auto.
Qed.
Print Assumptions C17_defined_otherwise.

(** A URL is safe from a rule unless it ends in what some piece has in front of
    an inner '^'. *)
Theorem C17_safe_endings :
  forall E pres r f url uh h pieces context dom bf host,
  good_rule r -> parses_to pres (rule_line r) f ->
  body_host (x_body r) h -> pieces_of (x_body r) pieces ->
  nonul url -> url_has_host url uh -> host_arg url host -> pairs_held E bf url ->
  (forall p a b i, In p pieces -> p = a ++ B "^" ++ b -> a <> [] -> b <> [] ->
     i + length a = length url -> ~ piece_at a url i) ->
  exists v, filter_matches E f (cstr url) (length url) context dom bf host = Ok v.
Proof.
  intros E pres r f url uh h pieces context dom bf host G [b HP] Bh P Hu Huh Hh Hb S.
  pose proof (rule_ub E pres r f b url uh h pieces context dom bf host
    G HP Bh P Hu Huh Hh Hb) as U.
  destruct (filter_matches _ _ _ _ _ _ _ _) as [v|]; [eauto|]. exfalso.
  destruct (proj1 U eq_refl) as (_ & _ & _ & _ & O).
  apply overreads_ends in O as (p & x & y & i & I & E1 & Nx & Ny & L & Q).
  eapply S; eauto.
Qed.
Print Assumptions C17_safe_endings.

(** The rule "a^b" and the URL of [C17_refuted]; the rule "a^bcd" overreads the
    same URL only without the URL's Bloom filter. *)
Example C17_overread_example :
  let url := B "http://x.com/a" in
  overreads (searched E0 None) url 0 [B "a^b"] /\
  overreads (searched E0 None) url 0 [B "a^bcd"] /\
  ~ overreads (searched E0 (Some (inputBloom E0 url))) url 0 [B "a^bcd"].
Proof.
  cbv zeta.
  assert (nonul (B "http://x.com/a")) as Hu by now apply nonulb_ok.
  assert (pairs_held E0 None (B "http://x.com/a")) as HN by discriminate.
  assert (forall s : bytes, nonulb s = true -> forall p, In p [s] -> nonul p) as Hp.
  { intros s Hs p [<-|[]]. now apply nonulb_ok. }
  split; [|split].
  - apply (wild_ub E0 None (B "http://x.com/a") [B "a^b"] 0 Hu (Hp (B "a^b") eq_refl) HN).
    vm_compute. reflexivity.
  - apply (wild_ub E0 None (B "http://x.com/a") [B "a^bcd"] 0 Hu (Hp (B "a^bcd") eq_refl) HN).
    vm_compute. reflexivity.
  - intros O.
    apply (wild_ub E0 (Some (inputBloom E0 (B "http://x.com/a"))) (B "http://x.com/a")
      [B "a^bcd"] 0 Hu (Hp (B "a^bcd") eq_refl) (inputBloom_held _ _)) in O.
    vm_compute in O. discriminate O.
Qed.

(** C14: a rule 't^' matches exactly the URLs with [t] and a separator behind it,
    and those that end in [t] but are longer. *)
Theorem C14_trailing_exact :
  forall E pres r f t url context dom bf host,
  good_rule r -> x_anchor r = NoAnchor -> x_right r = false ->
  x_body r = t ++ B "^" -> plain t -> t <> [] -> parses_to pres (rule_line r) f ->
  nonul url -> host_arg url host -> pairs_held E bf url ->
  exists v, filter_matches E f (cstr url) (length url) context dom bf host = Ok v /\
    (v = true <-> matchesOptions f context dom = true /\
      ((exists a c b, url = a ++ t ++ c :: b /\ In c separators) \/
       (exists a, a <> [] /\ url = a ++ t))).
Proof.
  intros E pres r f t url context dom bf host G A R Eb P Nt [b HP] Hu Hh Hb.
  eexists. split.
  - eapply rule_eval; eauto. right. right. eapply trailing_carets; eauto.
  - rewrite andb_true_iff, (rule_pieces E pres r f b G HP url A R [t ++ B "^"]).
    + now rewrite trailing_exact.
    + rewrite Eb. apply trailing_pieces, P.
Qed.
Print Assumptions C14_trailing_exact.

(** A rule 't^u' matches exactly the URLs with [t], a separator and [u]; where it
    is undefined (C17) no such URL is concerned. *)
Theorem C14_inner_exact :
  forall E pres r f t u url context dom bf host v,
  good_rule r -> x_anchor r = NoAnchor -> x_right r = false ->
  x_body r = t ++ B "^" ++ u -> plain t -> plain u -> u <> [] ->
  parses_to pres (rule_line r) f ->
  nonul url -> host_arg url host -> pairs_held E bf url ->
  filter_matches E f (cstr url) (length url) context dom None host = Ok v ->
  filter_matches E f (cstr url) (length url) context dom bf host = Ok v /\
  (v = true <-> matchesOptions f context dom = true /\
     exists a c b, url = a ++ t ++ c :: u ++ b /\ In c separators).
Proof.
  intros E pres r f t u url context dom bf host v G A R Eb Pt Pu Nu [b HP] Hu Hh Hb H.
  destruct (piece_rule E pres r f b url context dom bf host v [t ++ B "^" ++ u])
    as [H1 H2]; auto.
  - rewrite Eb. split; [easy|]. split; auto. intros p [<-|[]] I.
    destruct Pt as [Pt _], Pu as [Pu _].
    apply in_app_or in I as [I|[I|I]]; [easy|discriminate I|easy].
  - split; auto. rewrite H2. now rewrite middle_exact.
Qed.
Print Assumptions C14_inner_exact.

Definition asked_rule (l url : bytes) : res bool :=
  bind (parse_filter false (cstr l) (length l)) (fun fb =>
    filter_matches E0 (fst fb) (cstr url) (length url) 0 None None []).

Example C14_exact_example :
  good_rule (mkRule false NoAnchor (B "/ads^") false None) /\
  good_rule (mkRule false NoAnchor (B "/ads^id=") false None) /\
  plain (B "/ads") /\ plain (B "id=") /\
  asked_rule (B "/ads^") (B "http://a.com/ads") = Ok true /\
  asked_rule (B "/ads^") (B "http://a.com/ads/1") = Ok true /\
  asked_rule (B "/ads^") (B "http://a.com/adsx") = Ok false /\
  asked_rule (B "/ads^id=") (B "http://a.com/ads?id=1") = Ok true /\
  asked_rule (B "/ads^id=") (B "http://a.com/ads") = UB.
Proof.
  split; [now apply good_ruleb_ok|]. split; [now apply good_ruleb_ok|].
  split; [split; now apply notin_ok|]. split; [split; now apply notin_ok|].
  vm_compute. repeat split.
Qed.
