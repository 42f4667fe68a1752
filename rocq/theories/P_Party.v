(** Proofs for C29, asked of a client. *)
From Verif Require Import Base Flags Protocol Url Sets FilterM ParseM ClientM Spec SpecM SpecC
  P_Base P_Url P_Shape P_Match P_Rule P_Line5 P_Match2 P_Opt P_Opt2 P_Dec2 SpecParty.

Lemma same_options f g context dom : same_content f g ->
  matchesOptions f context dom = matchesOptions g context dom.
Proof.
  intros (_ & O & A & _ & D & _).
  unfold matchesOptions, hasUnsupportedOptions, contextDomainMatchesFilter, f_domains, f_antiDomains.
  now rewrite O, A, D.
Qed.

Lemma applied_options E calls f url context dom uh :
  nonul url -> url_has_host url uh -> applies E calls f url context dom ->
  matchesOptions f (party_context context dom uh) dom = true.
Proof.
  intros Hu Hh [(h & G & M) _].
  rewrite (getUrlHost_cstr url Hu), (hostOf_spec _ _ Hh) in G. injection G as <-.
  destruct (matchesOptions f (party_context context dom uh) dom) eqn:X; auto.
  rewrite (no_options_false E f _ _ _ _ _ _ X) in M. discriminate.
Qed.

Lemma party_respected E calls f g pres r o parts url context dom uh :
  good_rule r -> x_options r = Some o -> cut_at "," o parts ->
  parses_to pres (rule_line r) f ->
  nonul url -> url_has_host url uh -> applies E calls g url context dom ->
  same_content g f ->
  (positive_option parts (B "third-party") -> ~ asked_first_party context dom uh) /\
  (negative_option parts (B "third-party") -> ~ asked_third_party context dom uh).
Proof.
  intros G O C [b HP] Hu Hh Ap S.
  pose proof (applied_options _ _ _ _ _ _ _ Hu Hh Ap) as M.
  rewrite (same_options _ _ _ _ S) in M.
  destruct (party_rules pres r f b o parts _ _ G O C HP M) as [K1 K2].
  destruct (party_derived context dom uh) as (D1 & D2 & _).
  split; intros P H; [apply (K1 P)|apply (K2 P)]; destruct H as [H|(H1 & d & H2 & H3)].
  - rewrite D1; auto. apply has_common. rewrite has_lor. apply has_common in H. now rewrite H, orb_true_r.
  - destruct (D2 H1 d H2) as [-> _]; auto. apply has_common. rewrite has_lor_l. apply orb_true_r.
  - rewrite D1; auto. apply has_common. rewrite has_lor. apply has_common in H. now rewrite H.
  - destruct (D2 H1 d H2) as [_ ->]; auto. apply has_common. rewrite has_lor_l. apply orb_true_r.
Qed.

Lemma matches_party E calls c url context dom v c' pres r f g o parts uh :
  history calls -> after E calls = Ok c -> nonul url -> web_url url -> url_has_host url uh ->
  matches E c (cstr url) context dom = Ok (v, c') ->
  (v_filter v = Some g \/ (v_filter v <> None /\ v_exc v = Some g)) ->
  good_rule r -> x_options r = Some o -> cut_at "," o parts ->
  parses_to pres (rule_line r) f -> same_content g f ->
  (positive_option parts (B "third-party") -> ~ asked_first_party context dom uh) /\
  (negative_option parts (B "third-party") -> ~ asked_third_party context dom uh).
Proof.
  intros Hi A Hu Hw Hh M V G O C P S.
  destruct (matches_reports E calls c url context dom v c' Hi A Hu Hw M) as (R1 & R2 & _).
  assert (exists k, applies E calls k url context dom /\ same_content k g) as (k & Ap & S').
  { destruct V as [V|[V1 V2]].
    - rewrite V in R1. destruct R1 as (k & _ & Ap & _ & S'). eauto.
    - specialize (R2 V1). rewrite V2 in R2. destruct R2 as (k & _ & Ap & _ & S'). eauto. }
  eapply party_respected; eauto.
  unfold same_content in *. intuition congruence.
Qed.

Lemma find_party E calls c url context dom v pres r f g o parts uh :
  history calls -> after E calls = Ok c -> nonul url -> url_has_host url uh ->
  findMatchingFilters E c (cstr url) context dom = Ok v ->
  (v_filter v = Some g \/ (v_filter v <> None /\ v_exc v = Some g)) ->
  good_rule r -> x_options r = Some o -> cut_at "," o parts ->
  parses_to pres (rule_line r) f -> same_content g f ->
  (positive_option parts (B "third-party") -> ~ asked_first_party context dom uh) /\
  (negative_option parts (B "third-party") -> ~ asked_third_party context dom uh).
Proof.
  intros Hi A Hu Hh M V G O C P S.
  destruct (find_reports E calls c url context dom v Hi A Hu M) as (R1 & R2 & _).
  assert (exists k, applies E calls k url context dom /\ same_content k g) as (k & Ap & S').
  { destruct V as [V|[V1 V2]].
    - rewrite V in R1. destruct R1 as (k & _ & Ap & _ & S'). eauto.
    - specialize (R2 V1). rewrite V2 in R2. destruct R2 as (k & _ & Ap & _ & S'). eauto. }
  eapply party_respected; eauto.
  unfold same_content in *. intuition congruence.
Qed.
