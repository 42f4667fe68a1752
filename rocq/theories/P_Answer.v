(** Proofs for C25-C28, asked of a client. *)
From Verif Require Import Base Flags Protocol Url Sets FilterM ParseM ClientM Spec SpecM SpecC
  P_Base P_Url P_Shape P_Match P_Rule P_Line5 P_Match2 P_Opt P_Opt2 P_Dec2 P_Party SpecAnswer.

Lemma answer_applies E calls url context dom g :
  history calls -> nonul url -> answers E calls url context dom g ->
  exists k, applies E calls k url context dom /\ same_content k g.
Proof.
  intros Hi Hu (c & v & A & V & M).
  assert (exists P Q, reported E calls false url context dom P (v_filter v) /\
    (v_filter v <> None -> reported E calls true url context dom Q (v_exc v))) as (P & Q & R1 & R2).
  { destruct M as [(Hw & c' & M)|M].
    - destruct (matches_reports E calls c url context dom v c' Hi A Hu Hw M) as (R1 & R2 & _). eauto.
    - destruct (find_reports E calls c url context dom v Hi A Hu M) as (R1 & R2 & _). eauto. }
  destruct V as [V|[V1 V2]].
  - rewrite V in R1. destruct R1 as (k & _ & Ap & _ & S). eauto.
  - specialize (R2 V1). rewrite V2 in R2. destruct R2 as (k & _ & Ap & _ & S). eauto.
Qed.

Lemma answer_options E calls url context dom g f :
  history calls -> nonul url -> answers E calls url context dom g -> same_content g f ->
  matchesOptions f (party_context context dom (hostOf url)) dom = true.
Proof.
  intros Hi Hu A S. destruct (answer_applies E calls url context dom g Hi Hu A) as (k & [(h & G & M) _] & S').
  rewrite (getUrlHost_cstr url Hu) in G. injection G as <-.
  rewrite <- (same_options _ _ _ _ S), <- (same_options _ _ _ _ S').
  destruct (matchesOptions k (party_context context dom (hostOf url)) dom) eqn:X; auto.
  rewrite (no_options_false E k _ _ _ _ _ _ X) in M. discriminate.
Qed.

(** The flags of the party change no other bits. *)
Lemma party_keeps context dom host i : N.testbit context i = true ->
  N.testbit (party_context context dom host) i = true.
Proof.
  intros H. unfold party_context. destruct dom as [d|]; auto.
  destruct (has _ _); auto. destruct (isThirdPartyHost d host); rewrite N.lor_spec, H; auto.
Qed.

Lemma party_adds context dom host c :
  has c (N.lor FOThirdParty FONotThirdParty) = false ->
  common (party_context context dom host) c -> common context c.
Proof.
  intros H (i & A & B). exists i. split; auto.
  unfold party_context in A. destruct dom as [d|]; auto.
  destruct (has context _); auto.
  assert (N.testbit (N.lor FOThirdParty FONotThirdParty) i = true -> False) as K.
  { intros T. assert (common c (N.lor FOThirdParty FONotThirdParty)) as X by (exists i; auto).
    apply has_common in X. congruence. }
  rewrite N.lor_spec in K.
  destruct (isThirdPartyHost d host); rewrite N.lor_spec in A;
    apply orb_prop in A as [A|A]; auto; rewrite A in K; exfalso; apply K; auto using orb_true_r.
Qed.

Lemma type_no_party m c : In m resource_types -> In (m, c) option_table ->
  has c (N.lor FOThirdParty FONotThirdParty) = false.
Proof.
  intros I T. cbn in T.
  repeat (destruct T as [T|T]; [injection T as <- <-; try reflexivity|]); [..|destruct T];
  exfalso; cbn in I; repeat (destruct I as [I|I]; [discriminate I|]); destruct I.
Qed.

Section Answer.
  Variables (E : env) (calls : list call) (url : bytes) (context : N) (dom : option bytes)
    (g : filter) (pres : bool) (r : rule_syntax) (f : filter).
  Hypothesis (Hi : history calls) (Hu : nonul url) (Ha : answers E calls url context dom g)
    (G : good_rule r) (HP : parses_to pres (rule_line r) f) (S : same_content g f).

  Lemma answer_types o parts :
    x_options r = Some o -> cut_at "," o parts -> written_out parts ->
    (forall n, In n resource_types -> positive_option parts n ->
       exists m c, In m resource_types /\ positive_option parts m /\
                   In (m, c) option_table /\ common context c) /\
    (forall n c, In n resource_types -> negative_option parts n ->
       In (n, c) option_table -> ~ common context c).
  Proof.
    intros O C W. destruct HP as [b P].
    pose proof (answer_options _ _ _ _ _ _ _ Hi Hu Ha S) as M.
    destruct (resource_needs pres r f b o parts _ _ G O C W P M) as [R1 R2].
    split.
    - intros n I Pn. destruct (R1 n I Pn) as (m & c & Im & Pm & T & K).
      exists m, c. repeat (split; auto). eapply party_adds; eauto. eapply type_no_party; eauto.
    - intros n c I Nn T (i & K1 & K2). apply (R2 n c I Nn T). exists i. split; auto.
      now apply party_keeps.
  Qed.

  Lemma answer_supported o parts n c :
    x_options r = Some o -> cut_at "," o parts ->
    positive_option parts n -> ~ abbreviation n -> name_bit n c ->
    ~ In c [FOPopup; FOCSP; FOElemHide; FOGenericHide; FOGenericBlock; FOEmpty; FOUnknown].
  Proof.
    intros O C P Na Hn I. destruct HP as [b HP'].
    pose proof (answer_options _ _ _ _ _ _ _ Hi Hu Ha S) as M.
    assert (hasUnsupportedOptions f = true) as U.
    { eapply unsupported_rule; eauto. apply has_common.
      repeat (destruct I as [<-|I]; [reflexivity|]). destruct I. }
    unfold matchesOptions in M. rewrite U in M. discriminate.
  Qed.

  Lemma answer_document : common context FODocument ->
    exists o parts, x_options r = Some o /\ cut_at "," o parts /\
      (written_out parts -> positive_option parts (B "document")).
  Proof.
    intros (i & K1 & K2). destruct HP as [b P].
    pose proof (answer_options _ _ _ _ _ _ _ Hi Hu Ha S) as M.
    eapply document_needs; eauto. exists i. split; auto. now apply party_keeps.
  Qed.

  Lemma answer_domain o parts dl d :
    x_options r = Some o -> cut_at "," o parts -> last_domain parts dl -> dom = Some d ->
    domain_applies dl d.
  Proof.
    intros O C L D. destruct HP as [b P].
    pose proof (answer_options _ _ _ _ _ _ _ Hi Hu Ha S) as M.
    pose proof (rule_domain_list pres r f b o parts dl G O C P L) as Hd.
    apply matchesOptions_exact in M as (_ & _ & _ & M & _).
    unfold domain_ok in M. rewrite Hd, D in M.
    apply (contextDomain_spec f dl d Hd). exact M.
  Qed.
End Answer.
