(** C102: the memory of a client is that of the rules it holds. *)
From Verif Require Import P_Client.
From Verif Require Import Base Flags Sets FilterM ParseM ClientM SerialM OwnM OwnT
  Spec SpecM SpecC SpecE SpecO SpecU P_Base P_Line2 P_Line5 P_Opt P_Match2 P_Ex P_OwnT P_OwnT2
  P_Mem2 P_Mem3 Props_OwnT SpecC SpecMem.

(** After any calls, lists in the usual syntax: a block for every text of a rule
    held, the arrays, sets and Bloom filters, the buffer last restored and two
    for each repeated option; and on top of it at most the parsed domain lists
    and empty tags of the rules held. *)
Theorem C102_footprint : forall E xs es c n,
  story E client0 xs es c -> apart false xs -> repeats_in line_repeats xs n ->
  exists s x, foldM wstep wrap0 es = Ok s /\
    in_use s = 2 * n + footprint xs c + x /\ x <= total extras (held c).
Proof. exact story_footprint. Qed.
Print Assumptions C102_footprint.

(** For any text. *)
Theorem C102_footprint_bound : forall E xs es c n,
  story E client0 xs es c -> apart false xs -> repeats_in dollar_repeats xs n ->
  exists s, foldM wstep wrap0 es = Ok s /\
    footprint xs c <= in_use s <= 2 * n + footprint xs c + total extras (held c).
Proof. exact story_footprint_bound. Qed.
Print Assumptions C102_footprint_bound.

(** Rule by rule: each rule held has its object, each object its rule, and a
    member of the object is set when the rule has that text. *)
Theorem C102_each : forall E xs es c,
  story E client0 xs es c -> apart false xs ->
  exists s, foldM wstep wrap0 es = Ok s /\
    (forall k, Forall2 keeps_rule (tget (c_lists c) k) (OwnM.items (tget (w_arrs (wr_own s)) k))) /\
    keeps_set (c_host c) (w_host (wr_own s)) /\ keeps_set (c_ehost c) (w_ehost (wr_own s)) /\
    keeps_domains (c_nfd c) (tget (w_gates (wr_own s)) KNoFpDom) /\
    keeps_domains (c_nfa c) (tget (w_gates (wr_own s)) KNoFpAnti) /\
    keeps_domains (c_nfdexc c) (tget (w_gates (wr_own s)) KNoFpDomExc) /\
    keeps_domains (c_nfaexc c) (tget (w_gates (wr_own s)) KNoFpAntiExc).
Proof.
  intros E xs es c S A. destruct (story_each E xs es c S A) as (s & W & L & X & Y & G).
  exact (ex_intro _ s (conj W (conj L (conj X (conj Y (conj (G KNoFpDom) (conj (G KNoFpAnti)
    (conj (G KNoFpDomExc) (G KNoFpAntiExc))))))))).
Qed.
Print Assumptions C102_each.

(** Any number of queries, tag changes and saves makes the client keep at most
    that many blocks more, however many they are. *)
Theorem C102_quiet : forall E a b ea eb ca c s1,
  story E client0 a ea ca -> story E ca b eb c -> apart false (a ++ b) -> Forall loads_nothing b ->
  foldM wstep wrap0 ea = Ok s1 ->
  exists s2, foldM wstep s1 eb = Ok s2 /\ in_use s2 <= in_use s1 + total extras (held ca) /\
    in_use s1 <= in_use s2 + total extras (held ca) /\ held c = held ca.
Proof. exact story_quiet. Qed.
Print Assumptions C102_quiet.

(** clear() leaves the buffer and what repeated options lost. *)
Theorem C102_clear : forall E a es c n,
  story E client0 (a ++ [Call Clear]) es c -> apart false (a ++ [Call Clear]) ->
  repeats_in line_repeats (a ++ [Call Clear]) n ->
  exists s, foldM wstep wrap0 es = Ok s /\ in_use s = 2 * n + when (existsb loads a).
Proof. exact story_clear. Qed.
Print Assumptions C102_clear.

(** The calls of the example of C54 in Props_OwnT.v, the same with a clear()
    added, and with two queries. *)
Lemma again_runs E : exists c, foldM (act E) client0 calls_again = Ok c.
Proof.
  unfold calls_again. cbn [foldM act perform].
  destruct (parse_safe E true text_again client0) as (c1 & ->).
  { now apply nonulb_ok. }
  { change (text_lines text_again) with [B "! note"; rule_line rule_again].
    intros l [<-|[<-|[]]]; (apply safe_short; [cbn; lia|reflexivity]). }
  cbn [bind].
  destruct (parse_safe E false (B "/bar") (clear (addTag c1 (B "t")))) as (c2 & ->).
  { now apply nonulb_ok. }
  { intros l [<-|[]]. apply safe_short; [cbn; lia|reflexivity]. }
  cbn [bind]. eauto.
Qed.

Example C102_example : forall E, exists es c s x,
  story E client0 calls_again es c /\ apart false calls_again /\ repeats_in line_repeats calls_again 3 /\
  foldM wstep wrap0 es = Ok s /\ in_use s = 6 + footprint calls_again c + x /\
  x <= total extras (held c) /\ has_arrays calls_again = true /\ restored calls_again = false.
Proof.
  intros E. assert (O : Forall ncall_ok calls_again).
  { repeat (constructor; [first [now apply nonulb_ok|exact I]|]). constructor. }
  assert (A : apart false calls_again) by (cbn; tauto).
  destruct (again_runs E) as (c & R). destruct (C54_calls_have_story E _ c O R) as (es & S).
  destruct (C102_footprint E _ es c 3 S A again_counted) as (s & x & W & U & L).
  exists es, c, s, x. repeat (split; [first [assumption|exact again_counted|exact U|reflexivity]|]). reflexivity.
Qed.

Example C102_quiet_example : forall E, exists es c s1 s2,
  story E client0 calls_again es c /\ foldM wstep wrap0 es = Ok s1 /\
  Forall loads_nothing [Call (AddTag (B "t")); Call (RemoveTag (B "t"))] /\
  story E c [Call (AddTag (B "t")); Call (RemoveTag (B "t"))] [] (removeTag (addTag c (B "t")) (B "t")) /\
  foldM wstep s1 [] = Ok s2 /\ in_use s2 <= in_use s1 + total extras (held c).
Proof.
  intros E. destruct (C102_example E) as (es & c & s & x & S & A & _ & W & _).
  assert (S2 : story E c [Call (AddTag (B "t")); Call (RemoveTag (B "t"))] []
     (removeTag (addTag c (B "t")) (B "t"))).
  { change (@nil wevent) with (@nil wevent ++ ([] ++ [])).
    eapply story_call; [first [now apply nonulb_ok|exact I]|reflexivity|constructor|].
    eapply story_call; [first [now apply nonulb_ok|exact I]|reflexivity|constructor|]. constructor. }
  assert (Q : Forall loads_nothing [Call (AddTag (B "t")); Call (RemoveTag (B "t"))]).
  { repeat constructor. }
  destruct (C102_quiet E calls_again _ es [] c _ s S S2) as (s2 & W2 & L & _).
  { unfold calls_again. cbn [app apart]. tauto. }
  { exact Q. }
  { exact W. }
  exists es, c, s, s2. auto 7.
Qed.
