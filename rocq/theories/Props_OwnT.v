(** C53 and C54 for the calls themselves: what a life leaves allocated, read off
    the texts and buffers it is given. *)
From Verif Require Import Base Flags Sets FilterM ParseM ClientM SerialM OwnM OwnT
  Spec SpecM SpecC SpecE SpecO SpecU P_Base P_Line2 P_Line5 P_Opt P_Match2 P_Ex P_OwnT P_OwnT2
  SpecC.

(** Every sequence of calls that is defined has a story: a sequence of steps on
    the heap that belongs to it. *)
Theorem C54_calls_have_story : forall E xs c,
  Forall ncall_ok xs -> foldM (act E) client0 xs = Ok c ->
  exists es, story E client0 xs es c.
Proof. intros E xs c F. exact (story_exists E xs F client0 c). Qed.
Print Assumptions C54_calls_have_story.

(** For lists in the usual syntax: two blocks for every domain= or tag= given
    again on a line, and none otherwise, whatever else was called. *)
Theorem C54_calls_leak : forall E xs es c n h,
  story E client0 xs es c -> repeats_in line_repeats xs n ->
  wrapped_life es = Ok h -> length (h_live h) = 2 * n.
Proof. intros E xs es c n h. exact (story_leak E client0 xs es c n h). Qed.
Print Assumptions C54_calls_leak.

(** For any text: at most that, counting what follows the first '$' of each
    line. *)
Theorem C54_calls_leak_bound : forall E xs es c n h,
  story E client0 xs es c -> repeats_in dollar_repeats xs n ->
  wrapped_life es = Ok h -> length (h_live h) <= 2 * n.
Proof. intros E xs es c n h. exact (story_bound E client0 xs es c n h). Qed.
Print Assumptions C54_calls_leak_bound.

(** Calls that never parse between a deserialize() and the next clear() are
    safe; *)
Theorem C54_calls_safe : forall E xs es c,
  story E client0 xs es c -> apart false xs -> exists h, wrapped_life es = Ok h.
Proof. intros E xs es c. exact (story_safe E client0 xs es c). Qed.
Print Assumptions C54_calls_safe.

(** a parse() while the rules of a buffer are there, one of which has a text of
    its own, is not, whatever is parsed and whatever happens in between and
    after. *)
Theorem C54_calls_unsafe : forall E a buf b pres t d es c ca cb ok k f,
  story E client0 (a ++ Load buf :: b ++ Call (Parse pres t) :: d) es c ->
  Forall keeps_rules b ->
  foldM (act E) client0 a = Ok ca -> deserialize buf ca = Ok (cb, ok) ->
  In f (tget (c_lists cb) k) -> has_text f ->
  wrapped_life es = UB.
Proof. exact story_unsafe. Qed.
Print Assumptions C54_calls_unsafe.

(** Without the binding, a client that is never restored: every history is safe,
    and it leaves the buffers that serialize() returned and what [n] says. *)
Theorem C53_calls_leak : forall E xs es c n,
  story E client0 xs es c -> never_restored xs -> repeats_in line_repeats xs n ->
  exists w app, whole_life (flat_map in_application es) = Ok (w, app) /\
    length app = saves xs /\ length (h_live (w_heap w)) = length app + 2 * n /\
    incl app (h_live (w_heap w)).
Proof. intros E xs es c n. exact (story_application E client0 xs es c n). Qed.
Print Assumptions C53_calls_leak.

(** A list with a comment and a rule that gives domain= three times and tag=
    twice, loaded, then another one. *)
Definition rule_again : rule_syntax :=
  mkRule false NoAnchor (B "/foo") false (Some (B "domain=a.com,tag=s,domain=b.com,script,tag=t,~domain=c.com")).

Definition text_again : bytes := B "! note" ++ [LF] ++ rule_line rule_again.
Definition calls_again : list ncall :=
  [Call (Parse true text_again); Call (AddTag (B "t")); Call Clear; Call (Parse false (B "/bar"))].

Lemma again_counted : repeats_in line_repeats calls_again 3.
Proof.
  unfold calls_again.
  change 3 with (fold_right Nat.add (fold_right Nat.add 0 [0]) [0; 3]). constructor.
  - change (text_lines text_again) with [B "! note"; rule_line rule_again].
    constructor; [|constructor; [|constructor]].
    + apply lr_none, (nn_comment [] (B "! note")); [easy| |cbn; lia]. right. left. now eexists.
    + change 3 with (repeats (split_on "," (B "domain=a.com,tag=s,domain=b.com,script,tag=t,~domain=c.com"))).
      apply lr_rule; [now apply good_ruleb_ok|]. apply split_cut.
  - do 2 (apply ri_other; [intros; discriminate|]). constructor; [|constructor].
    change (text_lines (B "/bar")) with [rule_line (mkRule false NoAnchor (B "/bar") false None)].
    constructor; [|constructor]. change 0 with (repeats []).
    apply lr_rule; [now apply good_ruleb_ok|reflexivity].
Qed.

Example C54_calls_example : forall E,
  Forall ncall_ok calls_again /\ apart false calls_again /\ never_restored calls_again /\
  repeats_in line_repeats calls_again 3 /\
  exists es c h, story E client0 calls_again es c /\ wrapped_life es = Ok h /\
    length (h_live h) = 6.
Proof.
  intros E.
  assert (O : Forall ncall_ok calls_again).
  { repeat (constructor; [first [now apply nonulb_ok|exact I]|]). constructor. }
  assert (A : apart false calls_again) by (cbn; tauto).
  split; [exact O|]. split; [exact A|].
  split; [intros buf; cbn; intros H; repeat destruct H as [H|H]; easy|].
  split; [exact again_counted|].
  assert (R : exists c, foldM (act E) client0 calls_again = Ok c).
  { unfold calls_again. cbn [foldM act perform].
    destruct (parse_safe E true text_again client0) as (c1 & ->).
    { now apply nonulb_ok. }
    { change (text_lines text_again) with [B "! note"; rule_line rule_again].
      intros l [<-|[<-|[]]]; (apply safe_short; [cbn; lia|reflexivity]). }
    cbn [bind].
    destruct (parse_safe E false (B "/bar") (clear (addTag c1 (B "t")))) as (c2 & ->).
    { now apply nonulb_ok. }
    { intros l [<-|[]]. apply safe_short; [cbn; lia|reflexivity]. }
    cbn [bind]. eauto. }
  destruct R as (c & R). destruct (C54_calls_have_story E _ c O R) as (es & S).
  destruct (C54_calls_safe E _ es c S A) as (h & W).
  exists es, c, h. split; [exact S|]. split; [exact W|].
  exact (C54_calls_leak E _ es c 3 h S again_counted W).
Qed.

(** A buffer that holds the rule "/foo" and nothing else, and a parse() of an
    empty text after it. *)
Definition buf_foo : bytes :=
  B "0,0,0,0,1,0,0,0,0,0,0,0,0,0,0,0,0,0,0,0" ++ [NUL] ++ B "0,0,0" ++ [NUL] ++ B "/foo"
  ++ [NUL; NUL; NUL; NUL].

Example C54_calls_unsafe_example : forall E,
  exists es c, story E client0 [Load buf_foo; Call (Parse false [])] es c /\ wrapped_life es = UB.
Proof.
  intros E.
  assert (D : exists cb f, deserialize buf_foo client0 = Ok (cb, true) /\
                         In f (tget (c_lists cb) KNoFp) /\ f_data f <> None).
  { eexists _, _. split; [vm_compute; reflexivity|]. split; [now left|discriminate]. }
  destruct D as (cb & f & D & I0 & T).
  assert (R : exists c, foldM (act E) client0 [Load buf_foo; Call (Parse false [])] = Ok c).
  { cbn [foldM act perform]. rewrite D. cbn [rmap bind fst].
    destruct (parse_safe E false [] cb) as (c2 & ->); [easy| |cbn [bind]; eauto].
    intros l [<-|[]]. apply safe_short; [cbn; lia|reflexivity]. }
  destruct R as (c & R).
  assert (O : Forall ncall_ok [Load buf_foo; Call (Parse false [])]).
  { repeat (constructor; [first [now apply nonulb_ok|exact I]|]). constructor. }
  destruct (C54_calls_have_story E _ c O R) as (es & S).
  exists es, c. split; [exact S|].
  apply (C54_calls_unsafe E [] buf_foo [] false [] [] es c client0 cb true KNoFp f); auto.
  now left.
Qed.
