(** Ownership of memory over the life of a client. *)
From Verif Require Import Base Flags Sets FilterM ParseM ClientM OwnM OwnT Spec SpecM SpecO
  P_Ex P_Own P_Own2 P_Own3 P_Own4 P_Own5.

(** Used politely and without a parse() of further rules on top of restored
    ones, a client goes through any history of calls and its destruction
    without reading freed memory, freeing a block twice or freeing something
    that is not a block. *)
Theorem C42_memory_safe_partial : forall es,
  used_well life0 None es -> no_parse_over None es ->
  exists w app, whole_life es = Ok (w, app).
Proof. intros es U N. destruct (whole_ok es U N) as (w & app & X & E & _). eauto. Qed.
Print Assumptions C42_memory_safe_partial.

(** A line of text as the parser sees it, when it is the first one. *)
Definition shape_at (l : bytes) : lshape :=
  match line_shape (mkEnv [] [] [] (fun _ => 0%N) (fun _ _ => false)) false (initSets client0)
                   (cstr l, length l) with
  | Ok (x, _) => x
  | UB => mkL false false false false false false false false 0 false None 0 None
  end.

Definition line_foo : lshape := Eval vm_compute in shape_at (B "/foo").
Definition line_host : lshape := Eval vm_compute in shape_at (B "||ads.com^").
Definition line_dom : lshape := Eval vm_compute in shape_at (B "b$domain=x.com|y.com,tag=t").

(** The buffer written for these three rules. *)
Definition shape_back : dshape :=
  mkD (fun k => match k with
                | KNoFp => [mkFs true false false false false false false]
                | KNoFpDom => [mkFs true true true false true true false]
                | _ => []
                end)
      true true (Some [mkFs true false false true false false false]) (Some [])
      (fun k => Some (match k with KNoFpDom => 2 | _ => 0 end)).

Ltac polite_run :=
  repeat (split; [vm_compute; try tauto; intros ? [=]; subst; tauto|
                  let E := fresh in intros ? E; vm_compute in E; injection E as <-]);
  exact I.

(** Further rules parsed on top of restored ones: the restored rules are moved
    into slots that claim to own their memory, so destruction releases the
    inside of the application's buffer. *)
Definition parse_over : list event :=
  [EParse [line_foo]; ESerialize; EDeserialize 20 shape_back; EParse []].

Theorem C42_refuted : ~ (forall es, used_well life0 None es -> exists s, whole_life es = Ok s).
Proof.
  intros H. destruct (H parse_over) as [s E].
  - cbn [parse_over used_well]. polite_run.
  - vm_compute in E. discriminate E.
Qed.
Print Assumptions C42_refuted.

Definition all_tried : tries := mkT (fun _ _ => true) (fun _ => true) (fun _ => true).

Definition life_example : list event :=
  [EParse [line_foo; line_host; line_dom]; EAsk all_tried; EParse [line_foo]; EEnable;
   ESerialize; EDeserialize 47 shape_back; EAsk all_tried; EFree 47; EClear;
   EParse [line_dom]; EAsk all_tried].

Example C42_example :
  used_well life0 None life_example /\ no_parse_over None life_example /\
  nothing_overwritten life_example /\ exists s, whole_life life_example = Ok s.
Proof.
  split; [cbn [life_example used_well]; polite_run|].
  split; [cbn; tauto|]. split; [|eexists; vm_compute; reflexivity].
  intros ls s I1 I2. cbn [In life_example] in I1.
  repeat destruct I1 as [I1|I1]; try easy; injection I1 as <-; cbn [In] in I2;
    repeat destruct I2 as [<-|I2]; try easy; vm_compute; reflexivity.
Qed.

(** Exactly which histories go wrong: those with a parse() at a moment when the
    rules of the client come from a buffer and one of the rules in the lists
    restored has a text of its own in that buffer. *)
Theorem C42_safe_iff : forall es,
  used_well life0 None es -> ((exists s, whole_life es = Ok s) <-> parses_fine None es).
Proof. exact whole_iff. Qed.
Print Assumptions C42_safe_iff.

(** A buffer with one rule that has no text (the rule "||" restored, say), read
    and parsed over: nothing goes wrong, although the caller did parse over
    restored rules. *)
Definition shape_bare : dshape :=
  mkD (fun k => match k with
                | KNoFp => [mkFs false false false false false false false]
                | _ => []
                end)
      true true (Some [mkFs true false false true false false false]) (Some [])
      (fun k => Some 0).

Definition parse_over_bare : list event :=
  [EParse [line_foo]; ESerialize; EDeserialize 20 shape_bare; EParse [line_dom]].

Example C42_safe_iff_example :
  used_well life0 None parse_over_bare /\ parses_fine None parse_over_bare /\
  ~ no_parse_over None parse_over_bare /\
  used_well life0 None parse_over /\ ~ parses_fine None parse_over.
Proof.
  split; [cbn [parse_over_bare used_well]; polite_run|].
  split; [cbn [parses_fine parse_over_bare restored_now]|].
  { repeat split; try discriminate; injection H as <-; destruct k; cbn in H0; try tauto;
      destruct H0 as [<-|[]]; reflexivity. }
  split; [cbn; intros H; decompose [and] H; discriminate|].
  split; [cbn [parse_over used_well]; polite_run|].
  cbn [parses_fine parse_over restored_now]. intros (_ & _ & _ & H & _).
  destruct (H _ eq_refl KNoFp (mkFs true false false false false false false)) as [H1 _];
    [now left|discriminate].
Qed.

(** ** C53 *)

(** If in addition no line gives the same of the options domain= and tag=
    twice, the only blocks left after destruction are the application's. *)
Theorem C53_no_leak_partial : forall es,
  used_well life0 None es -> no_parse_over None es -> nothing_overwritten es ->
  exists w app, whole_life es = Ok (w, app) /\
    NoDup (h_live (w_heap w)) /\
    forall b, In b (h_live (w_heap w)) <-> In b app.
Proof.
  intros es U N L. destruct (whole_ok es U N) as (w & app & X & E & EX & D & K).
  rewrite (nothing_lost es L) in EX. apply length_zero_iff_nil in EX. subst X.
  exists w, app. split; [exact E|]. split; [exact D|].
  intro b. rewrite K. cbn. tauto.
Qed.
Print Assumptions C53_no_leak_partial.

(** For every history that gets to its end, the blocks left are exactly the
    application's and, for each option overwritten, two more (one for each pass
    over the list). *)
Theorem C53_leak_exact : forall es w app,
  used_well life0 None es -> whole_life es = Ok (w, app) ->
  exists lost, length lost = lost_total es /\ NoDup (app ++ lost) /\
    NoDup (h_live (w_heap w)) /\
    forall b, In b (h_live (w_heap w)) <-> In b (app ++ lost).
Proof. exact leak_exact. Qed.
Print Assumptions C53_leak_exact.

Theorem C53_leak_count : forall es w app,
  used_well life0 None es -> whole_life es = Ok (w, app) ->
  NoDup app /\ length (h_live (w_heap w)) = length app + lost_total es.
Proof. exact leak_number. Qed.
Print Assumptions C53_leak_count.

Definition line_twice : lshape :=
  Eval vm_compute in shape_at (B "/foo$domain=a.com,domain=b.com").

Theorem C53_refuted : ~ (forall es w app,
  used_well life0 None es -> no_parse_over None es -> whole_life es = Ok (w, app) ->
  forall b, In b (h_live (w_heap w)) -> In b app).
Proof.
  intros H.
  assert (E : exists w b, whole_life [EParse [line_twice]] = Ok (w, []) /\
                          In b (h_live (w_heap w))).
  { eexists _, _. split; [vm_compute; reflexivity|now left]. }
  destruct E as (w & b & E & I0).
  refine (H _ w [] _ _ E b I0).
  - cbn [used_well]. polite_run.
  - cbn. tauto.
Qed.
Print Assumptions C53_refuted.

(** ** C54 *)

(** Through the Node binding no discipline is left to the caller except not to
    parse on top of restored rules: any sequence of calls followed by cleanup()
    is safe and leaves nothing allocated. *)
Theorem C54_binding_safe_partial : forall es,
  no_parse_over_w false es ->
  exists h, wrapped_life es = Ok h /\
    (nothing_overwritten_w es -> h_live h = []).
Proof.
  intros es N. destruct (wrapped_ok es N) as (h & X & E & EX & D & K).
  exists h. split; [exact E|]. intros L.
  rewrite (nothing_lost_w es L) in EX. apply length_zero_iff_nil in EX. subst X.
  destruct (h_live h) as [|b l]; [reflexivity|]. destruct (proj1 (K b)). now left.
Qed.
Print Assumptions C54_binding_safe_partial.

(** Exactly which sequences of calls are safe, and exactly how much those leave
    allocated. *)
Theorem C54_safe_iff : forall es,
  (exists h, wrapped_life es = Ok h) <-> parses_fine_w None es.
Proof. exact wrapped_iff. Qed.
Print Assumptions C54_safe_iff.

Theorem C54_leak_exact : forall es h,
  wrapped_life es = Ok h -> NoDup (h_live h) /\ length (h_live h) = lost_total_w es.
Proof. exact wrapped_leak. Qed.
Print Assumptions C54_leak_exact.

Example C54_leak_example :
  let es := [NDeserialize shape_bare; NParse [line_foo; line_twice]; NAsk all_tried; NClear;
             NParse [line_twice]] in
  parses_fine_w None es /\ lost_total_w es = 4 /\
  rmap (fun h => length (h_live h)) (wrapped_life es) = Ok 4.
Proof.
  cbv zeta. split; [|split; vm_compute; reflexivity].
  cbn [parses_fine_w restored_now_w].
  repeat split; try discriminate; injection H as <-; destruct k; cbn in H0; try tauto;
    destruct H0 as [<-|[]]; reflexivity.
Qed.

Theorem C54_refuted : ~ (forall es, exists h, wrapped_life es = Ok h).
Proof.
  intros H. destruct (H [NDeserialize shape_back; NParse []]) as [h E].
  vm_compute in E. discriminate E.
Qed.
Print Assumptions C54_refuted.

Definition binding_example : list wevent :=
  [NParse [line_foo; line_host; line_dom]; NAsk all_tried; NSerialize;
   NDeserialize shape_back; NAsk all_tried; NDeserialize shape_back; NSerialize; NClear;
   NParse [line_dom; line_foo]; NEnable; NDeserialize shape_back].

Example C54_example :
  no_parse_over_w false binding_example /\ nothing_overwritten_w binding_example /\
  rmap h_live (wrapped_life binding_example) = Ok [].
Proof.
  split; [cbn; tauto|]. split; [|vm_compute; reflexivity].
  intros ls s I1 I2. cbn [In binding_example] in I1.
  repeat destruct I1 as [I1|I1]; try easy; injection I1 as <-; cbn [In] in I2;
    repeat destruct I2 as [<-|I2]; try easy; vm_compute; reflexivity.
Qed.
