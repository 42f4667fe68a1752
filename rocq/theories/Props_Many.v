(** Several clients in one process. *)
From Verif Require Import Base ClientM OwnM SpecO ManyM SpecMany P_Many P_Many2 P_Many3 P_Many4 Props_Own.

(** Clients created, used and destroyed in any order, on one heap and possibly
    restored from the same buffer: if every one of them is used politely and
    none is copied, the run goes to its end (all clients destroyed) without an
    invalid memory access or release exactly if, for every client taken alone,
    no parse() comes on top of restored rules with text (C42).  What the other
    clients do plays no role. *)
Theorem C108_side_by_side_partial : forall es, used_well_m crowd0 [] es -> no_copy es ->
  ((exists s, whole_run es = Ok s) <-> forall i, parses_fine None (calls_on i es)).
Proof. exact whole_run_iff. Qed.
Print Assumptions C108_side_by_side_partial.

(** A client can be copied (the class does not forbid it), but the copy has the
    same pointers.  Exactly the copies of clients that hold nothing are
    harmless; after any other, nothing that follows can prevent a second
    release. *)
Theorem C108_exactly : forall es, used_well_m crowd0 [] es ->
  ((exists s, whole_run es = Ok s) <->
   (forall i, parses_fine None (calls_on i es)) /\ copies_empty es).
Proof. exact whole_exactly. Qed.
Print Assumptions C108_exactly.

(** What is left then: the blocks of the application and, for every option
    overwritten in a list read by any of the clients, two more. *)
Theorem C108_left : forall es s, used_well_m crowd0 [] es -> whole_run es = Ok s ->
  exists lost, length lost = lost_total (all_calls es) /\ NoDup (cr_app s ++ lost) /\
    NoDup (h_live (cr_heap s)) /\
    forall b, In b (h_live (cr_heap s)) <-> In b (cr_app s ++ lost).
Proof. exact whole_left. Qed.
Print Assumptions C108_left.

Definition copied : list mevent := [MCreate; MCall 0 (EParse [line_foo]); MCopy 0].

Theorem C108_refuted : ~ (forall es, used_well_m crowd0 [] es ->
  (forall i, parses_fine None (calls_on i es)) -> exists s, whole_run es = Ok s).
Proof.
  intros H. destruct (H copied) as [s E].
  - cbn [copied used_well_m polite_m book_after nth_error].
    split; [exact I|]. intros s1 E1. split.
    + exists None. split; [reflexivity|]. discriminate.
    + intros s2 E2. split; [exists None; reflexivity|]. intros s3 E3. exact I.
  - intros [|i]; cbn; repeat split; discriminate.
  - vm_compute in E. discriminate E.
Qed.
Print Assumptions C108_refuted.

(** Two clients in the application's buffer (block 0), a third one reading a
    list; the first goes away while the second is still in use. *)
Definition three : list mevent :=
  [MAlloc; MCreate; MCopy 0;
   MCall 0 (EDeserialize 0 shape_back); MCall 1 (EDeserialize 0 shape_back);
   MCall 0 (EAsk all_tried); MDestroy 0; MCreate; MCall 2 (EParse [line_foo; line_twice]);
   MCall 1 (EAsk all_tried); MCall 1 ESerialize; MCall 1 EClear; MFree 0;
   MCall 2 (EAsk all_tried)].

Ltac polite_run_m :=
  repeat (split; [first [exact I
                        |vm_compute; tauto
                        |vm_compute; eexists; split; [reflexivity|];
                         first [tauto|intros ? [=]; subst; tauto]
                        |vm_compute; eexists; reflexivity]|
                  let E := fresh in intros ? E; vm_compute in E; injection E as <-]);
  exact I.

Example C108_example :
  used_well_m crowd0 [] three /\ (forall i, parses_fine None (calls_on i three)) /\
  copies_empty three /\
  rmap (fun s => (length (cr_app s), length (h_live (cr_heap s)))) (whole_run three) = Ok (1, 3) /\
  used_well_m crowd0 [] copied /\ ~ copies_empty copied.
Proof.
  split; [cbn [three used_well_m]; polite_run_m|].
  split; [intros [|[|[|i]]]; cbn; intuition discriminate|].
  split.
  { intros l i m E. unfold three in E.
    do 3 (destruct l as [|? l]; cbn [Datatypes.app] in E; [try discriminate E|injection E as <- E]).
    - injection E as <- _. reflexivity.
    - exfalso. do 11 (destruct l as [|? l]; cbn [Datatypes.app] in E; [discriminate E|injection E as _ E]).
      destruct l; discriminate E. }
  split; [vm_compute; reflexivity|].
  split; [cbn [copied used_well_m]; polite_run_m|].
  intros H. discriminate (H [MCreate; MCall 0 (EParse [line_foo])] 0 [] eq_refl).
Qed.

(** The buffer has to stay as long as any of its clients is in use. *)
Example C108_shared :
  let es b := [MAlloc; MCreate; MCreate;
     MCall 0 (EDeserialize 0 shape_back); MCall 1 (EDeserialize 0 shape_back);
     MCall 0 EClear; MFree 0; MCall b (EAsk all_tried)] in
  (exists s, whole_run (es 0) = Ok s) /\ whole_run (es 1) = UB.
Proof. split; [eexists|]; vm_compute; reflexivity. Qed.
