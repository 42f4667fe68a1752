(** Several JavaScript objects in one process. *)
From Verif Require Import Base ClientM OwnM BindM SpecO ManyM HostM SpecHost P_Host P_Host2 Props_Own.

(** ** C109 *)

(** Whatever a JavaScript program does with its objects, in whatever order the
    calls on them are mixed and whenever the garbage collector takes the ones no
    longer used: there is no invalid access or release exactly if there is none
    in the life of each object alone (C89). *)
Theorem C109_side_by_side : forall es, possible [] es ->
  ((exists h, host_life es = Ok h) <-> forall i, exists h, object_life (calls_to i es) = Ok h).
Proof. exact host_iff. Qed.
Print Assumptions C109_side_by_side.

(** What is left at the end is what the objects would have left each alone. *)
Theorem C109_left : forall es h, possible [] es -> host_life es = Ok h ->
  NoDup (h_live h) /\
  length (h_live h) = sum (map (fun i => left_alone (calls_to i es)) (seq 0 (created es))).
Proof. exact host_left. Qed.
Print Assumptions C109_left.

(** Three objects: 0 reads a list and is cleaned up while the others work; 1 is
    restored twice and collected; 2 reads a list with an option given twice and
    is there until the end. *)
Definition three_objects : list jevent :=
  [JNew; JNew; JDo 0 (OCall (NParse [line_foo])); JDo 1 (OCall (NDeserialize shape_back));
   JDo 0 (OCall (NAsk all_tried)); JNew; JDo 1 (OCall (NDeserialize shape_back));
   JDo 0 OCleanup; JDo 1 (OCall (NAsk all_tried)); JDo 2 (OCall (NParse [line_twice]));
   JCollect 1; JDo 2 (OCall NSerialize); JCollect 0].

Example C109_example :
  possible [] three_objects /\
  map (fun i => rmap (fun h => length (h_live h)) (object_life (calls_to i three_objects)))
      (seq 0 (created three_objects)) = [Ok 0; Ok 1; Ok 2] /\
  rmap (fun h => length (h_live h)) (host_life three_objects) = Ok 3.
Proof. split; [cbn; tauto|]. split; vm_compute; reflexivity. Qed.

(** One object misused is enough. *)
Example C109_misused :
  let es := [JNew; JNew; JDo 1 OCleanup; JDo 0 (OCall (NParse [line_foo])); JDo 1 (OCall NClear)] in
  possible [] es /\ host_life es = UB /\ object_life (calls_to 1 es) = UB.
Proof. cbn [possible nth_error put Datatypes.app]. repeat split. Qed.
