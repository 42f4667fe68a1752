(** Specification for several JavaScript objects in one process. *)
From Verif Require Import Base OwnM BindM ManyM HostM.

(** What a JavaScript program can do: it uses objects it has created, and the
    garbage collector takes only objects that are not used afterwards.  [here]:
    for every object created so far, whether it is still there. *)
Fixpoint possible (here : list bool) (es : list jevent) : Prop :=
  match es with
  | [] => True
  | JNew :: es' => possible (here ++ [true]) es'
  | JDo i _ :: es' => nth_error here i = Some true /\ possible here es'
  | JCollect i :: es' => nth_error here i = Some true /\ possible (put i false here) es'
  end.

(** The calls on object [i], in order. *)
Definition calls_to (i : nat) (es : list jevent) : list oevent :=
  flat_map (fun e => match e with
                     | JDo j e => if Nat.eqb i j then [e] else []
                     | _ => []
                     end) es.

(** How many objects are created. *)
Definition created (es : list jevent) : nat :=
  length (List.filter (fun e => match e with JNew => true | _ => false end) es).

(** The blocks left by the life of an object that is alone in the process. *)
Definition left_alone (es : list oevent) : nat :=
  match object_life es with Ok h => length (h_live h) | UB => 0 end.

Definition sum (l : list nat) : nat := fold_right Nat.add 0 l.
