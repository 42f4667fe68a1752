(** Specification of the stylesheet of a set of selectors (C58). *)
From Coq Require Import Permutation.
From Verif Require Import Base Spec.

Fixpoint comma_list (sels : list bytes) : bytes :=
  match sels with
  | [] => []
  | [s] => s
  | s :: more => s ++ B ", " ++ comma_list more
  end.

(** [out] lists each distinct selector once. *)
Definition stylesheet (sels : list bytes) (out : bytes) : Prop :=
  exists once, NoDup once /\ (forall s, In s once <-> In s sels) /\ out = comma_list once.

(** The place of a selector in the table of 1000 buckets. *)
Definition in_last_bucket (hash : bytes -> N) (s : bytes) : Prop :=
  (hash s mod 1000 = 999)%N.
