(** Specification side of the size of saved data. *)
From Verif Require Import Base Flags Sets FilterM ParseM ClientM Spec SpecM SpecC.

(** The number of bytes of the lines loaded since the last clear(), without the
    line ends. *)
Definition loaded_bytes (calls : list call) : nat :=
  list_sum (map (fun pl => length (snd pl)) (loaded_lines calls)).
