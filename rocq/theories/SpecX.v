(** Lives with restarts, for rules that do not survive the data format. *)
From Verif Require Import Base Flags Sets FilterM ParseM ClientM SerialM Spec SpecM SpecC SpecS SpecW SpecL.

(** What takes the place of a client [c] that is saved and restored into the
    object [d]: its rules as they are read back, the tags of [d], no statistics
    and no detection of bad fingerprints. *)
Definition restarted (c d : client) : client :=
  mkC (tab_map (map as_read) (c_lists c)) (c_numHA c) (c_numHAE c) (c_bloom c) (c_ebloom c)
      (option_map (map (map host_as_read)) (c_host c))
      (option_map (map (map host_as_read)) (c_ehost c))
      (c_nfd c) (c_nfa c) (c_nfdexc c) (c_nfaexc c) None stats0 (c_tags d).

(** A life in which each restart is replaced by that. *)
Definition happen_as_read (E : env) (c : client) (e : event) : res client :=
  match e with
  | Do k => perform E c k
  | Restart _ _ _ d => Ok (restarted c d)
  end.

Definition life_as_read (E : env) (es : list event) : res client :=
  foldM (happen_as_read E) client0 es.

(** Statistics in which the number of cosmetic rules is set to nothing. *)
Definition cosmetic_dropped (l : list (bytes * nat)) : list (bytes * nat) :=
  map (fun p => if beq (fst p) (B "numCosmeticFilters") then (fst p, 0) else p) l.
