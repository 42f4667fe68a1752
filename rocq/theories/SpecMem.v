(** How much memory a client keeps, read off the rules it holds (C102). *)
From Verif Require Import Base Flags Sets FilterM ParseM ClientM SerialM OwnM Spec SpecM SpecC SpecU.

Definition number {A} (o : option A) : nat := match o with Some _ => 1 | None => 0 end.
Definition when (b : bool) : nat := if b then 1 else 0.
Definition total {A} (f : A -> nat) (l : list A) : nat := fold_right (fun x n => f x + n) 0 l.

(** The texts of a rule: pattern, domain list, host, preserved rule text, tag. *)
Definition texts (f : filter) : nat :=
  number (f_data f) + number (f_dom f) + number (f_host f) + number (f_rule f)
  + match f_tag f with [] => 0 | _ => 1 end.

(** What may come on top: the two parsed forms of the domain list, made when
    they are needed, and the block of a tag that was given empty. *)
Definition excluded (d : bytes) : bool := prefixb (B "~") d.
Definition extras (f : filter) : nat :=
  match f_dom f with
  | None => 0
  | Some dl => when (existsb (fun d => negb (excluded d)) (split_on "|" dl))
               + when (existsb excluded (split_on "|" dl))
  end
  + match f_tag f with [] => 1 | _ => 0 end.

(** The rules of a client: those of its ten arrays and two host sets. *)
Definition in_set {A} (s : option (hset A)) : list A :=
  match s with Some s => concat s | None => [] end.
Definition held (c : client) : list filter :=
  flat_map (tget (c_lists c))
    [KFilters; KCosmetic; KHtml; KException; KNoFp; KNoFpExc; KNoFpDom; KNoFpAnti;
     KNoFpDomExc; KNoFpAntiExc] ++ in_set (c_host c) ++ in_set (c_ehost c).

(** Its sets and Bloom filters, and the collector of bad fingerprints. *)
Definition containers (c : client) : nat :=
  number (c_bloom c) + number (c_ebloom c) + number (c_host c) + number (c_ehost c)
  + number (c_nfd c) + number (c_nfa c) + number (c_nfdexc c) + number (c_nfaexc c)
  + number (c_badfp c).

(** Are there arrays: was a list or a buffer loaded since the last clear()? *)
Definition arrays_after (b : bool) (x : ncall) : bool :=
  match x with Call (Parse _ _) | Load _ => true | Call Clear => false | _ => b end.
Definition has_arrays (xs : list ncall) : bool := fold_left arrays_after xs false.

(** Are the rules those of a buffer, into which their texts point? *)
Definition restored_by (b : bool) (x : ncall) : bool :=
  match x with Load _ => true | Call Clear => false | _ => b end.
Definition restored (xs : list ncall) : bool := fold_left restored_by xs false.

(** The binding keeps the buffer of the last deserialize(), even past clear(). *)
Definition loads (x : ncall) : bool := match x with Load _ => true | _ => false end.

(** Blocks that the state of the client accounts for. *)
Definition footprint (xs : list ncall) (c : client) : nat :=
  when (existsb loads xs) + 10 * when (has_arrays xs) + containers c
  + (if restored xs then 0 else total texts (held c)).

(** Blocks in use. *)
Definition in_use (s : wrap) : nat := length (h_live (w_heap (wr_own s))).

(** ** Rule by rule *)

(** The object [o] keeps the rule [f]: its members are set as the rule says. *)
Definition keeps_rule (f : filter) (o : fobj) : Prop :=
  (o_data o <> Null <-> f_data f <> None) /\ (o_dom o <> Null <-> f_dom f <> None) /\
  (o_host o <> Null <-> f_host f <> None) /\ (o_rule o <> Null <-> f_rule f <> None) /\
  (f_tag f <> [] -> o_tag o <> Null).

Definition keeps_set (s : option (hset filter)) (a : arr fobj) : Prop :=
  match s, a with
  | Some s, Some (_, l) =>
      length l = length (concat s) /\
      (forall f, In f (concat s) -> exists o, In o l /\ keeps_rule f o) /\
      (forall o, In o l -> exists f, In f (concat s) /\ keeps_rule f o)
  | None, None => True
  | _, _ => False
  end.

(** Calls that load nothing and clear nothing. *)
Definition loads_nothing (x : ncall) : Prop :=
  match x with
  | Call (Ask _ _ _) | Call (AddTag _) | Call (RemoveTag _) | Save _ _ => True
  | _ => False
  end.

(** A set of page domains: one entry per domain. *)
Definition keeps_domains (s : option (hset bytes)) (a : arr gobj) : Prop :=
  match s, a with
  | Some s, Some (_, l) => length l = length (concat s)
  | None, None => True
  | _, _ => False
  end.
