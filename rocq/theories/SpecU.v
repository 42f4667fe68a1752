(** What a life of calls through the Node binding costs in memory, read off the
    texts and buffers the calls are given (C53, C54). *)
From Verif Require Import Base Flags Sets FilterM ParseM ClientM SerialM OwnM OwnT
  Spec SpecM SpecC SpecE.

(** ** Calls and what they make of the heap *)

(** A call on the JavaScript object. *)
Inductive ncall :=
| Call (k : call)
| Save (ignoreCosmetic ignoreHtml : bool)      (* serialize() *)
| Load (buffer : bytes).                       (* deserialize() *)

Definition ncall_ok (x : ncall) : Prop :=
  match x with Call k => call_ok k | _ => True end.

(** The client after the call. *)
Definition act (E : env) (c : client) (x : ncall) : res client :=
  match x with
  | Call k => perform E c k
  | Save nc nh => _ <- serialize c nc nh ;; Ok c
  | Load buf => rmap fst (deserialize buf c)
  end.

(** The same call seen as a step on the heap (OwnM.v).  Which rules a query
    tries is left open. *)
Inductive heap_step (E : env) (c : client) : ncall -> list wevent -> Prop :=
| hs_parse pres t ls :
    text_shapes E pres (cstr t) c = Ok ls -> heap_step E c (Call (Parse pres t)) [NParse ls]
| hs_clear : heap_step E c (Call Clear) [NClear]
| hs_addtag t : heap_step E c (Call (AddTag t)) []
| hs_removetag t : heap_step E c (Call (RemoveTag t)) []
| hs_ask url context dom tr : heap_step E c (Call (Ask url context dom)) [NAsk tr]
| hs_detect : heap_step E c (Call DetectBad) [NEnable]
| hs_save nc nh : heap_step E c (Save nc nh) [NSerialize]
| hs_load buf c1 ok d :
    deserialize buf c = Ok (c1, ok) -> built c1 d -> heap_step E c (Load buf) [NDeserialize d].

(** [story E c xs es c']: the calls [xs] turn [c] into [c'] and are the steps
    [es] on the heap. *)
Inductive story (E : env) : client -> list ncall -> list wevent -> client -> Prop :=
| story_end c : story E c [] [] c
| story_call c x xs e es c1 c2 :
    ncall_ok x -> act E c x = Ok c1 -> heap_step E c x e -> story E c1 xs es c2 ->
    story E c (x :: xs) (e ++ es) c2.

(** ** Repeated options *)

(** The segment gives the option [name], negated or not. *)
Definition gives (name seg : bytes) : bool :=
  prefixb (name ++ B "=") seg || prefixb (B "~" ++ name ++ B "=") seg.

(** How often domain= and tag= are given again. *)
Definition again (name : bytes) (parts : list bytes) : nat :=
  length (List.filter (gives name) parts) - 1.
Definition repeats (parts : list bytes) : nat :=
  again (B "domain") parts + again (B "tag") parts.

(** Lines in the usual syntax: *)
Inductive line_repeats : bytes -> nat -> Prop :=
| lr_none l : no_network_line l -> line_repeats l 0
| lr_rule r parts : good_rule r -> option_parts r parts -> line_repeats (rule_line r) (repeats parts).

(** any line: what follows its first '$', whether or not it is read as options; *)
Inductive dollar_repeats : bytes -> nat -> Prop :=
| dr_none l : ~ In "$"%char l -> dollar_repeats l 0
| dr_some a o parts :
    ~ In "$"%char a -> cut_at "," o parts -> dollar_repeats (a ++ "$"%char :: o) (repeats parts).

(** added up over the lines of all texts parsed. *)
Inductive repeats_in (R : bytes -> nat -> Prop) : list ncall -> nat -> Prop :=
| ri_nil : repeats_in R [] 0
| ri_parse pres t ns xs n :
    Forall2 R (text_lines t) ns -> repeats_in R xs n ->
    repeats_in R (Call (Parse pres t) :: xs) (fold_right Nat.add n ns)
| ri_other x xs n :
    (forall pres t, x <> Call (Parse pres t)) -> repeats_in R xs n -> repeats_in R (x :: xs) n.

(** ** Parsing over restored rules *)

(** No parse() between a deserialize() and the next clear(). *)
Fixpoint apart (restored : bool) (xs : list ncall) : Prop :=
  match xs with
  | [] => True
  | Call (Parse _ _) :: r => restored = false /\ apart restored r
  | Call Clear :: r => apart false r
  | Load _ :: r => apart true r
  | _ :: r => apart restored r
  end.

(** A rule with a text of its own. *)
Definition has_text (f : filter) : Prop :=
  f_data f <> None \/ f_dom f <> None \/ f_host f <> None \/ f_tag f <> [].

(** The rules stay those of the buffer. *)
Definition keeps_rules (x : ncall) : Prop :=
  match x with Call Clear | Load _ => False | _ => True end.

(** ** Without the binding *)

(** The steps of a client that is never restored, in the application. *)
Definition in_application (e : wevent) : list event :=
  match e with
  | NParse ls => [EParse ls]
  | NClear => [EClear]
  | NAsk t => [EAsk t]
  | NSerialize => [ESerialize]
  | NDeserialize d => []
  | NEnable => [EEnable]
  end.

Definition saves (xs : list ncall) : nat :=
  length (List.filter (fun x => match x with Save _ _ => true | _ => false end) xs).

Definition never_restored (xs : list ncall) : Prop := forall buf, ~ In (Load buf) xs.
