(** Which parsed lines make loading a list leave its buffers (C18), in terms of
    the parsed rule and the collection it belongs to. *)
From Verif Require Import Base Flags FilterM ClientM Spec.

(** Some name of the rule's domain list is longer than 1024 bytes. *)
Definition long_domain (f : filter) : Prop :=
  exists dl d, f_dom f = Some dl /\ (lists_domain dl d \/ excludes_domain dl d) /\
    1024 < length d.

(** The rule's domains go into one of the four page domain sets. *)
Definition gated (k : cls) : Prop :=
  In k [CList KNoFpDom; CList KNoFpAnti; CList KNoFpDomExc; CList KNoFpAntiExc].

(** [whole]: the line was read to its end, so the rule has a pattern. *)
Inductive line_fault (E : env) (f : filter) : bool -> Prop :=
| lf_host h d :                    (* host name longer than the pattern *)
    has (f_type f) FTHostAnchored = true -> f_host f = Some h ->
    f_data f = Some (d, [NUL]) -> length d < length h ->
    line_fault E f true
| lf_cut h :                       (* '||' line cut off, pattern missing *)
    has (f_type f) FTHostAnchored = true -> f_host f = Some h -> h <> [] ->
    f_data f = None -> has (f_type f) FTHostOnly = false ->
    hasUnsupportedOptions f = false ->
    line_fault E f false
| lf_domain k whole :              (* too long for the buffer of 1025 bytes *)
    classify E f = Ok k -> gated k -> long_domain f ->
    line_fault E f whole.
