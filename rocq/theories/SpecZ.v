(** Lists of host names (C44, C62). *)
From Verif Require Import Base Flags Url Sets FilterM ParseM ClientM Spec SpecM SpecC SpecE.

(** The line blocks a host ([e] false) or lets it through ([e] true), with or
    without the closing separator. *)
Definition names_host (e : bool) (h l : bytes) : Prop :=
  exists body, (body = h \/ body = h ++ B "^") /\
    l = (if e then B "@@" else []) ++ B "||" ++ body.

(** Every loaded line names a host, or is a comment or a cosmetic rule. *)
Definition list_of_hosts (calls : list call) : Prop :=
  forall pres l, In (pres, l) (loaded_lines calls) ->
    no_network_line l \/ exists e h, host_name h /\ names_host e h l.

(** Some loaded line blocks (lets through) a host that is looked up for a request
    to [uh]: [uh] itself, or a label suffix of it with at least one dot. *)
Definition on_list (calls : list call) (e : bool) (uh : bytes) : Prop :=
  exists h pres l, host_name h /\ In (pres, l) (loaded_lines calls) /\ names_host e h l /\
    looked_up uh h.
