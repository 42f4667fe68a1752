(** The rules that a client answers a request with, for C25-C28. *)
From Verif Require Import Base FilterM ParseM ClientM Spec SpecM SpecC.

(** [g] is reported in the verdict, as the rule that blocks or as the exception. *)
Definition answered_with (v : verdict) (g : filter) : Prop :=
  v_filter v = Some g \/ (v_filter v <> None /\ v_exc v = Some g).

(** After [calls], [matches] or [findMatchingFilters] answers the request with the
    rule [g]. *)
Definition answers (E : env) (calls : list call) (url : bytes) (context : N)
    (dom : option bytes) (g : filter) : Prop :=
  exists c v, after E calls = Ok c /\ answered_with v g /\
    ((web_url url /\ exists c', matches E c (cstr url) context dom = Ok (v, c')) \/
     findMatchingFilters E c (cstr url) context dom = Ok v).
