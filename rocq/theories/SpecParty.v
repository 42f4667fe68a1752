(** The party of a request, for C29. *)
From Verif Require Import Base Flags Spec SpecM.

(** The request is known to be a first-party or a third-party one: the caller says
    so, or else the page and the host of the URL do. *)
Definition asked_first_party (context : N) (dom : option bytes) (host : bytes) : Prop :=
  common context FONotThirdParty \/
  (~ common context (N.lor FOThirdParty FONotThirdParty) /\
   exists d, dom = Some d /\ first_party d host).

Definition asked_third_party (context : N) (dom : option bytes) (host : bytes) : Prop :=
  common context FOThirdParty \/
  (~ common context (N.lor FOThirdParty FONotThirdParty) /\
   exists d, dom = Some d /\ ~ first_party d host).
