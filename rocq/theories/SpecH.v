(** Lists that also contain regular expressions (C79, C78). *)
From Verif Require Import Base Flags Url Sets FilterM ParseM ClientM Spec SpecM SpecC SpecS SpecL SpecQ SpecE SpecN SpecG SerialM.

(** Every loaded line is a rule in the usual syntax, a comment, a cosmetic rule or
    a regular expression. *)
Definition mixed_list (calls : list call) : Prop :=
  forall pres l, In (pres, l) (loaded_lines calls) ->
    no_network_line l \/ (regex_line l /\ length l < 2048) \/
    exists r, l = rule_line r /\ usual_rule r.

(** [p] is the expression of a loaded line. *)
Definition expression_loaded (calls : list call) (p : bytes) : Prop :=
  exists pres l a, In (pres, l) (loaded_lines calls) /\ 1 < length l < 2048 /\
    slashed l a /\ p = regex_pattern l a.

(** Some loaded expression matches the URL, and the request is not for a
    document. *)
Definition expression_meets (E : env) (calls : list call) (url : bytes) (context : N) : Prop :=
  ~ common context FODocument /\
  exists p, expression_loaded calls p /\ e_regex E p url = true.

(** ** Whole histories (C93) *)

(** Every line of every text parsed is of one of these kinds, and the names of
    domain lists fit the engine's buffer. *)
Definition short_names (r : rule_syntax) : Prop :=
  forall parts dl s, option_parts r parts -> last_domain parts dl ->
    lists_domain dl s \/ excludes_domain dl s -> length s <= 1024.

Definition readable_line (l : bytes) : Prop :=
  no_network_line l \/ (regex_line l /\ length l < 2048) \/
  exists r, l = rule_line r /\ usual_rule r /\ short_names r.

Definition readable (calls : list call) : Prop :=
  forall pres t l, In (Parse pres t) calls -> In l (text_lines t) -> readable_line l.

(** Rules that survive saving: the domain list is not empty and does not begin
    like a tag. *)
Definition kept_rule (r : rule_syntax) : Prop :=
  forall parts dl, option_parts r parts -> last_domain parts dl ->
    dl <> [] /\ (begins (B "~#") dl -> exists t, last_tag parts t /\ t <> []).

Inductive kept_line : bytes -> Prop :=
| kl_comment b s :
    (forall c, In c b -> blank c) -> comment_text s ->
    length (b ++ firstn 1 s) < 2048 -> kept_line (b ++ s)
| kl_cosmetic d m s :
    domain_list_text d -> m = B "##" \/ m = B "#@" \/ m = B "$$" -> s <> [] ->
    length (d ++ m ++ s) < 2048 -> kept_line (d ++ m ++ s)
| kl_expression l a :
    1 < length l < 2048 -> slashed l a -> regex_pattern l a <> [] -> kept_line l
| kl_rule r : usual_rule r -> kept_rule r -> kept_line (rule_line r).

(** At every restart the loaded rules survive saving and the new object has the
    tags that are enabled. *)
Definition restarts_kept (es : list event) : Prop :=
  forall a nc nh r d b, es = a ++ Restart nc nh r d :: b ->
    (forall pres l, In (pres, l) (loaded_lines (calls_of a)) -> kept_line l) /\
    forall t, tagExists d t = true <-> tag_enabled (calls_of a) t.
