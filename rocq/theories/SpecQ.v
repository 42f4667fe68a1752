(** Which rules can be tried on requests safely (C78). *)
From Verif Require Import Base Flags Url Sets FilterM ParseM ClientM Spec SpecM SpecC SpecR.

(** Each '^' begins or ends its piece of the pattern. *)
Definition carets_outside (pat : bytes) : Prop :=
  forall pieces p a b, pieces_of pat pieces -> In p pieces -> p = a ++ B "^" ++ b -> a = [] \/ b = [].

(** Trying the rule stays inside its own pattern and the URL: each '^' of a
    pattern that is searched for begins or ends a piece, and the pattern of a
    rule naming only a host is not empty and does not end in a star or a bar. *)
Definition safe_pattern (f : filter) : Prop :=
  forall d t, f_data f = Some (d, t) ->
    (has (f_type f) FTRegex = true \/ has (f_type f) FTLeftAnchored = true \/
     has (f_type f) FTRightAnchored = true \/ carets_outside d) /\
    (has (f_type f) FTHostOnly = true ->
     d <> [] /\ last d NUL <> "*"%char /\ has (f_type f) FTRightAnchored = false).

(** The same for a rule in the usual syntax. *)
Definition safe_syntax (r : rule_syntax) : Prop :=
  (x_anchor r = LeftBar \/ x_right r = true \/ carets_outside (x_body r)) /\
  (names_only_host r -> last (x_body r) NUL <> "*"%char).

(** Every text given to the calls can be parsed safely, and every network rule
    in it can be tried safely. *)
Definition safe_calls (E : env) (calls : list call) : Prop :=
  forall pres t l, In (Parse pres t) calls -> In l (text_lines t) ->
    safe_line l /\
    forall f k, parses_to pres l f -> classify E f = Ok k ->
      category_of k = BlockRule \/ category_of k = ExceptionRule -> safe_pattern f.

(** Trying the rule on the URL can go wrong: the search for its pieces overreads,
    or it is a rule naming only a host (whose stored copy has no terminator) and
    its pattern is empty, ends in a star or ends in a bar. *)
Definition faulty_on (E : env) (url : bytes) (f : filter) : Prop :=
  exists d t, f_data f = Some (d, t) /\
  ((has (f_type f) FTRegex = false /\ has (f_type f) FTLeftAnchored = false /\
    has (f_type f) FTRightAnchored = false /\
    exists pieces, pieces_of d pieces /\ overreads (searched E None) url 0 pieces) \/
   (has (f_type f) FTHostOnly = true /\
    (d = [] \/ last d NUL = "*"%char \/ has (f_type f) FTRightAnchored = true))).
