(** Texts with which nothing leaves its buffers (C78, C69, C82, C91). *)
From Verif Require Import Base Flags Url Sets FilterM ParseM ClientM JsM CheckM Spec SpecM SpecC SpecQ.

(** No byte is NUL, each line can be parsed safely, and each network rule in it
    can be tried safely. *)
Definition safe_text (E : env) (keep : bool) (t : bytes) : Prop :=
  nonul t /\
  forall l, In l (text_lines t) ->
    safe_line l /\
    forall f k, parses_to keep l f -> classify E f = Ok k ->
      category_of k = BlockRule \/ category_of k = ExceptionRule -> safe_pattern f.

(** The lists cannot be read at all, or one of the questions about [sites]
    that are asked while the data file is made leaves its buffers. *)
Definition unreadable (E : env) (items : list bytes) : Prop :=
  after E (map (Parse false) items) = UB.

Definition unanswerable (E : env) (items sites : list bytes) : Prop :=
  exists c s, after E (map (Parse false) items) = Ok c /\ In s sites /\
    matches E c (cstr s) FONoFilterOption (Some (B "slashdot.org")) = UB.

(** No line of the text names only a host. *)
Definition names_no_host (keep : bool) (t : bytes) : Prop :=
  forall l f, In l (text_lines t) -> parses_to keep l f -> has (f_type f) FTHostOnly = false.
