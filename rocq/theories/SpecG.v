(** Lines that are read as regular expressions (C23, C46, C48, C92), and
    abbreviated option names (C24). *)
From Verif Require Import Base Flags Url Sets FilterM ParseM ClientM Spec SpecM.

(** Characters that may stand between the two '@' of an exception mark. *)
Definition filler (c : ascii) : Prop :=
  blank c \/ c = "/"%char \/ c = "!"%char \/ c = "["%char.

(** Any number of exception marks, each followed by any number of blanks. *)
Inductive marks : bytes -> Prop :=
| marks_none : marks []
| marks_more m w a :
    (forall c, In c m -> filler c) -> (forall c, In c w -> blank c) -> marks a ->
    marks ("@"%char :: m ++ "@"%char :: w ++ a).

(** The line ends in '/', and the first character behind its leading blanks and
    its exception marks [a] is a '/' too (it may be the same one). *)
Definition slashed (l a : bytes) : Prop :=
  last l NUL = "/"%char /\
  exists b r, (forall c, In c b -> blank c) /\ marks a /\ l = b ++ a ++ "/"%char :: r.

(** The line is read as a regular expression. *)
Definition regex_line (l : bytes) : Prop := 1 < length l /\ exists a, slashed l a.

(** The number of characters of the exception marks other than '@'. *)
Definition between_marks (a : bytes) : nat :=
  length (List.filter (fun c => negb (Ascii.eqb c "@")) a).

(** What is taken for the expression: all but the first and last character of the
    whole line, blanks and marks included.  Each character between or behind the
    two '@' moves the beginning one further. *)
Definition regex_pattern (l a : bytes) : bytes :=
  firstn (length l - between_marks a - 2) (skipn (between_marks a + 1) l).

(** The option an abbreviated name stands for: the first name of the table that
    begins with it.  Names with a value are recognised by their beginning, and
    everything else is unknown. *)
Inductive denotes : bytes -> N -> Prop :=
| dn_first n before m c after :
    option_table = before ++ (m, c) :: after -> begins n m ->
    (forall e, In e before -> ~ begins n (fst e)) -> denotes n c
| dn_csp n : begins (B "csp=") n -> denotes n FOCSP
| dn_redirect n : begins (B "redirect=") n -> denotes n FORedirect
| dn_unknown n :
    (forall e, In e option_table -> ~ begins n (fst e)) ->
    ~ begins (B "csp=") n -> ~ begins (B "redirect=") n ->
    ~ begins (B "domain=") n -> ~ begins (B "tag=") n -> denotes n FOUnknown.
