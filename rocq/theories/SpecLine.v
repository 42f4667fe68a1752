(** What any line at all is read as (C98). *)
From Verif Require Import Base Flags Url Sets FilterM ParseM ClientM Spec SpecM SpecG.

(** The text does not begin with one of these characters. *)
Definition begins_not (P : ascii -> Prop) (t : bytes) : Prop :=
  forall c r, t = c :: r -> ~ P c.

(** What the exception marks leave behind in the pattern. *)
Definition unmarked (a : bytes) : bytes :=
  List.filter (fun c => negb (Ascii.eqb c "@")) a.

Definition without_bars (s : bytes) : bytes :=
  List.filter (fun c => negb (Ascii.eqb c "|")) s.

(** The front of a rule, behind the leading blanks: is it an exception, which
    characters of the front belong to the pattern, the anchor, and the text that
    follows.
    - A second '@' that never comes: the first one is dropped.
    - A single '|' at the very end is no anchor. *)
Inductive opening : bytes -> bool -> bytes -> anchor -> bytes -> Prop :=
| op_plain a t :
    marks a -> (a = [] -> t <> [] /\ (begins (B "$") t -> begins (B "$$") t)) ->
    begins_not (fun c => blank c \/ c = "@"%char \/ c = "|"%char) t ->
    (t <> [] -> ~ comment_text t) ->
    opening (a ++ t) (nonempty a) (unmarked a) NoAnchor t
| op_half a m t :
    marks a -> (forall c, In c m -> filler c) ->
    begins_not (fun c => filler c \/ c = "@"%char) t ->
    opening (a ++ B "@" ++ m ++ t) (nonempty a) (unmarked a ++ m) NoAnchor t
| op_alone a :
    marks a -> opening (a ++ B "|") (nonempty a) (unmarked a) NoAnchor []
| op_left a t :
    marks a -> t <> [] -> begins_not (fun c => c = "|"%char) t ->
    opening (a ++ B "|" ++ t) (nonempty a) (unmarked a) LeftBar t
| op_host a t :
    marks a -> opening (a ++ B "||" ++ t) (nonempty a) (unmarked a) HostBars t.

(** How a rule ends: with the line, with options, or as a cosmetic or HTML rule
    with what follows the mark. *)
Inductive finish :=
| AtEnd
| WithOptions (o : bytes)
| WithSelector (kind : N) (s : bytes).

Inductive finish_text : finish -> bytes -> Prop :=
| ft_end : finish_text AtEnd []
| ft_options o :
    begins_not (fun c => c = "$"%char) o -> finish_text (WithOptions o) (B "$" ++ o)
| ft_html s : finish_text (WithSelector FTHTMLFiltering s) (B "$$" ++ s)
| ft_hide s : finish_text (WithSelector FTElementHiding s) (B "##" ++ s)
| ft_show s : finish_text (WithSelector FTElementHidingException s) (B "#@" ++ s).

(** The text behind the front: everything before the first "$", "##" or "#@". *)
Definition contents (t body : bytes) (e : finish) : Prop :=
  exists w, finish_text e w /\ t = body ++ w /\
    forall x y, body = x ++ y -> y <> [] ->
      ~ begins (B "$") (y ++ w) /\ ~ begins (B "##") (y ++ w) /\ ~ begins (B "#@") (y ++ w).

(** A line is empty, a comment, a regular expression, a bare list of options, or a
    rule. *)
Inductive reading :=
| IsEmpty
| IsComment
| IsExpression (p : bytes)
| IsOptions (o : bytes)
| IsRule (exc : bool) (front : bytes) (a : anchor) (rest body : bytes) (e : finish)
       (stripped : bytes).

Inductive reads (l : bytes) : reading -> Prop :=
| reads_empty : (forall c, In c l -> blank c) -> reads l IsEmpty
| reads_comment b a s :
    (forall c, In c b -> blank c) -> marks a -> s <> [] -> comment_text s ->
    l = b ++ a ++ s -> reads l IsComment
| reads_expression a :
    1 < length l -> slashed l a -> reads l (IsExpression (regex_pattern l a))
| reads_options b o :
    (forall c, In c b -> blank c) -> begins_not (fun c => c = "$"%char) o ->
    l = b ++ B "$" ++ o -> reads l (IsOptions o)
| reads_line b x exc k a t body e :
    (forall c, In c b -> blank c) -> l = b ++ x -> ~ regex_line l ->
    opening x exc k a t -> contents t body e ->
    reads l (IsRule exc k a t body e x).

(** The host behind "||": everything before the first separator, without a bar at
    its end; and the rule names nothing else. *)
Definition host_behind (t h : bytes) : Prop :=
  exists h', body_host t h' /\
    ((exists i, h' = i ++ B "|" /\ h = i) \/ (last h' NUL <> "|"%char /\ h = h')).

Definition nothing_else (t h : bytes) : Prop :=
  exists r, (t = h ++ r \/ t = h ++ B "^" ++ r) /\ (r = [] \/ begins (B "$") r).

(** The value of the last option of this name, negated or not. *)
Definition last_value (name : bytes) (parts : list bytes) (v : bytes) : Prop :=
  exists x y s, parts = x ++ s :: y /\ (s = name ++ v \/ s = B "~" ++ name ++ v) /\
    forall s', In s' y -> ~ begins name s' /\ ~ begins (B "~" ++ name) s'.

Definition no_value (name : bytes) (parts : list bytes) : Prop :=
  forall s, In s parts -> ~ begins name s /\ ~ begins (B "~" ++ name) s.

(** The options in the stored rule. *)
Definition has_options (parts : list bytes) (f : filter) : Prop :=
  (forall i, N.testbit (f_opt f) i = true <->
     exists n c, positive_option parts n /\ denotes n c /\ N.testbit c i = true) /\
  (forall i, N.testbit (f_anti f) i = true <->
     exists n c, negative_option parts n /\ denotes n c /\ N.testbit c i = true) /\
  match f_dom f with
  | Some dl => last_value (B "domain=") parts dl
  | None => no_value (B "domain=") parts
  end /\
  (last_value (B "tag=") parts (f_tag f) \/ f_tag f = [] /\ no_value (B "tag=") parts).

Definition host_of (a : anchor) (t : bytes) (o : option bytes) : Prop :=
  match a with
  | HostBars => exists h, host_behind t h /\ o = Some h
  | _ => o = None
  end.

Definition no_options (f : filter) : Prop :=
  f_opt f = 0%N /\ f_anti f = 0%N /\ f_tag f = [].

(** What the rule built from a line is, according to the reading; [kept] tells
    whether the texts of rules are kept. *)
Definition agrees (kept : bool) (m : reading) (f : filter) : Prop :=
  match m with
  | IsEmpty => f = mkF FTEmpty 0 0 None None [] None None
  | IsComment => f = mkF FTComment 0 0 None None [] None None
  | IsExpression p =>
      f = mkF FTRegex 0 0 (Some (p, [NUL])) None [] None (if kept then Some p else None)
  | IsOptions o =>
      f_type f = FTEmpty /\ f_data f = None /\ f_host f = None /\ f_rule f = None /\
      exists parts, cut_at "," o parts /\ has_options parts f
  | IsRule exc k a t body (WithSelector kind s) x =>
      f_type f = kind /\ no_options f /\ f_data f = Some (s, [NUL]) /\ host_of a t (f_host f) /\
      f_dom f = match k ++ without_bars body with [] => None | d => Some d end /\
      f_rule f = if kept
                 then Some (if N.eqb kind FTHTMLFiltering then x else firstn (length x - 2) x)
                 else None
  | IsRule exc k a t body e x =>
      (has (f_type f) FTException = exc /\
       has (f_type f) FTLeftAnchored = (match a with LeftBar => true | _ => false end) /\
       has (f_type f) FTHostAnchored = (match a with HostBars => true | _ => false end) /\
       (has (f_type f) FTRightAnchored = true <-> In "|"%char body) /\
       (has (f_type f) FTHostOnly = true <->
        a = HostBars /\ exists h, host_behind t h /\ nothing_else t h) /\
       forall m, In m [FTRegex; FTElementHiding; FTElementHidingException; FTHTMLFiltering;
                       FTEmpty; FTComment] -> has (f_type f) m = false) /\
      f_data f = Some (k ++ without_bars body, [NUL]) /\
      host_of a t (f_host f) /\
      match e with
      | WithOptions o => exists parts, cut_at "," o parts /\ has_options parts f
      | _ => no_options f /\ f_dom f = None
      end /\
      f_rule f = if kept then Some x else None
  end.

(** The reader gives up at the 2048th character.  The reading is settled before
    that: a comment or an expression at its first character behind blanks and
    marks, options at their '$', everything else at the end of the line (a mark
    without selector may be cut through). *)
Definition settled_at (l s : bytes) : Prop :=
  exists b a, (forall c, In c b -> blank c) /\ marks a /\ l = b ++ a ++ s /\ length (b ++ a) < 2047.

Definition within (l : bytes) (m : reading) : Prop :=
  match m with
  | IsComment => exists s, s <> [] /\ comment_text s /\ settled_at l s
  | IsExpression _ => exists r, settled_at l ("/"%char :: r)
  | IsOptions o | IsRule _ _ _ _ _ (WithOptions o) _ => length l < 2048 + length o
  | IsRule _ _ _ _ _ (WithSelector _ s) _ => length l < 2048 \/ s = [] /\ length l = 2048
  | _ => length l < 2048
  end.

(** What is left of a line on which the reader gave up: no pattern, no text and no
    options; the domains only if the mark of a cosmetic or HTML rule was seen. *)
Definition given_up (f : filter) : Prop :=
  f_data f = None /\ f_rule f = None /\ no_options f /\
  (f_dom f = None \/ In (f_type f) [FTHTMLFiltering; FTElementHiding; FTElementHidingException]).
