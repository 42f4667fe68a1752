(** Specifications in plain terms, independent of the model's functions: only
    byte strings, positions and the option constants are used. *)
From Verif Require Import Base Flags.

(** ** C01: web URLs *)

(** [c] is the lower case letter (or other character) [lit], or its upper case
    form. *)
Definition ci_char (lit c : ascii) : Prop :=
  c = lit \/
  ((65 <= N_of_ascii c <= 90)%N /\ N_of_ascii lit = (N_of_ascii c + 32)%N).

(** [s] spells [lit], ignoring ASCII case. *)
Definition ci_text (lit s : bytes) : Prop := Forall2 ci_char lit s.

Definition web_url (url : bytes) : Prop :=
  5 < length url /\
  exists pre scheme rest,
    url = pre ++ scheme ++ B "://" ++ rest /\
    (pre = [] \/ ci_text (B "blob:") pre) /\
    (ci_text (B "http") scheme \/ ci_text (B "https") scheme \/
     ci_text (B "ws") scheme \/ ci_text (B "wss") scheme).

(** ** C10: separators *)
Definition separators : bytes := B "$/:=?^".

(** ** C11: the host of a URL *)
Definition url_has_host (url host : bytes) : Prop :=
  exists scheme slashes rest,
    url = scheme ++ B ":" ++ slashes ++ host ++ rest /\
    ~ In ":"%char scheme /\
    (forall c, In c slashes -> c = "/"%char) /\
    (forall c, In c host -> ~ In c separators) /\
    (host = [] -> hd_error rest <> Some "/"%char) /\
    (rest = [] \/ exists c rest', rest = c :: rest' /\ In c separators).

(** ** C09: first party *)
Definition first_party (page host : bytes) : Prop :=
  host = page \/ exists sub, host = sub ++ B "." ++ page.

(** ** Positions *)

(** [pat] occurs in [s] at offset [i]. *)
Definition occurs_at (pat s : bytes) (i : nat) : Prop :=
  exists a b, s = a ++ pat ++ b /\ length a = i.

Definition substring (pat s : bytes) : Prop := exists a b, s = a ++ pat ++ b.

(** ** C12-C14, C17: patterns *)

(** The pattern character [pc] accepts the URL character [oc] ([None]: the end
    of the URL). *)
Definition char_fits (pc : ascii) (oc : option ascii) : Prop :=
  match oc with
  | Some c => pc = c \/ (pc = "^"%char /\ In c separators)
  | None => pc = "^"%char
  end.

(** [piece] (a pattern without stars) fits [url] at offset [i]; only its last
    character can be at the end of the URL. *)
Definition piece_at (piece url : bytes) (i : nat) : Prop :=
  i + length piece <= length url + 1 /\
  forall j pc, nth_error piece j = Some pc ->
               char_fits pc (nth_error url (i + j)).

(** A '^' that is not the last character of its piece. *)
Definition interior_caret (piece : bytes) : Prop :=
  exists a b, piece = a ++ B "^" ++ b /\ b <> [].

(** What the engine accepts for one piece searched from offset [from] on: a fit
    inside the URL that is not a lone '^', where a '^' may stand for the end of
    the URL only if the fit does not begin right at [from]. *)
Definition piece_found (url : bytes) (from : nat) (piece : bytes) (i : nat)
  : Prop :=
  from <= i /\ i < length url /\ piece_at piece url i /\ piece <> B "^" /\
  (i + length piece = length url + 1 -> from < i).

(** The pieces are found one after the other without overlap; an empty last
    piece (a pattern ending in a star) needs nothing. *)
Inductive pieces_found (url : bytes) : nat -> list bytes -> Prop :=
| pf_nil from : pieces_found url from []
| pf_star from : pieces_found url from [[]]
| pf_cons from piece i more :
    piece_found url from piece i ->
    pieces_found url (i + length piece) more ->
    pieces_found url from (piece :: more).

(** The textbook reading: every piece fits somewhere after the previous one. *)
Inductive pieces_in_order (url : bytes) : nat -> list bytes -> Prop :=
| po_nil from : pieces_in_order url from []
| po_cons from piece i more :
    from <= i -> piece_at piece url i ->
    pieces_in_order url (i + length piece) more ->
    pieces_in_order url from (piece :: more).

(** The pieces of a pattern: [pat] is [pieces] joined with stars. *)
Fixpoint star_join (pieces : list bytes) : bytes :=
  match pieces with
  | [] => []
  | [p] => p
  | p :: more => p ++ B "*" ++ star_join more
  end.

Definition pieces_of (pat : bytes) (pieces : list bytes) : Prop :=
  pieces <> [] /\ pat = star_join pieces /\
  forall p, In p pieces -> ~ In "*"%char p.

(** ** C19-C22: the lines of a list text, cut at every CR and LF *)
Fixpoint text_lines (t : bytes) : list bytes :=
  match t with
  | [] => [[]]
  | c :: t' =>
      if ceq c CR || ceq c LF then [] :: text_lines t'
      else match text_lines t' with
           | [] => [[c]]
           | w :: ws => (c :: w) :: ws
           end
  end.

(** A single line: no NUL, no CR, no LF. *)
Definition line_text (l : bytes) : Prop :=
  forall c, In c l -> c <> NUL /\ c <> CR /\ c <> LF.

Definition nonempty_lines (t : bytes) : list bytes :=
  List.filter (fun l => match l with [] => false | _ => true end) (text_lines t).

Definition line_ends (e : bytes) : Prop :=
  forall c, In c e -> c = CR \/ c = LF.

(** Two texts that differ only in the choice and number of line ends. *)
Inductive same_up_to_line_ends : bytes -> bytes -> Prop :=
| sle_nil : same_up_to_line_ends [] []
| sle_char c t t' :
    c <> CR -> c <> LF -> same_up_to_line_ends t t' ->
    same_up_to_line_ends (c :: t) (c :: t')
| sle_end e e' t t' :
    line_ends e -> line_ends e' -> e <> [] -> e' <> [] ->
    same_up_to_line_ends t t' ->
    same_up_to_line_ends (e ++ t) (e' ++ t').

(** Blanks and comment lines *)
Definition blank (c : ascii) : Prop := c = " "%char \/ c = TAB.

Definition comment_text (s : bytes) : Prop :=
  s = [] \/ (exists r, s = "!"%char :: r) \/ (exists r, s = "["%char :: r) \/
  (exists r, s = "#"%char :: " "%char :: r).

(** ** Rule lines in the usual syntax:
    [@@] [| or ||] body [|] [$options] *)
Inductive anchor := NoAnchor | LeftBar | HostBars.

Record rule_syntax := mkRule {
  x_exception : bool;
  x_anchor : anchor;
  x_body : bytes;
  x_right : bool;
  x_options : option bytes
}.

Definition pattern_line (r : rule_syntax) : bytes :=
  (if x_exception r then B "@@" else [])
  ++ match x_anchor r with
     | NoAnchor => [] | LeftBar => B "|" | HostBars => B "||"
     end
  ++ x_body r ++ (if x_right r then B "|" else []).

Definition rule_line (r : rule_syntax) : bytes :=
  pattern_line r
  ++ match x_options r with None => [] | Some o => B "$" ++ o end.

(** Characters that can stand in the body without starting another construct. *)
Definition body_char (c : ascii) : Prop :=
  c <> "|"%char /\ c <> "$"%char /\ c <> "#"%char /\
  c <> NUL /\ c <> CR /\ c <> LF.

(** The first character of an unanchored body must not be read as a comment
    mark, an exception mark or a blank, and the line must not look like a
    regular expression. *)
Definition plain_start (r : rule_syntax) : Prop :=
  match x_body r with
  | [] => False
  | c :: _ => ~ In c (B "@![ ") /\ c <> TAB /\
              (c = "/"%char -> length (rule_line r) = 1 \/
                               last (rule_line r) NUL <> "/"%char)
  end.

Definition good_rule (r : rule_syntax) : Prop :=
  x_body r <> [] /\ (forall c, In c (x_body r) -> body_char c) /\
  (x_anchor r = NoAnchor -> plain_start r) /\
  (forall o, x_options r = Some o ->
     (forall c, In c o -> c <> NUL /\ c <> CR /\ c <> LF) /\
     hd_error o <> Some "$"%char) /\
  length (rule_line r) < 2048.

(** The host part of a body: everything before the first separator. *)
Definition body_host (body host : bytes) : Prop :=
  exists rest, body = host ++ rest /\
    (forall c, In c host -> ~ In c separators) /\
    (rest = [] \/ exists c r, rest = c :: r /\ In c separators).

(** ** C41, C04: fingerprints *)
Definition fp_special : bytes := B "|*^".

(** A six byte window that may serve as a fingerprint. *)
Definition good_fp (bads : list bytes) (w : bytes) : Prop :=
  length w = 6 /\ (forall c, In c w -> ~ In c fp_special) /\
  ~ substring (B "http") w /\ ~ substring (B "www") w /\
  ~ (exists bad r, In bad bads /\ bad = w ++ r).

(** The leftmost usable window of [s]. *)
Definition first_fp (bads : list bytes) (s w : bytes) : Prop :=
  good_fp bads w /\
  exists i, occurs_at w s i /\
    forall w' i', occurs_at w' s i' -> good_fp bads w' -> i <= i'.

Definition no_fp (bads : list bytes) (s : bytes) : Prop :=
  forall w, substring w s -> ~ good_fp bads w.

(** ** C18: lines whose parsing is safe *)

(** Characters after which a line can still begin a '||' rule. *)
Definition lead_char (c : ascii) : Prop := In c (TAB :: B "@![/ ").

(** No '|' inside the host name of a '||' rule (one right after it is fine). *)
Definition bars_fine (l : bytes) : Prop :=
  forall p h x q, (forall c, In c p -> lead_char c) ->
    l = p ++ B "||" ++ h ++ B "|" ++ x :: q ->
    (exists c, In c h /\ In c separators) \/ In x separators.

(** No domain name longer than the engine's buffer. *)
Definition domains_fit (l : bytes) : Prop :=
  forall d, substring d l -> ~ In "|"%char d -> ~ In ","%char d ->
            length d <= 1024.

Definition safe_line (l : bytes) : Prop :=
  length l < 2048 /\ bars_fine l /\ domains_fit l.

(** ** C48, C23 *)

(** Might the text after the blanks be taken for a regular expression? *)
Definition slash_risk (l : bytes) : Prop :=
  last l NUL = "/"%char /\ lead_char (hd NUL l).

(** The line without its leading blanks. *)
Definition unblanked (l t : bytes) : Prop :=
  exists b, l = b ++ t /\ (forall c, In c b -> blank c) /\ ~ blank (hd NUL t).

(** ** C52: what a line is *)

(** A comma separated list of domains in front of a cosmetic or HTML rule. *)
Definition domain_list_text (d : bytes) : Prop :=
  forall c, In c d -> body_char c /\ ~ In c (TAB :: B "@![/ ").

(** A '||' rule that names a host, optionally followed by '^', and nothing
    else. *)
Definition names_only_host (r : rule_syntax) : Prop :=
  x_anchor r = HostBars /\ x_right r = false /\
  exists h, (forall c, In c h -> ~ In c separators) /\
            (x_body r = h \/ x_body r = h ++ B "^").

(** ** C14, C16 *)

(** Patterns with neither stars nor '^'. *)
Definition plain (t : bytes) : Prop := ~ In "*"%char t /\ ~ In "^"%char t.

(** No two stars in a row. *)
Definition no_double_star (t : bytes) : Prop := ~ substring (B "**") t.

(** No '^' is followed by something other than a star or the end. *)
Definition carets_end (pat : bytes) : Prop :=
  forall pieces p, pieces_of pat pieces -> In p pieces -> ~ interior_caret p.

(** ** C24-C29: options *)

(** [t] is [parts] joined with the character [c]. *)
Fixpoint joined (c : ascii) (parts : list bytes) : bytes :=
  match parts with
  | [] => []
  | [p] => p
  | p :: more => p ++ c :: joined c more
  end.

Definition cut_at (c : ascii) (t : bytes) (parts : list bytes) : Prop :=
  parts <> [] /\ t = joined c parts /\ forall p, In p parts -> ~ In c p.

(** The option names and their bits in [filter.h]. *)
Definition option_table : list (bytes * N) :=
  [ (B "script", FOScript); (B "image", FOImage); (B "stylesheet", FOStylesheet);
    (B "object", FOObject); (B "xmlhttprequest", FOXmlHttpRequest);
    (B "object-subrequest", FOObjectSubrequest); (B "subdocument", FOSubdocument);
    (B "document", FODocument); (B "other", FOOther); (B "xbl", FOXBL);
    (B "collapse", FOCollapse); (B "donottrack", FODoNotTrack);
    (B "elemhide", FOElemHide); (B "third-party", FOThirdParty);
    (B "first-party", FONotThirdParty); (B "ping", FOPing); (B "popup", FOPopup);
    (B "font", FOFont); (B "media", FOMedia); (B "webrtc", FOWebRTC);
    (B "generichide", FOGenericHide); (B "genericblock", FOGenericBlock);
    (B "empty", FOEmpty); (B "websocket", FOWebsocket);
    (B "important", FOImportant); (B "explicitcancel", FOExplicitCancel) ].

(** Options that carry a value are recognised by their beginning. *)
Definition begins (p s : bytes) : Prop := exists v, s = p ++ v.

(** The bit an option name stands for. *)
Inductive name_bit : bytes -> N -> Prop :=
| nb_known n b : In (n, b) option_table -> name_bit n b
| nb_csp n : begins (B "csp=") n -> name_bit n FOCSP
| nb_redirect n : begins (B "redirect=") n -> name_bit n FORedirect
| nb_unknown n :
    (forall b, ~ In (n, b) option_table) ->
    ~ begins (B "csp=") n -> ~ begins (B "redirect=") n ->
    ~ begins (B "domain=") n -> ~ begins (B "tag=") n ->
    name_bit n FOUnknown.

(** The beginning of a known name that is not a known name itself. *)
Definition abbreviation (n : bytes) : Prop :=
  exists m b r, In (m, b) option_table /\ m = n ++ r /\
                forall b', ~ In (n, b') option_table.

(** [n] is listed as such, or with a '~' in front. *)
Definition positive_option (parts : list bytes) (n : bytes) : Prop :=
  In n parts /\ ~ begins (B "~") n.
Definition negative_option (parts : list bytes) (n : bytes) : Prop :=
  In (B "~" ++ n) parts.

(** Every listed option name is written out. *)
Definition written_out (parts : list bytes) : Prop :=
  forall n, positive_option parts n \/ negative_option parts n -> ~ abbreviation n.

(** Two bit sets have a bit in common. *)
Definition common (a b : N) : Prop :=
  exists i, N.testbit a i = true /\ N.testbit b i = true.

(** The resource types. *)
Definition resource_types : list bytes :=
  map (fun s => B s)
    ["script"; "image"; "stylesheet"; "object"; "xmlhttprequest";
     "object-subrequest"; "subdocument"; "document"; "other"; "xbl"; "font";
     "media"; "webrtc"; "websocket"; "ping"]%string.

(** Suffixes of a domain name at label boundaries with at least two labels. *)
Definition wide_suffix (d s : bytes) : Prop :=
  (s = d \/ exists p, d = p ++ B "." ++ s) /\ In "."%char s.

(** The domains listed in the value of a domain= option. *)
Definition lists_domain (dl s : bytes) : Prop :=
  exists parts, cut_at "|" dl parts /\ In s parts /\ ~ begins (B "~") s.
Definition excludes_domain (dl s : bytes) : Prop :=
  exists parts, cut_at "|" dl parts /\ In (B "~" ++ s) parts.

(** The longest listed wide suffix of the page domain decides; without one the
    rule applies if it lists no domain at all (other than excluded ones). *)
Definition domain_applies (dl d : bytes) : Prop :=
  (exists s, wide_suffix d s /\ lists_domain dl s /\
     forall s', wide_suffix d s' -> lists_domain dl s' \/ excludes_domain dl s' ->
                length s' <= length s) \/
  ((forall s, wide_suffix d s -> ~ lists_domain dl s /\ ~ excludes_domain dl s) /\
   forall s, ~ lists_domain dl s).

(** The value of the last domain= option counts. *)
Definition last_domain (parts : list bytes) (dl : bytes) : Prop :=
  exists a b, parts = a ++ (B "domain=" ++ dl) :: b /\
    forall s, In s b -> ~ begins (B "domain=") s /\ ~ begins (B "~domain=") s.
