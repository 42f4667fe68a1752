(** Specification vocabulary for statistics and bad fingerprint detection. *)
From Verif Require Import Base Flags Url Sets FilterM ParseM ClientM Spec SpecM SpecC.

(** Something was parsed since the last clear(). *)
Definition has_list (calls : list call) : Prop :=
  exists a p t b, calls = a ++ Parse p t :: b /\ ~ In Clear b.

(** [tally E P calls n]: of the matches() calls made since the last clear(),
    exactly [n] satisfy [P], a predicate of the calls made before, the request
    and the answer. *)
Definition counted := list call -> bytes -> N -> option bytes -> verdict -> Prop.

Definition plain_call (k : call) : Prop :=
  match k with Ask _ _ _ | Clear => False | _ => True end.

Inductive tally (E : env) (P : counted) : list call -> nat -> Prop :=
| tally_new : tally E P [] 0
| tally_clear calls : tally E P (calls ++ [Clear]) 0
| tally_other calls k n :
    tally E P calls n -> plain_call k -> tally E P (calls ++ [k]) n
| tally_yes calls n url context dom c v c' :
    tally E P calls n -> after E calls = Ok c ->
    matches E c (cstr url) context dom = Ok (v, c') -> P calls url context dom v ->
    tally E P (calls ++ [Ask url context dom]) (S n)
| tally_no calls n url context dom c v c' :
    tally E P calls n -> after E calls = Ok c ->
    matches E c (cstr url) context dom = Ok (v, c') -> ~ P calls url context dom v ->
    tally E P (calls ++ [Ask url context dom]) n.

(** A web request made while a list was loaded, to which no block rule applied. *)
Definition no_rule_applied (E : env) : counted := fun calls url context dom _ =>
  web_url url /\ has_list calls /\
  ~ exists f, heeded E calls false url dom f /\ applies E calls f url context dom.

(** A request answered "block". *)
Definition was_blocked : counted := fun _ _ _ _ v => v_block v = true.

(** The collected fingerprint [w] is built in or a piece of a queried URL. *)
Definition collected_from (E : env) (calls : list call) (w : bytes) : Prop :=
  In w (e_bads E) \/
  exists url context dom, In (Ask url context dom) calls /\
    length w = kFingerprintSize /\ exists x y, url = x ++ w ++ y.

(** Detection is on: enabled since the last clear(). *)
Definition detecting (calls : list call) : Prop :=
  exists a b, calls = a ++ DetectBad :: b /\ ~ In Clear b.

(** ** Parsing statistics: which collection each number counts *)
Definition stat_names : list (bytes * cls) :=
  [ (B "numFilters", CList KFilters); (B "numCosmeticFilters", CList KCosmetic);
    (B "numExceptionFilters", CList KException);
    (B "numNoFingerprintFilters", CList KNoFp);
    (B "numNoFingerprintDomainOnlyFilters", CList KNoFpDom);
    (B "numNoFingerprintAntiDomainOnlyFilters", CList KNoFpAnti);
    (B "numNoFingerprintExceptionFilters", CList KNoFpExc);
    (B "numNoFingerprintDomainOnlyExceptionFilters", CList KNoFpDomExc);
    (B "numNoFingerprintAntiDomainOnlyExceptionFilters", CList KNoFpAntiExc);
    (B "numHostAnchoredFilters", CHost false);
    (B "numHostAnchoredExceptionFilters", CHost true) ].

(** ** C source text *)
(** The text [s] between the quotes of a C string literal denotes [t]. *)
Inductive denotes : bytes -> bytes -> Prop :=
| den_nil : denotes [] []
| den_char c s t : c <> """"%char -> c <> "\"%char -> c <> LF -> denotes s t -> denotes (c :: s) (c :: t)
| den_quote s t : denotes s t -> denotes ("\"%char :: """"%char :: s) (""""%char :: t)
| den_backslash s t : denotes s t -> denotes ("\"%char :: "\"%char :: s) ("\"%char :: t)
| den_newline s t : denotes s t -> denotes ("\"%char :: "n"%char :: s) (LF :: t).

(** [text] is the initializer of an array of the strings [l], one per line. *)
Inductive array_of : list bytes -> bytes -> Prop :=
| arr_nil : array_of [] []
| arr_item s w l text : denotes s w -> array_of l text ->
    array_of (w :: l) ([""""%char] ++ s ++ [""""%char] ++ B "," ++ [LF] ++ text).

(** Needs no escape in a string literal. *)
Definition plain_text (w : bytes) : Prop :=
  ~ In """"%char w /\ ~ In "\"%char w /\ ~ In LF w.

(** Same answer, and same definedness, to every query. *)
Definition same_answers (E : env) (c c' : client) : Prop :=
  (forall url context dom v, (exists c1, matches E c url context dom = Ok (v, c1)) <->
                             (exists c1, matches E c' url context dom = Ok (v, c1))) /\
  (forall url context dom,
     findMatchingFilters E c url context dom = findMatchingFilters E c' url context dom).

(** The text around the first array of the header. *)
Definition header_head : bytes :=
  B "#pragma once" ++ [LF] ++ B "/**" ++ [LF] ++ B "  *" ++ [LF] ++
  B "  * Auto generated bad filters" ++ [LF] ++ B "  */" ++ [LF] ++
  B "const char *badFingerprints[] = {" ++ [LF].
Definition header_tail : bytes :=
  B "};" ++ [LF] ++ [LF] ++ B "const char *badSubstrings[] = {" ++ [""""%char] ++ B "http" ++ [""""%char] ++ B ", " ++
  [""""%char] ++ B "www" ++ [""""%char] ++ B " };" ++ [LF].
