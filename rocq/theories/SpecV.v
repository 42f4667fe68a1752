(** Vocabulary about JavaScript strings and sessions (C85-C89). *)
From Verif Require Import Base Flags Sets FilterM ParseM ClientM SerialM JsM OwnM OwnT BindM
  Spec SpecM SpecC SpecO SpecU.
From Verif Require Import SpecC.

(** ** Characters *)

(** A character is a Unicode scalar value. *)
Definition scalar (p : N) : Prop := (p < 55296 \/ 57344 <= p < 1114112)%N.

(** UTF-16 (The Unicode Standard, D91) *)
Definition utf16 (p : N) : units :=
  (if p <? 65536 then [p]
   else [55296 + (p - 65536) / 1024; 56320 + (p - 65536) mod 1024])%N.

(** [text s ps]: the string [s] consists of the characters [ps]. *)
Definition text (s : units) (ps : list N) : Prop := Forall scalar ps /\ s = flat_map utf16 ps.

(** A string that consists of characters, i.e. has no lone surrogate. *)
Definition well_formed (s : units) : Prop := exists ps, text s ps.

(** [s] occurs in [t]. *)
Definition occurs {A} (s t : list A) : Prop := exists a b, t = a ++ s ++ b.

(** Plain ASCII. *)
Definition ascii_text (s : units) : Prop := Forall (fun u => (u < 128)%N) s.

(** The lines of a string: it is cut at carriage returns and line feeds. *)
Fixpoint js_lines (s : units) : list units :=
  match s with
  | [] => [[]]
  | u :: r =>
      if (N.eqb u 13 || N.eqb u 10)%bool then [] :: js_lines r
      else match js_lines r with
           | [] => [[u]]
           | w :: ws => (u :: w) :: ws
           end
  end.

(** ** Plain words *)

(** Letters, digits and everything beyond ASCII. *)
Definition word_unit (u : N) : Prop :=
  (48 <= u <= 57 \/ 65 <= u <= 90 \/ 97 <= u <= 122 \/ 128 <= u)%N.

(** A line that is one word of moderate length. *)
Definition plain_word (l : units) : Prop :=
  l <> [] /\ Forall word_unit l /\ 3 * length l <= 1024.

(** An address on the web. *)
Definition js_web (url : units) : Prop :=
  exists scheme h rest,
    (scheme = U "http" \/ scheme = U "https") /\
    h <> [] /\ Forall (fun u => word_unit u \/ u = 45%N \/ u = 46%N) h /\
    url = scheme ++ U "://" ++ h ++ U "/" ++ rest.

(** ** Calls *)

(** The bytes before the first NUL. *)
Fixpoint before_nul (t : bytes) : bytes :=
  match t with
  | [] => []
  | c :: r => if ceq c NUL then [] else c :: before_nul r
  end.

(** The UTF-8 text of a value, up to the first U+0000. *)
Definition text_of (J : js) (v : jsval) (t : bytes) : Prop :=
  exists s, to_string v = Some s /\ t = before_nul (utf8 (j_lone J) s).

(** The C++ call that a JavaScript call amounts to. *)
Inductive means (J : js) : method * list jsval -> ncall -> Prop :=
| means_clear args : means J (MClear, args) (Call Clear)
| means_parse args t :
    text_of J (arg args 0) t ->
    means J (MParse, args) (Call (Parse (to_bool (arg args 1)) t))
| means_addtag args t :
    text_of J (arg args 0) t -> means J (MAddTag, args) (Call (AddTag t))
| means_removetag args t :
    text_of J (arg args 0) t -> means J (MRemoveTag, args) (Call (RemoveTag t))
| means_ask args u page :
    to_string (arg args 0) = Some u -> nonul (utf8 (j_lone J) u) ->
    text_of J (arg args 2) page ->
    means J (MMatches, args)
      (Call (Ask (utf8 (j_lone J) u) (to_mask J (arg args 1)) (Some page)))
| means_enable args : means J (MEnable, args) (Call DetectBad)
| means_serialize args : means J (MSerialize, args) (Save true true)
| means_deserialize b s args : means J (MDeserialize, JBytes b s :: args) (Load b).

(** Methods that convert their first argument to a string. *)
Definition takes_text (m : method) : Prop :=
  In m [MParse; MMatches; MFind; MAddTag; MRemoveTag; MFilters].

(** ** Lives of objects *)

(** What the calls of a life are, if cleanup() is its last call or not called. *)
Definition closes (es : list oevent) (ws : list wevent) : Prop :=
  es = map OCall ws ++ [OCleanup].
Definition left_open (es : list oevent) (ws : list wevent) : Prop := es = map OCall ws.

Definition restores (e : wevent) : Prop := match e with NDeserialize _ => True | _ => False end.
