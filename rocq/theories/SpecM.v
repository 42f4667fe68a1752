(** Specification vocabulary that refers to the modelled API (rules as returned
    by [parseFilter], collections, requests). *)
From Verif Require Import Base Flags Url Sets FilterM ParseM ClientM Spec.

Definition kind_eq_dec (a b : kind) : {a = b} + {a <> b}.
Proof. decide equality. Defined.

(** The rules of the lines of [t], as [parseFilter] returns them one by one. *)
Definition line_rules (pres : bool) (t : bytes) (fs : list filter) : Prop :=
  Forall2 (fun l f => exists r, parse_filter pres (cstr l) (length l) = Ok (f, r))
          (text_lines t) fs.

(** The rule belongs to the given collection. *)
Definition goes_to (E : env) (k : cls) (f : filter) : bool :=
  match classify E f with
  | Ok CSkip => match k with CSkip => true | _ => false end
  | Ok (CHost e) => match k with CHost e' => Bool.eqb e e' | _ => false end
  | Ok (CList j) =>
      match k with
      | CList j' => if kind_eq_dec j j' then true else false
      | _ => false
      end
  | UB => false
  end.

(** What a stored line is to the user. *)
Inductive category := Nothing | Cosmetic | HtmlRule | ExceptionRule | BlockRule.

Definition category_of (k : cls) : category :=
  match k with
  | CSkip => Nothing
  | CHost exc => if exc then ExceptionRule else BlockRule
  | CList KCosmetic => Cosmetic
  | CList KHtml => HtmlRule
  | CList (KException | KNoFpExc | KNoFpDomExc | KNoFpAntiExc) => ExceptionRule
  | CList (KFilters | KNoFp | KNoFpDom | KNoFpAnti) => BlockRule
  end.

(** The category according to the type bits of [filter.h]. *)
Definition type_category (f : filter) : category :=
  if hasUnsupportedOptions f then Nothing
  else if has (f_type f) (N.lor FTComment FTEmpty) then Nothing
  else if has (f_type f) (N.lor FTElementHiding FTElementHidingException) then Cosmetic
  else if has (f_type f) FTHTMLFiltering then HtmlRule
  else if has (f_type f) FTException then ExceptionRule
  else BlockRule.

(** The Bloom filter handed to [Filter::matches] (if any) holds all adjacent
    byte pairs of the URL. *)
Definition pairs_held (E : env) (bf : option bloom) (url : bytes) : Prop :=
  forall b p, bf = Some b -> length p = 2 -> substring p url ->
              bl_exists (e_hash2 E) b p = true.

(** The host passed by the caller is the URL's host, or none. *)
Definition host_arg (url host : bytes) : Prop := host = [] \/ url_has_host url host.

(** The rule has no options and the request is not for a top-level document. *)
Definition unrestricted (r : rule_syntax) (context : N) : Prop :=
  x_options r = None /\ has context FODocument = false.

(** [parseFilter] on the line [l] gives the rule [f]. *)
Definition parses_to (pres : bool) (l : bytes) (f : filter) : Prop :=
  exists b, parse_filter pres (cstr l) (length l) = Ok (f, b).
