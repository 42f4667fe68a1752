(** Specification side of serialization. *)
From Verif Require Import Base Flags Sets FilterM ParseM ClientM SerialM Spec SpecM SpecC.

Definition str (o : option bytes) : bytes := match o with Some s => s | None => [] end.

(** The pattern of a rule. *)
Definition pattern (f : filter) : option bytes := option_map fst (f_data f).

(** Two rules with the same type, options, pattern, page domains, tag and host.
    (What follows the pattern in memory and the kept rule text may differ, and
    an empty host counts as none.) *)
Definition same_fields (f g : filter) : Prop :=
  f_type f = f_type g /\ f_opt f = f_opt g /\ f_anti f = f_anti g /\
  pattern f = pattern g /\ f_dom f = f_dom g /\ f_tag f = f_tag g /\
  str (f_host f) = str (f_host g).

(** The same verdict, reporting the same rules. *)
Definition same_report (x y : option filter) : Prop :=
  match x, y with
  | None, None => True | Some f, Some g => same_fields f g | _, _ => False
  end.
Definition same_verdict (v w : verdict) : Prop :=
  v_block v = v_block w /\ same_report (v_filter v) (v_filter w) /\
  same_report (v_exc v) (v_exc w).

(** [f] is the rule of some line. *)
Definition some_rule (f : filter) : Prop := exists p l, line_text l /\ parses_to p l f.

(** The client after further calls. *)
Definition continue (E : env) (c : client) (calls : list call) : res client :=
  foldM (perform E) c calls.

(** The format marks an absent pattern, domain list or host by an empty string,
    and a tag by "~#" where the domain list begins. *)
Definition storable (f : filter) : Prop :=
  pattern f <> Some [] /\ f_dom f <> Some [] /\
  (f_tag f = [] -> forall r, f_dom f <> Some (B "~#" ++ r)).

(** All loaded rules can be stored. *)
Definition all_storable (calls : list call) : Prop :=
  forall p l f, In (p, l) (loaded_lines calls) -> parses_to p l f -> storable f.

(** The bytes of one rule of an array. *)
Definition tag_block (t : bytes) : bytes :=
  match t with [] => [] | _ => B "~#" ++ t ++ B "," end.

Definition rule_record (f : filter) : bytes :=
  cstr (fields [f_type f; f_opt f; f_anti f]) ++ cstr (str (pattern f)) ++
  tag_block (f_tag f) ++ cstr (str (f_dom f)) ++ cstr (str (f_host f)).

(** The arrays that serialize() writes: all but the ignored ones. *)
Definition written (t : tab (list filter)) (ignoreCosmetic ignoreHtml : bool) : tab (list filter) :=
  mkTab (t_filters t) (if ignoreCosmetic then [] else t_cosmetic t)
        (if ignoreHtml then [] else t_html t) (t_exc t) (t_nf t) (t_nfexc t)
        (t_nfd t) (t_nfa t) (t_nfdexc t) (t_nfaexc t).

(** The whole buffer of a client that holds the arrays [t] and whose Bloom
    filters and hash sets are the byte strings [blobs]: twenty numbers, the
    rules array by array, then those byte strings. *)
Definition layout (t : tab (list filter)) (counts : list N) (blobs : list bytes) : bytes :=
  cstr (fields (map (fun k => N.of_nat (length (tget t k))) ser_order ++ counts ++
                map (fun b => N.of_nat (length b)) blobs)) ++
  flat_map rule_record (flat_map (tget t) ser_order) ++ concat blobs.
