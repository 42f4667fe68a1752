(** Specification: which of the rules that apply is the one reported. *)
From Verif Require Import Base Flags Url Sets FilterM ParseM ClientM Spec SpecM SpecC.

(** Block rules, and likewise exception rules, form five groups: those with a
    fingerprint (six bytes of the pattern that have to occur in the URL), the host rules
    '||host^', and of the others those restricted to listed page domains, those
    with only excluded page domains, and the rest. *)
Inductive group := Listed | Excluded | Plain | Hosts | Fingerprinted.

Definition group_class (e : bool) (g : group) : cls :=
  match g with
  | Listed => only_listed e
  | Excluded => only_excluded e
  | Plain => CList (if e then KNoFpExc else KNoFp)
  | Hosts => CHost e
  | Fingerprinted => CList (if e then KException else KFilters)
  end.

(** [f] is a loaded rule of the group. *)
Definition in_group (E : env) (calls : list call) (e : bool) (g : group) (f : filter) : Prop :=
  loaded_in E calls (group_class e g) f.

(** The order in which the groups are tried by matches(), and by
    findMatchingFilters() for block rules and for exception rules. *)
Definition asked_order : list group := [Listed; Excluded; Plain; Hosts; Fingerprinted].
Definition found_order (e : bool) : list group :=
  if e then [Plain; Listed; Excluded; Hosts; Fingerprinted]
  else [Plain; Listed; Excluded; Fingerprinted; Hosts].

(** No rule of an earlier line that belongs to the group applies. *)
Definition first_line (E : env) (calls : list call) (e : bool) (g : group) (url : bytes)
    (context : N) (dom : option bytes) (f : filter) : Prop :=
  exists a pres l b, loaded_lines calls = a ++ (pres, l) :: b /\ parses_to pres l f /\
    forall pres' l' f', In (pres', l') a -> parses_to pres' l' f' ->
      in_group E calls e g f' -> ~ applies E calls f' url context dom.

(** No rule for a shorter host applies. *)
Definition shortest_host (E : env) (calls : list call) (e : bool) (url : bytes)
    (context : N) (dom : option bytes) (P : filter -> Prop) (f : filter) : Prop :=
  exists h, f_host f = Some h /\
    forall f' h', P f' -> in_group E calls e Hosts f' -> f_host f' = Some h' ->
      applies E calls f' url context dom -> length h <= length h'.

(** [g] reports, among the rules in [P], the first one that applies: no rule of
    a group tried earlier applies, and in its group it comes from the first
    line, or has the shortest host. *)
Definition first_report (E : env) (calls : list call) (e : bool) (order : list group)
    (url : bytes) (context : N) (dom : option bytes) (P : filter -> Prop) (g : filter) : Prop :=
  exists earlier grp later f, order = earlier ++ grp :: later /\
    in_group E calls e grp f /\ P f /\ applies E calls f url context dom /\ same_content f g /\
    (forall grp' f', In grp' earlier -> in_group E calls e grp' f' -> P f' ->
                     ~ applies E calls f' url context dom) /\
    match grp with
    | Hosts => shortest_host E calls e url context dom P f
    | _ => first_line E calls e grp url context dom f
    end.

(** Two queries report the same. *)
Definition same_report (o o' : option filter) : Prop :=
  match o, o' with
  | Some g, Some g' => same_content g g'
  | None, None => True
  | _, _ => False
  end.
