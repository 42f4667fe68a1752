(** What a rule is expected to say about its page domains (C107). *)
From Verif Require Import Base Flags FilterM Spec DomM.

(** The pieces of a domain list: those with a '~' in front are excluded. *)
Inductive entries : list bytes -> list bytes -> list bytes -> Prop :=
| en_nil : entries [] [] []
| en_listed d ps l e : ~ begins (B "~") d -> entries ps l e -> entries (d :: ps) (d :: l) e
| en_excluded d ps l e : entries ps l e -> entries ((B "~" ++ d) :: ps) l (d :: e).

Definition named (m : option bytes) (listed excluded : list bytes) : Prop :=
  match m with
  | None => listed = [] /\ excluded = []
  | Some dl => exists parts, cut_at "|" dl parts /\ entries parts listed excluded
  end.

(** The number of entries, or of different entries if the library's set drops
    equal ones. *)
Definition counted (multi : bool) (l : list bytes) (n : nat) : Prop :=
  if multi then n = length l
  else exists l', NoDup l' /\ (forall d, In d l' <-> In d l) /\ n = length l'.

(** The rule with another domain list. *)
Definition with_domains (f : filter) (m : option bytes) : filter :=
  mkF (f_type f) (f_opt f) (f_anti f) (f_data f) m (f_tag f) (f_host f) (f_rule f).

(** The answer [a] to [q] is that of the rule [g] with the domain list [m]. *)
Definition answers_as (multi : bool) (g : filter) (m : option bytes) (q : rop) (a : reply) : Prop :=
  exists listed excluded, named m listed excluded /\
  match q with
  | Count anti => exists n, a = Number n /\ counted multi (if anti then excluded else listed) n
  | Only anti => exists b, a = Said b /\
      (b = true <-> if anti then excluded <> [] /\ listed = [] else listed <> [] /\ excluded = [])
  | Contains d anti => exists b, a = Said b /\ (b = true <-> In d (if anti then excluded else listed))
  | Admits context dom => a = Said (matchesOptions (with_domains g m) context dom)
  | SetOptions _ | Copied => a = Silent
  end.

(** A question for which the rule [g] looks at its domain list. *)
Definition looks (g : filter) (q : rop) : bool :=
  match q with
  | Count _ | Only _ => true
  | Admits context (Some _) => typesAdmit g context
  | _ => false
  end.

(** The rule after a question, and the domain list it has taken in: the one it
    had when it first looked. *)
Definition note (s : filter * option bytes) (q : rop) : filter * option bytes :=
  let '(g, m) := s in
  match q with
  | SetOptions text => (match parseOptions g (cstr text) with Ok h => h | UB => g end, m)
  | Copied => (g, None)
  | _ => (g, if looks g q then match m with Some dl => Some dl | None => f_dom g end else m)
  end.

Definition stands (f : filter) (qs : list rop) : filter * option bytes := fold_left note qs (f, None).

(** The domain list that the answer to [q] goes by. *)
Definition consulted (g : filter) (m : option bytes) (q : rop) : option bytes :=
  match q, m with
  | Contains _ _, _ => m
  | _, Some dl => Some dl
  | _, None => f_dom g
  end.

(** Texts are C strings. *)
Definition good_rop (q : rop) : Prop := match q with SetOptions t => nonul t | _ => True end.
Definition good_domains (f : filter) : Prop := forall dl, f_dom f = Some dl -> nonul dl.
