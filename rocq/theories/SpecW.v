(** Specification side of serialization, for rules that do not survive it. *)
From Verif Require Import Base Flags Sets FilterM ParseM ClientM SerialM Spec SpecM SpecC SpecS.

(** In the format an empty string stands for an absent one. *)
Definition if_any (s : bytes) : option bytes := match s with [] => None | _ => Some s end.

(** What is read where tag [t] and domain list [s] were written: a tag is
    recognised by "~#" and ends at the next comma; without a comma the rest is
    taken for the tag and for the domain list. *)
Definition tag_and_list (t s : bytes) : bytes * bytes :=
  match t with
  | _ :: _ => (t, s)
  | [] =>
      match s with
      | a :: b :: r =>
          if ceq a "~" && ceq b "#" then
            match split_on "," r with
            | u :: _ :: _ => (u, skipn (length u + 1) r)
            | _ => (r, r)
            end
          else ([], s)
      | _ => ([], s)
      end
  end.

(** The rule that comes back from an array ... *)
Definition as_read (f : filter) : filter :=
  mkF (f_type f) (f_opt f) (f_anti f)
      (match f_data f with Some ([], _) => None | o => o end)
      (if_any (snd (tag_and_list (f_tag f) (str (f_dom f)))))
      (fst (tag_and_list (f_tag f) (str (f_dom f))))
      (if_any (str (f_host f))) None.

(** ... and from a set of host rules, where the length of the pattern is
    written out. *)
Definition host_as_read (f : filter) : filter :=
  mkF (f_type f) (f_opt f) (f_anti f) (f_data f)
      (if_any (snd (tag_and_list (f_tag f) (str (f_dom f)))))
      (fst (tag_and_list (f_tag f) (str (f_dom f))))
      (if_any (str (f_host f))) None.

Definition tab_map {A C} (g : A -> C) (t : tab A) : tab C :=
  mkTab (g (t_filters t)) (g (t_cosmetic t)) (g (t_html t)) (g (t_exc t)) (g (t_nf t))
        (g (t_nfexc t)) (g (t_nfd t)) (g (t_nfa t)) (g (t_nfdexc t)) (g (t_nfaexc t)).

(** The client whose rules have been replaced in this way. *)
Definition client_as_read (c : client) : client :=
  mkC (tab_map (map as_read) (c_lists c)) (c_numHA c) (c_numHAE c) (c_bloom c) (c_ebloom c)
      (option_map (map (map host_as_read)) (c_host c))
      (option_map (map (map host_as_read)) (c_ehost c))
      (c_nfd c) (c_nfa c) (c_nfdexc c) (c_nfaexc c) (c_badfp c) (c_stats c) (c_tags c).

(** The domain list of an untagged rule does not look like a tag. *)
Definition list_unlike_tag (f : filter) : Prop :=
  f_tag f = [] -> forall r, f_dom f <> Some (B "~#" ++ r).

(** Its bytes come out the same when it is read and written again. *)
Definition steady (f : filter) : Prop :=
  f_tag f = [] -> forall r, f_dom f = Some (B "~#" ++ r) ->
    exists t s, r = t ++ ","%char :: s /\ t <> [] /\ ~ In ","%char t.

(** All loaded rules are steady. *)
Definition all_steady (calls : list call) : Prop :=
  forall p l f, In (p, l) (loaded_lines calls) -> parses_to p l f -> steady f.
