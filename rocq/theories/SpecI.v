(** Exactly when a further rule changes what earlier rules say (C30, C31), and
    the buckets of the selector table (C58). *)
From Verif Require Import Base Flags Url Sets FilterM ParseM ClientM Spec SpecM SpecC SpecK.

(** The domain list of [g] excludes the page: its domain or a suffix of it with a
    dot in it.  (Without a page: the empty domain, if the index happens to look
    for it.) *)
Definition excludes_this_page (E : env) (g : filter) (dom : option bytes) : Prop :=
  exists dl s, f_dom g = Some dl /\ excludes_domain dl s /\
    match dom with
    | Some d => looked_up d s
    | None => s = [] /\ (e_hash E [] mod 100 = 0)%N
    end.

(** A line for [g] behind the lines [before] makes matches() skip the rule [f]:
    both are short rules with excluded page domains only and [g] excludes the
    page, or both are host rules for one host that has no rule yet. *)
Definition shadows (E : env) (before : list (bool * bytes)) (e : bool) (g : filter)
    (dom : option bytes) (f : filter) : Prop :=
  (classify E g = Ok (only_excluded e) /\ classify E f = Ok (only_excluded e) /\
   excludes_this_page E g dom) \/
  (host_rule e g /\ host_rule e f /\
   exists h, f_host g = Some h /\ f_host f = Some h /\ no_host_rule e h before).

(** The text for the distinct selectors of one bucket, in some order. *)
Definition bucket_text (hash : bytes -> N) (sels : list bytes) (i : N) (out : bytes) : Prop :=
  exists once, NoDup once /\ (forall s, In s once <-> In s sels /\ (hash s mod 1000 = i)%N) /\
    out = comma_list once.

(** The page that JavaScript makes of an omitted argument (C57). *)
Definition undefined : bytes := B "undefined".
