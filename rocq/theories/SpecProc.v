(** What is announced about options that are not recognized (C104), and when
    threads may load lists at the same time (C105). *)
From Verif Require Import Base Flags Sets FilterM ParseM ClientM SerialM OwnM OwnT
  Spec SpecM SpecC SpecG SpecLine SpecU.

(** The options of a line, according to its reading (SpecLine.v). *)
Definition options_of (m : reading) : option bytes :=
  match m with
  | IsOptions o | IsRule _ _ _ _ _ (WithOptions o) _ => Some o
  | _ => None
  end.

(** The name in an option, which may be negated. *)
Definition named (p n : bytes) : Prop := p = n /\ ~ begins (B "~") n \/ p = B "~" ++ n.

(** The unknown names among the options, in their order. *)
Inductive unknown_among : list bytes -> list bytes -> Prop :=
| ua_nil : unknown_among [] []
| ua_unknown p n ps ns :
    named p n -> denotes n FOUnknown -> unknown_among ps ns -> unknown_among (p :: ps) (n :: ns)
| ua_known p n ps ns :
    named p n -> ~ denotes n FOUnknown -> unknown_among ps ns -> unknown_among (p :: ps) ns.

(** The unknown names that a line mentions; *)
Inductive line_mentions (l : bytes) : list bytes -> Prop :=
| lm_options m o parts ns :
    reads l m -> within l m -> options_of m = Some o -> cut_at "," o parts ->
    unknown_among parts ns -> line_mentions l ns
| lm_none m :
    reads l m -> options_of m = None \/ ~ within l m -> line_mentions l [].

(** a call; *)
Inductive call_mentions : ncall -> list bytes -> Prop :=
| cm_parse pres t nss :
    Forall2 line_mentions (text_lines t) nss -> call_mentions (Call (Parse pres t)) (concat nss)
| cm_other x : (forall pres t, x <> Call (Parse pres t)) -> call_mentions x [].

(** several calls. *)
Inductive mentions : list ncall -> list bytes -> Prop :=
| me_nil : mentions [] []
| me_call x ms xs ns : call_mentions x ms -> mentions xs ns -> mentions (x :: xs) (ms ++ ns).

(** [ns] are the names in [ms], each where it is mentioned first. *)
Inductive first_mentions : list bytes -> list bytes -> Prop :=
| fm_nil : first_mentions [] []
| fm_new ms ns n : first_mentions ms ns -> ~ In n ms -> first_mentions (ms ++ [n]) (ns ++ [n])
| fm_again ms ns n : first_mentions ms ns -> In n ms -> first_mentions (ms ++ [n]) ns.

(** What the console says about a name. *)
Definition notice (n : bytes) : bytes := B "Unrecognized filter option: " ++ n.

(** The calls made on the [i]-th client. *)
Definition calls_of (i : nat) (xs : list (nat * ncall)) : list ncall :=
  map snd (List.filter (fun x => fst x =? i) xs).
