(** Specification for several clients in one process. *)
From Verif Require Import Base ClientM OwnM ManyM SpecO.

(** For every client created so far: destroyed ([None]), or the buffer its rules
    live in, if any. *)
Definition books := list (option (option nat)).

Definition book_after (bk : books) (e : mevent) : books :=
  match e with
  | MCreate => bk ++ [Some None]
  | MCall i e =>
      match nth_error bk i with
      | Some (Some cur) => put i (Some (buffer_after cur e)) bk
      | _ => bk
      end
  | MDestroy i => put i None bk
  | MCopy i =>
      match nth_error bk i with
      | Some c => bk ++ [c]
      | None => bk
      end
  | MAlloc | MFree _ => bk
  end.

(** What the interface asks of the application: only clients that exist are
    used, each of them as if it were the only one ([polite]), and only blocks
    of the application are freed by it.  Nothing is said about the clients
    among each other; several may live in the same buffer. *)
Definition polite_m (app : list nat) (bk : books) (e : mevent) : Prop :=
  match e with
  | MCall i e => exists cur, nth_error bk i = Some (Some cur) /\ polite app cur e
  | MDestroy i | MCopy i => exists cur, nth_error bk i = Some (Some cur)
  | MFree b => In b app
  | MCreate | MAlloc => True
  end.

Fixpoint used_well_m (s : crowd) (bk : books) (es : list mevent) : Prop :=
  match es with
  | [] => True
  | e :: es' =>
      polite_m (cr_app s) bk e /\
      (forall s', mstep s e = Ok s' -> used_well_m s' (book_after bk e) es')
  end.

Definition no_copy (es : list mevent) : Prop := forall i, ~ In (MCopy i) es.

(** The calls made on client [i]. *)
Definition calls_on (i : nat) (es : list mevent) : list event :=
  flat_map (fun e => match e with
                     | MCall j e => if Nat.eqb i j then [e] else []
                     | _ => []
                     end) es.

(** All calls, whatever the client. *)
Definition all_calls (es : list mevent) : list event :=
  flat_map (fun e => match e with MCall _ e => [e] | _ => [] end) es.

(** The client has been given something to hold since it was last cleared. *)
Definition occupied_after (o : bool) (e : event) : bool :=
  match e with
  | EParse _ | EDeserialize _ _ | EEnable => true
  | EClear => false
  | _ => o
  end.
Definition occupied (i : nat) (es : list mevent) : bool :=
  fold_left occupied_after (calls_on i es) false.

(** Whenever a client is copied, it holds nothing. *)
Definition copies_empty (es : list mevent) : Prop :=
  forall before i after, es = before ++ MCopy i :: after -> occupied i before = false.
