(** Specification side of clients that are saved and restored on the way. *)
From Verif Require Import Base Flags Sets FilterM ParseM ClientM SerialM Spec SpecM SpecC SpecS.

(** Something that happens in the life of a client: a call, or saving it and
    restoring the bytes (possibly followed by other bytes) into the client
    object [into], which takes its place. *)
Inductive event :=
| Do (k : call)
| Restart (ignoreCosmetic ignoreHtml : bool) (trailing : bytes) (into : client).

(** [UB] stands for a fault and for a failure of deserialize(). *)
Definition happen (E : env) (c : client) (e : event) : res client :=
  match e with
  | Do k => perform E c k
  | Restart nc nh r d =>
      b <- serialize c nc nh ;;
      x <- deserialize (b ++ r) d ;;
      if snd x then Ok (fst x) else UB
  end.

Definition life (E : env) (es : list event) : res client := foldM (happen E) client0 es.

(** The calls alone. *)
Fixpoint calls_of (es : list event) : list call :=
  match es with
  | [] => []
  | Do k :: r => k :: calls_of r
  | Restart _ _ _ _ :: r => calls_of r
  end.

(** Whenever the client is saved, its rules can be stored, and it is restored
    into an object in which the same tags are enabled. *)
Definition restarts_ok (es : list event) : Prop :=
  forall a nc nh r d b, es = a ++ Restart nc nh r d :: b ->
    all_storable (calls_of a) /\
    forall t, tagExists d t = true <-> tag_enabled (calls_of a) t.

(** No save leaves anything out. *)
Definition saves_all (es : list event) : Prop :=
  forall nc nh r d, In (Restart nc nh r d) es -> nc = false /\ nh = false.
