(** When the search for a pattern reads behind the URL (C17), in terms of byte
    strings and positions, and of the Bloom filter handed to the search. *)
From Verif Require Import Base Flags Sets FilterM ClientM Spec.

(** The piece is laid over the end of the URL from offset [i] on: [a] covers the
    rest of the URL, [c] stands at the terminator, [b] behind it. *)
Definition runs_out (url piece : bytes) (i : nat) (a : bytes) (c : ascii)
  (b : bytes) : Prop :=
  piece = a ++ c :: b /\ i < length url /\ i + length a = length url /\
  piece_at a url i.

(** The search for [piece] from offset [from] on reads behind the terminator: it
    comes to an offset where a '^' stands at the terminator and is not the last
    character; before it no offset fits, and no offset makes the search give up
    (another character at the terminator). *)
Definition overread (url : bytes) (from : nat) (piece : bytes) : Prop :=
  from + length piece <= length url /\
  exists i a b, from <= i /\ runs_out url piece i a "^" b /\ b <> [] /\
    forall j, from <= j -> j < i ->
      ~ piece_at piece url j /\
      forall a' c b', runs_out url piece j a' c b' -> c = "^"%char.

Definition first_found (url : bytes) (from : nat) (piece : bytes) (i : nat) : Prop :=
  piece_found url from piece i /\
  forall j, piece_found url from piece j -> i <= j.

(** The same for a whole pattern: the pieces before are found, each at its first
    place.  [searched] says which pieces are searched for at all. *)
Inductive overreads (searched : bytes -> Prop) (url : bytes)
  : nat -> list bytes -> Prop :=
| or_here from piece more :
    searched piece -> overread url from piece ->
    overreads searched url from (piece :: more)
| or_next from piece i more :
    first_found url from piece i ->
    overreads searched url (i + length piece) more ->
    overreads searched url from (piece :: more).

(** A piece is skipped (and the rule rejected) if the pair test [known] refuses
    two neighbouring characters, the last pair excepted, neither of which is a
    separator. *)
Definition pairs_known (known : bytes -> bool) (piece : bytes) : Prop :=
  forall l x y r, piece = l ++ x :: y :: r -> r <> [] ->
    In x separators \/ In y separators \/ known [x; y] = true.

(** The pieces for which [Filter::matches] searches when handed the Bloom filter
    [bf] (all without one). *)
Definition searched (E : env) (bf : option bloom) (piece : bytes) : Prop :=
  forall b, bf = Some b -> pairs_known (bl_exists (e_hash2 E) b) piece.
