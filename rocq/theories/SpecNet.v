(** Specification of loading lists over the network. *)
From Coq Require Import Permutation.
From Verif Require Import Base NetM.

(** The first answer to request [i], the one that counts. *)
Definition first_answer (i : nat) (arrived : list (nat * answer)) : option answer :=
  option_map snd (find (fun x => Nat.eqb (fst x) i) arrived).

(** An answer with a list. *)
Definition delivers (a : answer) (body : bytes) : Prop := a = Answered (B "200") body.

(** Every request has been answered with its list: [bodies], in the order of the
    addresses. *)
Definition all_delivered (n : nat) (arrived : list (nat * answer)) (bodies : list bytes) : Prop :=
  length bodies = n /\
  forall i b, nth_error bodies i = Some b ->
    exists a, first_answer i arrived = Some a /\ delivers a b.

(** An answer without a list and what is said about it. *)
Inductive bad_answer (url : bytes) : answer -> bytes -> Prop :=
| bad_request e : bad_answer url (Failed e) (B "Request error: " ++ e)
| bad_status st body : st <> B "200" ->
    bad_answer url (Answered st body) (B "Error status code " ++ st ++ B " returned for URL: " ++ url).

(** The first request that fails, in the order of arrival, fails with [m]. *)
Definition first_failure (urls : list bytes) (arrived : list (nat * answer)) (m : bytes) : Prop :=
  exists before i a after url,
    arrived = before ++ (i, a) :: after /\
    nth_error urls i = Some url /\ first_answer i before = None /\ bad_answer url a m /\
    forall j b, j < length urls -> first_answer j before = Some b -> exists body, delivers b body.

(** Every request is answered at most once. *)
Definition answered_once (arrived : list (nat * answer)) : Prop := NoDup (map fst arrived).
