(** Bytes, the result monad with undefined behaviour, and C string functions.

    A [char] is an [ascii].  A pointer into an allocation is the list of the
    bytes from the pointer to the end of that allocation, so [p + k] is
    [skipn k p] and reading past the end of the list is [UB].  This file models
    the parts of <string.h> used by /repo/filter.cc and
    /repo/ad_block_client.cc. *)
From Coq Require Export Ascii String NArith ZArith Bool Lia Arith.
From Coq Require Export List.
Export ListNotations.
Open Scope list_scope.
Open Scope nat_scope.

Definition bytes := list ascii.

(** Byte string literals. *)
Definition B (s : string) : bytes := list_ascii_of_string s.
Arguments B s%string_scope.

Definition NUL : ascii := zero.
Definition CR : ascii := ascii_of_nat 13.
Definition LF : ascii := ascii_of_nat 10.
Definition TAB : ascii := ascii_of_nat 9.

Definition ceq (a b : ascii) : bool := Ascii.eqb a b.

Fixpoint beq (a b : bytes) : bool :=
  match a, b with
  | [], [] => true
  | x :: a', y :: b' => ceq x y && beq a' b'
  | _, _ => false
  end.

(** Outcome of a C++ computation: a value, or undefined behaviour (an
    out-of-bounds access, a null dereference, an overflowing copy). *)
Inductive res (A : Type) : Type :=
| Ok (a : A)
| UB.
Arguments Ok {A} a.
Arguments UB {A}.

Definition bind {A C} (r : res A) (k : A -> res C) : res C :=
  match r with Ok a => k a | UB => UB end.

Notation "x <- r ;; k" := (bind r (fun x => k))
  (at level 61, r at next level, right associativity).

Definition rmap {A C} (f : A -> C) (r : res A) : res C :=
  match r with Ok a => Ok (f a) | UB => UB end.

(** [*p] *)
Definition deref (p : bytes) : res ascii :=
  match p with [] => UB | c :: _ => Ok c end.

(** [p[i]] *)
Definition rd (p : bytes) (i : nat) : res ascii :=
  match nth_error p i with Some c => Ok c | None => UB end.

(** A C string holding [s]. *)
Definition cstr (s : bytes) : bytes := s ++ [NUL].

Definition nonul (s : bytes) : Prop := ~ In NUL s.

(** strlen *)
Fixpoint strlen (p : bytes) : res nat :=
  match p with
  | [] => UB
  | c :: p' => if ceq c NUL then Ok 0 else rmap S (strlen p')
  end.

(** [!strcmp(p, q)] *)
Fixpoint strcmp_eq (p q : bytes) : res bool :=
  match p, q with
  | a :: p', b :: q' =>
      if ceq a b then (if ceq a NUL then Ok true else strcmp_eq p' q')
      else Ok false
  | _, _ => UB
  end.

(** [!strncmp(p, q, n)] *)
Fixpoint strncmp_eq (p q : bytes) (n : nat) : res bool :=
  match n with
  | 0 => Ok true
  | S n' =>
      match p, q with
      | a :: p', b :: q' =>
          if ceq a b then (if ceq a NUL then Ok true else strncmp_eq p' q' n')
          else Ok false
      | _, _ => UB
      end
  end.

(** [pre] is a prefix of [s]. *)
Fixpoint prefixb (pre s : bytes) : bool :=
  match pre, s with
  | [], _ => true
  | a :: pre', b :: s' => ceq a b && prefixb pre' s'
  | _ :: _, [] => false
  end.

(** strstr: offset of the first occurrence of [needle] in the C string [p]. *)
Fixpoint strstr (p needle : bytes) : res (option nat) :=
  match p with
  | [] => UB
  | c :: p' =>
      if prefixb needle p then Ok (Some 0)
      else if ceq c NUL then Ok None
      else rmap (option_map S) (strstr p' needle)
  end.

(** filter.h:223-225 [isEndOfLine] *)
Definition isEndOfLine (c : ascii) : bool := ceq c CR || ceq c LF.

Definition N_of_char (c : ascii) : N := N_of_ascii c.
