(** Model of the loading of lists over the network, /repo/lib/util.js: the
    requests are sent all at once and answered in any order, each promise is
    settled by the first answer, and [Promise.all] collects the results.

    Simplifications: the status code of an answer is given by its decimal digits,
    an error by the text it is printed as; the reactions of promises run right
    after the answer that caused them, as Node does before the next event. *)
From Verif Require Import Base Flags FilterM ClientM JsM ManyM.

(** What a request is answered with. *)
Inductive answer := Failed (error : bytes) | Answered (status body : bytes).

(** ECMAScript: the states of a promise; an error is given by its message. *)
Inductive promise (A : Type) := Waiting | Fulfilled (a : A) | Rejected (message : bytes).
Arguments Waiting {A}.
Arguments Fulfilled {A} a.
Arguments Rejected {A} message.

(** lib/util.js:61-79 [getSingleListDataFromSingleURL]: how the answer settles the
    promise of the list. *)
Definition settle (filter : option (bytes -> bytes)) (url : bytes) (a : answer) : promise bytes :=
  match a with
  | Failed error => Rejected (B "Request error: " ++ error)
  | Answered status body =>
      if beq status (B "200") then Fulfilled (singleListData filter body)
      else Rejected (B "Error status code " ++ status ++ B " returned for URL: " ++ url)
  end.

(** [Promise.all] (ECMAScript 27.2.4.1.2): the promises waited for, the values
    that arrived, how many are missing, and the promise returned. *)
Record gathering := mkGa {
  ga_each : list (promise bytes);
  ga_values : list (option bytes);
  ga_left : nat;
  ga_all : promise (list bytes)
}.

Fixpoint present {A} (l : list (option A)) : list A :=
  match l with
  | [] => []
  | Some a :: l' => a :: present l'
  | None :: l' => present l'
  end.

Definition gather (n : nat) : gathering :=
  mkGa (repeat Waiting n) (repeat None n) n (if Nat.eqb n 0 then Fulfilled [] else Waiting).

(** A settled promise stays as it is. *)
Definition settle_all (p : promise (list bytes)) (q : promise (list bytes)) : promise (list bytes) :=
  match p with Waiting => q | _ => p end.

(** An answer to request [i] arrives. *)
Definition arrive (filter : option (bytes -> bytes)) (urls : list bytes) (g : gathering)
    (x : nat * answer) : gathering :=
  let '(i, a) := x in
  match nth_error urls i, nth_error (ga_each g) i with
  | Some url, Some Waiting =>
      let p := settle filter url a in
      let each := put i p (ga_each g) in
      match p with
      | Fulfilled v =>
          let values := put i (Some v) (ga_values g) in
          let left := ga_left g - 1 in
          mkGa each values left
               (if Nat.eqb left 0 then settle_all (ga_all g) (Fulfilled (present values)) else ga_all g)
      | Rejected m => mkGa each (ga_values g) (ga_left g) (settle_all (ga_all g) (Rejected m))
      | Waiting => g
      end
  | _, _ => g
  end.

(** lib/util.js:96-104 [makeAdBlockClientFromListURL] with an array, after the
    answers [arrived]. *)
Definition loadURLs (E : env) (keep : bool) (filter : option (bytes -> bytes)) (urls : list bytes)
    (arrived : list (nat * answer)) : promise (res client) :=
  match ga_all (fold_left (arrive filter urls) arrived (gather (length urls))) with
  | Waiting => Waiting
  | Fulfilled results => Fulfilled (clientFromStrings E keep [sanitizeABPInput (join_lf results)])
  | Rejected m => Rejected (B "getSingleListDataFromSingleURL error: Error: " ++ m)
  end.

(** lib/util.js:105-114: with a single address. *)
Definition loadURL (E : env) (keep : bool) (filter : option (bytes -> bytes)) (url : bytes)
    (arrived : list answer) : promise (res client) :=
  match arrived with
  | [] => Waiting
  | a :: _ =>
      match settle filter url a with
      | Waiting => Waiting
      | Fulfilled data => Fulfilled (clientFromStrings E keep [sanitizeABPInput data])
      | Rejected m => Rejected (B "getSingleListDataFromSingleURL error: Error: " ++ m)
      end
  end.
