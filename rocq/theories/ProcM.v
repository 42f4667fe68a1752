(** Model of the one thing that all clients of a process share: the record of
    unrecognized option names (/repo/ad_block_client.cc:24 [unknownOptions]) and
    the lines written to the console because of it (/repo/filter.cc:326-333). *)
From Verif Require Import Base Flags Sets FilterM ParseM ClientM SerialM OwnM OwnT
  Spec SpecM SpecC SpecU.

(** filter.cc:247-333 [Filter::parseOption]: the name looked up in
    [unknownOptions], if the last branch is taken. *)
Definition unrecognized (seg : bytes) : option bytes :=
  let n := unnegated seg in
  if prefixb (B "domain=") n then None
  else if prefixb (B "tag=") n then None
  else if N.eqb (option_bit n) FOUnknown then Some n else None.

(** The set, and the lines on the console (without their line ends). *)
Record board := mkBoard { b_known : list bytes; b_out : list bytes }.

(** filter.cc:330 *)
Definition announcement (n : bytes) : bytes := B "Unrecognized filter option: " ++ n.

(** filter.cc:329-332 *)
Definition look_up (w : board) (n : bytes) : board :=
  if memb n (b_known w) then w
  else mkBoard (n :: b_known w) (b_out w ++ [announcement n]).

(** The names that parseFilter() looks up for a line, in this order:
    filter.cc:337-353 [parseOptions], called by ad_block_client.cc:384. *)
Definition line_names (pres : bool) (line : bytes * nat) : res (list bytes) :=
  o <- options_read pres line ;;
  Ok (flat_map (fun seg => match unrecognized seg with Some n => [n] | None => [] end)
               (segments o)).

(** The same for several lines, or calls. *)
Fixpoint gather {A} (f : A -> res (list bytes)) (l : list A) : res (list bytes) :=
  match l with
  | [] => Ok []
  | x :: l' => a <- f x ;; b <- gather f l' ;; Ok (a ++ b)
  end.

(** ad_block_client.cc:1082-1469 [parse]: the lines are read twice, first
    (1143) without keeping the texts of the rules, then (1386). *)
Definition text_names (pres : bool) (input : bytes) : res (list bytes) :=
  ls <- lines_of input ;;
  a <- gather (line_names false) ls ;;
  b <- gather (line_names pres) ls ;;
  Ok (a ++ b).

(** The names a call looks up; only parse() does. *)
Definition call_names (x : ncall) : res (list bytes) :=
  match x with Call (Parse pres t) => text_names pres (cstr t) | _ => Ok [] end.

(** A process with any number of clients, and a call on the [i]-th. *)
Record process := mkProc { p_client : nat -> client; p_board : board }.

Definition process0 : process := mkProc (fun _ => client0) (mkBoard [] []).

Definition call_on (E : env) (P : process) (ix : nat * ncall) : res process :=
  let '(i, x) := ix in
  c <- act E (p_client P i) x ;;
  ns <- call_names x ;;
  Ok (mkProc (fun j => if j =? i then c else p_client P j)
             (fold_left look_up ns (p_board P))).

(** ** Threads *)

(** A thread, as far as the set is concerned: the names it has still to look up,
    and whether it has just found the first of them missing and is about to
    insert it (filter.cc:329-331: [find], then [insert]). *)
Record thread := mkThread { t_names : list bytes; t_inserting : bool }.

Record threads := mkThreads { th_known : list bytes; th_of : nat -> thread }.

Definition with_thread (s : threads) (known : list bytes) (i : nat) (t : thread) : threads :=
  mkThreads known (fun j => if j =? i then t else th_of s j).

(** The next access of thread [i] to the set. *)
Definition access (s : threads) (i : nat) : threads :=
  match t_names (th_of s i) with
  | [] => s
  | n :: ns =>
      if t_inserting (th_of s i) then with_thread s (n :: th_known s) i (mkThread ns false)
      else if memb n (th_known s) then with_thread s (th_known s) i (mkThread ns false)
      else with_thread s (th_known s) i (mkThread (n :: ns) true)
  end.

(** A schedule says whose turn it is. *)
Definition run_schedule (s : threads) (turns : list nat) : threads := fold_left access turns s.

(** Two accesses of different threads may happen at the same time and one of
    them changes the set: a data race, which is undefined behaviour for the
    unprotected [std::set]. *)
Definition racing (s : threads) : Prop :=
  exists i j, i <> j /\
    t_inserting (th_of s i) = true /\ t_names (th_of s i) <> [] /\ t_names (th_of s j) <> [].

(** All names that a thread looks up during its calls. *)
Definition calls_names (xs : list ncall) : res (list bytes) := gather call_names xs.
