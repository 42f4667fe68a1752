(** C104: an unrecognized option is announced once.  C105: loading lists in
    several threads. *)
From Verif Require Import Base Flags Url Sets FilterM ParseM ClientM SerialM OwnM OwnT ProcM
  Spec SpecM SpecC SpecE SpecG SpecLine SpecU SpecProc P_Base P_List P_Read3 P_Read4 P_Opt P_Proc2.

(** Whatever is called on any number of clients in any order: the console shows
    the unknown option names mentioned in the loaded lists, each once, in the
    order in which they are first mentioned. *)
Theorem C104_console : forall E xs P ms,
  Forall ncall_ok (map snd xs) -> foldM (call_on E) process0 xs = Ok P ->
  mentions (map snd xs) ms ->
  exists ns, first_mentions ms ns /\ b_out (p_board P) = map notice ns.
Proof. exact console. Qed.
Print Assumptions C104_console.

Theorem C104_once : forall E xs P ms,
  Forall ncall_ok (map snd xs) -> foldM (call_on E) process0 xs = Ok P ->
  mentions (map snd xs) ms ->
  NoDup (b_out (p_board P)) /\
  forall s, In s (b_out (p_board P)) <-> exists n, In n ms /\ s = notice n.
Proof. exact console_once. Qed.
Print Assumptions C104_once.

(** For all calls there is such a list of names. *)
Theorem C104_mentions : forall xs, exists ms, mentions xs ms.
Proof. exact mentions_exist. Qed.
Print Assumptions C104_mentions.

(** The record of names is all that the clients share: each is what the calls
    made on it alone make of it, and nothing goes wrong that does not go wrong
    with one client alone. *)
Theorem C104_clients : forall E xs P,
  foldM (call_on E) process0 xs = Ok P ->
  forall i, foldM (act E) client0 (calls_of i xs) = Ok (p_client P i).
Proof. exact clients_apart. Qed.
Print Assumptions C104_clients.

Theorem C104_defined : forall E xs,
  Forall ncall_ok (map snd xs) ->
  ((exists P, foldM (call_on E) process0 xs = Ok P) <->
   forall i, exists c, foldM (act E) client0 (calls_of i xs) = Ok c).
Proof. exact process_defined. Qed.
Print Assumptions C104_defined.

(** Two clients; "foo" is mentioned three times, once negated and once by the
    other client; "sc" stands for "script". *)
Definition E1 : env := mkEnv [] [] [] (fun _ => 0%N) (fun _ _ => false).
Definition two_clients : list (nat * ncall) :=
  [(0, Call (Parse true (B "/ad$foo,sc,~bar"))); (1, Call (Parse false (B "/x$~foo,domain=a.com,baz")));
   (0, Call (AddTag (B "t"))); (0, Call (Parse false (B "/y$foo")))].

Example C104_example :
  Forall ncall_ok (map snd two_clients) /\
  (exists P, foldM (call_on E1) process0 two_clients = Ok P /\
     b_out (p_board P) =
     [B "Unrecognized filter option: foo"; B "Unrecognized filter option: bar";
      B "Unrecognized filter option: baz"]).
Proof.
  split.
  - repeat (apply Forall_cons; [first [now apply nonulb_ok|exact I]|]). apply Forall_nil.
  - eexists. split; [vm_compute; reflexivity|]. reflexivity.
Qed.

(** What one of the lines mentions. *)
Example line_example : line_mentions (B "/ad$foo,sc,~bar") [B "foo"; B "bar"].
Proof.
  assert (Q : exists ns, line_mentions (B "/ad$foo,sc,~bar") ns) by apply line_mentions_exists.
  destruct Q as (ns & Q).
  assert (L : is_line (cstr (B "/ad$foo,sc,~bar"), 15) (B "/ad$foo,sc,~bar")).
  { exists NUL, []. split; [now left|]. split; [reflexivity|]. split; [reflexivity|].
    intros c H. cbn in H. repeat (destruct H as [<-|H]; [repeat split; discriminate|]). easy. }
  pose proof (line_names_spec true _ _ _ L Q) as K. vm_compute in K.
  assert (ns = [B "foo"; B "bar"]) as <- by (vm_compute; congruence). exact Q.
Qed.

(** ** Threads *)

(** Every thread loads lists into clients of its own.  There is no data race,
    whatever the schedule, *)
Definition no_race (known : list bytes) (prog : nat -> list ncall) : Prop :=
  forall names, (forall i, calls_names (prog i) = Ok (names i)) ->
  forall turns,
    ~ racing (run_schedule (mkThreads known (fun i => mkThread (names i) false)) turns).

(** Two threads whose lists have one unknown option each do race. *)
Definition two_threads (i : nat) : list ncall :=
  match i with
  | 0 => [Call (Parse false (B "/ad$foo"))]
  | 1 => [Call (Parse false (B "/x$bar"))]
  | _ => []
  end.

Theorem C105_refuted :
  ~ (forall known prog, (forall i, Forall ncall_ok (prog i)) -> no_race known prog).
Proof.
  intros H.
  apply (H [] two_threads) with
    (names := fun i => match i with
                       | 0 => [B "foo"; B "foo"] | 1 => [B "bar"; B "bar"] | _ => [] end)
    (turns := [0]).
  - intros [|[|i]]; [..|constructor]; (apply Forall_cons; [now apply nonulb_ok|apply Forall_nil]).
  - intros [|[|i]]; reflexivity.
  - exists 0, 1. vm_compute. repeat split; discriminate.
Qed.
Print Assumptions C105_refuted.

(** Exactly when they race: one of them loads a list with an unknown option that
    has not been announced before the threads start, and another one a list with
    any unknown option. *)
Theorem C105_race_iff : forall known prog ms,
  (forall i, Forall ncall_ok (prog i)) -> (forall i, mentions (prog i) (ms i)) ->
  (no_race known prog <->
   forall i j n, i <> j -> In n (ms i) -> ms j <> [] -> In n known).
Proof. exact no_race_exactly. Qed.
Print Assumptions C105_race_iff.

(** So threads that load only lists without unknown options never do. *)
Theorem C105_known_options_partial : forall known prog,
  (forall i, Forall ncall_ok (prog i)) -> (forall i, mentions (prog i) []) ->
  no_race known prog.
Proof.
  intros known prog K M. apply (proj2 (C105_race_iff known prog (fun _ => []) K M)). now intros i j n _ [].
Qed.
Print Assumptions C105_known_options_partial.

(** A thread that only knows "script", beside one whose unknown option has been
    announced. *)
Example C105_example : forall ms, (forall i, mentions (two_threads i) (ms i)) ->
  no_race [B "foo"; B "bar"] two_threads.
Proof.
  intros ms M. apply (C105_race_iff _ _ ms); auto.
  - intros [|[|i]]; [..|constructor]; (apply Forall_cons; [now apply nonulb_ok|apply Forall_nil]).
  - intros i j n _ I _. specialize (M i).
    destruct (calls_names_spec (two_threads i) (ms i)) as (ns & A & H); auto.
    + destruct i as [|[|i]]; [..|constructor]; (apply Forall_cons; [now apply nonulb_ok|apply Forall_nil]).
    + apply H in I. destruct i as [|[|i]]; vm_compute in A; injection A as <-; cbn in I |- *; tauto.
Qed.
