(** What threads that query one client at the same time may expect (C106). *)
From Verif Require Import Base Flags Sets FilterM ParseM ClientM Spec SpecM SpecC ConcM.

(** What the client answers if nobody else asks. *)
Definition says (E : env) (c : client) (q : question) (v : verdict) : Prop :=
  match q with
  | Matches url context dom => exists c', matches E c (cstr url) context dom = Ok (v, c')
  | Finds url context dom => findMatchingFilters E c (cstr url) context dom = Ok v
  end.

Definition answerable (E : env) (c : client) (prog : nat -> list question) : Prop :=
  forall i q, In q (prog i) -> exists v, says E c q v.

(** Answering [q] changes the counter [k]. *)
Definition changes (E : env) (c : client) (q : question) (k : counter) : Prop :=
  match q with
  | Matches url context dom =>
      exists v c', matches E c (cstr url) context dom = Ok (v, c') /\
        count_of (c_stats c') k <> count_of (c_stats c) k
  | Finds _ _ _ => False
  end.

(** Answering [q] consults the memo [m]. *)
Definition consults (E : env) (c : client) (q : question) (m : memo) : Prop :=
  exists ms, In m ms /\
    match q with
    | Matches url context dom => matches_memos E c (cstr url) context dom = Ok ms
    | Finds url context dom => find_memos E c (cstr url) context dom = Ok ms
    end.

(** No two threads consult a memo that is still empty. *)
Definition memos_apart (E : env) (c : client) (filled : list memo) (prog : nat -> list question) : Prop :=
  forall i j q q' m, i <> j -> In q (prog i) -> In q' (prog j) ->
    consults E c q m -> consults E c q' m -> In m filled.

(** All matches() questions of the threads 0, ..., n-1, one after the other. *)
Definition asks_of (qs : list question) : list call :=
  flat_map (fun q => match q with
                     | Matches url context dom => [Ask url context dom]
                     | Finds _ _ _ => []
                     end) qs.

Definition in_turn (n : nat) (prog : nat -> list question) : list call :=
  flat_map (fun i => asks_of (prog i)) (seq 0 n).

(** Every thread has got all its answers. *)
Definition finished (s : scene) : Prop :=
  forall i, t_todo (sc_thread s i) = [] /\ t_due (sc_thread s i) = [].

(** Whatever the schedule, there is no data race. *)
Definition race_free (E : env) (c : client) (filled : list memo) (prog : nat -> list question) : Prop :=
  forall turns s, run E c filled prog turns = Ok s -> ~ racing s.

(** The rule at a place of the client. *)
Definition stored_at (E : env) (c : client) (r : place) (f : filter) : Prop :=
  match r with
  | Listed k n => nth_error (tget (c_lists c) k) n = Some f
  | Hosted exc h =>
      exists s, (if exc then c_ehost c else c_host c) = Some s /\ hs_find hkey (e_hash E) s h = Some f
  end.

(** Trying the rule [f] at [r] for a request needs the memo [m]: the length of
    its pattern if the options admit the request, its domains if the request has
    a domain and the options checked before the domains admit the request. *)
Definition needs (r : place) (f : filter) (context : N) (dom : option bytes) (m : memo) : Prop :=
  (m = Length r /\ (exists k n, r = Listed k n) /\ f_data f <> None /\
   matchesOptions f context dom = true) \/
  (m = Domains r /\ f_dom f <> None /\ dom <> None /\ reaches_domains f context = true).

Definition url_of (q : question) : bytes := match q with Matches u _ _ | Finds u _ _ => u end.
Definition context_of (q : question) : N := match q with Matches _ x _ | Finds _ x _ => x end.
Definition dom_of (q : question) : option bytes := match q with Matches _ _ d | Finds _ _ d => d end.

(** The arrays with the rules that block. *)
Definition block_kinds : list kind := [KNoFp; KNoFpDom; KNoFpAnti; KFilters].
Definition exception_kinds : list kind := [KNoFpExc; KNoFpDomExc; KNoFpAntiExc; KException].

(** matches() searches an array: the rules that are neither by fingerprint nor by
    domain always, the others if the filter in front of them lets the request
    pass. *)
Definition searched (E : env) (c : client) (k : kind) (url : bytes) (dom : option bytes) : Prop :=
  match k with
  | KNoFp | KNoFpExc => True
  | KNoFpDom => nfMiss E (c_nfd c) dom = false
  | KNoFpDomExc => nfMiss E (c_nfdexc c) dom = false
  | KNoFpAnti => nfMiss E (c_nfa c) dom = true
  | KNoFpAntiExc => nfMiss E (c_nfaexc c) dom = true
  | KFilters => bloomMiss E (c_bloom c) url = false
  | KException => bloomMiss E (c_ebloom c) url = false
  | KCosmetic | KHtml => False
  end.
