(** Model of several threads that query one client at the same time
    (/repo/ad_block_client.cc:754-1048).

    What a query writes: matches() increments counters of the client
    (/repo/ad_block_client.h:96-101), each by [counter++]: a load and a store.
    And two members of a rule are computed when they are first needed: the length
    of its pattern (/repo/filter.cc:559-561) and its parsed domain list
    (/repo/filter.cc:659-690).  Each such memo is consulted by a read; a thread
    that finds it empty computes and stores it.  Nothing else that a query reads
    is written by a query (ClientM.v: [matches] returns the client with other
    counters, [findMatchingFilters] returns none), so that the walk through the
    rules is one step here, which yields the answer and the list of memos and
    counters the query uses, in order.  Simplified: the several stores that fill
    the memo of the domains are one step, and memos are accessed after the walk.
    The collection of bad fingerprints is left out: the theorems are about
    clients on which enableBadFingerprintDetection() has not been called. *)
From Verif Require Import Base Flags Protocol Url Sets FilterM ParseM ClientM Spec SpecM SpecC.

(** The counters. *)
Inductive counter :=
  FalsePositives | ExceptionFalsePositives | BloomSaves | ExceptionBloomSaves
| HashSaves | ExceptionHashSaves.

Definition count_of (s : stats) (k : counter) : N :=
  match k with
  | FalsePositives => st_fp s | ExceptionFalsePositives => st_efp s
  | BloomSaves => st_bloom s | ExceptionBloomSaves => st_ebloom s
  | HashSaves => st_hash s | ExceptionHashSaves => st_ehash s
  end.

Definition with_count (s : stats) (k : counter) (n : N) : stats :=
  match k with
  | FalsePositives => mkStats n (st_efp s) (st_bloom s) (st_ebloom s) (st_hash s) (st_ehash s)
  | ExceptionFalsePositives =>
      mkStats (st_fp s) n (st_bloom s) (st_ebloom s) (st_hash s) (st_ehash s)
  | BloomSaves => mkStats (st_fp s) (st_efp s) n (st_ebloom s) (st_hash s) (st_ehash s)
  | ExceptionBloomSaves => mkStats (st_fp s) (st_efp s) (st_bloom s) n (st_hash s) (st_ehash s)
  | HashSaves => mkStats (st_fp s) (st_efp s) (st_bloom s) (st_ebloom s) n (st_ehash s)
  | ExceptionHashSaves => mkStats (st_fp s) (st_efp s) (st_bloom s) (st_ebloom s) (st_hash s) n
  end.

(** The counters that a query increments, in the order of lines 837-840, 857,
    914-917, 925 and 935: those that differ afterwards. *)
Definition incremented (s s' : stats) : list counter :=
  List.filter (fun k => negb (count_of s' k =? count_of s k)%N)
    [BloomSaves; HashSaves; FalsePositives; ExceptionBloomSaves; ExceptionHashSaves;
     ExceptionFalsePositives].

Inductive question :=
| Matches (url : bytes) (context : N) (dom : option bytes)      (* matches() *)
| Finds (url : bytes) (context : N) (dom : option bytes).       (* findMatchingFilters() *)

(** ** The memos of the rules *)

(** Where a rule is: in one of the arrays, or in the set of the host rules (of
    the host exceptions if [exc]), which is searched by host. *)
Inductive place := Listed (k : kind) (n : nat) | Hosted (exc : bool) (host : bytes).

Inductive memo :=
| Length (r : place)     (* Filter::dataLen; -1 if it is not known *)
| Domains (r : place).   (* Filter::domains, antiDomains, domainsParsed *)

Definition memo_dec (a b : memo) : {a = b} + {a <> b}.
Proof. repeat decide equality. Defined.

(** filter.cc:436-470: [matchesOptions] gets as far as the domain check. *)
Definition reaches_domains (f : filter) (context : N) : bool :=
  if hasUnsupportedOptions f then false
  else if negb (has (f_opt f) FODocument) && has context FODocument then false
  else if negb (context =? 0)%N then
    if negb (N.ldiff (f_opt f) BehavioralFilterOnly =? 0)%N
       && negb (has (N.land (f_opt f) FOResourcesOnly) context) then false
    else if negb (N.ldiff (f_anti f) BehavioralFilterOnly =? 0)%N
            && has (N.land (f_anti f) FOResourcesOnly) context then false
    else true
  else
    if has (f_opt f) FOResourcesOnly then false
    else if has (f_anti f) FOResourcesOnly then false
    else true.

(** The memos that Filter::matches (filter.cc:547-561) consults.  The length of a
    host rule in the sets is known from the start: it is set when the rule is
    copied into the set (filter.cc:110-112) or restored (filter.cc:765). *)
Definition rule_memos (r : place) (f : filter) (context : N) (dom : option bytes) : list memo :=
  (match f_dom f, dom with
   | Some _, Some _ => if reaches_domains f context then [Domains r] else []
   | _, _ => []
   end) ++
  (match r, f_data f with
   | Listed _ _, Some _ => if matchesOptions f context dom then [Length r] else []
   | _, _ => []
   end).

(** ad_block_client.cc:616-642 [hasMatchingFilters] on the rules [fs] of an array
    from index [n] on. *)
Fixpoint array_memos (E : env) (c : client) (k : kind) (fs : list filter) (n : nat) (q : query)
    (bf : option bloom) : list memo :=
  match fs with
  | [] => []
  | f :: fs' =>
      rule_memos (Listed k n) f (q_context q) (q_dom q) ++
      match filter_matches E f (q_input q) (q_len q) (q_context q) (q_dom q) bf (q_host q) with
      | Ok m => if m && tag_ok c f then [] else array_memos E c k fs' (S n) q bf
      | UB => []
      end
  end.

Definition scan_memos (E : env) (c : client) (k : kind) (q : query) (bf : option bloom) : list memo :=
  array_memos E c k (tget (c_lists c) k) 0 q bf.

(** ad_block_client.cc:696-752 [isHostAnchoredHashSetMiss] *)
Definition probe_memos (E : env) (exc : bool) (s : hset filter) (h : bytes) (q : query) : list memo :=
  match hs_find hkey (e_hash E) s h with
  | None => []
  | Some f => rule_memos (Hosted exc h) f (q_context q) (q_dom q)
  end.

Fixpoint walk_memos (E : env) (c : client) (exc : bool) (s : hset filter) (h : bytes) (k : nat)
    (q : query) : list memo :=
  match k with
  | 0 => probe_memos E exc s h q
  | S k' =>
      if ceq (nth k' h NUL) "." then
        probe_memos E exc s (skipn k h) q ++
        match host_probe E c s (skipn k h) (q_input q) (q_len q) (q_context q) (q_dom q) with
        | Ok None => walk_memos E c exc s h k' q
        | _ => []
        end
      else walk_memos E c exc s h k' q
  end.

Definition lookup_memos (E : env) (c : client) (exc : bool) (s : option (hset filter)) (q : query)
  : list memo :=
  match s with
  | None => []
  | Some s => walk_memos E c exc s (q_host q) (skip_tld (q_host q) (length (q_host q))) q
  end.

(** [a || b]: the memos of [b] are consulted if [a] found nothing. *)
Definition or_memos (found : res (option filter)) (a b : list memo) : list memo :=
  a ++ match found with Ok None => b | _ => [] end.

(** Lines 798-866 of [matches] *)
Definition block_memos (E : env) (c : client) (q : query) (bf : option bloom) : list memo :=
  let dom_only := negb (nfMiss E (c_nfd c) (q_dom q)) in
  let anti_only := nfMiss E (c_nfa c) (q_dom q) in
  or_memos (when dom_only (scan E c KNoFpDom q bf))
    (if dom_only then scan_memos E c KNoFpDom q bf else [])
  (or_memos (when anti_only (scan E c KNoFpAnti q bf))
    (if anti_only then scan_memos E c KNoFpAnti q bf else [])
  (or_memos (scan E c KNoFp q bf) (scan_memos E c KNoFp q bf)
    (lookup_memos E c false (c_host c) q ++
     match lookup E c (c_host c) q with
     | Ok HMiss =>
         if bloomMiss E (c_bloom c) (q_url q) then [] else scan_memos E c KFilters q bf
     | _ => []
     end))).

(** Lines 868-945 *)
Definition exc_memos (E : env) (c : client) (q : query) (bf : option bloom) : list memo :=
  let dom_only := negb (nfMiss E (c_nfdexc c) (q_dom q)) in
  let anti_only := nfMiss E (c_nfaexc c) (q_dom q) in
  or_memos (when dom_only (scan E c KNoFpDomExc q bf))
    (if dom_only then scan_memos E c KNoFpDomExc q bf else [])
  (or_memos (when anti_only (scan E c KNoFpAntiExc q bf))
    (if anti_only then scan_memos E c KNoFpAntiExc q bf else [])
  (or_memos (scan E c KNoFpExc q bf) (scan_memos E c KNoFpExc q bf)
    (lookup_memos E c true (c_ehost c) q ++
     match lookup E c (c_ehost c) q with
     | Ok HMiss =>
         if bloomMiss E (c_ebloom c) (q_url q) then [] else scan_memos E c KException q bf
     | _ => []
     end))).

(** ad_block_client.cc:754-946 [matches] *)
Definition matches_memos (E : env) (c : client) (input : bytes) (context : N) (dom : option bytes)
  : res (list memo) :=
  n <- strlen input ;;
  web <- isBlockableProtocol input n ;;
  if negb web then Ok []
  else
    q <- mkQuery input n context dom ;;
    let bf := Some (inputBloom E (q_url q)) in
    b <- block_phase E c q bf ;;
    let '(hit, _, _) := b in
    Ok (block_memos E c q bf ++ if hit then exc_memos E c q bf else []).

(** ad_block_client.cc:954-1048 [findMatchingFilters] *)
Definition find_memos (E : env) (c : client) (input : bytes) (context : N) (dom : option bytes)
  : res (list memo) :=
  n <- strlen input ;;
  q <- mkQuery input n context dom ;;
  m <- orelse (scan E c KNoFp q None)
      (orelse (scan E c KNoFpDom q None)
      (orelse (scan E c KNoFpAnti q None)
      (orelse (scan E c KFilters q None)
              (lookup_filter E c (c_host c) q)))) ;;
  Ok (or_memos (scan E c KNoFp q None) (scan_memos E c KNoFp q None)
     (or_memos (scan E c KNoFpDom q None) (scan_memos E c KNoFpDom q None)
     (or_memos (scan E c KNoFpAnti q None) (scan_memos E c KNoFpAnti q None)
     (or_memos (scan E c KFilters q None) (scan_memos E c KFilters q None)
               (lookup_memos E c false (c_host c) q)))) ++
     match m with
     | None => []
     | Some _ =>
         or_memos (scan E c KNoFpExc q None) (scan_memos E c KNoFpExc q None)
        (or_memos (scan E c KNoFpDomExc q None) (scan_memos E c KNoFpDomExc q None)
        (or_memos (scan E c KNoFpAntiExc q None) (scan_memos E c KNoFpAntiExc q None)
        (or_memos (lookup_filter E c (c_ehost c) q) (lookup_memos E c true (c_ehost c) q)
                  (scan_memos E c KException q None))))
     end).

(** The memos that are filled when a list has just been loaded into an empty
    client: parse() asks the rules without fingerprint for their domains
    (ad_block_client.cc:1402-1414 and 1436-1448); swapData moves the memos along. *)
Definition loaded_memos (c : client) : list memo :=
  flat_map (fun k =>
    flat_map (fun n => match nth_error (tget (c_lists c) k) n with
                       | Some f => match f_dom f with Some _ => [Domains (Listed k n)] | None => [] end
                       | None => []
                       end) (seq 0 (length (tget (c_lists c) k))))
    [KNoFp; KNoFpDom; KNoFpAnti; KNoFpExc; KNoFpDomExc; KNoFpAntiExc].

(** ** Threads *)

(** What a query has to do after its walk: consult a memo, increment a counter. *)
Inductive access := Memo (m : memo) | Inc (k : counter).

Definition answer (E : env) (c : client) (q : question) : res (verdict * list access) :=
  match q with
  | Matches url context dom =>
      r <- matches E c (cstr url) context dom ;;
      ms <- matches_memos E c (cstr url) context dom ;;
      Ok (fst r, map Memo ms ++ map Inc (incremented (c_stats c) (c_stats (snd r))))
  | Finds url context dom =>
      v <- findMatchingFilters E c (cstr url) context dom ;;
      ms <- find_memos E c (cstr url) context dom ;;
      Ok (v, map Memo ms)
  end.

(** A thread: the questions it has still to ask, the accesses it has still to
    make for the last one, what it has loaded for the first of them (the value of
    the counter; for a memo, that it is empty), and the answers it got. *)
Record thread := mkThread {
  t_todo : list question; t_due : list access; t_loaded : option N; t_said : list verdict }.

(** The shared counters, the memos that are filled, and the threads. *)
Record scene := mkScene { sc_counts : stats; sc_filled : list memo; sc_thread : nat -> thread }.

Definition with_thread (s : scene) (n : stats) (l : list memo) (i : nat) (t : thread) : scene :=
  mkScene n l (fun j => if j =? i then t else sc_thread s j).

(** The next step of thread [i]. *)
Definition turn (E : env) (c : client) (s : scene) (i : nat) : res scene :=
  let t := sc_thread s i in
  match t_due t with
  | a :: due =>
      match a, t_loaded t with
      | Inc k, None =>
          Ok (with_thread s (sc_counts s) (sc_filled s) i
                (mkThread (t_todo t) (a :: due) (Some (count_of (sc_counts s) k)) (t_said t)))
      | Inc k, Some n =>
          Ok (with_thread s (with_count (sc_counts s) k (n + 1)) (sc_filled s) i
                (mkThread (t_todo t) due None (t_said t)))
      | Memo m, None =>
          if in_dec memo_dec m (sc_filled s)
          then Ok (with_thread s (sc_counts s) (sc_filled s) i
                     (mkThread (t_todo t) due None (t_said t)))
          else Ok (with_thread s (sc_counts s) (sc_filled s) i
                     (mkThread (t_todo t) (a :: due) (Some 0%N) (t_said t)))
      | Memo m, Some _ =>
          Ok (with_thread s (sc_counts s) (m :: sc_filled s) i
                (mkThread (t_todo t) due None (t_said t)))
      end
  | [] =>
      match t_todo t with
      | [] => Ok s
      | q :: qs =>
          r <- answer E c q ;;
          Ok (with_thread s (sc_counts s) (sc_filled s) i
                (mkThread qs (snd r) None (t_said t ++ [fst r])))
      end
  end.

(** All threads are about to start; thread [i] asks the questions [prog i]. *)
Definition begin (c : client) (filled : list memo) (prog : nat -> list question) : scene :=
  mkScene (c_stats c) filled (fun i => mkThread (prog i) [] None []).

(** A schedule says whose turn it is. *)
Definition run (E : env) (c : client) (filled : list memo) (prog : nat -> list question)
    (turns : list nat) : res scene :=
  foldM (turn E c) (begin c filled prog) turns.

(** One thread is about to store a counter or to fill a memo that another one is
    about to access: a data race. *)
Definition racing (s : scene) : Prop :=
  exists i j a, i <> j /\
    hd_error (t_due (sc_thread s i)) = Some a /\ t_loaded (sc_thread s i) <> None /\
    hd_error (t_due (sc_thread s j)) = Some a.
