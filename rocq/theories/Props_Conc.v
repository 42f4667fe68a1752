(** C106: queries of several threads on one client. *)
From Verif Require Import Base Flags Protocol Url Sets FilterM ParseM ClientM Spec SpecM
  SpecC SpecT ConcM SpecConc P_Base P_List P_Opt P_Stat P_Conc P_Conc2 P_Conc3.

(** The property: threads that only query a client do not race.  It fails, in two
    ways.  Two threads that ask matches() about the same page race, even if all
    memos of the rules have been filled before. *)
Definition E1 : env := mkEnv [] [] [] (fun _ => 0%N) (fun _ _ => false).
Definition one_list : list call := [Parse false (B "||ads.net^")].
Definition same_page (i : nat) : list question :=
  if i <? 2 then [Matches (B "http://a.com/") 0 None] else [].

Theorem C106_refuted :
  ~ (forall E calls c filled prog, history calls -> after E calls = Ok c -> answerable E c prog ->
     (forall i q m, In q (prog i) -> consults E c q m -> In m filled) ->
     race_free E c filled prog).
Proof.
  intros H.
  assert ((c <- after E1 one_list ;; r <- matches E1 c (cstr (B "http://a.com/")) 0 None ;;
           Ok (c_badfp c, count_of (c_stats (snd r)) FalsePositives, count_of (c_stats c) FalsePositives))
          = Ok (None, 1, 0)%N) as F by (vm_compute; reflexivity).
  apply bind_ok in F as (c & Ec & F). apply bind_ok in F as ((v & c') & M & F). cbn [snd] in F.
  assert (Hh : history one_list) by (apply Forall_cons; [now apply nonulb_ok|apply Forall_nil]).
  assert (Nb : c_badfp c = None) by congruence.
  assert (Ch : changes E1 c (Matches (B "http://a.com/") 0 None) FalsePositives).
  { cbn [changes]. exists v, c'. split; [exact M|]. intros Q. rewrite Q in F. congruence. }
  clear v c' M F.
  assert (An : answerable E1 c same_page).
  { intros i q I. unfold same_page in I. destruct (i <? 2); [|destruct I]. destruct I as [<-|[]].
    destruct Ch as (v & c' & M & _). exists v, c'. exact M. }
  destruct (matches_memos E1 c (cstr (B "http://a.com/")) 0 None) as [ms|] eqn:Em.
  2:{ destruct Ch as (v & c' & M & _). destruct (matches_memos_ok _ _ _ _ _ _ M). congruence. }
  assert (W : forall i q m, In q (same_page i) -> consults E1 c q m -> In m ms).
  { intros i q m I (l & Im & Hl). unfold same_page in I. destruct (i <? 2); [|destruct I].
    destruct I as [<-|[]]. cbn [url_of] in Hl. congruence. }
  apply (proj2 (proj1 (race_free_iff E1 c ms same_page Nb An) (H E1 one_list c ms same_page Hh Ec An W))
    0 1 (Matches (B "http://a.com/") 0 None) (Matches (B "http://a.com/") 0 None) FalsePositives);
    auto; now left.
Qed.
Print Assumptions C106_refuted.

(** And two threads that ask the first questions about a list just loaded race,
    even if they only call findMatchingFilters(). *)
Definition one_text : bytes := B "ads/banner".
Definition first_find (i : nat) : list question :=
  if i <? 2 then [Finds (B "http://a.com/") 0 None] else [].

Theorem C106_first_refuted :
  ~ (forall E text c prog, nonul text -> after E [Parse false text] = Ok c -> answerable E c prog ->
     (forall i q, In q (prog i) -> exists url context dom, q = Finds url context dom) ->
     race_free E c (loaded_memos c) prog).
Proof.
  intros H.
  assert ((c <- after E1 [Parse false one_text] ;;
           v <- findMatchingFilters E1 c (cstr (B "http://a.com/")) 0 None ;;
           ms <- find_memos E1 c (cstr (B "http://a.com/")) 0 None ;;
           Ok (c_badfp c, loaded_memos c, hd_error ms))
          = Ok (None, [], Some (Length (Listed KFilters 0)))) as F by (vm_compute; reflexivity).
  apply bind_ok in F as (c & Ec & F). apply bind_ok in F as (v & Fv & F).
  apply bind_ok in F as (ms & Fm & F).
  assert (Hh : nonul one_text) by now apply nonulb_ok.
  assert (Nb : c_badfp c = None) by congruence.
  assert (Fd : exists v, findMatchingFilters E1 c (cstr (B "http://a.com/")) 0 None = Ok v) by eauto.
  assert (Lm : loaded_memos c = []) by congruence.
  assert (Cs : consults E1 c (Finds (B "http://a.com/") 0 None) (Length (Listed KFilters 0))).
  { exists ms. split; [|exact Fm]. destruct ms as [|m ms]; cbn [hd_error] in F; [discriminate|].
    left. congruence. }
  clear v Fv ms Fm F.
  assert (An : answerable E1 c first_find).
  { intros i q I. unfold first_find in I. destruct (i <? 2); [|destruct I]. destruct I as [<-|[]]. exact Fd. }
  assert (Fi : forall i q, In q (first_find i) -> exists url context dom, q = Finds url context dom).
  { intros i q I. unfold first_find in I. destruct (i <? 2); [|destruct I]. destruct I as [<-|[]]. eauto. }
  specialize (H E1 one_text c first_find Hh Ec An Fi). rewrite Lm in H.
  apply (race_free_iff E1 c [] first_find Nb An) in H as [H _].
  apply (H 0 1 (Finds (B "http://a.com/") 0 None) (Finds (B "http://a.com/") 0 None)
           (Length (Listed KFilters 0))); auto; now left.
Qed.
Print Assumptions C106_first_refuted.

(** Exactly when they race, for clients without bad fingerprint detection: two
    threads ask questions that consult the same memo, not yet filled, or whose
    answers change the same counter. *)
Theorem C106_race_iff : forall E c filled prog,
  c_badfp c = None -> answerable E c prog ->
  (race_free E c filled prog <->
   memos_apart E c filled prog /\
   forall i j q q' k, i <> j -> In q (prog i) -> In q' (prog j) ->
     changes E c q k -> ~ changes E c q' k).
Proof. exact race_free_iff. Qed.
Print Assumptions C106_race_iff.

(** Such are all clients on which detection was not enabled. *)
Theorem C106_detection : forall E calls c,
  history calls -> after E calls = Ok c -> ~ detecting calls -> c_badfp c = None.
Proof.
  intros E calls c H A N. destruct (hist_bad E calls c H A) as [B _].
  destruct (c_badfp c) eqn:Eb; auto. exfalso. apply N, B. discriminate.
Qed.
Print Assumptions C106_detection.

(** findMatchingFilters() changes no counter, so any number of threads may call
    it, one of them matches() as well, if no two consult an empty memo. *)
Theorem C106_find_partial : forall E c filled prog i,
  c_badfp c = None -> answerable E c prog -> memos_apart E c filled prog ->
  (forall j q, j <> i -> In q (prog j) -> exists url context dom, q = Finds url context dom) ->
  race_free E c filled prog.
Proof.
  intros E c filled prog i Nb An Ap F. apply (race_free_iff E c filled prog Nb An). split; auto.
  intros a b q q' k Nab Ia Ib Ca Cb. destruct (Nat.eq_dec a i) as [->|Na].
  - destruct (F b q') as (u & x & d & ->); auto.
  - destruct (F a q) as (u & x & d & ->); auto.
Qed.
Print Assumptions C106_find_partial.

(** Which memos a question consults: only those of stored rules that its request
    needs, ... *)
Theorem C106_consults : forall E c q m, consults E c q m ->
  exists host r f, getUrlHost (cstr (url_of q)) = Ok host /\ stored_at E c r f /\
    needs r f (party_context (context_of q) (dom_of q) host) (dom_of q) m.
Proof. exact consults_sound. Qed.
Print Assumptions C106_consults.

(** ... and where findMatchingFilters() finds no blocking rule, those of all the
    blocking rules in the arrays. *)
Theorem C106_find_consults : forall E c url context dom v k n m,
  findMatchingFilters E c (cstr url) context dom = Ok v -> v_filter v = None ->
  m = Length (Listed k n) \/ m = Domains (Listed k n) ->
  (consults E c (Finds url context dom) m <->
   In k block_kinds /\
   exists host f, getUrlHost (cstr url) = Ok host /\ nth_error (tget (c_lists c) k) n = Some f /\
     needs (Listed k n) f (party_context context dom host) dom m).
Proof. exact find_consults. Qed.
Print Assumptions C106_find_consults.

(** ... If it says "block", it has looked at all the exceptions there. *)
Theorem C106_find_exceptions : forall E c url context dom v k n m,
  findMatchingFilters E c (cstr url) context dom = Ok v -> v_block v = true ->
  In k exception_kinds -> m = Length (Listed k n) \/ m = Domains (Listed k n) ->
  (consults E c (Finds url context dom) m <->
   exists host f, getUrlHost (cstr url) = Ok host /\ nth_error (tget (c_lists c) k) n = Some f /\
     needs (Listed k n) f (party_context context dom host) dom m).
Proof. exact find_consults_exc. Qed.
Print Assumptions C106_find_exceptions.

(** The same for matches(), which looks at an array only if the filter in front of
    it lets the request pass. *)
Theorem C106_matches_consults : forall E c url context dom v c' k n m,
  c_badfp c = None -> c_host c <> None -> nonul url -> web_url url ->
  matches E c (cstr url) context dom = Ok (v, c') -> v_filter v = None ->
  m = Length (Listed k n) \/ m = Domains (Listed k n) ->
  (consults E c (Matches url context dom) m <->
   In k block_kinds /\ searched E c k url dom /\
   exists host f, getUrlHost (cstr url) = Ok host /\ nth_error (tget (c_lists c) k) n = Some f /\
     needs (Listed k n) f (party_context context dom host) dom m).
Proof. exact matches_consults_block. Qed.
Print Assumptions C106_matches_consults.

Theorem C106_matches_exceptions : forall E c url context dom v c' k n m,
  c_badfp c = None -> nonul url -> web_url url ->
  matches E c (cstr url) context dom = Ok (v, c') -> v_block v = true ->
  In k exception_kinds -> m = Length (Listed k n) \/ m = Domains (Listed k n) ->
  (consults E c (Matches url context dom) m <->
   searched E c k url dom /\
   exists host f, getUrlHost (cstr url) = Ok host /\ nth_error (tget (c_lists c) k) n = Some f /\
     needs (Listed k n) f (party_context context dom host) dom m).
Proof. exact matches_consults_exc. Qed.
Print Assumptions C106_matches_exceptions.

(** And of the host rules, those for the host of the request and the wider hosts
    that are looked up. *)
Theorem C106_hosts : forall E c url context dom h,
  nonul url -> web_url url -> c_host c <> None ->
  (exists v c', matches E c (cstr url) context dom = Ok (v, c') /\ v_filter v = None) ->
  (consults E c (Matches url context dom) (Domains (Hosted false h)) <->
   exists host f, getUrlHost (cstr url) = Ok host /\ looked_up host h /\
     stored_at E c (Hosted false h) f /\
     needs (Hosted false h) f (party_context context dom host) dom (Domains (Hosted false h))).
Proof. exact hosts_consulted. Qed.
Print Assumptions C106_hosts.

(** When the threads have finished, the memos of all their questions are filled, so
    that asking such questions again is a matter of the counters only. *)
Theorem C106_warm : forall E c filled prog turns s prog',
  c_badfp c = None -> answerable E c prog -> run E c filled prog turns = Ok s -> finished s ->
  (forall i q, In q (prog' i) -> exists j, In q (prog j)) ->
  memos_apart E (set_stats c (sc_counts s) None) (sc_filled s) prog'.
Proof.
  intros E c filled prog turns s prog' Nb An R Fin Hp i j q q' m _ I _ C _.
  destruct (Hp i q I) as (a & Ia). apply (consults_any E c (sc_counts s) q m Nb) in C.
  exact (warmed E c filled prog Nb An turns s a q m R Fin Ia C).
Qed.
Print Assumptions C106_warm.

(** matches() changes a counter for every web request it blocks and for every
    one to which no rule applies; for other than web requests it never does. *)
Theorem C106_matches_counts : forall E calls c url context dom v c',
  history calls -> after E calls = Ok c -> nonul url -> web_url url -> has_list calls ->
  matches E c (cstr url) context dom = Ok (v, c') ->
  v_block v = true \/ v_filter v = None ->
  exists k, changes E c (Matches url context dom) k.
Proof. exact counted_changes. Qed.
Print Assumptions C106_matches_counts.

Theorem C106_web_only : forall E c url context dom k,
  c_badfp c = None -> nonul url -> changes E c (Matches url context dom) k -> web_url url.
Proof.
  intros E c url context dom k Nb Hu C.
  destruct (changes_web E c (Matches url context dom) k Nb Hu C) as (u & x & d & Q & W). congruence.
Qed.
Print Assumptions C106_web_only.

(** Without a race all is as if the threads had asked one after the other: the
    answers, and the client that is left (with its new counters). *)
Theorem C106_as_in_turn : forall E c filled prog n turns s,
  c_badfp c = None -> answerable E c prog -> (forall i, n <= i -> prog i = []) ->
  race_free E c filled prog -> run E c filled prog turns = Ok s -> finished s ->
  (forall i, Forall2 (says E c) (prog i) (t_said (sc_thread s i))) /\
  foldM (perform E) c (in_turn n prog) = Ok (set_stats c (sc_counts s) (c_badfp c)).
Proof.
  intros E c filled prog n turns s Nb An Few RF R Fin. split.
  - intros i. destruct (answers E c filled prog Nb An turns s i R) as (a & P & F).
    destruct (Fin i) as [T _]. rewrite T, app_nil_r in P. now rewrite P.
  - destruct (sequential_defined E c prog Nb An n) as (c' & H). rewrite H. f_equal.
    apply (counts_exact E c filled prog Nb An n Few turns s c'); auto.
    now apply (race_free_iff_apart E c filled prog Nb An).
Qed.
Print Assumptions C106_as_in_turn.

(** If no two threads consult an empty memo, and a racing increment does no more
    than lose counts, then the answers are still right in every schedule, and the
    counters never exceed those of asking one after the other. *)
Theorem C106_lost_counts : forall E c filled prog n turns s,
  c_badfp c = None -> answerable E c prog -> (forall i, n <= i -> prog i = []) ->
  memos_apart E c filled prog -> run E c filled prog turns = Ok s ->
  (forall i, exists asked, prog i = asked ++ t_todo (sc_thread s i) /\
     Forall2 (says E c) asked (t_said (sc_thread s i))) /\
  exists c', foldM (perform E) c (in_turn n prog) = Ok c' /\
    forall k, (count_of (c_stats c) k <= count_of (sc_counts s) k <= count_of (c_stats c') k)%N.
Proof.
  intros E c filled prog n turns s Nb An Few _ R. split.
  - intros i. now apply (answers E c filled prog Nb An turns).
  - destruct (sequential_defined E c prog Nb An n) as (c' & H). exists c'. split; auto.
    intros k. now apply (counts_bounded E c filled prog Nb An n Few turns s c').
Qed.
Print Assumptions C106_lost_counts.

(** No schedule is stuck or undefined. *)
Theorem C106_defined : forall E c filled prog turns,
  c_badfp c = None -> answerable E c prog -> exists s, run E c filled prog turns = Ok s.
Proof. intros E c filled prog turns Nb An. exact (run_defined E c filled prog Nb An turns). Qed.
Print Assumptions C106_defined.

(** One thread asks matches(), another findMatchingFilters(); they finish, the
    counter shows one false positive, and the length of the pattern is known. *)
Definition two_rules : list call := [Parse false (B "||ads.net^" ++ LF :: B "ads/banner")].
Definition mixed (i : nat) : list question :=
  match i with
  | 0 => [Matches (B "http://a.com/") 0 None; Matches (B "http://ads.net/") 0 None]
  | 1 => [Finds (B "http://ads.net/") 0 None]
  | _ => []
  end.

Example C106_example : exists c s,
  after E1 two_rules = Ok c /\ c_badfp c = None /\ answerable E1 c mixed /\
  (forall i, 2 <= i -> mixed i = []) /\
  run E1 c [] mixed [0; 1; 0; 0; 1; 1; 0; 0; 0; 0; 0; 0; 0; 1; 1] = Ok s /\ finished s /\
  map v_block (t_said (sc_thread s 0)) = [false; true] /\
  map v_block (t_said (sc_thread s 1)) = [true] /\ st_fp (sc_counts s) = 1%N /\
  In (Length (Listed KFilters 0)) (sc_filled s).
Proof.
  assert ((c <- after E1 two_rules ;;
           a <- matches E1 c (cstr (B "http://a.com/")) 0 None ;;
           b <- matches E1 c (cstr (B "http://ads.net/")) 0 None ;;
           d <- findMatchingFilters E1 c (cstr (B "http://ads.net/")) 0 None ;;
           s <- run E1 c [] mixed [0; 1; 0; 0; 1; 1; 0; 0; 0; 0; 0; 0; 0; 1; 1] ;;
           Ok (c_badfp c, map v_block (t_said (sc_thread s 0)), map v_block (t_said (sc_thread s 1)),
               st_fp (sc_counts s), existsb (fun m => if memo_dec m (Length (Listed KFilters 0)) then true else false)
                                      (sc_filled s),
               map (fun i => (length (t_todo (sc_thread s i)), length (t_due (sc_thread s i)))) [0; 1]))
          = Ok (None, [false; true], [true], 1%N, true, [(0, 0); (0, 0)])) as F by (vm_compute; reflexivity).
  apply bind_ok in F as (c & Ec & F). apply bind_ok in F as ((v1 & c1) & M1 & F).
  apply bind_ok in F as ((v2 & c2) & M2 & F). apply bind_ok in F as (v3 & M3 & F).
  apply bind_ok in F as (s & R & F). exists c, s. split; [exact Ec|].
  assert (forall i, 2 <= i -> mixed i = []) as Few by (intros [|[|i]] L; try lia; reflexivity).
  cbn [map] in F. injection F as F1 F2 F3 F4 F5 F6 F7 F8 F9.
  split; [exact F1|]. split.
  { intros [|[|i]] q I; cbn in I; [destruct I as [<-|[<-|[]]]|destruct I as [<-|[]]|destruct I];
      cbn [says]; eauto. }
  split; [exact Few|]. split; [exact R|]. split.
  { intros [|[|i]].
    - now split; apply length_zero_iff_nil.
    - now split; apply length_zero_iff_nil.
    - rewrite (run_other _ _ _ _ _ _ (S (S i)) R); [split; reflexivity|]. cbn. lia. }
  split; [exact F2|]. split; [exact F3|]. split; [exact F4|].
  apply existsb_exists in F5 as (m & I & Q). destruct (memo_dec m _); [now subst m|discriminate].
Qed.

(** A question that consults the domains of a host rule, and the length of the
    pattern of a rule in an array. *)
Definition with_page : list call :=
  [Parse false (B "||ads.net^$domain=x.com" ++ LF :: B "ads/banner")].
Example C106_consults_example : exists c v c',
  after E1 with_page = Ok c /\ c_badfp c = None /\ c_host c <> None /\
  matches E1 c (cstr (B "http://b.ads.net/")) 0 (Some (B "y.com")) = Ok (v, c') /\ v_filter v = None /\
  consults E1 c (Matches (B "http://b.ads.net/") 0 (Some (B "y.com"))) (Domains (Hosted false (B "ads.net"))) /\
  consults E1 c (Matches (B "http://b.ads.net/") 0 (Some (B "y.com"))) (Length (Listed KFilters 0)).
Proof.
  set (url := B "http://b.ads.net/"). set (page := Some (B "y.com")).
  assert ((c <- after E1 with_page ;; r <- matches E1 c (cstr url) 0 page ;;
           ms <- matches_memos E1 c (cstr url) 0 page ;;
           Ok (c_badfp c, v_filter (fst r), match c_host c with Some _ => true | None => false end,
               map (fun m => existsb (fun m' => if memo_dec m m' then true else false) ms)
                 [Domains (Hosted false (B "ads.net")); Length (Listed KFilters 0)]))
          = Ok (None, None, true, [true; true])) as F by (vm_compute; reflexivity).
  apply bind_ok in F as (c & Ec & F). apply bind_ok in F as ((v & c') & M & F).
  apply bind_ok in F as (ms & Mm & F). exists c, v, c'. cbn [map fst] in F.
  injection F as F1 F2 F3 F4 F5. split; [exact Ec|]. split; [exact F1|].
  split; [intros Q; rewrite Q in F3; discriminate|]. split; [exact M|]. split; [exact F2|].
  assert (forall m, existsb (fun m' => if memo_dec m m' then true else false) ms = true ->
                    consults E1 c (Matches url 0 page) m) as K.
  { intros m Q. apply existsb_exists in Q as (m' & I & Q). destruct (memo_dec m m'); [subst m'|discriminate].
    exists ms. auto. }
  split; apply K; assumption.
Qed.
