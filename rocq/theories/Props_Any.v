(** C99: what any list says about any request. *)
From Verif Require Import Base Flags Protocol Url Sets FilterM ParseM ClientM Spec SpecM SpecC SpecQ
  SpecE SpecN SpecG SpecLine SpecAny P_Base P_Protocol P_Parse P_List P_Line P_Hist P_Ex P_Fp2 P_Read3 P_Read4
  P_Any P_Any2 Props_List.
From Coq Require Import ZArith.
From Verif Require Import JsM OwnM BindM SpecU SpecV SpecB P_Bind P_Args P_Save.
From Verif Require Import SpecC.

(** The rule of any line that states one applies exactly to the requests its text
    describes, unless the search for its pieces leaves the URL. *)
Theorem C99_rule : forall E calls pres l q f url uh context page,
  line_text l -> states l q -> parses_to pres l f ->
  nonul url -> host_asked url uh ->
  (applies E calls f url context page <-> terms_apply calls q url uh context page).
Proof.
  intros E calls pres l q f url uh context page T S [b P] Hu Hh.
  exact (terms_iff E calls q f (states_facts pres l f b q T P S) (line_wf pres l f b T P)
           url Hu uh Hh context page).
Qed.
Print Assumptions C99_rule.

(** Every request is for one host, which may be empty. *)
Theorem C99_host : forall url,
  exists uh, host_asked url uh /\ forall uh', host_asked url uh' -> uh' = uh.
Proof.
  intros url. destruct (host_asked_exists url) as (uh & Q). exists uh. split; auto.
  intros uh' Q'. exact (host_asked_unique url uh' uh Q' Q).
Qed.
Print Assumptions C99_host.

(** Whenever matches() answers, it blocks exactly when the text of the list says so. *)
Theorem C99_any_request : forall E calls c url uh context page,
  history calls -> after E calls = Ok c -> nonul url -> host_asked url uh ->
  forall v c', matches E c (cstr url) context page = Ok (v, c') ->
  (v_block v = true <->
   web_url url /\
   ((exists q, stated calls q /\ q_exception q = false /\ terms_heard E calls q uh page /\
       terms_apply calls q url uh context page) \/ expression_fits E calls url context) /\
   ~ (exists q, stated calls q /\ q_exception q = true /\ terms_heard E calls q uh page /\
       terms_apply calls q url uh context page)).
Proof. exact any_request. Qed.
Print Assumptions C99_any_request.

Theorem C99_any_request_found : forall E calls c url uh context page,
  history calls -> after E calls = Ok c -> nonul url -> host_asked url uh ->
  forall v, findMatchingFilters E c (cstr url) context page = Ok v ->
  (v_block v = true <->
   ((exists q, stated calls q /\ q_exception q = false /\ terms_noticed calls q uh /\
       terms_apply calls q url uh context page) \/ expression_fits E calls url context) /\
   ~ (exists q, stated calls q /\ q_exception q = true /\ terms_noticed calls q uh /\
       terms_apply calls q url uh context page)).
Proof. exact any_request_found. Qed.
Print Assumptions C99_any_request_found.

(** If one of them faults, some line states a rule that is faulty on the URL. *)
Theorem C99_fault : forall E calls c url context page,
  history calls -> after E calls = Ok c -> nonul url ->
  matches E c (cstr url) context page = UB \/ findMatchingFilters E c (cstr url) context page = UB ->
  exists q, stated calls q /\ faulty_terms q url.
Proof. exact any_fault. Qed.
Print Assumptions C99_fault.

(** With rules that are safe to try, matches() always answers. *)
Theorem C99_any_list : forall E calls c url uh context page,
  history calls -> after E calls = Ok c -> nonul url -> host_asked url uh -> any_list calls ->
  exists v c', matches E c (cstr url) context page = Ok (v, c') /\
  (v_block v = true <->
   web_url url /\
   ((exists q, stated calls q /\ q_exception q = false /\ terms_heard E calls q uh page /\
       terms_meet calls q url uh context page) \/ expression_fits E calls url context) /\
   ~ (exists q, stated calls q /\ q_exception q = true /\ terms_heard E calls q uh page /\
       terms_meet calls q url uh context page)).
Proof. exact any_decides. Qed.
Print Assumptions C99_any_list.

(** The same for findMatchingFilters(). *)
Theorem C99_any_list_found : forall E calls c url uh context page,
  history calls -> after E calls = Ok c -> nonul url -> host_asked url uh -> any_list calls ->
  exists v, findMatchingFilters E c (cstr url) context page = Ok v /\
  (v_block v = true <->
   ((exists q, stated calls q /\ q_exception q = false /\ terms_noticed calls q uh /\
       terms_meet calls q url uh context page) \/ expression_fits E calls url context) /\
   ~ (exists q, stated calls q /\ q_exception q = true /\ terms_noticed calls q uh /\
       terms_meet calls q url uh context page)).
Proof. exact any_finds. Qed.
Print Assumptions C99_any_list_found.

(** A list with a bar inside a pattern, which anchors the rule at the end of the
    URL, and an exception. *)
Definition odd_calls : list call := [Parse false (B "ban|ner$script" ++ [LF] ++ B "@@|http://a.b")].

Lemma odd_first :
  reads (B "ban|ner$script")
    (IsRule false [] NoAnchor (B "ban|ner$script") (B "ban|ner") (WithOptions (B "script"))
       (B "ban|ner$script")).
Proof.
  apply (reads_line _ []); try easy.
  - intros (_ & a & H & _). discriminate H.
  - apply (op_plain [] (B "ban|ner$script")); [constructor| | |].
    + intros _. split; [discriminate|]. intros (v & H). discriminate H.
    + intros c r [= <- _] [[H|H]|[H|H]]; discriminate H.
    + intros _ [H|[(r & H)|[(r & H)|(r & H)]]]; discriminate H.
  - apply (contents_check (B "ban|ner") (B "$script")); [|reflexivity].
    apply (ft_options (B "script")). now intros c r [= <- _].
Qed.

Lemma odd_second :
  reads (B "@@|http://a.b")
    (IsRule true [] LeftBar (B "http://a.b") (B "http://a.b") AtEnd (B "@@|http://a.b")).
Proof.
  apply (reads_line _ []); try easy.
  - intros (_ & a & H & _). discriminate H.
  - apply (op_left (B "@@") (B "http://a.b")); try easy.
    + apply (marks_more [] [] []); try easy. constructor.
    + now intros c r [= <- _].
  - apply (contents_check (B "http://a.b") []); [constructor|reflexivity].
Qed.

Lemma odd_lines pres l :
  In (pres, l) (loaded_lines odd_calls) -> l = B "ban|ner$script" \/ l = B "@@|http://a.b".
Proof.
  intros I. vm_compute in I. destruct I as [I|[I|[]]]; apply (f_equal snd) in I; cbn [snd] in I; auto.
Qed.

Lemma odd_any : any_list odd_calls.
Proof.
  intros q (pres & l & I & S). apply odd_lines in I as [-> | ->].
  - destruct S as [exc k a t body x R|exc k a t body o x R];
      pose proof (reading_unique _ _ _ odd_first R) as Q; [discriminate Q|].
    injection Q as <- <- <- <- <- <- <-. split; [right; left; reflexivity|].
    intros [X _]. discriminate X.
  - destruct S as [exc k a t body x R|exc k a t body o x R];
      pose proof (reading_unique _ _ _ odd_second R) as Q; [|discriminate Q].
    injection Q as <- <- <- <- <- <-. split; [left; reflexivity|].
    intros [X _]. discriminate X.
Qed.

Example C99_example :
  history odd_calls /\ any_list odd_calls /\
  url_has_host (B "http://c.d/banner") (B "c.d") /\
  rmap v_block (asked E0 odd_calls (B "http://c.d/banner") FOScript (Some (B "e.f"))) = Ok true /\
  rmap v_block (asked E0 odd_calls (B "http://c.d/banner/") FOScript (Some (B "e.f"))) = Ok false /\
  rmap v_block (asked E0 odd_calls (B "http://a.b/banner") FOScript (Some (B "e.f"))) = Ok false /\
  (exists q, stated odd_calls q /\ q_right q = true /\ q_pattern q = B "banner" /\
     terms_meet odd_calls q (B "http://c.d/banner") (B "c.d") FOScript (Some (B "e.f")) /\
     terms_heard E0 odd_calls q (B "c.d") (Some (B "e.f"))).
Proof.
  assert (history odd_calls) as Hi by (repeat constructor; now apply nonulb_ok).
  assert (url_has_host (B "http://c.d/banner") (B "c.d")) as Hh.
  { exists (B "http"), (B "//"), (B "/banner"). split; [reflexivity|].
    split; [now apply notin_ok|]. split; [intros x [<-|[<-|[]]]; reflexivity|].
    split; [|split; [discriminate|right; exists "/"%char, (B "banner"); split; [reflexivity|cbn; auto]]].
    intros x I J. vm_compute in I, J.
    repeat (destruct I as [<-|I]; [repeat (destruct J as [J|J]; [discriminate|]); easy|]). easy. }
  assert (rmap v_block (asked E0 odd_calls (B "http://c.d/banner") FOScript (Some (B "e.f"))) = Ok true)
    as Q by (vm_compute; reflexivity).
  split; auto. split; [exact odd_any|]. split; auto. split; auto.
  split; [vm_compute; reflexivity|]. split; [vm_compute; reflexivity|].
  unfold asked in Q. destruct (after E0 odd_calls) as [c|] eqn:A; [|discriminate].
  destruct (C99_any_list E0 odd_calls c (B "http://c.d/banner") (B "c.d") FOScript (Some (B "e.f")) Hi A
    ltac:(now apply nonulb_ok) (or_introl Hh) odd_any) as (v & c' & M & D).
  cbn [bind] in Q. rewrite M in Q. cbn [rmap bind fst] in Q. injection Q as Q.
  apply D in Q as (_ & [(q & S & X & R2 & R3)|(_ & pres & l & p & I & R & _)] & _).
  - exists q. split; auto. destruct S as (pres & l & I & S).
    apply odd_lines in I as [-> | ->].
    + destruct S as [exc k a t body x R|exc k a t body o x R];
        pose proof (reading_unique _ _ _ odd_first R) as Z; [discriminate Z|].
      injection Z as <- <- <- <- <- <- <-. auto.
    + destruct S as [exc k a t body x R|exc k a t body o x R];
        pose proof (reading_unique _ _ _ odd_second R) as Z; [|discriminate Z].
      injection Z as <- <- <- <- <- <-. discriminate X.
  - exfalso. apply odd_lines in I as [-> | ->].
    + now pose proof (reading_unique _ _ _ odd_first R).
    + now pose proof (reading_unique _ _ _ odd_second R).
Qed.

(** A rule that is faulty on one URL, and the request that faults. *)
Definition fault_calls : list call := [Parse false (B "a^b")].

Example C99_fault_example :
  history fault_calls /\
  (exists c, after E0 fault_calls = Ok c /\
     matches E0 c (cstr (B "http://x.com/a")) 0%N None = UB) /\
  (exists q, stated fault_calls q /\ faulty_terms q (B "http://x.com/a")).
Proof.
  assert (history fault_calls) as Hi by (repeat constructor; now apply nonulb_ok).
  assert (exists c, after E0 fault_calls = Ok c /\
     matches E0 c (cstr (B "http://x.com/a")) 0%N None = UB) as (c & A & M).
  { destruct (after E0 fault_calls) as [c|] eqn:A; [|discriminate A].
    exists c. split; auto.
    assert (bind (after E0 fault_calls) (fun c => matches E0 c (cstr (B "http://x.com/a")) 0%N None) = UB)
      as K by (vm_compute; reflexivity).
    rewrite A in K. exact K. }
  split; auto. split; [eauto|].
  eapply C99_fault; eauto. now apply nonulb_ok.
Qed.

(** The same for the JavaScript object: what matches() returns, after any calls. *)
Theorem C99_javascript : forall J E ms calls c args u mask page uh c' b,
  Forall2 (means J) ms (map Call calls) -> session J E ms = Ok c ->
  stands_for (arg args 0) u -> nonul (utf8 (j_lone J) u) ->
  type_given J (arg args 1) mask -> page_given J (arg args 2) page ->
  host_asked (utf8 (j_lone J) u) uh ->
  invoke J E c MMatches args = Ok (c', RBool b) ->
  (b = true <->
   web_url (utf8 (j_lone J) u) /\
   ((exists q, stated calls q /\ q_exception q = false /\ terms_heard E calls q uh page /\
       terms_apply calls q (utf8 (j_lone J) u) uh mask page) \/
    expression_fits E calls (utf8 (j_lone J) u) mask) /\
   ~ (exists q, stated calls q /\ q_exception q = true /\ terms_heard E calls q uh page /\
       terms_apply calls q (utf8 (j_lone J) u) uh mask page)).
Proof.
  intros J E ms calls c args u mask page uh c' b H A T N Ty P Hh I.
  destruct (session_calls J E ms calls H) as [Q Hi]. rewrite Q in A. apply text_stands in T.
  pose proof (query_matches J E c args u mask page T Ty P) as K.
  destruct (matches E c (cstr (utf8 (j_lone J) u)) mask page) as [[v c2]|] eqn:M; [|congruence].
  destruct K as (r & R & _ & V). rewrite I in R. injection R as _ <-.
  assert (RBool b = RBool (v_block v)) as [= ->] by (apply V; discriminate).
  exact (C99_any_request E calls c _ uh mask page Hi A N Hh v c2 M).
Qed.
Print Assumptions C99_javascript.

Definition some_js : js := mkJs (fun u => u) (fun _ => 0%Z).
Example C99_javascript_example :
  let list := U "ban|ner$script" ++ 10%N :: U "@@|http://a.b" in
  let args := [JStr (U "http://c.d/banner"); JInt (Z.of_N FOScript); JNull] in
  Forall2 (means some_js) [(MParse, [JStr list])] (map Call odd_calls) /\
  type_given some_js (arg args 1) FOScript /\ page_given some_js (arg args 2) (Some (B "null")) /\
  stands_for (arg args 0) (U "http://c.d/banner") /\
  (c <- session some_js E0 [(MParse, [JStr list])] ;; rmap snd (invoke some_js E0 c MMatches args)) =
    Ok (RBool true) /\
  host_asked (B "data") [].
Proof.
  cbv zeta. split; [|split; [|split; [|split; [|split]]]].
  - constructor; [|constructor].
    refine (means_parse some_js [JStr (U "ban|ner$script" ++ 10%N :: U "@@|http://a.b")]
      (B "ban|ner$script" ++ [LF] ++ B "@@|http://a.b") _).
    eexists. split; [reflexivity|]. vm_compute. reflexivity.
  - left. exists (Z.of_N FOScript). split; [reflexivity|]. apply low_bits_id. vm_compute. reflexivity.
  - left. exists (B "null"). split; [exists (U "null"); split; reflexivity|reflexivity].
  - constructor.
  - vm_compute. reflexivity.
  - right. split; [now apply notin_ok|reflexivity].
Qed.
