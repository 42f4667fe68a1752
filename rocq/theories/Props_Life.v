(** Restarts, statistics, bad fingerprints and data files: C65-C70. *)
From Verif Require Import Base Flags Protocol Url Sets FilterM ParseM ClientM SerialM JsM DataM
  Spec SpecM SpecC SpecS SpecL SpecX SpecT
  P_Base P_Parse P_List P_Props2 P_Line5 P_Match2 P_Decide P_Dec2 P_Ser6 P_Ex P_Life P_Life2 P_Stat P_Data
  Props_List Props_Client Props_Serial SpecC SpecT.

(** ** C65 *)

(** A client that was saved and restored any number of times on the way, into
    any client object with the right tags, with any bytes after the data, is
    defined whenever the one that never was is, and gives the same verdicts and
    reports.  If no save left rules out, it also saves to the same bytes. *)
Theorem C65_restarts_partial : forall E es c,
  history (calls_of es) -> restarts_ok es -> after E (calls_of es) = Ok c ->
  exists c', life E es = Ok c' /\
    (forall url context dom v c1, matches E c url context dom = Ok (v, c1) ->
       exists w c1', matches E c' url context dom = Ok (w, c1') /\ same_verdict v w) /\
    (forall url context dom v, findMatchingFilters E c url context dom = Ok v ->
       exists w, findMatchingFilters E c' url context dom = Ok w /\ same_verdict v w) /\
    (saves_all es -> forall nc nh, serialize c' nc nh = serialize c nc nh).
Proof. exact life_decides. Qed.
Print Assumptions C65_restarts_partial.

(** For all rules, and whatever tags the objects have that take the client's
    place: the client answers like one whose rules and tags are replaced, at each
    restart, by the rules as they are read back and the tags of the new object. *)
Theorem C65_any_life : forall E es c,
  history (calls_of es) -> life_as_read E es = Ok c ->
  exists c', life E es = Ok c' /\
    (forall url context dom v c2, matches E c url context dom = Ok (v, c2) ->
       exists w c2', matches E c' url context dom = Ok (w, c2') /\ same_verdict v w) /\
    (forall url context dom v, findMatchingFilters E c url context dom = Ok v ->
       exists w, findMatchingFilters E c' url context dom = Ok w /\ same_verdict v w) /\
    (saves_all es -> getParsingStats c' = getParsingStats c /\
                     forall nc nh, serialize c' nc nh = serialize c nc nh).
Proof. exact any_life. Qed.
Print Assumptions C65_any_life.

(** Without the condition that rules can be stored: one restart changes what
    "/foobar$domain=" does. *)
Theorem C65_refuted : ~ (forall E es c c' url context dom v c1 w c1',
  history (calls_of es) -> saves_all es ->
  (forall a nc nh r d b, es = a ++ Restart nc nh r d :: b ->
     forall t, tagExists d t = true <-> tag_enabled (calls_of a) t) ->
  after E (calls_of es) = Ok c -> life E es = Ok c' ->
  matches E c (cstr url) context dom = Ok (v, c1) ->
  matches E c' (cstr url) context dom = Ok (w, c1') -> v_block v = v_block w).
Proof.
  intros H.
  destruct (life_differs E0 (B "/foobar$domain=") (B "http://a.com/foobar") 0%N (Some (B "b.com"))
    false true) as (c & v & c1 & c' & w & c1' & A & L & M & M' & V & W).
  - vm_compute. reflexivity.
  - vm_compute. reflexivity.
  - assert (v_block v = v_block w) as X; [|rewrite V, W in X; discriminate].
    refine (H E0 [Do (Parse false (B "/foobar$domain=")); Restart false false [] client0] c c' _ _ _ v c1 w c1' _ _ _ A L M M').
    + hist.
    + intros nc nh r d [I|[I|[]]]; [discriminate|]. injection I as <- <- _ _. split; reflexivity.
    + intros a nc nh r d b X t.
      destruct a as [|x [|y a]]; [discriminate| |].
      * injection X as <- <- <- <- <- <-. split; [discriminate|].
        intros (a & b & X & _). destruct a as [|? [|? ?]]; discriminate.
      * exfalso. injection X as _ _ X. now destruct a.
Qed.
Print Assumptions C65_refuted.

Definition restart_events : list event :=
  [Do (Parse false ser_text); Restart true true (B "junk") client0; Do (AddTag (B "t"));
   Do (Ask (B "http://x.org/a") 0 None);
   Restart false false [] (addTag client0 (B "t"));
   Do (Parse true (B "||b.com^"))].

Lemma restart_events_ok : restarts_ok restart_events.
Proof.
  intros a nc nh r d b X. unfold restart_events in X.
  destruct a as [|x0 a]; [discriminate|]. injection X as <- X.
  destruct a as [|x1 a].
  - injection X as <- <- <- <- _. split.
    + intros p l f I P. apply (ser_calls_storable p l f); auto.
    + intros t. split; [discriminate|]. intros (a & b0 & X & _). destruct a as [|? [|? ?]]; discriminate.
  - injection X as <- X. destruct a as [|x2 a]; [discriminate|]. injection X as <- X.
    destruct a as [|x3 a]; [discriminate|]. injection X as <- X.
    destruct a as [|x4 a].
    + injection X as <- <- <- <- _. split.
      * intros p l f I P. apply (ser_calls_storable p l f); auto.
      * intros t. cbn [calls_of app]. split.
        { intros T. apply existsb_exists in T as (x & [<-|[]] & T). apply beq_eq in T as <-.
          exists [Parse false ser_text], [Ask (B "http://x.org/a") 0 None]. split; auto.
          intros [I|[]]; discriminate. }
        { intros (a & b0 & X & _).
          destruct a as [|y0 [|y1 [|y2 [|y3 a]]]]; try discriminate.
          injection X as <- <- <-. reflexivity. }
    + injection X as <- X. destruct a as [|x5 a]; [discriminate|]. injection X as _ X.
      now destruct a.
Qed.

Example C65_example :
  history (calls_of restart_events) /\ restarts_ok restart_events /\
  map (fun u => (rmap v_block (asked E0 (calls_of restart_events) u FOScript (Some (B "a.com"))),
                 (c <- life E0 restart_events ;;
                  rmap (fun x => v_block (fst x)) (matches E0 c (cstr u) FOScript (Some (B "a.com"))))))
      [B "http://x.ads.com/a"; B "http://b.com/"; B "http://x.org/-ad-"; B "http://c.org/"] =
  [(Ok true, Ok true); (Ok true, Ok true); (Ok false, Ok false); (Ok false, Ok false)].
Proof.
  split; [hist|]. split; [exact restart_events_ok|vm_compute; reflexivity].
Qed.

(** ** C66 *)

(** The reported numbers are the numbers of loaded lines that belong to the
    collections they name. *)
Theorem C66_parsing_stats : forall E calls c,
  history calls -> after E calls = Ok c ->
  exists fs, Forall2 (fun pl f => parses_to (fst pl) (snd pl) f) (loaded_lines calls) fs /\
    getParsingStats c =
    map (fun nk => (fst nk, length (List.filter (goes_to E (snd nk)) fs))) stat_names.
Proof. exact parsing_stats. Qed.
Print Assumptions C66_parsing_stats.

(** Also after any number of restarts, with any rules and tags: a restart only
    loses the cosmetic rules, if they are left out of the saved data. *)
Theorem C66_restarts : forall E es c c',
  history (calls_of es) -> after E (calls_of es) = Ok c -> life E es = Ok c' ->
  cosmetic_dropped (getParsingStats c') = cosmetic_dropped (getParsingStats c) /\
  (saves_all es -> getParsingStats c' = getParsingStats c).
Proof. exact life_numbers. Qed.
Print Assumptions C66_restarts.

Example C66_example :
  history [Parse false (B "gone"); Clear; Parse false ser_text; Parse true (B "@@||b.com^")] /\
  rmap (map snd) (rmap getParsingStats
    (after E0 [Parse false (B "gone"); Clear; Parse false ser_text; Parse true (B "@@||b.com^")])) =
  Ok [1; 1; 1; 0; 0; 1; 0; 0; 0; 1; 1].
Proof. split; [hist|vm_compute; reflexivity]. Qed.

Definition unstorable_events (nc nh : bool) : list event :=
  [Do (Parse false (B "/foobar$domain=")); Do (AddTag (B "t")); Do (Parse false (B "##.x"));
   Restart nc nh (B "junk") client0; Do (Ask (B "http://a.com/foobar") 0 (Some (B "b.com")))].

(** The rule is lost in the sense of C65: the first and the third answer differ. *)
Example C66_restarts_example : forall nc nh,
  history (calls_of (unstorable_events nc nh)) /\
  (saves_all (unstorable_events nc nh) <-> nc = false /\ nh = false) /\
  map (rmap (fun c => v_block (fst c)))
    (map (fun r => c <- r ;; matches E0 c (cstr (B "http://a.com/foobar")) 0 (Some (B "b.com")))
       [after E0 (calls_of (unstorable_events nc nh)); life_as_read E0 (unstorable_events nc nh);
        life E0 (unstorable_events nc nh)]) = [Ok false; Ok true; Ok true] /\
  map (rmap (map snd)) (map (rmap getParsingStats)
    [after E0 (calls_of (unstorable_events nc nh)); life E0 (unstorable_events nc nh)]) =
  [Ok [1; 1; 0; 0; 0; 0; 0; 0; 0; 0; 0]; Ok [1; if nc then 0 else 1; 0; 0; 0; 0; 0; 0; 0; 0; 0]].
Proof.
  intros nc nh. split; [destruct nc, nh; hist|]. split; [|split; destruct nc, nh; vm_compute; reflexivity].
  split.
  - intros S. apply (S nc nh (B "junk") client0). cbn. auto.
  - intros [-> ->] nc0 nh0 r d I.
    repeat (destruct I as [I|I]; [first [discriminate | injection I as <- <- _ _; split; reflexivity]|]).
    destruct I.
Qed.

(** ** C67 *)
Theorem C67_matching_stats : forall E calls c,
  history calls -> after E calls = Ok c ->
  exists fp efp bl ebl hs ehs,
    getMatchingStats c =
      [(B "numFalsePositives", fp); (B "numExceptionFalsePositives", efp);
       (B "numBloomFilterSaves", bl); (B "numExceptionBloomFilterSaves", ebl);
       (B "numHashSetSaves", hs); (B "numExceptionHashSetSaves", ehs)] /\
    tally E (no_rule_applied E) calls (N.to_nat (fp + bl)) /\
    tally E was_blocked calls (N.to_nat (efp + ebl)) /\
    hs = bl /\ (ebl <= ehs)%N.
Proof. exact matching_stats. Qed.
Print Assumptions C67_matching_stats.

Definition stat_calls : list call :=
  [Ask (B "http://q.org/") 0 None; Parse false some_list; Ask (B "http://q.org/") 0 None;
   Ask (B "http://x.com/ad/banner") 0 None; Ask (B "http://x.com/good/path/ad/banner") 0 None;
   Ask (B "about:ad/banner") 0 None; Ask (B "http://r.org/") 0 None].

Example C67_example :
  history stat_calls /\
  rmap (map snd) (rmap getMatchingStats (after E0 stat_calls)) = Ok [2; 1; 0; 0; 0; 1]%N.
Proof. split; [hist|vm_compute; reflexivity]. Qed.

(** ** C68 *)

(** What is collected: a set without repetition, containing the built-in
    fingerprints, and besides them only pieces of URLs that were asked. *)
Theorem C68_collected : forall E calls c,
  history calls -> after E calls = Ok c ->
  (detecting calls <-> c_badfp c <> None) /\
  (forall l, c_badfp c = Some l ->
     NoDup l /\ (forall w, In w (e_bads E) -> In w l) /\ (forall w, In w l -> collected_from E calls w)).
Proof. exact hist_bad. Qed.
Print Assumptions C68_collected.

(** Every false positive leaves a piece of its URL in the collection. *)
Theorem C68_recorded : forall E calls c url context dom v c',
  history calls -> after E calls = Ok c -> detecting calls -> nonul url ->
  matches E c (cstr url) context dom = Ok (v, c') ->
  (st_fp (c_stats c') + st_efp (c_stats c') <> st_fp (c_stats c) + st_efp (c_stats c))%N ->
  exists l w, c_badfp c' = Some l /\ In w l /\ length w = kFingerprintSize /\
    exists x y, url = x ++ w ++ y.
Proof. exact false_positive_recorded. Qed.
Print Assumptions C68_recorded.

(** Detection changes no answer, no statistics and no definedness. *)
Theorem C68_inert : forall E a b,
  history (a ++ b) ->
  match after E (a ++ b), after E (a ++ DetectBad :: b) with
  | Ok c, Ok c' => c_stats c' = c_stats c /\ getParsingStats c' = getParsingStats c /\
                   same_answers E c c'
  | UB, UB => True
  | _, _ => False
  end.
Proof. exact detection_inert. Qed.
Print Assumptions C68_inert.

Definition E1 : env :=
  mkEnv [] [fun s => N_of_ascii (hd NUL s)] [fun s => N_of_ascii (hd NUL s)]
        (fun s => N.of_nat (length s)) (fun _ _ => false).
Definition bad_calls : list call :=
  [Parse false (B "xabcde"); DetectBad; Ask (B "http://q.org/xuvwyz") 0 None].

Example C68_example :
  history bad_calls /\
  rmap (fun c => (c_badfp c, st_fp (c_stats c))) (after E1 bad_calls) = Ok (Some [B "xuvwyz"], 1%N).
Proof. split; [hist|vm_compute; reflexivity]. Qed.

(** ** C69 *)

(** The data file written from list texts, after any checks of site URLs,
    yields a client that decides and reports like one made from the texts, and
    counts the same rules except cosmetic ones, which are not in the file. *)
Theorem C69_data_file_partial : forall E sites items data,
  Forall nonul items -> Forall nonul sites ->
  all_storable (map (Parse false) items) ->
  dataFile E sites items = Ok data ->
  exists c c', clientFromStrings E false items = Ok c /\ clientFromDAT data = Ok c' /\
    (forall url context dom v c1, matches E c url context dom = Ok (v, c1) ->
       exists w c1', matches E c' url context dom = Ok (w, c1') /\ same_verdict v w) /\
    (forall url context dom v, findMatchingFilters E c url context dom = Ok v ->
       exists w, findMatchingFilters E c' url context dom = Ok w /\ same_verdict v w) /\
    getParsingStats c' = cosmetic_dropped (getParsingStats c).
Proof. exact data_file. Qed.
Print Assumptions C69_data_file_partial.

(** For all rules: the client made from the file answers like the client made
    from the texts with its rules as they are read back. *)
Theorem C69_any_rules : forall E sites items data,
  Forall nonul items -> Forall nonul sites -> dataFile E sites items = Ok data ->
  exists c c', clientFromStrings E false items = Ok c /\ clientFromDAT data = Ok c' /\
    (forall url context dom v c1, matches E (restarted c client0) url context dom = Ok (v, c1) ->
       exists w c1', matches E c' url context dom = Ok (w, c1') /\ same_verdict v w) /\
    (forall url context dom v, findMatchingFilters E (restarted c client0) url context dom = Ok v ->
       exists w, findMatchingFilters E c' url context dom = Ok w /\ same_verdict v w) /\
    getParsingStats c' = cosmetic_dropped (getParsingStats c).
Proof. exact data_file_any. Qed.
Print Assumptions C69_any_rules.

Theorem C69_refuted : ~ (forall E items c data c' url context dom v c1 w c1',
  Forall nonul items -> clientFromStrings E false items = Ok c ->
  dataFile E [] items = Ok data -> clientFromDAT data = Ok c' ->
  matches E c (cstr url) context dom = Ok (v, c1) ->
  matches E c' (cstr url) context dom = Ok (w, c1') -> v_block v = v_block w).
Proof.
  intros H.
  destruct (data_differs E0 [B "/foobar$domain="] (B "http://a.com/foobar") 0%N (Some (B "b.com"))
    false true) as (c & v & c1 & d & c' & w & c1' & A & D & L & M & M' & V & W).
  - vm_compute. reflexivity.
  - vm_compute. reflexivity.
  - assert (v_block v = v_block w) as X; [|rewrite V, W in X; discriminate].
    refine (H E0 [B "/foobar$domain="] c d c' _ _ _ v c1 w c1' _ A D L M M').
    constructor; [plain_bytes|constructor].
Qed.
Print Assumptions C69_refuted.

Example C69_example :
  all_storable (map (Parse false) [ser_text; B "||b.com^"]) /\
  (d <- dataFile E0 [B "http://x.org/"; B "http://b.com/"] [ser_text; B "||b.com^"] ;;
   c <- clientFromDAT d ;;
   rmap (fun x => v_block (fst x)) (matches E0 c (cstr (B "http://b.com/x")) 0 None)) = Ok true.
Proof.
  split; [|vm_compute; reflexivity].
  intros p l f I P. vm_compute in I.
  repeat (destruct I as [I|I]; [injection I as <- <-;
    apply parses_rule_at in P; [|line]; subst f; apply storableb_ok; vm_compute; reflexivity|]).
  destruct I.
Qed.

(** The counts of the two clients differ as soon as there is a cosmetic rule. *)
Theorem C69_counts_refuted : ~ (forall E items c data c',
  Forall nonul items -> all_storable (map (Parse false) items) ->
  clientFromStrings E false items = Ok c -> dataFile E [] items = Ok data ->
  clientFromDAT data = Ok c' -> getParsingStats c' = getParsingStats c).
Proof.
  intros H.
  assert ((c <- clientFromStrings E0 false [B "##.x"] ;; Ok (map snd (getParsingStats c))) =
          Ok [0; 1; 0; 0; 0; 0; 0; 0; 0; 0; 0]) as R by (vm_compute; reflexivity).
  assert ((d <- dataFile E0 [] [B "##.x"] ;; c <- clientFromDAT d ;; Ok (map snd (getParsingStats c))) =
          Ok [0; 0; 0; 0; 0; 0; 0; 0; 0; 0; 0]) as R' by (vm_compute; reflexivity).
  apply bind_ok in R as (c & A & R). apply bind_ok in R' as (data & D & R').
  apply bind_ok in R' as (c' & F & R').
  rewrite (H E0 [B "##.x"] c data c') in R'; auto.
  - rewrite R in R'. discriminate.
  - constructor; [plain_bytes|constructor].
  - intros p l f I P. vm_compute in I.
    repeat (destruct I as [I|I]; [injection I as <- <-;
      apply parses_rule_at in P; [|line]; subst f; apply storableb_ok; vm_compute; reflexivity|]).
    destruct I.
Qed.
Print Assumptions C69_counts_refuted.

(** A rule that is not the same after it was read back. *)
Example C69_any_example :
  (c <- clientFromStrings E0 false [B "/foobar$domain="] ;; d <- dataFile E0 [] [B "/foobar$domain="] ;;
   c' <- clientFromDAT d ;;
   Ok (map (fun x => rmap (fun x => v_block (fst x)) (matches E0 x (cstr (B "http://a.com/foobar")) 0 (Some (B "b.com"))))
         [c; restarted c client0; c'])) = Ok [Ok false; Ok true; Ok true].
Proof. vm_compute. reflexivity. Qed.

(** ** C70 *)

(** The generated header defines exactly the collected fingerprints. *)
Theorem C70_header_partial : forall E calls c l,
  history calls -> after E calls = Ok c -> c_badfp c = Some l ->
  Forall plain_text (e_bads E) ->
  (forall url context dom, In (Ask url context dom) calls -> plain_text url) ->
  exists text, headerText l = header_head ++ text ++ header_tail /\ array_of l text.
Proof. exact header_ok. Qed.
Print Assumptions C70_header_partial.

(** A collected piece of a URL with a double quote breaks the header. *)
Theorem C70_refuted : ~ (forall E calls c l,
  history calls -> after E calls = Ok c -> c_badfp c = Some l ->
  exists text, headerText l = header_head ++ text ++ header_tail /\ array_of l text).
Proof.
  intros H. set (w := B "x" ++ """"%char :: B "vwyz").
  set (calls := [Parse false (B "xabcde"); DetectBad; Ask (B "http://q.org/" ++ w) 0 None]).
  assert (rmap c_badfp (after E1 calls) = Ok (Some [w])) as A by (vm_compute; reflexivity).
  apply rmap_ok in A as (c & A & L).
  destruct (H E1 calls c [w]) as (text & X & Y); auto.
  - unfold calls, w. hist.
  - revert Y. apply broken_entry; auto.
    + right. now left.
    + intros I. vm_compute in I. repeat (destruct I as [I|I]; [discriminate|]). destruct I.
Qed.
Print Assumptions C70_refuted.

Example C70_example :
  history bad_calls /\ (forall url context dom, In (Ask url context dom) bad_calls -> plain_text url) /\
  rmap c_badfp (after E1 bad_calls) = Ok (Some [B "xuvwyz"]).
Proof.
  split; [hist|]. split; [|vm_compute; reflexivity].
  intros u x d [I|[I|[I|[]]]]; try discriminate. injection I as <- _ _.
  repeat split; intros I; vm_compute in I; repeat (destruct I as [I|I]; [discriminate|]); destruct I.
Qed.
