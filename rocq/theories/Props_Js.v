(** The JavaScript layer and the stylesheet of cosmetic rules: C55-C64. *)
From Verif Require Import Base Flags Protocol Url Sets FilterM ParseM ClientM JsM CosmeticM
  Spec SpecM SpecC SpecJ SpecK
  P_Base P_Parse P_List P_Props2 P_Line5 P_Match2 P_Decide P_Dec2 P_Dec8 P_Ex P_Like P_Js P_Js2 P_Cos
  Props_List Props_Client SpecC SpecJ.

(** ** C55 *)

(** The lines of a prepared list: the kept ones, two of them rewritten, and two
    more at the end. *)
Theorem C55_lines : forall pred t, ~ In CR t ->
  exists ls, Forall2 marked (List.filter pred (text_lines t)) ls /\
    text_lines (sanitizeWith pred t) =
      ls ++ [B "||imasdk.googleapis.com/$third-party"; B "^ima3.js"].
Proof. exact sanitize_lines. Qed.
Print Assumptions C55_lines.

(** A client that loads the prepared list decides like one that loads the list
    itself and then the two added rules, whatever else is loaded and done
    before and after. *)
Theorem C55_same_decisions : forall E pre rest p t c1 c2,
  history pre -> history rest -> nonul t ->
  after E (pre ++ Parse p (sanitizeABPInput t) :: rest) = Ok c1 ->
  after E (pre ++ Parse p t :: Parse p ima_rules :: rest) = Ok c2 ->
  same_decisions E c1 c2.
Proof. exact sanitize_decide. Qed.
Print Assumptions C55_same_decisions.

Theorem C55_same_definedness : forall E pre p t,
  nonul t ->
  (after E (pre ++ [Parse p (sanitizeABPInput t)]) = UB <-> after E (pre ++ [Parse p t]) = UB).
Proof. exact sanitize_defined. Qed.
Print Assumptions C55_same_definedness.

Definition raw_list : bytes :=
  B "[Adblock Plus 2.0]" ++ LF :: B "/ima3.js" ++ LF :: [] ++ LF :: B "||a.com^" ++ LF :: B "@@||a.com/ok".

Example C55_example :
  sanitizeABPInput raw_list =
    B "[Adblock Plus 2.0]" ++ LF :: B "/ima3.js$explicitcancel" ++ LF :: B "||a.com^" ++ LF ::
    B "@@||a.com/ok" ++ LF :: B "||imasdk.googleapis.com/$third-party" ++ LF :: B "^ima3.js" /\
  map (fun t => map (fun u => rmap v_block (asked E0 t u FOScript (Some (B "b.com"))))
                    [B "http://a.com/x"; B "http://a.com/ok"; B "http://c.com/ima3.js"; B "http://c.com/"])
    [[Parse false (sanitizeABPInput raw_list)]; [Parse false raw_list; Parse false ima_rules]] =
  [[Ok true; Ok false; Ok true; Ok false]; [Ok true; Ok false; Ok true; Ok false]].
Proof. vm_compute. auto. Qed.

(** ** C56 *)

(** Several downloaded lists prepared one by one, joined and prepared again
    decide like the lists loaded one after the other, followed by the two added
    rules. *)
Theorem C56_lists_as_one : forall E pre rest p ts c1 c2,
  history pre -> history rest -> Forall nonul ts ->
  after E (pre ++ Parse p (listURLsText None ts) :: rest) = Ok c1 ->
  after E (pre ++ map (Parse p) (ts ++ [ima_rules]) ++ rest) = Ok c2 ->
  same_decisions E c1 c2.
Proof. exact lists_decide. Qed.
Print Assumptions C56_lists_as_one.

Theorem C56_same_definedness : forall E pre p ts,
  Forall nonul ts ->
  (after E (pre ++ [Parse p (listURLsText None ts)]) = UB <-> after E (pre ++ map (Parse p) ts) = UB).
Proof. exact lists_defined. Qed.
Print Assumptions C56_same_definedness.

Example C56_example :
  map (fun t => map (fun u => rmap v_block (asked E0 t u FOScript (Some (B "b.com"))))
                    [B "http://a.com/x"; B "http://d.com/x"; B "http://c.com/ima3.js"; B "http://c.com/"])
    [[Parse false (listURLsText None [raw_list; B "||d.com^"; []])];
     map (Parse false) ([raw_list; B "||d.com^"; []] ++ [ima_rules])] =
  [[Ok true; Ok true; Ok true; Ok false]; [Ok true; Ok true; Ok true; Ok false]].
Proof. vm_compute. auto. Qed.

(** ** C57 *)
Theorem C57_refuted : ~ (forall E calls c url context,
  history calls -> after E calls = Ok c -> nonul url ->
  forall b1 c1 v2 c2, jsMatches E c url context None = Ok (b1, c1) ->
  matches E c (cstr url) context None = Ok (v2, c2) -> b1 = v_block v2).
Proof.
  intros H. set (u := B "http://a.com/ads/x").
  set (calls := [Parse false (B "/ads/x$domain=b.com")]).
  destruct (asked_ok E0 calls u FOScript None (mkV true (Some (rule_at false (B "/ads/x$domain=b.com"))) None))
    as (c & c2 & A & M2).
  { vm_compute. reflexivity. }
  destruct (asked_ok E0 calls u FOScript (Some (B "undefined")) (mkV false None None))
    as (c' & c1 & A' & M1).
  { vm_compute. reflexivity. }
  rewrite A in A'. injection A' as <-.
  assert (jsMatches E0 c u FOScript None = Ok (false, c1)) as J.
  { unfold jsMatches, js_string. rewrite M1. reflexivity. }
  assert (false = true) as X; [|discriminate].
  refine (H E0 calls c u FOScript _ A _ _ _ _ _ J M2); [hist|plain_bytes].
Qed.
Print Assumptions C57_refuted.

(** An omitted page is the page "undefined"; rules that do not look at the page
    do not care. *)
Theorem C57_omitted_page_partial : forall E calls c url context,
  history calls -> after E calls = Ok c -> nonul url ->
  (forall t f, t = BlockRule \/ t = ExceptionRule -> loaded E calls t f -> page_free context f) ->
  forall b1 c1 v2 c2, jsMatches E c url context None = Ok (b1, c1) ->
  matches E c (cstr url) context None = Ok (v2, c2) -> b1 = v_block v2.
Proof.
  intros E calls c url context H A Hu P b1 c1 v2 c2 J M.
  unfold jsMatches in J. apply bind_ok in J as ([v1 c1'] & M1 & J). injection J as <- _.
  exact (proj1 (page_free_decide E calls c url context _ _ H A Hu P) v1 v2 c1' c2 M1 M).
Qed.
Print Assumptions C57_omitted_page_partial.

(** ** C63 *)
Theorem C63_page_irrelevant : forall E calls c url context d1 d2,
  history calls -> after E calls = Ok c -> nonul url ->
  (forall t f, t = BlockRule \/ t = ExceptionRule -> loaded E calls t f -> page_free context f) ->
  (forall v1 v2 c1 c2, matches E c (cstr url) context d1 = Ok (v1, c1) ->
     matches E c (cstr url) context d2 = Ok (v2, c2) -> v_block v1 = v_block v2) /\
  (forall v1 v2, findMatchingFilters E c (cstr url) context d1 = Ok v1 ->
     findMatchingFilters E c (cstr url) context d2 = Ok v2 -> v_block v1 = v_block v2).
Proof. exact page_free_decide. Qed.
Print Assumptions C63_page_irrelevant.

Example C63_example :
  Forall (fun l => page_free FOScript (rule_at false (B l)))
    ["||a.com^"; "/ads/x$script,~image"; "@@/ok/$tag=t"]%string /\
  page_free 0 (rule_at false (B "/ads/x")) /\
  ~ page_free FOScript (rule_at false (B "/ads/x$third-party")) /\
  map (fun d => rmap v_block (asked E0 [Parse false (B "/ads/x$script")] (B "http://a.com/ads/x") FOScript d))
    [None; Some (B "a.com"); Some (B "undefined")] = [Ok true; Ok true; Ok true].
Proof.
  split; [|split; [|split]].
  - repeat (apply Forall_cons; [vm_compute; repeat split; left; discriminate|]). apply Forall_nil.
  - vm_compute. repeat split. auto.
  - intros (_ & X & _). vm_compute in X. discriminate.
  - vm_compute. reflexivity.
Qed.

(** The resource type must be known: *)
Theorem C63_unknown_type_matters :
  map (fun d => rmap v_block (asked E0 [Parse false (B "/ads/x$~script")] (B "http://a.com/ads/x") 0 d))
    [None; Some (B "a.com")] = [Ok false; Ok true].
Proof. vm_compute. reflexivity. Qed.
Print Assumptions C63_unknown_type_matters.

(** ** C58 *)
Theorem C58_refuted : ~ (forall hash sels,
  exists out, toStylesheet (selectorSet hash sels) = Ok out /\ stylesheet sels out).
Proof.
  intros H. destruct (H (fun _ => 0%N) [B ".ad"]) as (out & X & _).
  rewrite (stylesheet_overflow _ _ (B ".ad")) in X; [discriminate|now left|discriminate|].
  intros s _. discriminate.
Qed.
Print Assumptions C58_refuted.

(** If every selector lies in the last bucket the stylesheet is complete; *)
Theorem C58_complete_partial : forall hash sels,
  (forall s, In s sels -> in_last_bucket hash s) ->
  exists out, toStylesheet (selectorSet hash sels) = Ok out /\ stylesheet sels out.
Proof. exact stylesheet_all_last. Qed.
Print Assumptions C58_complete_partial.

(** in general only the selectors of the last bucket are returned, *)
Theorem C58_only_last_bucket : forall hash sels out,
  toStylesheet (selectorSet hash sels) = Ok out ->
  exists once, NoDup once /\ (forall s, In s once <-> In s sels /\ in_last_bucket hash s) /\
    out = comma_list once.
Proof. exact stylesheet_last. Qed.
Print Assumptions C58_only_last_bucket.

(** and the buffer is overrun if there are selectors but none of them lies
    there. *)
Theorem C58_overrun : forall hash sels s,
  In s sels -> s <> [] -> (forall s', In s' sels -> ~ in_last_bucket hash s') ->
  toStylesheet (selectorSet hash sels) = UB.
Proof. exact stylesheet_overflow. Qed.
Print Assumptions C58_overrun.

Example C58_example :
  toStylesheet (selectorSet (fun _ => 999%N) [B ".ad"; B "#b"; B ".ad"]) = Ok (B ".ad, #b") /\
  toStylesheet (selectorSet (fun s => match s with "."%char :: _ => 999%N | _ => 3%N end)
                            [B ".ad"; B "#b"]) = Ok (B ".ad") /\
  toStylesheet (selectorSet (fun _ => 3%N) [B ".ad"; B "#b"]) = UB.
Proof. vm_compute. auto. Qed.

(** ** C59 *)
Theorem C59_behavioural_options : forall E pre rest p t t' c1 c2,
  history pre -> history rest -> nonul t -> nonul t' ->
  Forall2 behavioural_edit (text_lines t) (text_lines t') ->
  after E (pre ++ Parse p t :: rest) = Ok c1 -> after E (pre ++ Parse p t' :: rest) = Ok c2 ->
  same_decisions E c1 c2.
Proof. exact edits_decide. Qed.
Print Assumptions C59_behavioural_options.

Example C59_example :
  Forall2 behavioural_edit
    (text_lines (B "||a.com^" ++ LF :: B "/ads/x$script" ++ LF :: B "q"))
    (text_lines (B "||a.com^$important" ++ LF :: B "/ads/x$script,redirect=none" ++ LF :: B "q")) /\
  map (fun t => rmap v_block (asked E0 [Parse false t] (B "http://b.com/ads/x") FOScript None))
    [B "/ads/x$script"; B "/ads/x$script,redirect=none"] = [Ok true; Ok true].
Proof.
  split; [|vm_compute; reflexivity].
  change (text_lines (B "||a.com^" ++ LF :: B "/ads/x$script" ++ LF :: B "q"))
    with [B "||a.com^"; B "/ads/x$script"; B "q"].
  change (text_lines (B "||a.com^$important" ++ LF :: B "/ads/x$script,redirect=none" ++ LF :: B "q"))
    with [B "||a.com^$important"; B "/ads/x$script,redirect=none"; B "q"].
  constructor; [|constructor; [|constructor; [constructor|constructor]]].
  - apply (be_first (mkRule false HostBars (B "a.com^") false None) (B "important"));
      [now apply good_ruleb_ok|now apply good_ruleb_ok|now left].
  - apply (be_more (mkRule false NoAnchor (B "/ads/x") false None) (B "script") (B "redirect=none"));
      [now apply good_ruleb_ok|now apply good_ruleb_ok|].
    right. right. exists (B "none"). split; [reflexivity|]. vm_compute. intuition discriminate.
Qed.

(** ** C60 *)
Theorem C60_refuted : ~ (forall E calls c url context page v,
  history calls -> after E calls = Ok c -> nonul url ->
  findMatchingFilters E c (cstr url) context (Some (js_string page)) = Ok v ->
  jsFind E c url context page =
    Ok (mkFound (v_block v) (pattern_of (v_filter v)) (text_of (v_filter v))
                (pattern_of (v_exc v)) (text_of (v_exc v)))).
Proof.
  intros H. set (u := B "http://a.com/").
  set (calls := [Parse true (B "||a.com^")]).
  destruct (found_by E0 calls u 0 (Some (js_string None))) as [v|] eqn:F; [|vm_compute in F; discriminate].
  pose proof F as F'. apply found_by_ok in F' as (c & A & M).
  assert (history calls) as Hc by hist. assert (nonul u) as Hu by plain_bytes.
  pose proof (H E0 calls c u 0%N None v Hc A Hu M) as X.
  rewrite (proj1 (jsFind_exact E0 calls c u 0%N None v Hc A Hu M)) in X; [discriminate|].
  vm_compute in F. injection F as <-. eexists. split; [left; reflexivity|vm_compute; reflexivity].
Qed.
Print Assumptions C60_refuted.

(** The binding reports the decision, the patterns and the texts of the rules
    found, unless one of them is a host rule: then it reads past the end of the
    pattern. *)
Theorem C60_report_partial : forall E calls c url context page v,
  history calls -> after E calls = Ok c -> nonul url ->
  findMatchingFilters E c (cstr url) context (Some (js_string page)) = Ok v ->
  ((exists f, (v_filter v = Some f \/ v_exc v = Some f) /\ has (f_type f) FTHostOnly = true) ->
   jsFind E c url context page = UB) /\
  ((forall f, v_filter v = Some f \/ v_exc v = Some f -> has (f_type f) FTHostOnly = false) ->
   jsFind E c url context page =
     Ok (mkFound (v_block v) (pattern_of (v_filter v)) (text_of (v_filter v))
                 (pattern_of (v_exc v)) (text_of (v_exc v)))).
Proof. exact jsFind_exact. Qed.
Print Assumptions C60_report_partial.

Example C60_example :
  (c <- after E0 [Parse true (B "/ads/x" ++ LF :: B "@@x$script")] ;;
   jsFind E0 c (B "http://a.com/ads/x") FOScript (Some (B "b.com"))) =
  Ok (mkFound false (Some (B "/ads/x")) (Some (B "/ads/x")) (Some (B "x")) (Some (B "@@x$script"))).
Proof. vm_compute. reflexivity. Qed.

(** ** C61 *)
Theorem C61_get_filters : forall E calls c name k,
  history calls -> after E calls = Ok c -> In (name, k) array_names ->
  exists fs ens, getFilters c name = Ok ens /\
    Forall2 (fun pl f => parses_to (fst pl) (snd pl) f) (loaded_lines calls) fs /\
    Forall2 described (List.filter (goes_to E (CList k)) fs) ens.
Proof. exact getFilters_spec. Qed.
Print Assumptions C61_get_filters.

Theorem C61_unknown_name : forall c name,
  (forall k, ~ In (name, k) array_names) -> getFilters c name = Ok [].
Proof. exact getFilters_unknown. Qed.
Print Assumptions C61_unknown_name.

Example C61_example :
  (c <- after E0 [Parse false (B "/ads/x$domain=a.com|~b.com|c.com,tag=t" ++ LF :: B "||d.com/ads/xyz")] ;;
   getFilters c (B "filters")) =
  Ok [mkEntry (Some (B "/ads/x")) None false false false false
              [B "a.com"; B "c.com"] [B "b.com"] (B "t");
      mkEntry (Some (B "d.com/ads/xyz")) (Some (B "d.com")) false false false false [] [] []].
Proof. vm_compute. reflexivity. Qed.

(** ** C62 *)
Theorem C62_host_list : forall E p body c h url uh context dom v c',
  nonul body -> ~ In CR body ->
  Forall host_entry (skipn 4 (text_lines body)) -> In h (skipn 4 (text_lines body)) -> h <> [] ->
  after E [Parse p (listURLText (Some hostListFilter) body)] = Ok c ->
  nonul url -> web_url url -> url_has_host url uh ->
  first_party h uh -> h = uh \/ In "."%char h -> has context FODocument = false ->
  matches E c (cstr url) context dom = Ok (v, c') ->
  v_block v = true.
Proof. exact host_list. Qed.
Print Assumptions C62_host_list.

Definition hosts_file : bytes :=
  B "# list" ++ LF :: B "#" ++ LF :: B "# hosts" ++ LF :: [] ++ LF :: B "ads.com" ++ LF :: B "x.org" ++ [LF].

Example C62_example :
  skipn 4 (text_lines hosts_file) = [B "ads.com"; B "x.org"; []] /\
  Forall host_entry [B "ads.com"; B "x.org"; []] /\
  map (fun u => rmap v_block (asked E0 [Parse false (listURLText (Some hostListFilter) hosts_file)] u FOScript None))
    [B "http://ads.com/a"; B "https://b.x.org/"; B "http://c.com/"; B "http://cads.com/"] =
  [Ok true; Ok true; Ok false; Ok false].
Proof.
  split; [vm_compute; reflexivity|]. split; [|vm_compute; reflexivity].
  assert (forall h, h <> [] -> length h < 2040 ->
    forallb (fun c => negb (existsb (ceq c) separators) && negb (ceq c "|") && negb (ceq c "$") &&
       negb (ceq c "#") && negb (ceq c NUL) && negb (ceq c CR) && negb (ceq c LF) && negb (ceq c "*")) h = true ->
    host_name h) as K.
  { intros h N L F. split; auto. split; auto. intros c I. rewrite forallb_forall in F. specialize (F c I).
    repeat (apply Bool.andb_true_iff in F as [F ?]).
    assert (forall d, negb (ceq c d) = true -> c <> d) as D.
    { intros d X ->. apply Bool.negb_true_iff in X. assert (ceq d d = true) by now apply ceq_eq. congruence. }
    split; [|split; [repeat split|]; auto].
    intros J. apply Bool.negb_true_iff in F. apply Bool.not_true_iff_false in F. apply F.
    apply existsb_exists. exists c. split; auto. now apply ceq_eq. }
  constructor; [right; apply K; [discriminate|vm_compute; lia|reflexivity]|].
  constructor; [right; apply K; [discriminate|vm_compute; lia|reflexivity]|].
  constructor; [left; reflexivity|constructor].
Qed.

(** ** C64 *)
Theorem C64_array_of_lists : forall E p ts c1 c2,
  Forall nonul ts -> ts <> [] ->
  clientFromStrings E p ts = Ok c1 -> clientFromStrings E p [join_lf ts] = Ok c2 ->
  same_decisions E c1 c2.
Proof. exact strings_decide. Qed.
Print Assumptions C64_array_of_lists.

Example C64_example :
  map (fun ts => rmap (fun c => rmap (fun x => v_block (fst x))
                   (matches E0 c (cstr (B "http://d.com/x")) FOScript None))
                   (clientFromStrings E0 false ts))
    [[raw_list; B "||d.com^"]; [join_lf [raw_list; B "||d.com^"]]] = [Ok (Ok true); Ok (Ok true)].
Proof. vm_compute. reflexivity. Qed.
