(** Cut-off data and the script layer: C71-C77. *)
From Verif Require Import Base Flags Protocol Url Sets FilterM ParseM ClientM SerialM JsM DataM ListsM ToolM
  Spec SpecM SpecC SpecS SpecJ SpecX SpecT SpecTool
  P_Base P_Parse P_List P_Props2 P_Line5 P_Match2 P_Ser6 P_Cut P_Ex P_Opt P_Data P_Tool
  Props_List Props_Client Props_Serial SpecC SpecTool.

(** ** C71 *)

(** The full property: data that was cut short is refused. *)
Theorem C71_refuted : ~ (forall E calls c nc nh buf p u d,
  history calls -> after E calls = Ok c -> serialize c nc nh = Ok buf ->
  buf = p ++ u -> u <> [] -> exists c' ok, deserialize p d = Ok (c', ok)).
Proof.
  intros H.
  assert (history []) as Hc by constructor.
  destruct (serialize client0 false false) as [buf|] eqn:S1; [|vm_compute in S1; discriminate].
  destruct buf as [|x buf]; [vm_compute in S1; discriminate|].
  assert (x :: buf <> []) as N by discriminate.
  pose proof (truncated E0 [] client0 false false _ [] _ client0 Hc eq_refl S1 eq_refl N) as T.
  destruct (H E0 [] client0 false false _ [] _ client0 Hc eq_refl S1 eq_refl N) as (c' & ok & D).
  rewrite T in D. discriminate.
Qed.
Print Assumptions C71_refuted.

(** What it does instead, wherever the cut is: it reads past the end. *)
Theorem C71_always_overruns_partial : forall E calls c nc nh buf p u d,
  history calls -> after E calls = Ok c -> serialize c nc nh = Ok buf ->
  buf = p ++ u -> u <> [] -> deserialize p d = UB.
Proof. exact truncated. Qed.
Print Assumptions C71_always_overruns_partial.

(** A stored host of ffffffff bytes: the sum in the bounds check wraps around, so
    the length is taken for a good one; a smaller one is refused. *)
Definition host_of_length (n : bytes) : bytes :=
  cstr (B "0,0,0,0,0,0,0,0,0,0,0,0,0,0,20,0,0,0,0,0") ++ cstr (B "1") ++ cstr (n ++ B ",0,0,0") ++
  repeat "x"%char 40 ++ [NUL; NUL; NUL; NUL].
Example C71_wrap_example :
  deserialize (host_of_length (B "ffffffff")) client0 = UB /\
  rmap snd (deserialize (host_of_length (B "1ff")) client0) = Ok false.
Proof. split; lazy; reflexivity. Qed.

Example C71_example :
  history ser_calls /\
  (c <- after E0 ser_calls ;; b <- serialize c false false ;;
   Ok (forallb (fun n => match deserialize (firstn n b) client0 with UB => true | Ok _ => false end)
               [0; 1; 30; 90; 140; length b - 1],
       match deserialize b client0 with UB => true | Ok _ => false end)) = Ok (true, false).
Proof. split; [hist|vm_compute; reflexivity]. Qed.

(** ** C72 *)

(** The counts printed for a list of sites: how many of them the client blocks
    and how many it does not, each decided as if it were the only query. *)
Theorem C72_counts : forall E context host c file m k c',
  checkList E context host c (readSiteList file) = Ok (m, k, c') ->
  divided (blocks E c context host) (readSiteList file) m k /\ m + k = length (readSiteList file).
Proof. intros *. apply checkList_counts. Qed.
Print Assumptions C72_counts.

(** The sites are the lines of the file. *)
Theorem C72_lines : forall file, cut_at LF file (readSiteList file).
Proof. exact (split_cut LF). Qed.
Print Assumptions C72_lines.

Theorem C72_defined : forall E context host c sites,
  (forall s, In s sites -> exists v c', matches E c (cstr s) context (Some host) = Ok (v, c')) ->
  exists r, checkList E context host c sites = Ok r.
Proof. intros *. apply checkList_defined. Qed.
Print Assumptions C72_defined.

Definition site_file : bytes :=
  B "http://x.com/ad/banner" ++ LF :: B "http://q.org/" ++ LF :: B "http://x.com/ad/banner" ++ LF ::
  B "http://x.com/good/path/ad/banner" ++ [LF].

Example C72_example :
  (c <- after E0 [Parse false some_list] ;;
   rmap fst (checkList E0 (filterOption (B "script")) (B "r.org") c (readSiteList site_file))) = Ok (2, 3).
Proof. vm_compute. reflexivity. Qed.

(** ** C73 *)
Theorem C73_refuted : ~ (forall E calls c cache context host sites m k,
  history calls -> after E calls = Ok c ->
  checkListDiscover E cache context host c sites = Ok (m, k) ->
  divided (finds_block E c context host) sites m k).
Proof.
  intros H.
  assert (divided (finds_block E0 client0 0 (B "a.com")) [B "http://q.org/"] 1 0) as D.
  { apply (H E0 [] client0 false 0%N (B "a.com") [B "http://q.org/"] 1 0).
    - constructor.
    - reflexivity.
    - vm_compute. reflexivity. }
  inversion D as [|x l m k (v & F & V) _|]; subst. vm_compute in F. injection F as <-. discriminate V.
Qed.
Print Assumptions C73_refuted.

(** Every site is counted as a match, with and without a cache. *)
Theorem C73_counts_all_partial : forall E cache context host c sites r,
  checkListDiscover E cache context host c sites = Ok r -> r = (length sites, 0).
Proof. exact discover_counts_all. Qed.
Print Assumptions C73_counts_all_partial.

Example C73_example :
  map (fun cache => c <- after E0 [Parse false some_list] ;;
         checkListDiscover E0 cache (filterOption (B "script")) (B "r.org") c (readSiteList site_file))
      [false; true] = [Ok (5, 0); Ok (5, 0)].
Proof. vm_compute. reflexivity. Qed.

(** ** C74 *)

(** No two known lists have the same UUID; the UUID of a known list gives a
    client that decides like one loading the downloaded list and the two added
    rules; a failed download or another UUID gives none. *)
Theorem C74_uuids_distinct : NoDup (map fst catalogue).
Proof. exact uuids_distinct. Qed.
Print Assumptions C74_uuids_distinct.

Theorem C74_known : forall E keep fetch uuid url,
  In (uuid, url) catalogue ->
  (forall b, fetch url = Some b -> nonul b ->
     exists r, makeFromListUUID E keep fetch uuid = Some r /\ client_of E keep [b] r) /\
  (fetch url = None -> makeFromListUUID E keep fetch uuid = None).
Proof. exact uuid_client. Qed.
Print Assumptions C74_known.

Theorem C74_unknown : forall E keep fetch uuid,
  (forall url, ~ In (uuid, url) catalogue) -> makeFromListUUID E keep fetch uuid = None.
Proof. intros E keep fetch uuid. apply uuid_lookup. Qed.
Print Assumptions C74_unknown.

(** Several addresses: all of the lists, or no client at all. *)
Theorem C74_several : forall E keep fetch urls,
  (forall bs, bodies fetch urls bs -> Forall nonul bs ->
     exists r, makeFromListURLs E keep fetch None urls = Some r /\ client_of E keep bs r) /\
  ((exists u, In u urls /\ fetch u = None) -> makeFromListURLs E keep fetch None urls = None).
Proof. exact urls_client. Qed.
Print Assumptions C74_several.

Definition web_of_lists : fetcher := fun url =>
  if beq url (B "https://easylist.to/easylist/easylist.txt") then Some some_list
  else if beq url (B "https://stanev.org/abp/adblock_bg.txt") then Some (B "||bg.com^")
  else None.

Example C74_example :
  map (fun u => match makeFromListUUID E0 false web_of_lists u with
                | None => None
                | Some r => Some (c <- r ;;
                    Ok (map (fun s => rmap (fun x => v_block (fst x)) (matches E0 c (cstr s) 0 None))
                            [B "http://x.com/ad/banner"; B "http://bg.com/"]))
                end)
      [B "67F880F5-7602-4042-8A3D-01481FD7437A"; B "FD176DD1-F9A0-4469-B43E-B1764893DD5C";
       B "48010209-AD34-4DF5-A80C-3D2A7C3920C0"; B "FBB430E8-3910-4761-9373-840FC3B43FF2"] =
  [Some (Ok [Ok true; Ok false]); Some (Ok [Ok false; Ok true]); None; None].
Proof. vm_compute. reflexivity. Qed.

(** ** C75 *)

(** A rule with a type option applies to requests declared with the constant of
    that name where the rule without it would, and to no others; a negated one
    the other way round. *)
Theorem C75_type : forall E pres r n t f f0 url dom n' t',
  In (n, t) type_names -> In (n', t') type_names ->
  good_rule (with_options r None) -> parses_to pres (rule_line (with_options r None)) f0 ->
  good_rule (with_options r (Some t)) -> parses_to pres (rule_line (with_options r (Some t))) f ->
  (n' <> n -> ~ matches_alone E f url (filterOption n') dom) /\
  (n' <> B "document" ->
   (matches_alone E f url (filterOption n) dom <-> matches_alone E f0 url (filterOption n') dom)).
Proof. intros; eapply type_rule; eauto. Qed.
Print Assumptions C75_type.

Theorem C75_negated_type : forall E pres r n t f f0 url dom n' t',
  In (n, t) type_names -> In (n', t') type_names ->
  good_rule (with_options r None) -> parses_to pres (rule_line (with_options r None)) f0 ->
  good_rule (with_options r (Some (B "~" ++ t))) ->
  parses_to pres (rule_line (with_options r (Some (B "~" ++ t)))) f ->
  (n' = n -> ~ matches_alone E f url (filterOption n') dom) /\
  (n' <> n ->
   (matches_alone E f url (filterOption n') dom <-> matches_alone E f0 url (filterOption n') dom)).
Proof. intros; eapply negated_type_rule; eauto. Qed.
Print Assumptions C75_negated_type.

Definition typed_rule : rule_syntax := mkRule false HostBars (B "ads.com/x") false None.

Example C75_example :
  good_rule (with_options typed_rule None) /\
  good_rule (with_options typed_rule (Some (B "object-subrequest"))) /\
  good_rule (with_options typed_rule (Some (B "~object-subrequest"))) /\
  map (fun o => map (fun n => rmap v_block (asked E0 [Parse false (rule_line (with_options typed_rule o))]
         (B "http://ads.com/x/y") (filterOption n) (Some (B "b.com"))))
       [B "objectSubrequest"; B "object"; B "document"])
      [None; Some (B "object-subrequest"); Some (B "~object-subrequest")] =
  [[Ok true; Ok true; Ok false]; [Ok true; Ok false; Ok false]; [Ok false; Ok true; Ok false]].
Proof.
  split; [now apply good_ruleb_ok|]. split; [now apply good_ruleb_ok|].
  split; [now apply good_ruleb_ok|vm_compute; reflexivity].
Qed.

(** ** C76 *)
Theorem C76_refuted : ~ (forall E calls c,
  history calls -> after E calls = Ok c -> exists t, generateHeader c = Ok t).
Proof.
  intros H. destruct (H E0 [] client0) as (t & X); [constructor|reflexivity|discriminate].
Qed.
Print Assumptions C76_refuted.

(** It works exactly while detection is on. *)
Theorem C76_header_defined_partial : forall E calls c,
  history calls -> after E calls = Ok c ->
  ((exists t, generateHeader c = Ok t) <-> detecting calls).
Proof. exact header_defined. Qed.
Print Assumptions C76_header_defined_partial.

Example C76_example :
  map (fun calls => rmap (fun c => match generateHeader c with Ok _ => true | UB => false end) (after E0 calls))
    [[DetectBad; Parse false some_list]; [DetectBad; Parse false some_list; Clear]; []] =
  [Ok true; Ok false; Ok false].
Proof. vm_compute. reflexivity. Qed.

(** ** C77 *)

(** The data file of some known lists restores to a client [c'] that answers
    like [c], made from the prepared lists, and [c] decides like a client that
    loads the downloaded lists and the two added rules. *)
Theorem C77_lists_partial : forall E sites fetch lists bs,
  (forall l, In l lists -> In l catalogue) -> lists <> [] ->
  bodies fetch (map snd lists) bs -> Forall nonul bs -> Forall nonul sites ->
  all_storable (map (Parse false) bs) ->
  exists r, dataFileForList E sites fetch lists = Some r /\
    forall data, r = Ok data ->
    exists c c', after E (map (Parse false) (map sanitizeABPInput bs)) = Ok c /\
      clientFromDAT data = Ok c' /\
      (forall url context dom v c1, matches E c url context dom = Ok (v, c1) ->
         exists w c1', matches E c' url context dom = Ok (w, c1') /\ same_verdict v w) /\
      (forall url context dom v, findMatchingFilters E c url context dom = Ok v ->
         exists w, findMatchingFilters E c' url context dom = Ok w /\ same_verdict v w) /\
      (forall c2, after E (map (Parse false) (bs ++ [ima_rules])) = Ok c2 -> same_decisions E c c2).
Proof. exact default_data. Qed.
Print Assumptions C77_lists_partial.

(** If one download fails, no data file is written. *)
Theorem C77_all_or_nothing : forall E sites fetch lists,
  (exists l, In l lists /\ fetch (snd l) = None) -> dataFileForList E sites fetch lists = None.
Proof. exact failed_data. Qed.
Print Assumptions C77_all_or_nothing.

(** The data file of a region: the list as downloaded and the local list; the
    two added rules are not in it. *)
Theorem C77_region_partial : forall E sites fetch unbreak url b,
  fetch url = Some b -> nonul b -> nonul unbreak -> Forall nonul sites ->
  all_storable [Parse false b; Parse false unbreak] ->
  exists r, dataFileForRegion E sites fetch unbreak url = Some r /\
    forall data, r = Ok data ->
    exists c c', after E [Parse false b; Parse false unbreak] = Ok c /\
      clientFromDAT data = Ok c' /\
      (forall url context dom v c1, matches E c url context dom = Ok (v, c1) ->
         exists w c1', matches E c' url context dom = Ok (w, c1') /\ same_verdict v w) /\
      (forall url context dom v, findMatchingFilters E c url context dom = Ok v ->
         exists w, findMatchingFilters E c' url context dom = Ok w /\ same_verdict v w).
Proof. exact region_data. Qed.
Print Assumptions C77_region_partial.

(** For all rules: it answers like [c] with its rules as they are read back. *)
Theorem C77_lists_any_rules : forall E sites fetch lists bs,
  (forall l, In l lists -> In l catalogue) -> lists <> [] ->
  bodies fetch (map snd lists) bs -> Forall nonul bs -> Forall nonul sites ->
  exists r, dataFileForList E sites fetch lists = Some r /\
    forall data, r = Ok data ->
    exists c c', after E (map (Parse false) (map sanitizeABPInput bs)) = Ok c /\
      clientFromDAT data = Ok c' /\
      (forall url context dom v c1, matches E (restarted c client0) url context dom = Ok (v, c1) ->
         exists w c1', matches E c' url context dom = Ok (w, c1') /\ same_verdict v w) /\
      (forall url context dom v, findMatchingFilters E (restarted c client0) url context dom = Ok v ->
         exists w, findMatchingFilters E c' url context dom = Ok w /\ same_verdict v w) /\
      (forall c2, after E (map (Parse false) (bs ++ [ima_rules])) = Ok c2 -> same_decisions E c c2).
Proof. exact default_data_any. Qed.
Print Assumptions C77_lists_any_rules.

Theorem C77_region_any_rules : forall E sites fetch unbreak url b,
  fetch url = Some b -> nonul b -> nonul unbreak -> Forall nonul sites ->
  exists r, dataFileForRegion E sites fetch unbreak url = Some r /\
    forall data, r = Ok data ->
    exists c c', after E [Parse false b; Parse false unbreak] = Ok c /\
      clientFromDAT data = Ok c' /\
      (forall url context dom v c1, matches E (restarted c client0) url context dom = Ok (v, c1) ->
         exists w c1', matches E c' url context dom = Ok (w, c1') /\ same_verdict v w) /\
      (forall url context dom v, findMatchingFilters E (restarted c client0) url context dom = Ok v ->
         exists w, findMatchingFilters E c' url context dom = Ok w /\ same_verdict v w).
Proof. exact region_data_any. Qed.
Print Assumptions C77_region_any_rules.

(** Unlike the default lists, a region's list is written without the two added
    rules: its client does not decide like the list with them. *)
Theorem C77_refuted : ~ (forall E fetch unbreak url b data c' c2 u context dom v1 v2 c1 c3,
  fetch url = Some b -> nonul b -> nonul unbreak ->
  all_storable [Parse false b; Parse false unbreak] ->
  dataFileForRegion E [] fetch unbreak url = Some (Ok data) -> clientFromDAT data = Ok c' ->
  after E (map (Parse false) [b; unbreak; ima_rules]) = Ok c2 ->
  matches E c' (cstr u) context dom = Ok (v1, c1) ->
  matches E c2 (cstr u) context dom = Ok (v2, c3) -> v_block v1 = v_block v2).
Proof.
  intros H.
  destruct (region_differs E0 (B "||bg.com^") (B "@@||ok.com^") (B "http://q.com/a/ima3.js") 0%N (Some (B "b.com")))
    as (data & c' & c2 & v1 & v2 & c1 & c3 & D & R & A & M1 & M2 & V1 & V2).
  - vm_compute. reflexivity.
  - vm_compute. reflexivity.
  - assert (v_block v1 = v_block v2) as X; [|rewrite V1, V2 in X; discriminate].
    refine (H E0 (fun _ => Some (B "||bg.com^")) (B "@@||ok.com^") [] _ data c' c2 _ _ _ v1 v2 c1 c3
              eq_refl _ _ _ _ R A M1 M2).
    + plain_bytes.
    + plain_bytes.
    + intros p l f I P. vm_compute in I.
      repeat (destruct I as [I|I]; [injection I as <- <-;
        apply parses_rule_at in P; [|line]; subst f; apply storableb_ok; vm_compute; reflexivity|]).
      destruct I.
    + unfold dataFileForRegion. cbn [option_map]. now rewrite D.
Qed.
Print Assumptions C77_refuted.

Example C77_example :
  (forall l, In l (firstn 1 default_lists) -> In l catalogue) /\
  bodies web_of_lists (map snd (firstn 1 default_lists)) [some_list] /\
  all_storable (map (Parse false) [some_list]) /\
  match dataFileForList E0 [B "http://q.org/"] web_of_lists (firstn 1 default_lists) with
  | None => UB
  | Some r => d <- r ;; c <- clientFromDAT d ;;
      Ok (map (fun s => rmap (fun x => v_block (fst x)) (matches E0 c (cstr s) 0 (Some (B "b.com"))))
              [B "http://x.com/ad/banner"; B "http://q.com/a/ima3.js"; B "http://q.org/"])
  end = Ok [Ok true; Ok true; Ok false].
Proof.
  split; [|split; [|split; [|vm_compute; reflexivity]]].
  - intros l [<-|[]]. cbn. auto.
  - constructor; [vm_compute; reflexivity|constructor].
  - intros p l f I P. vm_compute in I.
    repeat (destruct I as [I|I]; [injection I as <- <-;
      apply parses_rule_at in P; [|line]; subst f; apply storableb_ok; vm_compute; reflexivity|]).
    destruct I.
Qed.
