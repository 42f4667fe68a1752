(** Whole clients: C02, C03, C06-C08, C30-C35, C43-C47, C50, C51.

    A client is described by the history of calls made on it ([after E calls],
    SpecC.v).  Every theorem holds for every history of loads, clears, tag
    changes and queries, and every environment. *)
From Coq Require Import Permutation.
From Verif Require Import Base Flags Protocol Url Sets FilterM ParseM ClientM Spec SpecM SpecC
  P_Base P_Parse P_List P_Props2 P_Line5 P_Match2 P_Decide P_Dec2 P_Dec3 P_Dec4 P_Dec5 P_Dec6 P_Dec7
  P_Dec8 P_Ex Props_List SpecC.

Ltac line := apply line_text_dec; vm_compute; reflexivity.
Ltac plain_bytes := now apply nonulb_ok.
Ltac hist := repeat (constructor; [first [plain_bytes|exact I]|]); constructor.
Ltac web := apply webb_ok; [plain_bytes|vm_compute; reflexivity].

(** ** C02 *)

(** Nothing loaded since construction or the last clear(): both queries are
    defined and answer false, whatever tags were set and whatever happened
    before. *)
Theorem C02_empty_client : forall E calls c url context dom,
  history calls -> after E calls = Ok c -> loaded_lines calls = [] -> nonul url ->
  (exists c', matches E c (cstr url) context dom = Ok (mkV false None None, c')) /\
  findMatchingFilters E c (cstr url) context dom = Ok (mkV false None None).
Proof. exact empty_client. Qed.
Print Assumptions C02_empty_client.

(** Only lines without network rules loaded. *)
Theorem C02_no_network_rules : forall E calls c url context dom,
  history calls -> after E calls = Ok c -> nonul url ->
  (forall p l, In (p, l) (loaded_lines calls) -> no_network_line l) ->
  (forall v c', matches E c (cstr url) context dom = Ok (v, c') ->
     v_block v = false /\ v_filter v = None) /\
  (forall v, findMatchingFilters E c (cstr url) context dom = Ok v ->
     v_block v = false /\ v_filter v = None).
Proof.
  intros E calls c url context dom H A Hu N. apply (no_rule_no_block E calls); auto.
  intros f. apply (no_network_lines E calls H N f).
Qed.
Print Assumptions C02_no_network_rules.

(** The same for any client without a block rule, whatever its exceptions. *)
Theorem C02_no_block_rule : forall E calls c url context dom,
  history calls -> after E calls = Ok c -> nonul url ->
  (forall f, ~ loaded E calls BlockRule f) ->
  (forall v c', matches E c (cstr url) context dom = Ok (v, c') ->
     v_block v = false /\ v_filter v = None) /\
  (forall v, findMatchingFilters E c (cstr url) context dom = Ok v ->
     v_block v = false /\ v_filter v = None).
Proof. exact no_rule_no_block. Qed.
Print Assumptions C02_no_block_rule.

Definition quiet_list : bytes :=
  B "! ads" ++ [LF] ++ B "   " ++ [LF] ++ B "a.com##.ad" ++ [LF] ++ B "$$script[x]".

Example C02_example :
  history [AddTag (B "t"); Parse false (B "ads"); Clear; Parse true quiet_list] /\
  (forall p l, In (p, l) (loaded_lines
     [AddTag (B "t"); Parse false (B "ads"); Clear; Parse true quiet_list]) ->
     no_network_line l) /\
  asked E0 [AddTag (B "t"); Parse false (B "ads"); Clear; Parse true quiet_list]
    (B "http://ads.com/ads") FOScript (Some (B "a.com")) = Ok (mkV false None None).
Proof.
  split; [hist|]. split; [|vm_compute; reflexivity].
  intros p l I. vm_compute in I. destruct I as [I|[I|[I|[I|[]]]]];
    apply (f_equal snd) in I; cbn [snd] in I; subst l.
  - apply (nn_comment [] (B "! ads")); [easy|right; left; now exists (B " ads")|cbn; lia].
  - apply (nn_comment (B "   ") []); [|now left|cbn; lia].
    intros c [<-|[<-|[<-|[]]]]; now left.
  - apply (nn_cosmetic (B "a.com") (B "##") (B ".ad")); [|auto|cbn; lia].
    intros c J. vm_compute in J. split.
    + repeat (destruct J as [<-|J]; [unfold body_char; repeat split; discriminate|]). destruct J.
    + intros K. vm_compute in K.
      repeat (destruct J as [<-|J]; [repeat (destruct K as [K|K]; [discriminate K|]); destruct K|]).
      destruct J.
  - apply (nn_cosmetic [] (B "$$") (B "script[x]")); [easy|auto|cbn; lia].
Qed.

(** ** C03 *)

(** What decides: the loaded rules that apply to the request on their own
    ([applies] consults no Bloom filter), among those matches() heeds. *)
Theorem C03_decision : forall E calls c url context dom v c',
  history calls -> after E calls = Ok c -> nonul url -> web_url url ->
  matches E c (cstr url) context dom = Ok (v, c') ->
  v_block v = true <->
  (exists f, heeded E calls false url dom f /\ applies E calls f url context dom) /\
  ~ (exists f, heeded E calls true url dom f /\ applies E calls f url context dom).
Proof. exact decision. Qed.
Print Assumptions C03_decision.

(** Exchanging the hash functions of all Bloom filters (with none at all, every
    test succeeds and nothing is filtered out) changes no decision. *)
Theorem C03_hashes_irrelevant :
  forall E h h2 calls c1 c2 url context dom v1 v2 c1' c2',
  history calls -> after E calls = Ok c1 ->
  after (with_bloom_hashes E h h2) calls = Ok c2 -> nonul url ->
  matches E c1 (cstr url) context dom = Ok (v1, c1') ->
  matches (with_bloom_hashes E h h2) c2 (cstr url) context dom = Ok (v2, c2') ->
  v_block v1 = v_block v2.
Proof. exact after_hashes_irrelevant. Qed.
Print Assumptions C03_hashes_irrelevant.

Definition some_list : bytes :=
  B "/ad/banner" ++ [LF] ++ B "||ads.com^$script" ++ [LF] ++ B "@@good/path" ++ [LF]
  ++ B "x$domain=a.com".

Example C03_example :
  map (fun E => (rmap v_block (asked E [Parse false some_list] (B "http://x.com/ad/banner") 0 None),
                 rmap v_block (asked E [Parse false some_list] (B "http://x.com/good/path/ad/banner") 0 None),
                 rmap v_block (asked E [Parse false some_list] (B "http://x.com/bad/path/adbanner") 0 None)))
      [E0; with_bloom_hashes E0 [] []] =
  [(Ok true, Ok false, Ok false); (Ok true, Ok false, Ok false)].
Proof. vm_compute. reflexivity. Qed.

(** ** C06 *)
Theorem C06_listed_domains : forall E calls c url context d v c' f,
  history calls -> after E calls = Ok c -> nonul url -> web_url url ->
  matches E c (cstr url) context (Some d) = Ok (v, c') ->
  loaded_in E calls (only_listed false) f -> applies E calls f url context (Some d) ->
  v_filter v <> None /\ (v_block v = true <-> v_exc v = None).
Proof.
  intros. eapply block_rule_counts; eauto. apply heeded_listed; auto. discriminate.
Qed.
Print Assumptions C06_listed_domains.

Theorem C06_listed_domains_exception : forall E calls c url context d v c' f,
  history calls -> after E calls = Ok c -> nonul url ->
  matches E c (cstr url) context (Some d) = Ok (v, c') ->
  loaded_in E calls (only_listed true) f -> applies E calls f url context (Some d) ->
  v_block v = false.
Proof.
  intros. eapply exception_wins; eauto. apply heeded_listed; auto. discriminate.
Qed.
Print Assumptions C06_listed_domains_exception.

Example C06_example :
  loaded_in E0 [Parse false some_list] (only_listed false) (rule_at false (B "x$domain=a.com")) /\
  applies E0 [Parse false some_list] (rule_at false (B "x$domain=a.com"))
    (B "http://b.org/x") 0 (Some (B "sub.a.com")) /\
  rmap v_block (asked E0 [Parse false some_list] (B "http://b.org/x") 0 (Some (B "sub.a.com")))
    = Ok true.
Proof.
  split; [|split].
  - apply loaded_at; [vm_compute; auto 10|line|vm_compute; reflexivity].
  - apply (applies_at _ _ _ _ _ _ (B "b.org")); vm_compute; reflexivity.
  - vm_compute. reflexivity.
Qed.

(** ** C07 *)
Theorem C07_refuted : ~ (forall E calls c url context d v c' f,
  history calls -> after E calls = Ok c -> nonul url -> web_url url ->
  matches E c (cstr url) context (Some d) = Ok (v, c') ->
  loaded_in E calls (only_excluded false) f -> applies E calls f url context (Some d) ->
  v_filter v <> None).
Proof.
  intros H.
  destruct (asked_ok E0 [Parse false (B "ab$domain=~a.com"); Parse false (B "cd$domain=~b.com")]
    (B "http://x.org/ab") 0 (Some (B "b.com")) (mkV false None None)) as (c & c' & A & M).
  { vm_compute. reflexivity. }
  refine (H E0 _ c (B "http://x.org/ab") 0%N (B "b.com") _ c'
           (rule_at false (B "ab$domain=~a.com")) _ A _ _ M _ _ eq_refl).
  - hist.
  - plain_bytes.
  - web.
  - apply loaded_at; [vm_compute; auto|line|vm_compute; reflexivity].
  - apply (applies_at _ _ _ _ _ _ (B "x.org")); vm_compute; reflexivity.
Qed.
Print Assumptions C07_refuted.

(** It holds on pages that no rule of this kind excludes. *)
Theorem C07_excluded_domains_partial : forall E calls c url context dom v c' f,
  history calls -> after E calls = Ok c -> nonul url -> web_url url ->
  matches E c (cstr url) context dom = Ok (v, c') ->
  loaded_in E calls (only_excluded false) f -> applies E calls f url context dom ->
  ~ page_excluded E calls false dom ->
  v_filter v <> None /\ (v_block v = true <-> v_exc v = None).
Proof. intros. eapply block_rule_counts; eauto. now apply heeded_excluded. Qed.
Print Assumptions C07_excluded_domains_partial.

Theorem C07_excluded_domains_exception_partial : forall E calls c url context dom v c' f,
  history calls -> after E calls = Ok c -> nonul url ->
  matches E c (cstr url) context dom = Ok (v, c') ->
  loaded_in E calls (only_excluded true) f -> applies E calls f url context dom ->
  ~ page_excluded E calls true dom ->
  v_block v = false.
Proof. intros. eapply exception_wins; eauto. now apply heeded_excluded. Qed.
Print Assumptions C07_excluded_domains_exception_partial.

Example C07_example :
  map (fun d => rmap v_block (asked E0
         [Parse false (B "ab$domain=~a.com"); Parse false (B "cd$domain=~b.com")]
         (B "http://x.org/ab") 0 (Some d)))
      [B "c.com"; B "a.com"] = [Ok true; Ok false].
Proof. vm_compute. reflexivity. Qed.

(** ** C08 *)
Theorem C08_block_needs_rule : forall E calls c url context dom v c',
  history calls -> after E calls = Ok c -> nonul url ->
  matches E c (cstr url) context dom = Ok (v, c') ->
  v_block v = true ->
  exists f, loaded E calls BlockRule f /\ applies E calls f url context dom.
Proof. exact block_needs_rule. Qed.
Print Assumptions C08_block_needs_rule.

Theorem C08_exception_wins : forall E calls c url context dom v c' f,
  history calls -> after E calls = Ok c -> nonul url ->
  matches E c (cstr url) context dom = Ok (v, c') ->
  heeded E calls true url dom f -> applies E calls f url context dom ->
  v_block v = false.
Proof. exact exception_wins. Qed.
Print Assumptions C08_exception_wins.

(** Likewise for findMatchingFilters(), which heeds every loaded rule except
    shadowed host rules. *)
Theorem C08_find_block_needs_rule : forall E calls c url context dom v,
  history calls -> after E calls = Ok c -> nonul url ->
  findMatchingFilters E c (cstr url) context dom = Ok v ->
  v_block v = true ->
  exists f, loaded E calls BlockRule f /\ applies E calls f url context dom.
Proof. exact find_block_needs_rule. Qed.
Print Assumptions C08_find_block_needs_rule.

Theorem C08_find_exception_wins : forall E calls c url context dom v f,
  history calls -> after E calls = Ok c -> nonul url ->
  findMatchingFilters E c (cstr url) context dom = Ok v ->
  visible E calls true url f -> applies E calls f url context dom ->
  v_block v = false.
Proof. exact find_exception_wins. Qed.
Print Assumptions C08_find_exception_wins.

Example C08_example :
  heeded E0 [Parse false some_list] true (B "http://x.com/good/path/ad/banner") None
    (rule_at false (B "@@good/path")) /\
  applies E0 [Parse false some_list] (rule_at false (B "@@good/path"))
    (B "http://x.com/good/path/ad/banner") 0 None /\
  loaded E0 [Parse false some_list] BlockRule (rule_at false (B "/ad/banner")) /\
  applies E0 [Parse false some_list] (rule_at false (B "/ad/banner"))
    (B "http://x.com/good/path/ad/banner") 0 None.
Proof.
  split; [|split; [|split]].
  - apply heeded_fingerprint. apply loaded_at; [vm_compute; auto 10|line|vm_compute; reflexivity].
  - apply (applies_at _ _ _ _ _ _ (B "x.com")); vm_compute; reflexivity.
  - exists (CList KFilters). split; [|reflexivity].
    apply loaded_at; [vm_compute; auto 10|line|vm_compute; reflexivity].
  - apply (applies_at _ _ _ _ _ _ (B "x.com")); vm_compute; reflexivity.
Qed.

(** ** C30 *)
Theorem C30_tag_state : forall E calls c t,
  history calls -> after E calls = Ok c -> (tagExists c t = true <-> tag_enabled calls t).
Proof. exact tag_state. Qed.
Print Assumptions C30_tag_state.

(** Only the enabled tags that loaded rules carry matter: two histories with the
    same loaded lines that agree on the tags of the loaded rules give the same
    decisions.  In particular untagged rules do not care about tags. *)
Theorem C30_only_own_tags_matter :
  forall E calls1 calls2 c1 c2 url context dom v1 v2 c1' c2',
  history calls1 -> after E calls1 = Ok c1 -> history calls2 -> after E calls2 = Ok c2 ->
  nonul url -> loaded_lines calls1 = loaded_lines calls2 ->
  (forall t f, loaded E calls1 t f -> tag_on calls1 f <-> tag_on calls2 f) ->
  matches E c1 (cstr url) context dom = Ok (v1, c1') ->
  matches E c2 (cstr url) context dom = Ok (v2, c2') ->
  v_block v1 = v_block v2.
Proof. exact tags_decide. Qed.
Print Assumptions C30_only_own_tags_matter.

(** A rule whose tag is not enabled is as good as absent, if it is not a host
    rule and not restricted by excluded page domains only. *)
Theorem C30_disabled_absent_partial :
  forall E pre rest p a b l s s' g k c1 c2 url context dom v1 v2 c1' c2',
  history (pre ++ Parse p (a ++ s :: l ++ s' :: b) :: rest) ->
  (s = CR \/ s = LF) -> (s' = CR \/ s' = LF) -> line_text l -> nonul url ->
  parses_to p l g -> classify E g = Ok k ->
  (forall e, k <> only_excluded e) -> (forall e, ~ host_rule e g) ->
  f_tag g <> [] -> ~ tag_enabled (pre ++ rest) (f_tag g) ->
  after E (pre ++ Parse p (a ++ s :: b) :: rest) = Ok c1 ->
  after E (pre ++ Parse p (a ++ s :: l ++ s' :: b) :: rest) = Ok c2 ->
  matches E c1 (cstr url) context dom = Ok (v1, c1') ->
  matches E c2 (cstr url) context dom = Ok (v2, c2') ->
  v_block v1 = v_block v2.
Proof. exact disabled_insert. Qed.
Print Assumptions C30_disabled_absent_partial.

(** A host rule with a disabled tag hides the host rules loaded after it. *)
Theorem C30_refuted : ~ (forall E pre rest p a b l s s' g c1 c2 url context dom v1 v2 c1' c2',
  history (pre ++ Parse p (a ++ s :: l ++ s' :: b) :: rest) ->
  (s = CR \/ s = LF) -> (s' = CR \/ s' = LF) -> line_text l -> nonul url ->
  parses_to p l g -> f_tag g <> [] -> ~ tag_enabled (pre ++ rest) (f_tag g) ->
  after E (pre ++ Parse p (a ++ s :: b) :: rest) = Ok c1 ->
  after E (pre ++ Parse p (a ++ s :: l ++ s' :: b) :: rest) = Ok c2 ->
  matches E c1 (cstr url) context dom = Ok (v1, c1') ->
  matches E c2 (cstr url) context dom = Ok (v2, c2') ->
  v_block v1 = v_block v2).
Proof.
  intros H. set (u := B "http://a.com/").
  destruct (asked_ok E0 [Parse false (LF :: B "||a.com^")] u 0 None
    (mkV true (Some (copyFilter (rule_at false (B "||a.com^")))) None)) as (c1 & c1' & A1 & M1).
  { vm_compute. reflexivity. }
  destruct (asked_ok E0 [Parse false (LF :: B "||a.com^$tag=x" ++ LF :: B "||a.com^")] u 0 None
    (mkV false None None)) as (c2 & c2' & A2 & M2).
  { vm_compute. reflexivity. }
  assert (true = false) as X; [|discriminate].
  refine (H E0 [] [] false [] (B "||a.com^") (B "||a.com^$tag=x") LF LF
           (rule_at false (B "||a.com^$tag=x")) c1 c2 u 0%N None _ _ c1' c2'
           _ _ _ _ _ _ _ _ A1 A2 M1 M2); auto.
  - hist.
  - line.
  - plain_bytes.
  - apply rule_at_parses. line.
  - vm_compute. discriminate.
  - intros (x & y & X & _). destruct x; discriminate.
Qed.
Print Assumptions C30_refuted.

Example C30_example :
  parses_to false (B "ads/banner$tag=x") (rule_at false (B "ads/banner$tag=x")) /\
  classify E0 (rule_at false (B "ads/banner$tag=x")) = Ok (CList KFilters) /\
  f_tag (rule_at false (B "ads/banner$tag=x")) = B "x" /\
  map (fun calls => rmap v_block (asked E0 calls (B "http://a.com/ads/banner") 0 None))
    [[Parse false (B "ads/banner$tag=x")];
     [AddTag (B "x"); Parse false (B "ads/banner$tag=x")];
     [AddTag (B "x"); Parse false (B "ads/banner$tag=x"); RemoveTag (B "x")];
     [AddTag (B "x"); Clear; Parse false (B "ads/banner$tag=x")]] =
  [Ok false; Ok true; Ok false; Ok true].
Proof.
  split; [apply rule_at_parses; line|]. vm_compute. auto.
Qed.

(** ** C31 *)
Theorem C31_add_block_partial :
  forall E calls p l g k url context dom c1 c2 v1 v2 c1' c2',
  history calls -> line_text l -> parses_to p l g -> classify E g = Ok k ->
  category_of k = BlockRule -> k <> only_excluded false ->
  after E calls = Ok c1 -> after E (calls ++ [Parse p l]) = Ok c2 -> nonul url ->
  matches E c1 (cstr url) context dom = Ok (v1, c1') ->
  matches E c2 (cstr url) context dom = Ok (v2, c2') ->
  v_block v1 = true -> v_block v2 = true.
Proof. exact add_block. Qed.
Print Assumptions C31_add_block_partial.

Theorem C31_add_exception_partial :
  forall E calls p l g k url context dom c1 c2 v1 v2 c1' c2',
  history calls -> line_text l -> parses_to p l g -> classify E g = Ok k ->
  category_of k = ExceptionRule -> k <> only_excluded true ->
  after E calls = Ok c1 -> after E (calls ++ [Parse p l]) = Ok c2 -> nonul url ->
  matches E c1 (cstr url) context dom = Ok (v1, c1') ->
  matches E c2 (cstr url) context dom = Ok (v2, c2') ->
  v_block v1 = false -> v_block v2 = false.
Proof. exact add_exception. Qed.
Print Assumptions C31_add_exception_partial.

(** A block rule restricted by excluded page domains only can unblock. *)
Theorem C31_refuted : ~ (forall E calls p l g k url context dom c1 c2 v1 v2 c1' c2',
  history calls -> line_text l -> parses_to p l g -> classify E g = Ok k ->
  category_of k = BlockRule ->
  after E calls = Ok c1 -> after E (calls ++ [Parse p l]) = Ok c2 -> nonul url ->
  matches E c1 (cstr url) context dom = Ok (v1, c1') ->
  matches E c2 (cstr url) context dom = Ok (v2, c2') ->
  v_block v1 = true -> v_block v2 = true).
Proof.
  intros H. set (u := B "http://x.org/ab").
  destruct (asked_ok E0 [Parse false (B "ab$domain=~a.com")] u 0 (Some (B "b.com"))
    (mkV true (Some (rule_at false (B "ab$domain=~a.com"))) None)) as (c1 & c1' & A1 & M1).
  { vm_compute. reflexivity. }
  destruct (asked_ok E0 [Parse false (B "ab$domain=~a.com"); Parse false (B "cd$domain=~b.com")]
    u 0 (Some (B "b.com")) (mkV false None None)) as (c2 & c2' & A2 & M2).
  { vm_compute. reflexivity. }
  assert (false = true) as X; [|discriminate].
  refine (H E0 [Parse false (B "ab$domain=~a.com")] false (B "cd$domain=~b.com")
           (rule_at false (B "cd$domain=~b.com")) (only_excluded false)
           u 0%N (Some (B "b.com")) c1 c2 _ _ c1' c2' _ _ _ _ _ A1 A2 _ M1 M2 eq_refl).
  - hist.
  - line.
  - apply rule_at_parses. line.
  - vm_compute. reflexivity.
  - reflexivity.
  - plain_bytes.
Qed.
Print Assumptions C31_refuted.

Example C31_example :
  classify E0 (rule_at false (B "x$script")) = Ok (CList KNoFp) /\
  map (fun calls => rmap v_block (asked E0 calls (B "http://x.com/ad/banner") 0 None))
    [[Parse false some_list]; [Parse false some_list; Parse false (B "x$script")];
     [Parse false some_list; Parse false (B "@@ad/$~image")]] =
  [Ok true; Ok true; Ok true].
Proof. vm_compute. auto. Qed.

(** ** C32 *)
Theorem C32_refuted : ~ (forall E calls c url context dom v c' f,
  history calls -> after E calls = Ok c -> nonul url -> web_url url ->
  matches E c (cstr url) context dom = Ok (v, c') ->
  loaded_in E calls (CHost false) f -> applies E calls f url context dom ->
  v_filter v <> None).
Proof.
  intros H. set (u := B "http://a.com/x").
  destruct (asked_ok E0 [Parse false (B "||a.com^$script"); Parse false (B "||a.com^$image")]
    u FOImage None (mkV false None None)) as (c & c' & A & M).
  { vm_compute. reflexivity. }
  refine (H E0 _ c u FOImage None _ c' (rule_at false (B "||a.com^$image")) _ A _ _ M _ _ eq_refl).
  - hist.
  - plain_bytes.
  - web.
  - apply loaded_at; [vm_compute; auto|line|vm_compute; reflexivity].
  - apply (applies_at _ _ _ _ _ _ (B "a.com")); vm_compute; reflexivity.
Qed.
Print Assumptions C32_refuted.

(** The first rule loaded for its host counts. *)
Theorem C32_first_rule_partial : forall E calls c url host h context dom v c' (e : bool) f,
  history calls -> after E calls = Ok c -> nonul url -> web_url url ->
  matches E c (cstr url) context dom = Ok (v, c') ->
  first_host_rule calls e f -> url_has_host url host -> f_host f = Some h ->
  looked_up host h -> applies E calls f url context dom ->
  if e then v_block v = false
  else v_filter v <> None /\ (v_block v = true <-> v_exc v = None).
Proof. exact first_host_counts. Qed.
Print Assumptions C32_first_rule_partial.

Example C32_example :
  first_host_rule [Parse false (B "||a.com^$script"); Parse false (B "||a.com^$image")] false
    (rule_at false (B "||a.com^$script")) /\
  looked_up (B "b.a.com") (B "a.com") /\
  rmap v_block (asked E0 [Parse false (B "||a.com^$script"); Parse false (B "||a.com^$image")]
    (B "http://b.a.com/x") FOScript None) = Ok true.
Proof.
  split; [|split].
  - split; [vm_compute; repeat split; discriminate|].
    exists [], false, (B "||a.com^$script"), [(false, B "||a.com^$image")], (B "a.com").
    split; [reflexivity|]. split; [apply rule_at_parses; line|]. split; [vm_compute; reflexivity|].
    intros p l f [].
  - right. split; [right; now exists (B "b")|cbn; auto].
  - vm_compute. reflexivity.
Qed.

(** ** C33: any number of queries changes no later answer (nor makes one
    undefined). *)
Theorem C33_queries_inert : forall E calls qs c c' input context dom,
  Forall asks qs -> after E calls = Ok c -> after E (calls ++ qs) = Ok c' ->
  rmap fst (matches E c' input context dom) = rmap fst (matches E c input context dom) /\
  findMatchingFilters E c' input context dom = findMatchingFilters E c input context dom.
Proof. exact queries_inert. Qed.
Print Assumptions C33_queries_inert.

(** Nor does it change what later calls of any kind lead to. *)
Theorem C33_queries_inert_later : forall E calls qs later c,
  Forall asks qs -> after E (calls ++ qs) = Ok c ->
  res_rel alike (after E (calls ++ later)) (after E (calls ++ qs ++ later)).
Proof.
  intros E calls qs later c F A. unfold after in *. rewrite !foldM_app in *.
  apply bind_ok in A as (c0 & -> & A). cbn [bind]. rewrite foldM_app, A. cbn [bind].
  apply foldM_alike. eapply asks_alike; eauto.
Qed.
Print Assumptions C33_queries_inert_later.

Example C33_example :
  Forall asks [Ask (B "http://x.com/ad/banner") 0 None; Ask (B "http://q.q/") 1 (Some (B "a.com"))] /\
  rmap c_stats (after E0 [Parse false some_list]) <>
  rmap c_stats (after E0 ([Parse false some_list] ++
    [Ask (B "http://x.com/ad/banner") 0 None; Ask (B "http://q.q/") 1 (Some (B "a.com"))])).
Proof. split; [repeat constructor|vm_compute; discriminate]. Qed.

(** ** C34 *)
Theorem C34_agree_partial : forall E calls c url context d v c' w,
  history calls -> after E calls = Ok c -> nonul url -> web_url url ->
  (forall e, ~ page_excluded E calls e (Some d)) ->
  matches E c (cstr url) context (Some d) = Ok (v, c') ->
  findMatchingFilters E c (cstr url) context (Some d) = Ok w ->
  v_block v = v_block w.
Proof. exact agree. Qed.
Print Assumptions C34_agree_partial.

(** They differ on excluded pages, without a page domain, and on URLs that are
    not web URLs. *)
Theorem C34_refuted :
  asked E0 [Parse false (B "ab$domain=~a.com"); Parse false (B "cd$domain=~b.com")]
    (B "http://x.org/ab") 0 (Some (B "b.com")) = Ok (mkV false None None) /\
  rmap v_block (found_by E0 [Parse false (B "ab$domain=~a.com"); Parse false (B "cd$domain=~b.com")]
    (B "http://x.org/ab") 0 (Some (B "b.com"))) = Ok true /\
  asked E0 [Parse false (B "ab$domain=a.com")] (B "http://x.org/ab") 0 None
    = Ok (mkV false None None) /\
  rmap v_block (found_by E0 [Parse false (B "ab$domain=a.com")] (B "http://x.org/ab") 0 None)
    = Ok true /\
  asked E0 [Parse false (B "ab")] (B "data:ab") 0 (Some (B "a.com")) = Ok (mkV false None None) /\
  rmap v_block (found_by E0 [Parse false (B "ab")] (B "data:ab") 0 (Some (B "a.com"))) = Ok true.
Proof. vm_compute. auto 10. Qed.
Print Assumptions C34_refuted.

Example C34_example : ~ page_excluded E0 [Parse false some_list] false (Some (B "a.com")) /\
  rmap v_block (asked E0 [Parse false some_list] (B "http://b.org/x") 0 (Some (B "a.com"))) = Ok true /\
  rmap v_block (found_by E0 [Parse false some_list] (B "http://b.org/x") 0 (Some (B "a.com"))) = Ok true.
Proof.
  split; [|vm_compute; auto].
  intros (g & dl & s & (p & l & I & P & K) & _ & _).
  assert (line_text l) as Hl by (eapply (loaded_line_text [Parse false some_list]); eauto; hist).
  apply parses_rule_at in P; auto. rewrite P in K. clear P Hl.
  vm_compute in I. destruct I as [I|[I|[I|[I|[]]]]];
    pose proof (f_equal fst I) as Ep; apply (f_equal snd) in I; cbn [fst snd] in I, Ep;
    subst p l; vm_compute in K; discriminate.
Qed.

(** ** C35 *)
Theorem C35_matches_reports : forall E calls c url context dom v c',
  history calls -> after E calls = Ok c -> nonul url -> web_url url ->
  matches E c (cstr url) context dom = Ok (v, c') ->
  reported E calls false url context dom (heeded E calls false url dom) (v_filter v) /\
  (v_filter v <> None ->
   reported E calls true url context dom (heeded E calls true url dom) (v_exc v)) /\
  v_block v = match v_filter v, v_exc v with Some _, None => true | _, _ => false end.
Proof. exact matches_reports. Qed.
Print Assumptions C35_matches_reports.

Theorem C35_find_reports : forall E calls c url context dom v,
  history calls -> after E calls = Ok c -> nonul url ->
  findMatchingFilters E c (cstr url) context dom = Ok v ->
  reported E calls false url context dom (visible E calls false url) (v_filter v) /\
  (v_filter v <> None ->
   reported E calls true url context dom (visible E calls true url) (v_exc v)) /\
  v_block v = match v_filter v, v_exc v with Some _, None => true | _, _ => false end.
Proof. exact find_reports. Qed.
Print Assumptions C35_find_reports.

Example C35_example :
  asked E0 [Parse false some_list] (B "http://x.com/good/path/ad/banner") 0 None =
    Ok (mkV false (Some (rule_at false (B "/ad/banner"))) (Some (rule_at false (B "@@good/path")))) /\
  found_by E0 [Parse false some_list] (B "http://x.com/good/path/ad/banner") 0 (Some (B "b.com")) =
    Ok (mkV false (Some (rule_at false (B "/ad/banner"))) (Some (rule_at false (B "@@good/path")))).
Proof. vm_compute. auto. Qed.

(** ** C43 *)
Theorem C43_clear_is_fresh : forall E calls c ts later input context dom,
  history calls -> after E calls = Ok c ->
  (forall t, In t ts <-> tag_enabled calls t) ->
  (after E (calls ++ Clear :: later) = UB <-> after E (map AddTag ts ++ later) = UB) /\
  forall c1 c2, after E (calls ++ Clear :: later) = Ok c1 ->
    after E (map AddTag ts ++ later) = Ok c2 ->
    rmap fst (matches E c1 input context dom) = rmap fst (matches E c2 input context dom) /\
    findMatchingFilters E c1 input context dom = findMatchingFilters E c2 input context dom /\
    (forall t, tagExists c1 t = tagExists c2 t) /\ c_lists c1 = c_lists c2.
Proof. exact clear_like_new. Qed.
Print Assumptions C43_clear_is_fresh.

Example C43_example :
  rmap v_block (asked E0 ([AddTag (B "x"); Parse false some_list; DetectBad] ++
    Clear :: [Parse true (B "ab$tag=x")]) (B "http://a.com/ab") 0 None) = Ok true /\
  rmap v_block (asked E0 ([AddTag (B "x"); Parse false some_list; DetectBad] ++
    Clear :: [Parse true (B "ab$tag=x")]) (B "http://x.com/ad/banner") 0 None) = Ok false /\
  (forall t, In t [B "x"] <-> tag_enabled [AddTag (B "x"); Parse false some_list; DetectBad] t).
Proof.
  split; [vm_compute; reflexivity|]. split; [vm_compute; reflexivity|].
  intros t. split.
  - intros [<-|[]]. exists [], [Parse false some_list; DetectBad]. split; auto.
    intros [X|[X|[]]]; discriminate.
  - intros (a & b & X & _). left.
    destruct a as [|k1 [|k2 [|k3 [|k4 a]]]]; cbn [app] in X; try discriminate; congruence.
Qed.

(** ** C44 *)
Theorem C44_host_rule_partial :
  forall E calls c a p b h body url uh context dom v c',
  history calls -> after E calls = Ok c -> nonul url -> web_url url -> url_has_host url uh ->
  host_name h -> body = h \/ body = h ++ B "^" ->
  loaded_lines calls = a ++ (p, B "||" ++ body) :: b -> no_host_rule false h a ->
  first_party h uh -> h = uh \/ In "."%char h -> has context FODocument = false ->
  (forall f, loaded E calls ExceptionRule f -> ~ applies E calls f url context dom) ->
  matches E c (cstr url) context dom = Ok (v, c') ->
  v_block v = true.
Proof. exact host_line_blocks. Qed.
Print Assumptions C44_host_rule_partial.

(** Rules for a single label miss the subdomains. *)
Theorem C44_refuted : exists url,
  web_url url /\ url_has_host url (B "a.com") /\ first_party (B "com") (B "a.com") /\
  asked E0 [Parse false (B "||com^")] url 0 None = Ok (mkV false None None).
Proof.
  exists (B "http://a.com/"). split; [web|]. split; [|split; [right; now exists (B "a")|vm_compute; reflexivity]].
  exists (B "http"), (B "//"), (B "/"). split; [reflexivity|]. split; [now apply notin_ok|].
  split; [intros c [<-|[<-|[]]]; auto|]. split.
  - intros c I J. apply existsb_In in J. vm_compute in I.
    repeat (destruct I as [<-|I]; [discriminate J|]). destruct I.
  - split; [discriminate|]. right. exists "/"%char, []. split; auto. cbn; auto.
Qed.
Print Assumptions C44_refuted.

Example C44_example : host_name (B "ads.com") /\
  rmap v_block (asked E0 [Parse false (B "||ads.com^")] (B "https://x.ads.com:8080") 0 None) = Ok true.
Proof.
  split; [|vm_compute; reflexivity]. split; [discriminate|]. split; [cbn; lia|].
  intros c I. split.
  - intros J. apply existsb_In in J. vm_compute in I.
    repeat (destruct I as [<-|I]; [discriminate J|]). destruct I.
  - vm_compute in I. unfold body_char.
    repeat (destruct I as [<-|I]; [repeat split; discriminate|]). destruct I.
Qed.

(** ** C45 *)
Theorem C45_cosmetic_inert :
  forall E pre rest p a b l s s' c1 c2 url context dom v1 v2 c1' c2',
  history (pre ++ Parse p (a ++ s :: l ++ s' :: b) :: rest) ->
  (s = CR \/ s = LF) -> (s' = CR \/ s' = LF) -> line_text l -> no_network_line l ->
  nonul url ->
  after E (pre ++ Parse p (a ++ s :: b) :: rest) = Ok c1 ->
  after E (pre ++ Parse p (a ++ s :: l ++ s' :: b) :: rest) = Ok c2 ->
  matches E c1 (cstr url) context dom = Ok (v1, c1') ->
  matches E c2 (cstr url) context dom = Ok (v2, c2') ->
  v_block v1 = v_block v2.
Proof. exact no_network_insert. Qed.
Print Assumptions C45_cosmetic_inert.

Example C45_example :
  no_network_line (B "##.ad") /\
  rmap v_block (asked E0 [Parse false (some_list ++ LF :: B "##.ad" ++ LF :: B "q")]
    (B "http://x.com/ad/banner") 0 None) = Ok true.
Proof.
  split; [|vm_compute; reflexivity].
  apply (nn_cosmetic [] (B "##") (B ".ad")); [easy|auto|cbn; lia].
Qed.

(** ** C46: preserveRules changes no decision, no count and no undefined
    behaviour. *)
Theorem C46_same_decisions : forall E p calls input context dom,
  history calls ->
  (after E calls = UB <-> after E (preserving p calls) = UB) /\
  forall c1 c2, after E calls = Ok c1 -> after E (preserving p calls) = Ok c2 ->
    rmap (fun x => v_block (fst x)) (matches E c1 input context dom) =
    rmap (fun x => v_block (fst x)) (matches E c2 input context dom) /\
    rmap v_block (findMatchingFilters E c1 input context dom) =
    rmap v_block (findMatchingFilters E c2 input context dom) /\
    (forall k, length (tget (c_lists c1) k) = length (tget (c_lists c2) k)) /\
    c_numHA c1 = c_numHA c2 /\ c_numHAE c1 = c_numHAE c2.
Proof. exact preserve_same. Qed.
Print Assumptions C46_same_decisions.

Example C46_decisions_example :
  rmap (fun v => (v_block v, option_map f_rule (v_filter v)))
    (asked E0 [Parse true some_list] (B "http://x.com/ad/banner") 0 None) =
    Ok (true, Some (Some (B "/ad/banner"))) /\
  rmap (fun v => (v_block v, option_map f_rule (v_filter v)))
    (asked E0 (preserving false [Parse true some_list]) (B "http://x.com/ad/banner") 0 None) =
    Ok (true, Some None).
Proof. vm_compute. auto. Qed.

(** ** C47 *)
Theorem C47_refuted : ~ (forall E calls c url context dom v c' f,
  history calls -> after E calls = Ok c -> nonul url -> web_url url ->
  matches E c (cstr url) context dom = Ok (v, c') ->
  loaded E calls BlockRule f -> has (f_opt f) FOImportant = true ->
  applies E calls f url context dom ->
  v_block v = true).
Proof.
  intros H. set (u := B "http://a.com/ads/x").
  set (t := B "ads/x$important" ++ LF :: B "@@ads/x").
  destruct (asked_ok E0 [Parse false t] u 0 None
    (mkV false (Some (rule_at false (B "ads/x$important"))) (Some (rule_at false (B "@@ads/x")))))
    as (c & c' & A & M).
  { vm_compute. reflexivity. }
  assert (false = true) as X; [|discriminate].
  refine (H E0 _ c u 0%N None _ c' (rule_at false (B "ads/x$important")) _ A _ _ M _ _ _).
  - hist.
  - plain_bytes.
  - web.
  - exists (CList KNoFp). split; [|reflexivity].
    apply loaded_at; [vm_compute; auto|line|vm_compute; reflexivity].
  - vm_compute. reflexivity.
  - apply (applies_at _ _ _ _ _ _ (B "a.com")); vm_compute; reflexivity.
Qed.
Print Assumptions C47_refuted.

(** It blocks only like any other block rule, if no exception applies. *)
Theorem C47_important_partial : forall E calls c url context dom v c' f,
  history calls -> after E calls = Ok c -> nonul url -> web_url url ->
  matches E c (cstr url) context dom = Ok (v, c') ->
  heeded E calls false url dom f -> has (f_opt f) FOImportant = true ->
  applies E calls f url context dom ->
  (forall g, loaded E calls ExceptionRule g -> ~ applies E calls g url context dom) ->
  v_block v = true.
Proof.
  intros E calls c url context dom v c' f H A Hu Hw M HE _ AP NX.
  apply (decision E calls c url context dom v c'); auto. split; [eauto|].
  intros (g & X & Y). destruct (hist_view E calls c H A) as (rs & V).
  apply (NX g); auto. exact (heeded_loaded E calls c rs true url context dom g V X Y).
Qed.
Print Assumptions C47_important_partial.

Example C47_example :
  has (f_opt (rule_at false (B "ads/x$important"))) FOImportant = true /\
  rmap v_block (asked E0 [Parse false (B "ads/x$important" ++ LF :: B "@@ads/y")]
    (B "http://a.com/ads/x") 0 None) = Ok true.
Proof. vm_compute. auto. Qed.

(** ** C50 *)
Theorem C50_load_twice : forall E calls mid p t c1 c2 url context dom,
  history (calls ++ Parse p t :: mid) -> ~ In Clear mid ->
  after E (calls ++ Parse p t :: mid) = Ok c1 ->
  after E (calls ++ Parse p t :: mid ++ [Parse p t]) = Ok c2 -> nonul url ->
  (forall v1 v2 c1' c2', matches E c1 (cstr url) context dom = Ok (v1, c1') ->
     matches E c2 (cstr url) context dom = Ok (v2, c2') -> v_block v1 = v_block v2) /\
  (forall v1 v2, findMatchingFilters E c1 (cstr url) context dom = Ok v1 ->
     findMatchingFilters E c2 (cstr url) context dom = Ok v2 -> v_block v1 = v_block v2).
Proof. exact load_twice. Qed.
Print Assumptions C50_load_twice.

Example C50_example :
  map (fun calls => rmap v_block (asked E0 calls (B "http://b.a.com/y") FOScript (Some (B "c.com"))))
    [[Parse false (B "||a.com^$script"); AddTag (B "t")];
     [Parse false (B "||a.com^$script"); AddTag (B "t"); Parse false (B "||a.com^$script")]] =
  [Ok true; Ok true].
Proof. vm_compute. auto. Qed.

(** ** C51 *)
Theorem C51_order_irrelevant : forall E calls p t1 t2 c1 c2 url context dom,
  history (calls ++ [Parse p t1]) -> history (calls ++ [Parse p t2]) ->
  Permutation (text_lines t1) (text_lines t2) -> hosts_distinct p (text_lines t1) ->
  after E (calls ++ [Parse p t1]) = Ok c1 ->
  after E (calls ++ [Parse p t2]) = Ok c2 -> nonul url ->
  (forall v1 v2 c1' c2', matches E c1 (cstr url) context dom = Ok (v1, c1') ->
     matches E c2 (cstr url) context dom = Ok (v2, c2') -> v_block v1 = v_block v2) /\
  (forall v1 v2, findMatchingFilters E c1 (cstr url) context dom = Ok v1 ->
     findMatchingFilters E c2 (cstr url) context dom = Ok v2 -> v_block v1 = v_block v2).
Proof. exact order_irrelevant. Qed.
Print Assumptions C51_order_irrelevant.

(** The condition on host rules is needed: *)
Theorem C51_same_host_order_matters :
  rmap v_block (asked E0 [Parse false (B "||a.com^$script" ++ LF :: B "||a.com^")]
    (B "http://a.com/x") FOImage None) = Ok false /\
  rmap v_block (asked E0 [Parse false (B "||a.com^" ++ LF :: B "||a.com^$script")]
    (B "http://a.com/x") FOImage None) = Ok true.
Proof. vm_compute. auto. Qed.
Print Assumptions C51_same_host_order_matters.

Example C51_example :
  Permutation (text_lines (B "||a.com^" ++ LF :: B "@@||a.com^" ++ LF :: B "x"))
              (text_lines (B "x" ++ LF :: B "||a.com^" ++ LF :: B "@@||a.com^")) /\
  hosts_distinct false (text_lines (B "||a.com^" ++ LF :: B "@@||a.com^" ++ LF :: B "x")).
Proof.
  split.
  - vm_compute. eapply perm_trans; [apply perm_skip, perm_swap|]. apply perm_swap.
  - intros l l' rest e f f' h Pm P P' (H1 & H2 & _) (H1' & H2' & _) _.
    assert (forall x, In x (l :: l' :: rest) -> x = B "||a.com^" \/ x = B "@@||a.com^" \/ x = B "x") as IN.
    { intros x I. apply (Permutation_in _ (Permutation_sym Pm)) in I. vm_compute in I.
      destruct I as [<-|[<-|[<-|[]]]]; auto. }
    assert (NoDup (l :: l' :: rest)) as ND.
    { eapply Permutation_NoDup; [exact Pm|]. vm_compute.
      repeat constructor; intros I; cbn in I;
        repeat (destruct I as [I|I]; [discriminate I|]); destruct I. }
    assert (l <> l') as NE by (intros ->; inversion ND as [|? ? N _]; apply N; now left).
    assert (line_text (B "||a.com^")) as T1 by line.
    assert (line_text (B "@@||a.com^")) as T2 by line.
    assert (line_text (B "x")) as T3 by line.
    destruct (IN l (or_introl eq_refl)) as [->|[->| ->]];
    destruct (IN l' (or_intror (or_introl eq_refl))) as [->|[->| ->]]; try easy;
      apply parses_rule_at in P; auto; apply parses_rule_at in P'; auto;
      rewrite P in H1, H2; rewrite P' in H1', H2'; vm_compute in H1, H2, H1', H2'; congruence.
Qed.
