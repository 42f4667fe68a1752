(** Which of the applicable rules a query reports: C103. *)
From Verif Require Import Base Flags Protocol Url Sets FilterM ParseM ClientM Spec SpecM SpecC
  P_Base P_Parse P_List P_Ex P_Ord P_Ord2 P_Ord3 Props_List Props_Client SpecC SpecOrd.

(** ** C103 *)

(** matches() tries the rules restricted to listed page domains, those with
    excluded page domains, the other rules without fingerprint, the host rules
    and the rules with fingerprint, in this order, and reports the first one
    that applies: the first loaded of its group, or the host rule for the
    shortest host. *)
Theorem C103_matches : forall E calls c url context dom v c',
  history calls -> after E calls = Ok c -> nonul url ->
  matches E c (cstr url) context dom = Ok (v, c') ->
  (forall g, v_filter v = Some g ->
     first_report E calls false asked_order url context dom (heeded E calls false url dom) g) /\
  (forall g, v_exc v = Some g ->
     first_report E calls true asked_order url context dom (heeded E calls true url dom) g).
Proof. exact matches_first. Qed.
Print Assumptions C103_matches.

(** findMatchingFilters() has another order, and it is not the same for block
    rules and for exception rules. *)
Theorem C103_find : forall E calls c url context dom v,
  history calls -> after E calls = Ok c -> nonul url ->
  findMatchingFilters E c (cstr url) context dom = Ok v ->
  (forall g, v_filter v = Some g ->
     first_report E calls false (found_order false) url context dom (visible E calls false url) g) /\
  (forall g, v_exc v = Some g ->
     first_report E calls true (found_order true) url context dom (visible E calls true url) g).
Proof. exact find_first. Qed.
Print Assumptions C103_find.

(** So the reported rules are determined by the loaded lines and the enabled
    tags: how the lines were split into calls, what was cleared or asked
    before, and the Bloom filters' hash functions make no difference. *)
Theorem C103_determined : forall E h h2 calls1 calls2 c1 c2 url context dom v1 v2 c1' c2',
  history calls1 -> after E calls1 = Ok c1 ->
  history calls2 -> after (with_bloom_hashes E h h2) calls2 = Ok c2 -> nonul url ->
  loaded_lines calls1 = loaded_lines calls2 ->
  (forall t, tag_enabled calls1 t <-> tag_enabled calls2 t) ->
  matches E c1 (cstr url) context dom = Ok (v1, c1') ->
  matches (with_bloom_hashes E h h2) c2 (cstr url) context dom = Ok (v2, c2') ->
  same_report (v_filter v1) (v_filter v2) /\ same_report (v_exc v1) (v_exc v2).
Proof. exact matches_same. Qed.
Print Assumptions C103_determined.

Theorem C103_find_determined : forall E h h2 calls1 calls2 c1 c2 url context dom v1 v2,
  history calls1 -> after E calls1 = Ok c1 ->
  history calls2 -> after (with_bloom_hashes E h h2) calls2 = Ok c2 -> nonul url ->
  loaded_lines calls1 = loaded_lines calls2 ->
  (forall t, tag_enabled calls1 t <-> tag_enabled calls2 t) ->
  findMatchingFilters E c1 (cstr url) context dom = Ok v1 ->
  findMatchingFilters (with_bloom_hashes E h h2) c2 (cstr url) context dom = Ok v2 ->
  same_report (v_filter v1) (v_filter v2) /\ same_report (v_exc v1) (v_exc v2).
Proof. exact find_same. Qed.
Print Assumptions C103_find_determined.

Definition unl (ls : list bytes) : bytes := concat (map (fun l => l ++ [LF]) ls).
Definition told (v : verdict) : option bytes * option bytes :=
  (match v_filter v with Some f => f_rule f | None => None end,
   match v_exc v with Some f => f_rule f | None => None end).

(** Every rule of these lists applies to a request for http://x.y.com/aab on the
    page p.org.  The two queries report different rules. *)
Definition three : list bytes := [B "y.com/aab"; B "||x.y.com^"; B "||y.com^"].
Definition five : list bytes :=
  three ++ [B "aab"; B "aa$domain=~q.org"; B "aab$domain=p.org"; B "a$domain=p.org";
            B "@@x.y.com/aab"; B "@@aa$domain=p.org"; B "@@aab"].
Example C103_example :
  let u := B "http://x.y.com/aab" in
  let p := Some (B "p.org") in
  rmap told (asked E0 [Parse true (unl five)] u 0 p) =
    Ok (Some (B "aab$domain=p.org"), Some (B "@@aa$domain=p.org")) /\
  rmap told (found_by E0 [Parse true (unl five)] u 0 p) = Ok (Some (B "aab"), Some (B "@@aab")) /\
  rmap told (asked E0 [Parse true (unl three)] u 0 p) = Ok (Some (B "||y.com^"), None) /\
  rmap told (found_by E0 [Parse true (unl three)] u 0 p) = Ok (Some (B "y.com/aab"), None).
Proof. vm_compute. repeat split. Qed.

(** The same lines in other calls, with other hash functions. *)
Example C103_determined_example :
  let u := B "http://x.y.com/aab" in
  let p := Some (B "p.org") in
  let other := [Parse true (B "aab"); Clear; AddTag (B "t"); Parse true (unl three); Ask u 0 p;
                RemoveTag (B "t"); Parse true (unl (skipn 3 five))] in
  loaded_lines other = loaded_lines [Parse true (unl three); Parse true (unl (skipn 3 five))] /\
  rmap told (asked (with_bloom_hashes E0 [] []) other u 0 p) =
    Ok (Some (B "aab$domain=p.org"), Some (B "@@aa$domain=p.org")).
Proof. vm_compute. repeat split. Qed.
