(** Exact conditions: C21, C30, C31, C57, C58, C70. *)
From Verif Require Import Base Flags Protocol Url Sets FilterM ParseM ClientM SerialM JsM DataM CosmeticM
  Spec SpecM SpecC SpecS SpecT SpecK SpecQ SpecE SpecN SpecI
  P_Base P_Protocol P_Parse P_List P_Line P_Line2 P_Hist P_Ex P_Opt P_End P_Exact P_Cond
  Props_List Props_Client Props_End.
From Verif Require Import SpecC.

(** ** C21 *)

(** A comment or blank line of any length changes no decision, wherever it is
    inserted and whatever is called before and after. *)
Theorem C21_decisions : forall E pre rest p a b bl t s s' c1 c2 url context dom v1 v2 c1' c2',
  history (pre ++ Parse p (a ++ s :: (bl ++ t) ++ s' :: b) :: rest) ->
  (s = CR \/ s = LF) -> (s' = CR \/ s' = LF) ->
  (forall y, In y bl -> blank y) -> comment_text t -> line_text t -> nonul url ->
  after E (pre ++ Parse p (a ++ s :: b) :: rest) = Ok c1 ->
  after E (pre ++ Parse p (a ++ s :: (bl ++ t) ++ s' :: b) :: rest) = Ok c2 ->
  matches E c1 (cstr url) context dom = Ok (v1, c1') ->
  matches E c2 (cstr url) context dom = Ok (v2, c2') ->
  v_block v1 = v_block v2.
Proof. exact comment_decides. Qed.
Print Assumptions C21_decisions.

(** It changes a count exactly if the comment mark or the end of the blanks is
    not within the first 2047 bytes: then the line is one more rule without
    fingerprint. *)
Theorem C21_counts_exactly : forall E pres a b s x z c c1,
  nonul a -> nonul z -> (x = CR \/ x = LF) ->
  (forall y, In y b -> blank y) -> comment_text s -> line_text s ->
  parse E pres (cstr (a ++ x :: z)) c = Ok c1 ->
  exists c2, parse E pres (cstr (a ++ x :: (b ++ s) ++ x :: z)) c = Ok c2 /\
    (forall k, k <> KNoFp -> tget (c_lists c2) k = tget (c_lists c1) k) /\
    length (tget (c_lists c2) KNoFp) =
      length (tget (c_lists c1) KNoFp) + (if length (b ++ firstn 1 s) <? 2048 then 0 else 1) /\
    c_numHA c2 = c_numHA c1 /\ c_numHAE c2 = c_numHAE c1.
Proof. exact comment_counts. Qed.
Print Assumptions C21_counts_exactly.

(** ** C30 *)

(** The answer with a further line, whose tag is not enabled, anywhere between
    the loaded lines: that of the list without it, except that the rules it
    shadows are silent. *)
Theorem C30_disabled_exactly :
  forall E calls1 calls2 a b p l g c2 url context dom v2 c2',
  history calls2 -> after E calls2 = Ok c2 -> nonul url ->
  loaded_lines calls1 = a ++ b -> loaded_lines calls2 = a ++ (p, l) :: b ->
  (forall t, tag_enabled calls1 t <-> tag_enabled calls2 t) ->
  parses_to p l g -> f_tag g <> [] -> ~ tag_enabled calls2 (f_tag g) ->
  matches E c2 (cstr url) context dom = Ok (v2, c2') ->
  let speaks e := exists f, heeded E calls1 e url dom f /\ ~ shadows E a e g dom f /\
    applies E calls1 f url context dom in
  (v_block v2 = true <-> web_url url /\ speaks false /\ ~ speaks true).
Proof. exact disabled_exactly. Qed.
Print Assumptions C30_disabled_exactly.

(** The list of C30_refuted: the disabled rule shadows the other one. *)
Example C30_exactly_example :
  let g := rule_at false (B "||a.com^$tag=x") in
  let f := rule_at false (B "||a.com^") in
  parses_to false (B "||a.com^$tag=x") g /\ f_tag g = B "x" /\
  shadows E0 [] false g None f /\
  ~ shadows E0 [(false, B "||a.com^")] false g None f.
Proof.
  cbv zeta. split; [|split; [|split]].
  - apply rule_at_parses; line.
  - vm_compute. reflexivity.
  - right. split; [|split].
    + repeat split; vm_compute; congruence.
    + repeat split; vm_compute; congruence.
    + exists (B "a.com"). split; [|split]; [vm_compute; reflexivity|vm_compute; reflexivity|].
      intros pres l h [].
  - intros [(X & _)|(_ & _ & h & _ & H & N)].
    + vm_compute in X. discriminate.
    + apply (N false (B "||a.com^") (rule_at false (B "||a.com^"))); [now left| | |exact H].
      * apply rule_at_parses; line.
      * repeat split; vm_compute; congruence.
Qed.

(** ** C31 *)

(** Exactly when one more block rule unblocks: it is a short rule with excluded
    page domains only and excludes the page, and only such rules blocked. *)
Theorem C31_add_block_exactly :
  forall E calls p l g k url context dom c1 c2 v1 v2 c1' c2',
  history calls -> line_text l -> parses_to p l g -> classify E g = Ok k ->
  category_of k = BlockRule ->
  after E calls = Ok c1 -> after E (calls ++ [Parse p l]) = Ok c2 -> nonul url ->
  matches E c1 (cstr url) context dom = Ok (v1, c1') ->
  matches E c2 (cstr url) context dom = Ok (v2, c2') ->
  v_block v1 = true ->
  (v_block v2 = false <->
   k = only_excluded false /\ excludes_this_page E g dom /\
   forall f, heeded E calls false url dom f -> applies E calls f url context dom ->
     classify E f = Ok (only_excluded false)).
Proof. exact add_block_exactly. Qed.
Print Assumptions C31_add_block_exactly.

(** Exactly when one more exception blocks. *)
Theorem C31_add_exception_exactly :
  forall E calls p l g k url context dom c1 c2 v1 v2 c1' c2',
  history calls -> line_text l -> parses_to p l g -> classify E g = Ok k ->
  category_of k = ExceptionRule ->
  after E calls = Ok c1 -> after E (calls ++ [Parse p l]) = Ok c2 -> nonul url -> web_url url ->
  matches E c1 (cstr url) context dom = Ok (v1, c1') ->
  matches E c2 (cstr url) context dom = Ok (v2, c2') ->
  v_block v1 = false ->
  (v_block v2 = true <->
   (exists f, heeded E calls false url dom f /\ applies E calls f url context dom) /\
   k = only_excluded true /\ excludes_this_page E g dom /\
   forall f, heeded E calls true url dom f -> applies E calls f url context dom ->
     classify E f = Ok (only_excluded true)).
Proof. exact add_exception_exactly. Qed.
Print Assumptions C31_add_exception_exactly.

(** "@@cd$domain=~b.com" makes a request on b.com blocked that "@@ab$domain=~a.com"
    had excepted. *)
Example C31_exactly_example :
  asked E0 [Parse false (B "ab" ++ LF :: B "@@ab$domain=~a.com")] (B "http://x.org/ab") 0 (Some (B "b.com")) =
    Ok (mkV false (Some (rule_at false (B "ab"))) (Some (rule_at false (B "@@ab$domain=~a.com")))) /\
  asked E0 [Parse false (B "ab" ++ LF :: B "@@ab$domain=~a.com"); Parse false (B "@@cd$domain=~b.com")]
    (B "http://x.org/ab") 0 (Some (B "b.com")) = Ok (mkV true (Some (rule_at false (B "ab"))) None) /\
  classify E0 (rule_at false (B "@@cd$domain=~b.com")) = Ok (only_excluded true).
Proof. vm_compute. auto. Qed.

(** ** C57 *)

(** client.matches(url, type) without a page asks about the page "undefined". *)
Theorem C57_exactly : forall E calls c url uh context,
  history calls -> after E calls = Ok c -> nonul url -> url_has_host url uh -> usual_list calls ->
  exists b c', jsMatches E c url context None = Ok (b, c') /\
  (b = true <->
   web_url url /\
   (exists r, rule_loaded calls r /\ x_exception r = false /\ listened E calls r uh (Some undefined) /\
      rule_meets calls r url uh context (Some undefined)) /\
   ~ (exists r, rule_loaded calls r /\ x_exception r = true /\ listened E calls r uh (Some undefined) /\
      rule_meets calls r url uh context (Some undefined))).
Proof. exact omitted_page. Qed.
Print Assumptions C57_exactly.

(** What that means for a rule, compared to a request without page: a rule that
    lists page domains never applies, and the party is that of the made-up
    host. *)
Theorem C57_made_up_page : forall calls r url uh context,
  context <> 0%N -> ~ common context (N.lor FOThirdParty FONotThirdParty) ->
  (rule_meets calls r url uh context (Some undefined) <->
   rule_meets calls r url uh context None /\
   exists parts, option_parts r parts /\
     (forall dl s, last_domain parts dl -> ~ lists_domain dl s) /\
     (positive_option parts (B "third-party") -> ~ first_party undefined uh) /\
     (negative_option parts (B "third-party") -> first_party undefined uh)).
Proof. exact undefined_meets. Qed.
Print Assumptions C57_made_up_page.

Example C57_exactly_example :
  (c <- after E0 [Parse false (B "/ads/x$~third-party" ++ LF :: B "/ads/y$third-party")] ;;
   mapM (fun u => rmap fst (jsMatches E0 c (B u) FOScript None))
     ["http://a.com/ads/x"; "http://a.com/ads/y"; "http://undefined/ads/x"; "http://undefined/ads/y"]%string) =
  Ok [false; true; true; false] /\
  (FOScript <> 0)%N /\ N.land FOScript (N.lor FOThirdParty FONotThirdParty) = 0%N.
Proof. split; [vm_compute; reflexivity|]. split; [discriminate|reflexivity]. Qed.

(** ** C58 *)

(** The stylesheet is returned at all exactly if no bucket has a longer text than
    the last one. *)
Theorem C58_defined_iff : forall hash sels,
  toStylesheet (selectorSet hash sels) <> UB <->
  forall i o out, bucket_text hash sels i o -> bucket_text hash sels 999 out ->
    length o <= length out.
Proof. exact stylesheet_defined. Qed.
Print Assumptions C58_defined_iff.

Example C58_defined_example :
  let hash s := match s with "."%char :: _ => 999%N | _ => 3%N end in
  bucket_text hash [B ".ad"; B "#b"] 3 (B "#b") /\ bucket_text hash [B ".ad"; B "#b"] 999 (B ".ad").
Proof.
  cbv zeta. split.
  - exists [B "#b"]. split; [constructor; [easy|constructor]|]. split; auto. intros s. split.
    + intros [<-|[]]. split; [right; now left|reflexivity].
    + intros [[<-|[<-|[]]] H]; [discriminate|now left].
  - exists [B ".ad"]. split; [constructor; [easy|constructor]|]. split; auto. intros s. split.
    + intros [<-|[]]. split; [now left|reflexivity].
    + intros [[<-|[<-|[]]] H]; [now left|discriminate].
Qed.

(** ** C70 *)

(** The header holds the collected fingerprints exactly if none of them has a
    double quote, a backslash or a line feed in it. *)
Theorem C70_iff : forall l,
  (exists text, headerText l = header_head ++ text ++ header_tail /\ array_of l text) <->
  Forall plain_text l.
Proof. exact header_iff. Qed.
Print Assumptions C70_iff.

Example C70_iff_example :
  Forall plain_text [B "/ads/x"; B "banner"] /\ ~ Forall plain_text [B "abcde\"].
Proof.
  split.
  - repeat (constructor; [repeat split; intros I; vm_compute in I;
      repeat (destruct I as [I|I]; [discriminate|]); destruct I|]). constructor.
  - intros F. inversion F as [|? ? (_ & N & _) _]; subst. apply N. vm_compute. auto 10.
Qed.
