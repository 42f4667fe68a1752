(** C44, C62: lists of host names, exactly. *)
From Verif Require Import Base Flags Protocol Url Sets FilterM ParseM ClientM JsM Spec SpecM SpecC SpecJ SpecE SpecZ
  P_Base P_Protocol P_Parse P_List P_Line P_Line2 P_Hist P_Ex P_Line5 P_Hosts Props_List Props_Js.
From Verif Require Import SpecC.

(** ** C44 *)

(** A list of hosts to block and hosts to let through, with comments and cosmetic
    rules: a request is blocked exactly if it is a web request, not for a page,
    and its host (or a suffix of it with a dot) is named by a block line and by
    no exception. *)
Theorem C44_host_list : forall E calls c url uh context page,
  history calls -> after E calls = Ok c -> nonul url -> url_has_host url uh ->
  list_of_hosts calls ->
  exists v c', matches E c (cstr url) context page = Ok (v, c') /\
  (v_block v = true <->
   web_url url /\ has context FODocument = false /\
   on_list calls false uh /\ ~ on_list calls true uh).
Proof. exact host_list_decides. Qed.
Print Assumptions C44_host_list.

(** findMatchingFilters() differs only in not looking at the protocol. *)
Theorem C44_host_list_found : forall E calls c url uh context page,
  history calls -> after E calls = Ok c -> nonul url -> url_has_host url uh ->
  list_of_hosts calls ->
  exists v, findMatchingFilters E c (cstr url) context page = Ok v /\
  (v_block v = true <->
   has context FODocument = false /\ on_list calls false uh /\ ~ on_list calls true uh).
Proof. exact host_list_finds. Qed.
Print Assumptions C44_host_list_found.

Definition hosts_calls : list call :=
  [Parse false (B "! hosts" ++ LF :: B "||ads.com^" ++ LF :: B "@@||ok.ads.com");
   Parse true (B "||ads.com" ++ LF :: B "##.ad")].

Lemma hosts_lines : loaded_lines hosts_calls =
  [(false, B "! hosts"); (false, B "||ads.com^"); (false, B "@@||ok.ads.com");
   (true, B "||ads.com"); (true, B "##.ad")].
Proof. vm_compute. reflexivity. Qed.

Example C44_list_example :
  history hosts_calls /\ list_of_hosts hosts_calls /\
  on_list hosts_calls false (B "b.ads.com") /\ ~ on_list hosts_calls true (B "b.ads.com") /\
  on_list hosts_calls true (B "ok.ads.com").
Proof.
  unfold list_of_hosts, on_list. rewrite hosts_lines.
  assert (host_name (B "ads.com")) as H1 by (now apply host_nameb_ok).
  assert (host_name (B "ok.ads.com")) as H2 by (now apply host_nameb_ok).
  split; [|split; [|split; [|split]]].
  - unfold hosts_calls. repeat constructor; cbn; now apply nonulb_ok.
  - intros pres l I.
    destruct I as [I|[I|[I|[I|[I|[]]]]]]; injection I as <- <-.
    + left. apply (nn_comment [] (B "! hosts")); [easy|right; left; now exists (B " hosts")|cbn; lia].
    + right. exists false, (B "ads.com"). split; [exact H1|]. exists (B "ads.com^"). split; [right|]; reflexivity.
    + right. exists true, (B "ok.ads.com"). split; [exact H2|]. exists (B "ok.ads.com"). split; [left|]; reflexivity.
    + right. exists false, (B "ads.com"). split; [exact H1|]. exists (B "ads.com"). split; [left|]; reflexivity.
    + left. apply (nn_cosmetic [] (B "##") (B ".ad")); [easy|auto|cbn; lia].
  - exists (B "ads.com"), true, (B "||ads.com"). split; [exact H1|]. split; [cbn; auto|].
    split; [exists (B "ads.com"); split; [left|]; reflexivity|].
    right. split; [right; now exists (B "b")|]. vm_compute. tauto.
  - intros (h & pres & l & _ & I & (b & Hb & ->) & Lk).
    assert (b = B "ok.ads.com") as ->.
    { destruct I as [I|[I|[I|[I|[I|[]]]]]]; try discriminate I. injection I as _ I. exact (eq_sym I). }
    destruct Hb as [Hb|Hb].
    + subst h. destruct Lk as [X|[[X|(q & X)] _]]; [discriminate|discriminate|].
      apply (f_equal (@length ascii)) in X. rewrite !app_length in X.
      cbn [B list_ascii_of_string length] in X. lia.
    + change (B "^") with ["^"%char] in Hb. apply (f_equal (fun x => last x NUL)) in Hb. cbv beta in Hb. rewrite (last_last h "^"%char NUL) in Hb. discriminate.
  - exists (B "ok.ads.com"), false, (B "@@||ok.ads.com"). split; [exact H2|]. split; [cbn; auto|].
    split; [exists (B "ok.ads.com"); split; [left|]; reflexivity|]. left. reflexivity.
Qed.

Example C44_list_answers :
  map (fun u => rmap v_block (asked E0 hosts_calls u FOScript None))
    [B "http://ads.com/a"; B "https://b.ads.com/"; B "http://ok.ads.com/"; B "http://cads.com/"] =
  [Ok true; Ok true; Ok false; Ok false].
Proof. vm_compute. reflexivity. Qed.

(** ** C62 *)

(** Nothing but the listed hosts is blocked, except for what the pipeline adds to
    every list (a rule for imasdk.googleapis.com and one for ima3.js). *)
Theorem C62_nothing_else : forall E p body c url uh context dom v c',
  nonul body -> ~ In CR body ->
  Forall host_entry (skipn 4 (text_lines body)) -> skipn 4 (text_lines body) <> [] ->
  after E [Parse p (listURLText (Some hostListFilter) body)] = Ok c ->
  nonul url -> url_has_host url uh -> uh <> [] ->
  matches E c (cstr url) context dom = Ok (v, c') ->
  v_block v = true ->
  web_url url /\
  ((exists h, In h (skipn 4 (text_lines body)) /\ h <> [] /\ looked_up uh h) \/
   first_party (B "imasdk.googleapis.com") uh \/ substring (B "ima3.js") url).
Proof. exact host_list_only. Qed.
Print Assumptions C62_nothing_else.

Theorem C62_exactly : forall E p body c url uh context dom v c',
  nonul body -> ~ In CR body -> Forall host_entry (skipn 4 (text_lines body)) ->
  skipn 4 (text_lines body) <> [] ->
  after E [Parse p (listURLText (Some hostListFilter) body)] = Ok c ->
  nonul url -> url_has_host url uh -> uh <> [] -> has context FODocument = false ->
  ~ first_party (B "imasdk.googleapis.com") uh -> ~ substring (B "ima3.js") url ->
  matches E c (cstr url) context dom = Ok (v, c') ->
  v_block v = true <->
  web_url url /\ exists h, In h (skipn 4 (text_lines body)) /\ h <> [] /\ looked_up uh h.
Proof. exact host_list_exact. Qed.
Print Assumptions C62_exactly.

(** [hosts_file] (Props_Js.v) meets the hypotheses; two requests outside the added
    rules. *)
Example C62_exactly_example :
  nonul hosts_file /\ ~ In CR hosts_file /\
  Forall host_entry (skipn 4 (text_lines hosts_file)) /\ skipn 4 (text_lines hosts_file) <> [] /\
  (exists c, after E0 [Parse false (listURLText (Some hostListFilter) hosts_file)] = Ok c) /\
  ~ first_party (B "imasdk.googleapis.com") (B "b.x.org").
Proof.
  destruct C62_example as (X & Y & _). rewrite X.
  split; [now apply nonulb_ok|]. split; [now apply notin_ok|]. split; [exact Y|]. split; [discriminate|].
  split.
  - assert (exists v, asked E0 [Parse false (listURLText (Some hostListFilter) hosts_file)]
      (B "http://ads.com/a") FOScript None = Ok v) as (v & Q) by (eexists; vm_compute; reflexivity).
    destruct (asked_ok _ _ _ _ _ _ Q) as (c & _ & A & _). now exists c.
  - intros [K|(s & K)]; [discriminate|].
    apply (f_equal (@length ascii)) in K. rewrite !app_length in K. cbn [B list_ascii_of_string length] in K. lia.
Qed.
