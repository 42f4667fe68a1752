(** C05, C12-C17: what a single rule matches. *)
From Verif Require Import Base Flags Url Sets FilterM ParseM ClientM Spec SpecM
  P_Base P_Url P_Match P_Rule P_Shape P_Fp2 P_Line5 P_Match2 Props_List.

(** C05: for every rule that comes from a line, a Bloom filter holding the byte
    pairs of the URL changes no answer. *)
Theorem C05_bloom_only_accelerates :
  forall E pres l f url context dom bf host v,
  line_text l -> parses_to pres l f -> nonul url -> host_arg url host ->
  pairs_held E bf url ->
  filter_matches E f (cstr url) (length url) context dom None host = Ok v ->
  filter_matches E f (cstr url) (length url) context dom bf host = Ok v.
Proof.
  intros E pres l f url context dom bf host v Hl [b HP] Hu Hh Hb H.
  eapply wf_eval_some; eauto. eapply line_wf; eauto.
Qed.
Print Assumptions C05_bloom_only_accelerates.

(** A Bloom filter, whatever it holds, never makes a rule match. *)
Theorem C05_never_adds_matches : forall E f input n context dom bf host,
  filter_matches E f input n context dom bf host = Ok true ->
  filter_matches E f input n context dom None host = Ok true.
Proof.
  intros E f input n context dom [b|] host; auto. apply filter_matches_bloom_true.
Qed.
Print Assumptions C05_never_adds_matches.

(** The Bloom filter built by [AdBlockClient::matches] holds the pairs. *)
Theorem C05_client_bloom : forall E url,
  pairs_held E (Some (inputBloom E url)) url.
Proof. exact inputBloom_held. Qed.
Print Assumptions C05_client_bloom.

(** A Bloom filter without the pairs does hide a match. *)
Example C05_example :
  bind (parse_filter false (cstr (B "banner*ad")) 9) (fun fb =>
  let go bf := filter_matches E0 (fst fb) (cstr (B "http://x.com/banner/ad"))
                 22 0 None bf [] in
  bind (go (Some (inputBloom E0 (B "http://x.com/banner/ad")))) (fun x =>
  bind (go (Some (bl_new 10 1024))) (fun y => Ok (x, y)))) = Ok (true, false).
Proof. vm_compute. reflexivity. Qed.

(** C12 *)
Theorem C12_plain_substring :
  forall E pres r f url context dom bf host,
  good_rule r -> x_anchor r = NoAnchor -> x_right r = false -> plain (x_body r) ->
  parses_to pres (rule_line r) f ->
  nonul url -> host_arg url host -> pairs_held E bf url ->
  exists v, filter_matches E f (cstr url) (length url) context dom bf host = Ok v /\
    (v = true <-> matchesOptions f context dom = true /\ substring (x_body r) url) /\
    (unrestricted r context -> (v = true <-> substring (x_body r) url)).
Proof.
  intros E pres r f url context dom bf host G A R P [b HP] Hu Hh Hb.
  destruct (plain_rule E pres r f b url context dom bf host) as (v & H1 & H2); auto.
  exists v. split; auto. split; auto. intros Un. rewrite H2.
  rewrite (unrestricted_options pres r f b context dom); auto. tauto.
Qed.
Print Assumptions C12_plain_substring.

Example C12_example : good_rule (mkRule false NoAnchor (B "/ads/x") false None) /\
  plain (B "/ads/x").
Proof.
  split; [now apply good_ruleb_ok|]. split; now apply notin_ok.
Qed.

(** C13: the engine's exact criterion, whenever evaluation is defined. *)
Theorem C13_wildcards_exact :
  forall E pres r f url context dom bf host v pieces,
  good_rule r -> x_anchor r = NoAnchor -> x_right r = false ->
  pieces_of (x_body r) pieces -> parses_to pres (rule_line r) f ->
  nonul url -> host_arg url host -> pairs_held E bf url ->
  filter_matches E f (cstr url) (length url) context dom None host = Ok v ->
  filter_matches E f (cstr url) (length url) context dom bf host = Ok v /\
  (v = true <-> matchesOptions f context dom = true /\ pieces_found url 0 pieces).
Proof.
  intros E pres r f url context dom bf host v pieces G A R P [b HP].
  intros. eapply piece_rule; eauto.
Qed.
Print Assumptions C13_wildcards_exact.

(** The engine never accepts more than the textbook reading. *)
Theorem C13_sound : forall url pieces,
  pieces_found url 0 pieces -> pieces_in_order url 0 pieces.
Proof. intros url pieces. apply found_in_order. lia. Qed.
Print Assumptions C13_sound.

(** For patterns without '^' and without two stars in a row it is the textbook
    reading. *)
Theorem C13_wildcards_partial :
  forall E pres r f url context dom bf host pieces,
  good_rule r -> x_anchor r = NoAnchor -> x_right r = false ->
  pieces_of (x_body r) pieces -> ~ In "^"%char (x_body r) ->
  no_double_star (x_body r) -> parses_to pres (rule_line r) f ->
  nonul url -> url <> [] -> host_arg url host -> pairs_held E bf url ->
  exists v, filter_matches E f (cstr url) (length url) context dom bf host = Ok v /\
    (v = true <-> matchesOptions f context dom = true /\
                  pieces_in_order url 0 pieces).
Proof.
  intros E pres r f url context dom bf host pieces G A R P Nc Nd [b HP].
  intros. eapply star_rule; eauto.
Qed.
Print Assumptions C13_wildcards_partial.

(** Two stars at the end are not one star: "foo**" rejects a URL ending in
    "foo". *)
Theorem C13_refuted : exists r url pieces,
  good_rule r /\ x_anchor r = NoAnchor /\ x_right r = false /\ unrestricted r 0 /\
  pieces_of (x_body r) pieces /\ pieces_in_order url 0 pieces /\
  bind (parse_filter false (cstr (rule_line r)) (length (rule_line r))) (fun fb =>
    filter_matches E0 (fst fb) (cstr url) (length url) 0 None None []) = Ok false.
Proof.
  exists (mkRule false NoAnchor (B "foo**") false None), (B "http://x.com/foo"),
         [B "foo"; []; []].
  split; [now apply good_ruleb_ok|]. split; auto. split; auto.
  split; [split; auto|]. split.
  { split; [easy|]. split; [reflexivity|].
    intros p [<-|[<-|[<-|[]]]]; now apply notin_ok. }
  split; [|vm_compute; reflexivity].
  apply po_cons with (i := 13); [lia| |apply po_cons with (i := 16); [cbn; lia| |
    apply po_cons with (i := 16); [cbn; lia| |constructor]]].
  - split; [cbn; lia|]. intros [|[|[|j]]] pc; cbn; [intros [= <-]; auto..|now destruct j].
  - split; [cbn; lia|]. intros [|j] pc; discriminate.
  - split; [cbn; lia|]. intros [|j] pc; discriminate.
Qed.
Print Assumptions C13_refuted.

Example C13_example :
  let r := mkRule false NoAnchor (B "/ads/*^id=*.gif") false None in
  good_rule r /\ pieces_of (x_body r) [B "/ads/"; B "^id="; B ".gif"] /\
  pieces_found (B "http://x.com/ads/q?id=7.gif") 0 [B "/ads/"; B "^id="; B ".gif"].
Proof.
  cbv zeta. split; [now apply good_ruleb_ok|]. split.
  - split; [easy|]. split; [reflexivity|].
    intros p [<-|[<-|[<-|[]]]]; now apply notin_ok.
  - apply wildb_spec. vm_compute. reflexivity.
Qed.

(** C14, for URLs with something in front of [t] *)
Theorem C14_trailing_caret_partial :
  forall E pres r f p t context dom bf host,
  good_rule r -> x_anchor r = NoAnchor -> x_right r = false ->
  x_body r = t ++ B "^" -> plain t -> t <> [] -> p <> [] ->
  unrestricted r context -> parses_to pres (rule_line r) f ->
  nonul (p ++ t) -> host_arg (p ++ t) host -> pairs_held E bf (p ++ t) ->
  filter_matches E f (cstr (p ++ t)) (length (p ++ t)) context dom bf host = Ok true.
Proof.
  intros E pres r f p t context dom bf host G A R Eb P Nt Np Un [b HP].
  intros. eapply trailing_rule; eauto.
Qed.
Print Assumptions C14_trailing_caret_partial.

(** A rule 't^' does not match the URL 't' itself. *)
Theorem C14_refuted : exists r t,
  good_rule r /\ x_anchor r = NoAnchor /\ x_right r = false /\
  x_body r = t ++ B "^" /\ plain t /\ web_url t /\ unrestricted r 0 /\
  bind (parse_filter false (cstr (rule_line r)) (length (rule_line r))) (fun fb =>
    filter_matches E0 (fst fb) (cstr t) (length t) 0 None None []) = Ok false.
Proof.
  exists (mkRule false NoAnchor (B "http://a.com/x^") false None), (B "http://a.com/x").
  split; [now apply good_ruleb_ok|]. split; auto. split; auto. split; auto.
  split; [split; now apply notin_ok|]. split.
  { split; [cbn; lia|]. exists [], (B "http"), (B "a.com/x"). split; auto. split; auto.
    left. repeat constructor. }
  split; [split; auto|]. vm_compute. reflexivity.
Qed.
Print Assumptions C14_refuted.

Example C14_example :
  good_rule (mkRule false NoAnchor (B "/ads^") false None) /\ plain (B "/ads").
Proof. split; [now apply good_ruleb_ok|]. split; now apply notin_ok. Qed.

(** C15: '|t', 't|', '|t|' (and '||t|', which the engine treats like 't|'); the
    pattern is taken literally. *)
Theorem C15_anchors :
  forall E pres r f url context dom bf host,
  good_rule r -> x_anchor r = LeftBar \/ x_right r = true ->
  parses_to pres (rule_line r) f ->
  nonul url -> host_arg url host -> pairs_held E bf url ->
  exists v, filter_matches E f (cstr url) (length url) context dom bf host = Ok v /\
    let fits := match x_anchor r, x_right r with
       | LeftBar, false => exists rest, url = x_body r ++ rest
       | LeftBar, true => url = x_body r
       | _, _ => exists before, url = before ++ x_body r
       end in
    (v = true <-> matchesOptions f context dom = true /\ fits) /\
    (unrestricted r context -> (v = true <-> fits)).
Proof.
  intros E pres r f url context dom bf host G A [b HP] Hu Hh Hb.
  destruct (anchored_rule E pres r f b url context dom bf host) as (v & H1 & H2); auto.
  exists v. split; auto. cbv zeta. split; auto. intros Un. rewrite H2.
  rewrite (unrestricted_options pres r f b context dom); auto. tauto.
Qed.
Print Assumptions C15_anchors.

Example C15_example :
  good_rule (mkRule false LeftBar (B "http://a.com/x") true None) /\
  bind (parse_filter false (cstr (B "|http://a.com/x|")) 16) (fun fb =>
  bind (filter_matches E0 (fst fb) (cstr (B "http://a.com/x")) 14 0 None None []) (fun x =>
  bind (filter_matches E0 (fst fb) (cstr (B "http://a.com/xy")) 15 0 None None []) (fun y =>
  Ok (x, y)))) = Ok (true, false).
Proof. split; [now apply good_ruleb_ok|vm_compute; reflexivity]. Qed.

(** C16, for rules without a right bar *)
Theorem C16_host_rules_partial :
  forall E pres r f url uh h context dom bf host v pieces,
  good_rule r -> x_anchor r = HostBars -> x_right r = false ->
  body_host (x_body r) h -> pieces_of (x_body r) pieces ->
  parses_to pres (rule_line r) f ->
  nonul url -> url_has_host url uh -> host_arg url host -> pairs_held E bf url ->
  filter_matches E f (cstr url) (length url) context dom None host = Ok v ->
  filter_matches E f (cstr url) (length url) context dom bf host = Ok v /\
  (v = true <-> matchesOptions f context dom = true /\ first_party h uh /\
                pieces_found url 0 pieces).
Proof.
  intros E pres r f url uh h context dom bf host v pieces G A R Bh P [b HP].
  intros. eapply host_rule; eauto.
Qed.
Print Assumptions C16_host_rules_partial.

(** With a right bar the host is not looked at. *)
Theorem C16_refuted : exists r url h uh,
  good_rule r /\ x_anchor r = HostBars /\ unrestricted r 0 /\
  body_host (x_body r) h /\ url_has_host url uh /\ ~ first_party h uh /\
  bind (parse_filter false (cstr (rule_line r)) (length (rule_line r))) (fun fb =>
    filter_matches E0 (fst fb) (cstr url) (length url) 0 None None []) = Ok true.
Proof.
  exists (mkRule false HostBars (B "a.com/x") true None),
         (B "http://evil.org/a.com/x"), (B "a.com"), (B "evil.org").
  split; [now apply good_ruleb_ok|]. split; auto. split; [split; auto|].
  split.
  { exists (B "/x"). split; auto. split.
    - intros c I J. apply existsb_In in J. vm_compute in I.
      repeat (destruct I as [<-|I]; [discriminate J|]). destruct I.
    - right. exists "/"%char, (B "x"). split; auto. cbn; auto. }
  split.
  { exists (B "http"), (B "//"), (B "/a.com/x"). split; auto. split; [now apply notin_ok|].
    split; [intros c [<-|[<-|[]]]; auto|]. split.
    - intros c I J. apply existsb_In in J. vm_compute in I.
      repeat (destruct I as [<-|I]; [discriminate J|]). destruct I.
    - split; [discriminate|]. right. exists "/"%char, (B "a.com/x"). split; auto. cbn; auto. }
  split; [|vm_compute; reflexivity].
  rewrite <- isThirdPartyHost_spec. vm_compute. discriminate.
Qed.
Print Assumptions C16_refuted.

Example C16_example :
  good_rule (mkRule false HostBars (B "a.com^*/x") false None) /\
  bind (parse_filter false (cstr (B "||a.com^*/x")) 11) (fun fb =>
  bind (filter_matches E0 (fst fb) (cstr (B "http://b.a.com/y/x")) 18 0 None None []) (fun x =>
  bind (filter_matches E0 (fst fb) (cstr (B "http://ba.com/y/x")) 17 0 None None []) (fun y =>
  Ok (x, y)))) = Ok (true, false).
Proof. split; [now apply good_ruleb_ok|vm_compute; reflexivity]. Qed.

(** C17: rules from lines in which every '^' of the pattern ends a piece *)
Theorem C17_matching_safe_partial :
  forall E pres l f url context dom bf host,
  line_text l -> parses_to pres l f ->
  nonul url -> host_arg url host -> pairs_held E bf url ->
  (forall d t, f_data f = Some (d, t) -> carets_end d) ->
  exists v, filter_matches E f (cstr url) (length url) context dom bf host = Ok v.
Proof.
  intros E pres l f url context dom bf host Hl [b HP]. intros.
  eapply rule_defined; eauto.
Qed.
Print Assumptions C17_matching_safe_partial.

(** Rules with an anchor are safe with any pattern. *)
Theorem C17_anchored_safe :
  forall E pres r f url context dom bf host,
  good_rule r -> x_anchor r = LeftBar \/ x_right r = true \/ carets_end (x_body r) ->
  parses_to pres (rule_line r) f ->
  nonul url -> host_arg url host -> pairs_held E bf url ->
  exists v, filter_matches E f (cstr url) (length url) context dom bf host = Ok v.
Proof.
  intros E pres r f url context dom bf host G A [b HP] Hu Hh Hb.
  eexists. eapply rule_eval; eauto.
Qed.
Print Assumptions C17_anchored_safe.

(** A '^' inside a piece can stand for the terminator; the next character is then
    read behind the URL. *)
Theorem C17_refuted : exists l url,
  line_text l /\ web_url url /\ nonul url /\
  bind (parse_filter false (cstr l) (length l)) (fun fb =>
    filter_matches E0 (fst fb) (cstr url) (length url) 0 None None []) = UB.
Proof.
  exists (B "a^b"), (B "http://x.com/a").
  split; [apply line_text_dec; vm_compute; reflexivity|]. split.
  { split; [cbn; lia|]. exists [], (B "http"), (B "x.com/a"). split; auto. split; auto.
    left. repeat constructor. }
  split; [now apply nonulb_ok|]. vm_compute. reflexivity.
Qed.
Print Assumptions C17_refuted.

Example C17_example : carets_end (B "ads^*x^*y^").
Proof.
  intros pieces p Hp I. apply pieces_of_unique in Hp as ->. vm_compute in I.
  assert (forall q, caret_safe q = true -> ~ interior_caret q) as K
    by (intros q; apply caret_safe_spec).
  destruct I as [<-|[<-|[<-|[]]]]; now apply K.
Qed.
