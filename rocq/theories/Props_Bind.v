(** C85-C89: calls from JavaScript. *)
From Verif Require Import Base Flags Sets FilterM ParseM ClientM SerialM JsM OwnM OwnT BindM
  Spec SpecM SpecC SpecQ SpecO SpecU SpecV P_Base P_List P_Ex P_Utf P_Utf2 P_Bind P_Obj Props_List Props_Own.
From Verif Require Import SpecC.

Definition J0 : js := mkJs (fun _ => 65533%N) (fun _ => 0%Z).

(** "реклама", a smiling face and "ads" *)
Definition w_rus : units := [1088; 1077; 1082; 1083; 1072; 1084; 1072]%N.
Definition w_face : units := [55357; 56832]%N.

(** ** C85 *)

(** Different strings stay different, *)
Theorem C85_kept_apart : forall lone s t,
  well_formed s -> well_formed t -> utf8 lone s = utf8 lone t -> s = t.
Proof. exact utf8_injective. Qed.
Print Assumptions C85_kept_apart.

(** a string occurs in another one exactly if its bytes occur in those of the
    other one, *)
Theorem C85_occurrences : forall lone s t,
  well_formed s -> well_formed t -> (substring (utf8 lone s) (utf8 lone t) <-> occurs s t).
Proof. exact utf8_occurs. Qed.
Print Assumptions C85_occurrences.

(** ASCII text is itself, *)
Theorem C85_ascii : forall lone s, ascii_text s -> utf8 lone s = map ascii_of_N s.
Proof. exact utf8_ascii. Qed.
Print Assumptions C85_ascii.

(** the lines of a text are its lines, *)
Theorem C85_lines : forall lone s, well_formed s ->
  text_lines (utf8 lone s) = map (utf8 lone) (js_lines s).
Proof. intros lone s W. now apply utf8_lines. Qed.
Print Assumptions C85_lines.

(** and preparing a list (C55) can be done before or after. *)
Theorem C85_prepared : forall lone s, well_formed s ->
  utf8 lone (sanitize_js s) = sanitizeABPInput (utf8 lone s).
Proof. intros lone s W. now apply utf8_sanitize. Qed.
Print Assumptions C85_prepared.

(** Altogether: a list with one word per line, loaded with parse(), makes
    matches() block exactly the web addresses that contain one of the words. *)
Theorem C85_word_list : forall J E s url type page,
  well_formed s -> (forall l, In l (js_lines s) -> l = [] \/ plain_word l) ->
  well_formed url -> ~ In 0%N url -> js_web url ->
  to_number J type <> None -> has (to_mask J type) FODocument = false -> to_string page <> None ->
  exists c c' b, session J E [(MParse, [JStr s])] = Ok c /\
    invoke J E c MMatches [JStr url; type; page] = Ok (c', RBool b) /\
    (b = true <-> exists l, In l (js_lines s) /\ l <> [] /\ occurs l url).
Proof. exact plain_list. Qed.
Print Assumptions C85_word_list.

Lemma wf_units s ps : forallb (fun p => (p <? 55296) || ((57344 <=? p) && (p <? 1114112)))%N ps = true ->
  flat_map utf16 ps = s -> well_formed s.
Proof.
  intros H <-. exists ps. split; [|reflexivity]. apply Forall_forall. intros p I.
  rewrite forallb_forall in H. specialize (H p I). unfold scalar.
  apply orb_true_iff in H as [H|H]; [apply N.ltb_lt in H; lia|].
  apply andb_true_iff in H as [H1 H2]. apply N.leb_le in H1. apply N.ltb_lt in H2. lia.
Qed.

Lemma words_ok l : forallb (fun u => (48 <=? u) && (u <=? 57) || (65 <=? u) && (u <=? 90) ||
    (97 <=? u) && (u <=? 122) || (128 <=? u))%N l = true -> Forall word_unit l.
Proof.
  intros H. apply Forall_forall. intros u I. rewrite forallb_forall in H. specialize (H u I).
  rewrite !orb_true_iff, !andb_true_iff, !N.leb_le in H. unfold word_unit. lia.
Qed.

Definition wordb (u : N) : bool :=
  ((48 <=? u) && (u <=? 57) || (65 <=? u) && (u <=? 90) || (97 <=? u) && (u <=? 122) || (128 <=? u))%N.

Lemma plain_word_ok l : negb (length l =? 0) && forallb wordb l && (3 * length l <=? 1024) = true ->
  plain_word l.
Proof.
  rewrite !andb_true_iff. intros ((N & F) & L). split; [intros ->; discriminate N|].
  split; [now apply words_ok|now apply Nat.leb_le].
Qed.

Lemma host_units_ok h : forallb (fun u => wordb u || (u =? 45) || (u =? 46))%N h = true ->
  Forall (fun u => word_unit u \/ u = 45%N \/ u = 46%N) h.
Proof.
  intros H. apply Forall_forall. intros u I. rewrite forallb_forall in H. specialize (H u I).
  rewrite !orb_true_iff, !N.eqb_eq in H. destruct H as [[H|H]|H]; auto.
  left. pose proof (words_ok [u]) as W. cbn [forallb] in W. rewrite andb_true_r in W.
  specialize (W H). now inversion W.
Qed.

Ltac web := split; [auto|]; split; [discriminate|];
  split; [apply host_units_ok; vm_compute; reflexivity|reflexivity].

Lemma isnt {A} (x : A) : Some x <> None.
Proof. discriminate. Qed.

Definition list_example : units := w_rus ++ [10; 13]%N ++ w_face ++ [10]%N ++ U "ads".
Definition url_example : units := U "https://x.com/a" ++ w_face ++ U "/1".
Definition url_other : units := U "https://x.com/a" ++ firstn 6 w_rus.

Example C85_example :
  utf8 (j_lone J0) w_face = map ascii_of_nat [240; 159; 152; 128] /\
  (exists c c', session J0 E0 [(MParse, [JStr list_example])] = Ok c /\
     invoke J0 E0 c MMatches [JStr url_example; JInt 2; JUndef] = Ok (c', RBool true)) /\
  (exists c c', session J0 E0 [(MParse, [JStr list_example])] = Ok c /\
     invoke J0 E0 c MMatches [JStr url_other; JInt 2; JUndef] = Ok (c', RBool false)).
Proof.
  split; [reflexivity|].
  assert (Ws : well_formed list_example).
  { apply (wf_units _ (w_rus ++ [10; 13]%N ++ [128512]%N ++ [10]%N ++ U "ads")); reflexivity. }
  assert (Hl : forall l, In l (js_lines list_example) -> l = [] \/ plain_word l).
  { intros l I. vm_compute in I.
    repeat (destruct I as [<-|I]; [first [left; reflexivity|right; apply plain_word_ok; vm_compute; reflexivity]|]). easy. }
  assert (W1 : well_formed url_example).
  { apply (wf_units _ (U "https://x.com/a" ++ [128512]%N ++ U "/1")); reflexivity. }
  assert (W2 : well_formed url_other) by (apply (wf_units _ url_other); reflexivity).
  assert (Wb : forall r, js_web (U "https://x.com/" ++ r)).
  { intros r. exists (U "https"), (U "x.com"), r. web. }
  split.
  - assert (N1 : ~ In 0%N url_example) by (vm_compute; intuition discriminate).
    destruct (C85_word_list J0 E0 list_example url_example (JInt 2) JUndef Ws Hl W1 N1
        (Wb (U "a" ++ w_face ++ U "/1")) (@isnt _ _) eq_refl (@isnt _ _))
      as (c & c' & b & S & I & D).
    + exists c, c'. split; [exact S|]. rewrite I. do 3 f_equal. apply D. exists w_face.
      split; [vm_compute; auto|]. split; [discriminate|].
      exists (U "https://x.com/a"), (U "/1"). reflexivity.
  - assert (N1 : ~ In 0%N url_other) by (vm_compute; intuition discriminate).
    destruct (C85_word_list J0 E0 list_example url_other (JInt 2) JUndef Ws Hl W2 N1
        (Wb (U "a" ++ firstn 6 w_rus)) (@isnt _ _) eq_refl (@isnt _ _))
      as (c & c' & b & S & I & D).
    + exists c, c'. split; [exact S|]. rewrite I. do 3 f_equal.
      destruct b; [|reflexivity]. exfalso. destruct (proj1 D eq_refl) as (l & K & Ne & (x & y & O)).
      assert (Q : forall u, In u l -> In u url_other)
        by (intros u V; rewrite O, !in_app_iff; auto).
      vm_compute in K. destruct K as [K|[K|[K|[K|[]]]]]; subst l.
      * apply (f_equal (fun z => count_occ N.eq_dec z 1072%N)) in O.
        rewrite !count_occ_app in O.
        assert (O1 : count_occ N.eq_dec url_other 1072%N = 1) by reflexivity.
        assert (O2 : count_occ N.eq_dec w_rus 1072%N = 2) by reflexivity.
        change [1088; 1077; 1082; 1083; 1072; 1084; 1072]%N with w_rus in O. lia.
      * now destruct Ne.
      * specialize (Q 55357%N (or_introl eq_refl)). vm_compute in Q. intuition discriminate.
      * specialize (Q 100%N (or_intror (or_introl eq_refl))). vm_compute in Q. intuition discriminate.
Qed.

(** ** C86 *)

(** Everything from the first U+0000 on is ignored. *)
Theorem C86_cut : forall J E c s r rest,
  invoke J E c MParse (JStr (s ++ 0%N :: r) :: rest) = invoke J E c MParse (JStr s :: rest).
Proof. exact parse_cut_js. Qed.
Print Assumptions C86_cut.

(** Not every line of every text is loaded. *)
Theorem C86_refuted : ~ (forall J E s url type page c c' b l,
  well_formed s -> In l (js_lines s) -> plain_word l ->
  well_formed url -> ~ In 0%N url -> js_web url ->
  to_number J type <> None -> has (to_mask J type) FODocument = false -> to_string page <> None ->
  session J E [(MParse, [JStr s])] = Ok c ->
  invoke J E c MMatches [JStr url; type; page] = Ok (c', RBool b) ->
  occurs l url -> b = true).
Proof.
  intros H.
  assert (W : js_web (U "http://a.b/ads")).
  { exists (U "http"), (U "a.b"), (U "ads"). web. }
  assert (Wu : well_formed (U "http://a.b/ads")) by (apply (wf_units _ (U "http://a.b/ads")); reflexivity).
  assert (Nu : ~ In 0%N (U "http://a.b/ads")) by (vm_compute; intuition discriminate).
  assert (W0 : well_formed []) by (exists []; split; [constructor|reflexivity]).
  assert (L0 : forall l, In l (js_lines []) -> l = [] \/ plain_word l) by (intros l [<-|[]]; now left).
  destruct (C85_word_list J0 E0 [] (U "http://a.b/ads") (JInt 0) JUndef W0 L0 Wu Nu W
      (@isnt _ _) eq_refl (@isnt _ _)) as (c & c' & b & S & I & D).
  - assert (X : b = true).
    { refine (H J0 E0 ([] ++ 0%N :: [10]%N ++ U "ads") (U "http://a.b/ads") (JInt 0) JUndef c c' b (U "ads")
                _ _ _ Wu Nu W (@isnt _ _) eq_refl (@isnt _ _) _ I _).
      - apply (wf_units _ ([] ++ 0%N :: [10]%N ++ U "ads")); reflexivity.
      - vm_compute. auto.
      - apply plain_word_ok. vm_compute. reflexivity.
      - unfold session in *. cbn [foldM fst snd] in *. now rewrite C86_cut.
      - exists (U "http://a.b/"), []. reflexivity. }
    destruct (proj1 D X) as (l & [<-|[]] & N & _). easy.
Qed.
Print Assumptions C86_refuted.

(** Without U+0000 every line is. *)
Theorem C86_all_lines_partial : forall J E s,
  well_formed s -> ~ In 0%N s ->
  session J E [(MParse, [JStr s])] = after E [Parse false (utf8 (j_lone J) s)] /\
  loaded_lines [Parse false (utf8 (j_lone J) s)] = map (fun l => (false, utf8 (j_lone J) l)) (js_lines s).
Proof. exact all_lines. Qed.
Print Assumptions C86_all_lines_partial.

(** ** C87 *)

(** A call that throws changes no answer; deserialize() then changes nothing at
    all. *)
Theorem C87_throwing_partial : forall J E c m args c',
  invoke J E c m args = Ok (c', RThrows) ->
  (m = MDeserialize -> c' = c) /\
  forall url context dom,
    rmap fst (matches E c' url context dom) = rmap fst (matches E c url context dom) /\
    findMatchingFilters E c' url context dom = findMatchingFilters E c url context dom.
Proof.
  intros J E c m args c' H. split; [intros ->; exact (throws_deserialize J E c args c' H)|].
  exact (throws_inert J E c m args c' H).
Qed.
Print Assumptions C87_throwing_partial.

Definition symbol : jsval := JOther None None true.

(** matches() changes the statistics even if it throws. *)
Theorem C87_refuted : ~ (forall J E c m args c',
  invoke J E c m args = Ok (c', RThrows) -> c' = c).
Proof.
  intros H.
  destruct (invoke J0 E0 client0 MMatches [JStr (U "http://a/"); JInt 0; symbol]) as [[c' r]|] eqn:X.
  - assert (R : rmap snd (invoke J0 E0 client0 MMatches [JStr (U "http://a/"); JInt 0; symbol]) = Ok RThrows)
      by (vm_compute; reflexivity).
    assert (S : rmap (fun x => st_ehash (c_stats (fst x)))
                  (invoke J0 E0 client0 MMatches [JStr (U "http://a/"); JInt 0; symbol]) = Ok 1%N)
      by (vm_compute; reflexivity).
    rewrite X in R, S. cbn [rmap snd fst] in R, S. injection R as ->.
    rewrite (H _ _ _ _ _ _ X) in S. discriminate S.
  - apply (f_equal (rmap snd)) in X. vm_compute in X. discriminate X.
Qed.
Print Assumptions C87_refuted.

(** parse() without an argument is parse("undefined"), *)
Theorem C87_parse_undefined : forall J E c,
  invoke J E c MParse [] = invoke J E c MParse [JStr (U "undefined")].
Proof. reflexivity. Qed.
Print Assumptions C87_parse_undefined.

(** so that it does load a rule. *)
Theorem C87_refuted_omitted : ~ (forall J E url type page c c' b,
  well_formed url -> ~ In 0%N url -> js_web url -> to_string page <> None ->
  session J E [(MParse, [])] = Ok c ->
  invoke J E c MMatches [JStr url; type; page] = Ok (c', RBool b) -> b = false).
Proof.
  intros H.
  assert (W : js_web (U "http://a.b/undefined")).
  { exists (U "http"), (U "a.b"), (U "undefined"). web. }
  assert (Wu : well_formed (U "http://a.b/undefined"))
    by (apply (wf_units _ (U "http://a.b/undefined")); reflexivity).
  assert (Nu : ~ In 0%N (U "http://a.b/undefined")) by (vm_compute; intuition discriminate).
  assert (W0 : well_formed (U "undefined")) by (apply (wf_units _ (U "undefined")); reflexivity).
  assert (L0 : forall l, In l (js_lines (U "undefined")) -> l = [] \/ plain_word l).
  { intros l K. right. vm_compute in K. destruct K as [<-|[]].
    apply plain_word_ok. vm_compute. reflexivity. }
  destruct (C85_word_list J0 E0 (U "undefined") (U "http://a.b/undefined") (JInt 0) JUndef W0 L0 Wu Nu W
      (@isnt _ _) eq_refl (@isnt _ _)) as (c & c' & b & S & I & D).
  - assert (X : b = false).
    { refine (H J0 E0 (U "http://a.b/undefined") (JInt 0) JUndef c c' b Wu Nu W (@isnt _ _) _ I).
      unfold session in *. cbn [foldM fst snd] in *. now rewrite C87_parse_undefined. }
    assert (b = true); [|congruence]. apply D. exists (U "undefined"). split; [vm_compute; auto|].
    split; [discriminate|]. exists (U "http://a.b/"), []. reflexivity.
Qed.
Print Assumptions C87_refuted_omitted.

Example C87_example :
  exists c', invoke J0 E0 client0 MDeserialize [JStr (U "data")] = Ok (c', RThrows).
Proof. eexists. reflexivity. Qed.

(** ** C88 *)

(** Calls whose arguments can be converted are the C++ calls with the UTF-8
    texts, up to U+0000 if there is one, so that all that is said about those
    holds. *)
Theorem C88_session : forall J E ms xs,
  Forall2 (means J) ms xs ->
  session J E ms = foldM (act E) client0 xs /\ Forall ncall_ok xs.
Proof. exact session_is_calls. Qed.
Print Assumptions C88_session.

Theorem C88_session_calls : forall J E ms calls,
  Forall2 (means J) ms (map Call calls) -> session J E ms = after E calls /\ history calls.
Proof. exact session_calls. Qed.
Print Assumptions C88_session_calls.

(** Such calls with safe lists do not crash, and neither does a request. *)
Theorem C88_no_crash_partial : forall J E ms calls,
  Forall2 (means J) ms (map Call calls) -> safe_calls E calls ->
  exists c, session J E ms = Ok c /\
  forall args s, to_string (arg args 0) = Some s -> nonul (utf8 (j_lone J) s) ->
    exists c' r, invoke J E c MMatches args = Ok (c', r).
Proof. exact session_safe. Qed.
Print Assumptions C88_no_crash_partial.

(** A value that cannot be converted crashes all methods that take a text. *)
Theorem C88_unconvertible : forall J E c m args,
  takes_text m -> to_string (arg args 0) = None -> invoke J E c m args = UB.
Proof. exact null_crash. Qed.
Print Assumptions C88_unconvertible.

Theorem C88_refuted : ~ (forall J E m v, exists r, invoke J E client0 m [v] = Ok r).
Proof.
  intros H. destruct (H J0 E0 MParse symbol) as (r & X).
  rewrite C88_unconvertible in X; [discriminate X|cbn; auto|reflexivity].
Qed.
Print Assumptions C88_refuted.

Example C88_example :
  Forall2 (means J0) [(MParse, [JInt (-17); JInt 1]); (MAddTag, [JNull]); (MClear, [])]
    (map Call [Parse true (B "-17"); AddTag (B "null"); Clear]).
Proof.
  cbn [map]. constructor; [|constructor; [|constructor; [constructor|constructor]]].
  - apply (means_parse J0 [JInt (-17); JInt 1]). exists (U "-17"). split; reflexivity.
  - apply (means_addtag J0 [JNull]). exists (U "null"). split; reflexivity.
Qed.

(** ** C89 *)

(** Exactly which lives of an object are safe: cleanup() is the last call or not
    called, and the calls before are as in C54. *)
Theorem C89_safe_iff : forall es,
  (exists h, object_life es = Ok h) <->
  exists ws, parses_fine_w None ws /\ (closes es ws \/ left_open es ws).
Proof. exact object_iff. Qed.
Print Assumptions C89_safe_iff.

(** With cleanup(), what is left is what C54 says; *)
Theorem C89_closed : forall es ws, closes es ws -> object_life es = wrapped_life ws.
Proof. intros es ws ->. apply object_closed. Qed.
Print Assumptions C89_closed.

(** without, the buffer of the last deserialize() in addition. *)
Theorem C89_left_open : forall ws h,
  object_life (map OCall ws) = Ok h ->
  NoDup (h_live h) /\
  (Exists restores ws -> length (h_live h) = lost_total_w ws + 1) /\
  (~ Exists restores ws -> length (h_live h) = lost_total_w ws).
Proof. exact open_leak. Qed.
Print Assumptions C89_left_open.

(** The same read off the texts and buffers. *)
Theorem C89_calls_left_open : forall E xs es c n h,
  story E client0 xs es c -> repeats_in line_repeats xs n ->
  object_life (map OCall es) = Ok h ->
  (never_restored xs -> length (h_live h) = 2 * n) /\
  (~ never_restored xs -> length (h_live h) = 2 * n + 1).
Proof. exact calls_collected. Qed.
Print Assumptions C89_calls_left_open.

(** No call after cleanup(), also no second cleanup(), is safe, *)
Theorem C89_after_cleanup : forall es e rest, object_life (es ++ OCleanup :: e :: rest) = UB.
Proof. exact gone_over. Qed.
Print Assumptions C89_after_cleanup.

Theorem C89_refuted_use : ~ (forall ws e, parses_fine_w None ws ->
  exists h, object_life (map OCall ws ++ [OCleanup; e]) = Ok h).
Proof.
  intros H. destruct (H [] OCleanup) as (h & X); [constructor|].
  rewrite C89_after_cleanup in X. discriminate X.
Qed.
Print Assumptions C89_refuted_use.

(** and the garbage collector does not release everything. *)
Theorem C89_refuted_leak : ~ (forall ws h,
  nothing_overwritten_w ws -> object_life (map OCall ws) = Ok h -> h_live h = []).
Proof.
  intros H.
  assert (X : exists h, object_life (map OCall [NDeserialize shape_back]) = Ok h /\ h_live h <> []).
  { eexists. split; [vm_compute; reflexivity|discriminate]. }
  destruct X as (h & X & N). apply N, (H [NDeserialize shape_back] h); [|exact X].
  intros ls s [I|[]] _. discriminate I.
Qed.
Print Assumptions C89_refuted_leak.

Example C89_example :
  closes [OCall (NParse [line_foo]); OCall (NDeserialize shape_back); OCleanup]
         [NParse [line_foo]; NDeserialize shape_back] /\
  rmap h_live (object_life [OCall (NParse [line_foo]); OCall (NDeserialize shape_back); OCleanup]) = Ok [].
Proof. split; [reflexivity|]. vm_compute. reflexivity. Qed.
