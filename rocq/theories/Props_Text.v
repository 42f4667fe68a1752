(** C93: what a client decides, read off the texts it was given, after any
    history of calls, saves and restarts. *)
From Verif Require Import Base Flags Protocol Url Sets FilterM ParseM ClientM SerialM JsM DataM Spec SpecM
  SpecC SpecS SpecW SpecL SpecQ SpecE SpecN SpecG SpecH P_Base P_Protocol P_Parse P_List P_Line P_Line2 P_Opt
  P_Rx P_Hist P_Ex P_End P_Exact P_Rx3 P_Ser7 P_Life P_Text P_Text2 Props_List Props_Exact.
From Verif Require Import SpecC.

(** Loading never fails, every request is answered, and the answer is that of the
    rules in the texts loaded since the last clear(). *)
Theorem C93_history : forall E es,
  history (calls_of es) -> readable (calls_of es) -> restarts_kept es ->
  exists c, life E es = Ok c /\
    forall url uh context page, nonul url -> url_has_host url uh ->
      (exists v c', matches E c (cstr url) context page = Ok (v, c') /\
         (v_block v = true <->
          web_url url /\
          ((exists r, rule_loaded (calls_of es) r /\ x_exception r = false /\
              listened E (calls_of es) r uh page /\
              rule_meets (calls_of es) r url uh context page) \/
           expression_meets E (calls_of es) url context) /\
          ~ (exists r, rule_loaded (calls_of es) r /\ x_exception r = true /\
              listened E (calls_of es) r uh page /\
              rule_meets (calls_of es) r url uh context page))) /\
      (exists v, findMatchingFilters E c (cstr url) context page = Ok v /\
         (v_block v = true <->
          ((exists r, rule_loaded (calls_of es) r /\ x_exception r = false /\
              noticed (calls_of es) r uh /\
              rule_meets (calls_of es) r url uh context page) \/
           expression_meets E (calls_of es) url context) /\
          ~ (exists r, rule_loaded (calls_of es) r /\ x_exception r = true /\
              noticed (calls_of es) r uh /\
              rule_meets (calls_of es) r url uh context page))).
Proof. exact life_text. Qed.
Print Assumptions C93_history.

(** The data file of such texts is always written, and the client made from it
    decides by the same texts. *)
Theorem C93_data_file : forall E sites items,
  Forall nonul items -> Forall nonul sites ->
  (forall t l, In t items -> In l (text_lines t) -> readable_line l /\ kept_line l) ->
  exists data c, dataFile E sites items = Ok data /\ clientFromDAT data = Ok c /\
    forall url uh context page, nonul url -> url_has_host url uh ->
      let calls := map (Parse false) items in
      (exists v c', matches E c (cstr url) context page = Ok (v, c') /\
         (v_block v = true <->
          web_url url /\
          ((exists r, rule_loaded calls r /\ x_exception r = false /\ listened E calls r uh page /\
              rule_meets calls r url uh context page) \/
           expression_meets E calls url context) /\
          ~ (exists r, rule_loaded calls r /\ x_exception r = true /\ listened E calls r uh page /\
              rule_meets calls r url uh context page))) /\
      (exists v, findMatchingFilters E c (cstr url) context page = Ok v /\
         (v_block v = true <->
          ((exists r, rule_loaded calls r /\ x_exception r = false /\ noticed calls r uh /\
              rule_meets calls r url uh context page) \/
           expression_meets E calls url context) /\
          ~ (exists r, rule_loaded calls r /\ x_exception r = true /\ noticed calls r uh /\
              rule_meets calls r url uh context page))).
Proof. exact data_file_text. Qed.
Print Assumptions C93_data_file.

(** Exactly the rules that [kept_rule] describes come back unchanged. *)
Theorem C93_kept_rules : forall pres r f,
  usual_rule r -> parses_to pres (rule_line r) f ->
  (same_fields f (as_read f) <-> kept_rule r).
Proof.
  intros pres r f U P. rewrite <- (kept_storable pres r f U P). apply unchanged_iff.
Qed.
Print Assumptions C93_kept_rules.

(** A life with a restart in it. *)
Definition kept_text : bytes :=
  B "! list" ++ [LF] ++ B "@@/ad[0-9]/" ++ [LF] ++ rule_line mixed_rule ++ [LF] ++ B "a.com##.ad".
Definition kept_life : list event :=
  [Do (Parse false kept_text); Restart true true (B "xyz") client0;
   Do (Ask (B "http://ads.com/@/ad7") FOImage None)].

Example C93_example :
  history (calls_of kept_life) /\ readable (calls_of kept_life) /\ restarts_kept kept_life /\
  (c <- life E1 kept_life ;;
   rmap (fun x => v_block (fst x)) (matches E1 c (cstr (B "http://ads.com/@/ad7")) FOScript None)) = Ok true /\
  (c <- life E1 kept_life ;;
   rmap (fun x => v_block (fst x)) (matches E1 c (cstr (B "http://ads.com/@/ad7")) FOImage None)) = Ok false.
Proof.
  assert (slashed (B "@@/ad[0-9]/") (B "@@")) as S.
  { split; [reflexivity|]. exists [], (B "ad[0-9]/"). split; [easy|]. split; [|reflexivity].
    apply (marks_more [] [] []); try easy. constructor. }
  assert (usual_rule mixed_rule) as U by (apply usual_ruleb_ok; vm_compute; reflexivity).
  assert (forall parts dl, option_parts mixed_rule parts -> ~ last_domain parts dl) as ND.
  { intros parts dl O (a & b & -> & _).
    assert (cut_at "," (B "image") (a ++ (B "domain=" ++ dl) :: b)) as C by exact O.
    assert (cut_at "," (B "image") [B "image"]) as C'.
    { split; [easy|]. split; auto. intros p [<-|[]]. now apply notin_ok. }
    apply cut_unique in C, C'.
    assert (In (B "domain=" ++ dl) [B "image"]) as J.
    { rewrite C', <- C. apply in_or_app. cbn; auto. }
    destruct J as [J|[]]. discriminate J. }
  assert (forall l, In l [B "! list"; B "@@/ad[0-9]/"; rule_line mixed_rule; B "a.com##.ad"] ->
    readable_line l /\ kept_line l) as K.
  { assert (domain_list_text (B "a.com")) as DT.
    { intros c I. assert (forallb (fun c => negb (existsb (Ascii.eqb c) (NUL :: CR :: LF :: TAB :: B "|$#@![/ ")))
                            (B "a.com") = true) as K by (vm_compute; reflexivity).
      rewrite forallb_forall in K. apply K in I. apply negb_true_iff in I.
      assert (forall x, In x (NUL :: CR :: LF :: TAB :: B "|$#@![/ ") -> c <> x) as N.
      { intros x J ->. assert (existsb (Ascii.eqb x) (NUL :: CR :: LF :: TAB :: B "|$#@![/ ") = true) as X.
        { apply existsb_exists. exists x. split; auto. apply Ascii.eqb_refl. }
        congruence. }
      split.
      - unfold body_char. repeat apply conj; apply N; cbn; tauto.
      - intros J. apply (N c); [|reflexivity]. cbn in J |- *. tauto. }
    intros l [<-|[<-|[<-|[<-|[]]]]].
    - assert (comment_text (B "! list")) as C by (right; left; now exists (B " list")).
      split.
      + left. apply (nn_comment [] (B "! list")); [easy|exact C|cbn; lia].
      + apply (kl_comment [] (B "! list")); [easy|exact C|cbn; lia].
    - split.
      + right. left. split; [|cbn; lia]. split; [cbn; lia|]. exists (B "@@"). exact S.
      + apply (kl_expression _ (B "@@")); [cbn; lia|exact S|vm_compute; discriminate].
    - split.
      + right. right. exists mixed_rule. split; [reflexivity|]. split; [exact U|].
        intros parts dl s O L. now apply ND in L.
      + apply kl_rule; [exact U|]. intros parts dl O L. now apply ND in L.
    - split.
      + left. apply (nn_cosmetic (B "a.com") (B "##") (B ".ad")); [exact DT|now left|cbn; lia].
      + apply (kl_cosmetic (B "a.com") (B "##") (B ".ad")); [exact DT|now left|discriminate|cbn; lia]. }
  assert (text_lines kept_text =
    [B "! list"; B "@@/ad[0-9]/"; rule_line mixed_rule; B "a.com##.ad"]) as TL by (vm_compute; reflexivity).
  split; [repeat constructor; now apply nonulb_ok|]. split.
  { intros pres t l I J. destruct I as [I|[I|[]]]; [|discriminate I].
    injection I as <- <-. rewrite TL in J. now apply K. }
  split; [|split; vm_compute; reflexivity].
  intros a nc nh r d b Q.
  assert (a = [Do (Parse false kept_text)] /\ d = client0) as [-> ->].
  { destruct a as [|x [|y [|z a]]]; try discriminate Q.
    - cbn [app] in Q. injection Q. intros. split; congruence.
    - apply (f_equal (@length _)) in Q. rewrite app_length in Q. cbn in Q. lia. }
  split.
  - intros pres l I. change (loaded_lines _) with (map (fun l => (false, l)) (text_lines kept_text) ++ []) in I.
    rewrite app_nil_r, TL in I. apply in_map_iff in I as (l' & E & I). injection E as _ <-. now apply K.
  - intros t. split; [discriminate|]. intros (x & y & X & _).
    assert (In (AddTag t) (calls_of [Do (Parse false kept_text)])) as J.
    { rewrite X. apply in_or_app. cbn; auto. }
    destruct J as [J|[]]. discriminate J.
Qed.
