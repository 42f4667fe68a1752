(** C93: clients made from data files. *)
From Verif Require Import Base Flags Protocol Url Sets FilterM ParseM ClientM SerialM JsM DataM Spec SpecM
  SpecC SpecS SpecL SpecQ SpecE SpecN SpecG SpecH P_Base P_List P_Hist P_Dec5 P_Safe P_Ser4 P_Ser6 P_Data P_Exact P_Rx3 P_Text.
From Verif Require Import SpecC.

Lemma data_file_text E sites items :
  Forall nonul items -> Forall nonul sites ->
  (forall t l, In t items -> In l (text_lines t) -> readable_line l /\ kept_line l) ->
  exists data c, dataFile E sites items = Ok data /\ clientFromDAT data = Ok c /\
    forall url uh context page, nonul url -> url_has_host url uh ->
      let calls := map (Parse false) items in
      (exists v c', matches E c (cstr url) context page = Ok (v, c') /\
         (v_block v = true <->
          web_url url /\
          ((exists r, rule_loaded calls r /\ x_exception r = false /\ listened E calls r uh page /\
              rule_meets calls r url uh context page) \/
           expression_meets E calls url context) /\
          ~ (exists r, rule_loaded calls r /\ x_exception r = true /\ listened E calls r uh page /\
              rule_meets calls r url uh context page))) /\
      (exists v, findMatchingFilters E c (cstr url) context page = Ok v /\
         (v_block v = true <->
          ((exists r, rule_loaded calls r /\ x_exception r = false /\ noticed calls r uh /\
              rule_meets calls r url uh context page) \/
           expression_meets E calls url context) /\
          ~ (exists r, rule_loaded calls r /\ x_exception r = true /\ noticed calls r uh /\
              rule_meets calls r url uh context page))).
Proof.
  intros Hi Hs RK. set (calls := map (Parse false) items).
  assert (history calls) as H1.
  { apply Forall_forall. intros k I. apply in_map_iff in I as (t & <- & I).
    rewrite Forall_forall in Hi. now apply Hi. }
  assert (history (asks_of sites)) as H2.
  { apply Forall_forall. intros k I. apply in_map_iff in I as (t & <- & I).
    rewrite Forall_forall in Hs. now apply Hs. }
  set (all := calls ++ DetectBad :: asks_of sites).
  assert (history all) as H3.
  { apply Forall_app. split; auto. constructor; [exact I|exact H2]. }
  assert (readable all) as R.
  { intros pres t l J K. unfold all, calls in J. apply in_app_iff in J as [J|[J|J]].
    - apply in_map_iff in J as (t' & Q & J). injection Q as <- <-. now apply (RK t' l).
    - discriminate.
    - apply in_map_iff in J as (? & J & _). discriminate. }
  assert (readable calls) as R1 by now apply readable_app in R.
  assert (all_storable calls) as St.
  { intros p l f J P. apply (kept_line_storable p l f); auto.
    - now apply (loaded_line_text calls p).
    - apply loaded_from_in in J as [[]|(t & J1 & J2)]. unfold calls in J1.
      apply in_map_iff in J1 as (t' & Q & J1). injection Q as _ <-. now apply (RK t' l). }
  destruct (readable_after E all H3 R) as (c2 & A2).
  destruct (readable_after E calls H1 R1) as (c1 & A1).
  assert (exists data, dataFile E sites items = Ok data) as (data & D).
  { unfold dataFile.
    change (foldM (fun c t => parse E false (cstr t) c) client0 items)
      with (clientFromStrings E false items).
    rewrite strings_after0. fold calls. rewrite A1. cbn [bind].
    rewrite checkSites_perform.
    assert (foldM (perform E) (enableBadFp E c1) (asks_of sites) = Ok c2) as ->.
    { revert A2. unfold all, after. rewrite foldM_app. unfold after in A1. rewrite A1.
      cbn [bind foldM perform]. auto. }
    cbn [bind]. rewrite (P_Ser4.serialize_ok _ _ true true (hist_shaped E all c2 H3 A2)). eauto. }
  destruct (data_file E sites items data Hi Hs St D) as (c & c' & X & Y & M1 & M2 & _).
  rewrite strings_after0 in X. fold calls in X.
  assert (c = c1) as -> by congruence.
  exists data, c'. split; auto. split; auto. intros url uh context page Hu Huh.
  pose proof (readable_mixed _ R1) as ML. cbv zeta. split.
  - destruct (mixed_decides E _ c1 url uh context page H1 A1 Hu Huh ML) as (v & c3 & M & V).
    destruct (M1 _ _ _ _ _ M) as (w & c4 & M' & W & _). exists w, c4. split; auto. now rewrite <- W.
  - destruct (mixed_finds E _ c1 url uh context page H1 A1 Hu Huh ML) as (v & M & V).
    destruct (M2 _ _ _ _ M) as (w & M' & W & _). exists w. split; auto. now rewrite <- W.
Qed.
