(** The measuring program: C94. *)
From Verif Require Import Base Flags Sets FilterM ParseM ClientM SerialM JsM DataM ListsM ToolM PerfM
  Spec SpecM SpecC SpecS SpecL SpecX SpecT SpecA P_Base P_Hist P_Ex P_Opt P_Ser6 P_Perf Props_List Props_Client Props_Serial.
From Verif Require Import SpecC.

(** Every text has words, and only one list of them. *)
Theorem C94_words : forall t, exists ws, words_of t ws /\ forall ws', words_of t ws' -> ws' = ws.
Proof.
  intros t. exists (words t). split; [apply words_exist|].
  intros ws' H. symmetry. now apply words_spec.
Qed.
Print Assumptions C94_words.

(** The program ends if all its queries are answered.  The numbers of the first
    report count the answers of the client with the four ad-block lists, the
    numbers of the second those of the client with the two other lists; there the
    two exception counters add up to the number of blocked sites and the two
    other counters to the number of sites to which no block rule applied.  The
    header holds the built-in entries and pieces of sites, each once, and is a C
    array of them if none needs escaping. *)
Theorem C94_report : forall E easy priv ub bu spam disc sites ws c1 bs1 c2 bs2 c3 bs3,
  Forall nonul [easy; priv; ub; bu; spam; disc; sites] -> words_of sites ws ->
  all_storable (map (Parse false) [easy; priv; ub; bu]) ->
  after E (map (Parse false) [easy; priv; ub; bu]) = Ok c1 -> measured E c1 ws bs1 ->
  after E (map (Parse false) [spam; disc]) = Ok c2 -> measured E c2 ws bs2 ->
  after E (map (Parse false) [easy; priv; ub; bu; spam; disc]) = Ok c3 -> measured E c3 ws bs3 ->
  exists r1 r2 l, perfMain E easy priv ub bu spam disc sites = Ok (r1, r2, headerText l) /\
    (rp_blocks r1 = how_many true bs1 /\ rp_skips r1 = how_many false bs1) /\
    (rp_blocks r2 = how_many true bs2 /\ rp_skips r2 = how_many false bs2 /\
     N.to_nat (rp_efp r2 + rp_ebloom r2) = rp_blocks r2 /\
     tally E (no_rule_applied E) (map (Parse false) [spam; disc] ++ site_asks ws)
       (N.to_nat (rp_fp r2 + rp_bloom r2))) /\
    NoDup l /\ (forall w, In w (e_bads E) -> In w l) /\
    (forall w, In w l -> ~ In w (e_bads E) ->
       length w = kFingerprintSize /\ exists url x y, In url ws /\ url = x ++ w ++ y) /\
    (Forall plain_text (e_bads E) -> Forall plain_text ws ->
       exists text, headerText l = header_head ++ text ++ header_tail /\ array_of l text).
Proof.
  intros E easy priv ub bu spam disc sites ws c1 bs1 c2 bs2 c3 bs3 N W St A1 F1 A2 F2 A3 F3.
  exact (perf_gen E easy priv ub bu spam disc sites ws c1 bs1 c2 bs2 c3 bs3 N W A1
           (or_intror (conj St F1)) A2 F2 A3 F3).
Qed.
Print Assumptions C94_report.

(** For all rules: the first report counts the answers of the client with its
    rules as they are read back. *)
Theorem C94_any_rules : forall E easy priv ub bu spam disc sites ws c1 bs1 c2 bs2 c3 bs3,
  Forall nonul [easy; priv; ub; bu; spam; disc; sites] -> words_of sites ws ->
  after E (map (Parse false) [easy; priv; ub; bu]) = Ok c1 -> measured E (restarted c1 c1) ws bs1 ->
  after E (map (Parse false) [spam; disc]) = Ok c2 -> measured E c2 ws bs2 ->
  after E (map (Parse false) [easy; priv; ub; bu; spam; disc]) = Ok c3 -> measured E c3 ws bs3 ->
  exists r1 r2 h, perfMain E easy priv ub bu spam disc sites = Ok (r1, r2, h) /\
    rp_blocks r1 = how_many true bs1 /\ rp_skips r1 = how_many false bs1 /\
    rp_blocks r2 = how_many true bs2 /\ rp_skips r2 = how_many false bs2.
Proof.
  intros E easy priv ub bu spam disc sites ws c1 bs1 c2 bs2 c3 bs3 N W A1 F1 A2 F2 A3 F3.
  destruct (perf_gen E easy priv ub bu spam disc sites ws c1 bs1 c2 bs2 c3 bs3 N W A1
           (or_introl F1) A2 F2 A3 F3) as (r1 & r2 & l & P & (Q1 & Q2) & (Q3 & Q4 & _) & _).
  exists r1, r2, (headerText l). auto.
Qed.
Print Assumptions C94_any_rules.

(** Whenever the program ends, each report counts every word of the site list. *)
Theorem C94_total : forall E easy priv ub bu spam disc sites ws r1 r2 h,
  words_of sites ws -> perfMain E easy priv ub bu spam disc sites = Ok (r1, r2, h) ->
  rp_blocks r1 + rp_skips r1 = length ws /\ rp_blocks r2 + rp_skips r2 = length ws.
Proof. exact perf_total. Qed.
Print Assumptions C94_total.

Definition perf_sites : bytes :=
  [LF] ++ B "http://x.com/ads_a  http://y.com/pic" ++ [CR; LF] ++ B "http://bad.com/x" ++ [LF].

Example C94_example :
  words_of perf_sites [B "http://x.com/ads_a"; B "http://y.com/pic"; B "http://bad.com/x"] /\
  perfMain E0 (B "/ads_") (B "@@/ads_ok") [] [] (B "||bad.com^") (B "http://y.com/p") perf_sites =
  Ok (mkReport 1 2 0 1 2 0, mkReport 2 1 1 0 0 2, headerText [B "/banne"; B "http:/"]).
Proof.
  split; [|vm_compute; reflexivity].
  replace [B "http://x.com/ads_a"; B "http://y.com/pic"; B "http://bad.com/x"] with (words perf_sites)
    by (vm_compute; reflexivity).
  apply words_exist.
Qed.

(** The hypotheses of C94_report hold in this case. *)
Example C94_hypotheses :
  Forall nonul [B "/ads_"; B "@@/ads_ok"; []; []; B "||bad.com^"; B "http://y.com/p"; perf_sites] /\
  all_storable (map (Parse false) [B "/ads_"; B "@@/ads_ok"; []; []]) /\
  (exists c, after E0 (map (Parse false) [B "/ads_"; B "@@/ads_ok"; []; []]) = Ok c /\
     measured E0 c (words perf_sites) [true; false; false]) /\
  (exists c, after E0 (map (Parse false) [B "||bad.com^"; B "http://y.com/p"]) = Ok c /\
     measured E0 c (words perf_sites) [false; true; true]) /\
  exists c, after E0 (map (Parse false)
      [B "/ads_"; B "@@/ads_ok"; []; []; B "||bad.com^"; B "http://y.com/p"]) = Ok c /\
    measured E0 c (words perf_sites) [true; true; true].
Proof.
  split; [repeat (constructor; [now apply nonulb_ok|]); constructor|].
  split; [|split; [|split]].
  - intros p l f I P. vm_compute in I.
    repeat (destruct I as [I|I]; [injection I as <- <-;
      apply parses_rule_at in P; [|line]; subst f; apply storableb_ok; vm_compute; reflexivity|]).
    destruct I.
  - apply measured_after. vm_compute. reflexivity.
  - apply measured_after. vm_compute. reflexivity.
  - apply measured_after. vm_compute. reflexivity.
Qed.
