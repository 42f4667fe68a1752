(** Fingerprints of parsed lines. *)
From Verif Require Import Base Flags Url Sets FilterM ParseM ClientM Spec SpecM
  P_Base P_Url P_Match P_Rule P_Parse P_List P_Shape P_Fp P_Line P_Line2 P_Line4.

(** Computing a fingerprint at all means that the host is no longer than the
    pattern. *)
Lemma gf_host_fits E f d g :
  has (f_type f) FTRegex = false -> f_data f = Some (d, [NUL]) ->
  has (f_type f) FTHostAnchored = true -> f_host f <> None ->
  getFingerprint E f = Ok g ->
  exists h, f_host f = Some h /\ length h <= length d.
Proof.
  intros R Hd HA Hh H. unfold getFingerprint in H. rewrite R, HA, Hd in H.
  destruct (f_host f) as [h|]; [|easy]. exists h. split; auto.
  destruct (le_lt_dec (length h) (length d)) as [L|L]; auto.
  rewrite skipn_all2 in H by (rewrite app_length; cbn; lia). discriminate.
Qed.

Definition wf_rule (f : filter) : Prop := exists b, rule_ok f b.

Lemma wf_fp E f fp :
  wf_rule f -> getFingerprint E f = Ok (Some fp) ->
  has (f_type f) FTRegex = false /\
  exists d, f_data f = Some (d, [NUL]) /\ line_text d /\
            substring fp d /\ good_fp (e_bads E) fp.
Proof.
  intros (b & R1 & R2 & R3 & R4 & R5) H.
  assert (has (f_type f) FTRegex = false /\
          exists d, f_data f = Some (d, [NUL]) /\ line_text d) as (NR & d & Hd & Td).
  { destruct b.
    - destruct R5 as [R5 R6]. split; auto. apply types_no_regex. do 2 right. auto.
    - destruct R5 as [[R5 R6]|(d & R5 & R6 & R7)].
      + exfalso. unfold getFingerprint in H. rewrite R5 in H.
        rewrite types_no_regex in H by auto.
        destruct (has (f_type f) FTHostAnchored); [|discriminate].
        destruct (f_host f) as [h|]; [|discriminate].
        destruct (length h =? 0); discriminate.
      + exfalso. unfold getFingerprint in H. rewrite R7 in H. discriminate. }
  split; auto. exists d. split; auto. split; auto.
  apply (fp_in_data E f d fp); auto.
  - now apply line_text_nonul.
  - intros HA. eapply gf_host_fits; eauto.
Qed.

Lemma wf_nonul f d t : wf_rule f -> f_data f = Some (d, t) -> line_text d /\ t = [NUL].
Proof.
  intros (b & _ & _ & _ & _ & R5) H. destruct b.
  - destruct R5 as [(d' & H1 & H2) _]. assert (d' = d /\ t = [NUL]) as [<- ->] by (split; congruence). auto.
  - destruct R5 as [[R5 _]|(d' & H1 & H2 & _)]; [congruence|].
    assert (d' = d /\ t = [NUL]) as [<- ->] by (split; congruence). auto.
Qed.

Lemma wf_match_fp E f url context dom bf host fp :
  wf_rule f -> getFingerprint E f = Ok (Some fp) -> nonul url ->
  host = [] \/ host = hostOf url ->
  filter_matches E f (cstr url) (length url) context dom bf host = Ok true ->
  substring fp url.
Proof.
  intros W G Hu Hh H.
  assert (filter_matches E f (cstr url) (length url) context dom None host = Ok true) as H'
    by (destruct bf; [now apply filter_matches_bloom_true in H|auto]).
  destruct (wf_fp E f fp W G) as (NR & d & Hd & Td & Sf & Gf).
  pose proof (filter_matches_eval E f url context dom host d [NUL] Hu Hd) as K.
  rewrite H' in K. destruct (matchesOptions f context dom).
  - eapply patb_fp; eauto. symmetry. apply K; auto.
    + now apply line_text_nonul.
    + left. exists []; auto.
  - cbn [andb] in K. discriminate K; auto. now apply line_text_nonul. left. exists []; auto.
Qed.

Lemma line_match_fp E pres l f r url context dom bf host fp :
  line_text l -> parse_filter pres (cstr l) (length l) = Ok (f, r) ->
  getFingerprint E f = Ok (Some fp) -> nonul url ->
  host = [] \/ url_has_host url host ->
  filter_matches E f (cstr url) (length url) context dom bf host = Ok true ->
  substring fp url.
Proof.
  intros Hl HP G Hu Hh. eapply wf_match_fp; eauto.
  - rewrite parse_filter_cstr in HP by auto. pose proof (pline_ok pres l Hl) as RO.
    exists r. assert (pline pres l = (f, r)) as E1 by congruence.
    now rewrite E1 in RO.
  - destruct Hh as [->|Hh]; auto. right. symmetry. now apply hostOf_spec.
Qed.

Lemma line_wf pres l f r :
  line_text l -> parse_filter pres (cstr l) (length l) = Ok (f, r) -> wf_rule f.
Proof.
  intros Hl HP. rewrite parse_filter_cstr in HP by auto.
  pose proof (pline_ok pres l Hl) as RO.
  exists r. assert (pline pres l = (f, r)) as E1 by congruence.
  now rewrite E1 in RO.
Qed.

Lemma line_fp_length E pres l f r fp :
  line_text l -> parse_filter pres (cstr l) (length l) = Ok (f, r) ->
  getFingerprint E f = Ok (Some fp) -> length fp = 6.
Proof.
  intros Hl HP G. destruct (wf_fp E f fp (line_wf _ _ _ _ Hl HP) G)
    as (_ & d & _ & _ & _ & F). apply F.
Qed.

(** ** Fingerprints of rules in the usual syntax *)
Lemma rule_fp E pres r f b :
  good_rule r ->
  parse_filter pres (cstr (rule_line r)) (length (rule_line r)) = Ok (f, b) ->
  exists o, getFingerprint E f = Ok o /\
    match x_anchor r with
    | HostBars => forall h rest, x_body r = h ++ rest -> body_host (x_body r) h ->
        (exists w, o = Some w /\ first_fp (e_bads E) rest w) \/
        (no_fp (e_bads E) rest /\
         match o with
         | Some w => first_fp (e_bads E) (x_body r) w
         | None => no_fp (e_bads E) (x_body r)
         end)
    | _ => match o with
           | Some w => first_fp (e_bads E) (x_body r) w
           | None => no_fp (e_bads E) (x_body r)
           end
    end.
Proof.
  intros G HP. pose proof (good_rule_line r G) as Hl.
  rewrite parse_filter_cstr, parse_rule_line in HP by auto.
  assert (f = shape pres r) as -> by congruence.
  destruct (shape_fields pres r) as (F1 & F2 & F3 & _).
  destruct (shape_bits r) as (B1 & _ & _ & B4 & _).
  destruct (getFingerprint_spec E (shape pres r) (x_body r)) as (o & Ho & K).
  - now rewrite F1.
  - auto.
  - intros I. destruct G as (_ & G & _). apply G in I as (_ & _ & _ & I & _). easy.
  - rewrite F1, F3. intros H. unfold shape_host. rewrite (B4 H).
    eexists. split; eauto. apply host_prefix_length.
  - exists o. split; auto. rewrite F1 in K.
    assert (has (shape_type r) FTHostAnchored =
            match x_anchor r with HostBars => true | _ => false end) as HB.
    { unfold shape_type. destruct (x_anchor r), (x_exception r), (x_right r);
        try reflexivity; destruct (host_only r); reflexivity. }
    rewrite HB in K. destruct (x_anchor r) eqn:A; [exact K|exact K|].
    intros h rest Eb (rest' & Eb' & H1 & H2).
    assert (rest' = rest) as ->.
    { rewrite Eb in Eb'. now apply app_inv_head in Eb'. }
    assert (hkey (shape pres r) = h) as Eh.
    { unfold hkey. rewrite F3. unfold shape_host. rewrite A, Eb.
      now apply host_prefix_app. }
    assert (skipn (length h) (x_body r) = rest) as Es.
    { rewrite Eb. apply skipn_app_exact. }
    rewrite Eh, Es in K. exact K.
Qed.
