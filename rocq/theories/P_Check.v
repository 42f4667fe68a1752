(** Proofs for the command line tool: C90, C91. *)
From Verif Require Import Base Flags Protocol Url Sets FilterM ParseM ClientM SerialM JsM DataM ListsM ToolM CheckM
  Spec SpecM SpecC SpecS SpecJ SpecL SpecT SpecTool SpecY
  P_Base P_Protocol P_Url P_Match P_Rule P_Props1 P_Props2 P_Set P_Parse P_List P_Line P_Line2 P_Line4
  P_Line5 P_Fp2 P_Opt P_Opt2 P_Shape P_Match2 P_Client P_Hist P_Decide P_Dec2 P_Dec3
  P_Dec4 P_Dec5 P_Dec6 P_Dec7 P_Dec8 P_Like P_Js P_Js2 P_Ex P_Data P_Tool P_Pub SpecX SpecC.
From Verif Require P_Stat P_Ser6 P_Life2.

(** ** Which client *)
Lemma source_client E W a d bs : loads W a d bs -> Forall nonul bs ->
  exists r, source E W a = Some r /\
    forall c c', r = Ok c -> after E (map (Parse (keepText a)) (with_added d bs)) = Ok c' ->
      same_decisions E c c'.
Proof.
  intros L H. unfold source, with_added.
  destruct L as [u url b U I F|u b U D X F|t U D X F|p t U D X F P Q|bs U D X F P Q].
  - rewrite U. destruct (uuid_client E (keepText a) (w_fetch W) u url I) as [K _].
    inversion H; subst. destruct (K b F) as (r & R & (_ & C)); auto. exists r. split; auto.
  - rewrite U, D, X. destruct (url_client E (keepText a) (w_fetch W) u) as [K _].
    inversion H; subst. destruct (K b F) as (r & R & (_ & C)); auto. exists r. split; auto.
  - rewrite U, D, X, F. eexists. split; [reflexivity|]. intros c c' A A'.
    rewrite strings_map in A. cbn [app] in A'. rewrite A in A'. injection A' as <-.
    intros url context dom _. split; congruence.
  - rewrite U, D, X, F, P, Q. eexists. split; [reflexivity|]. intros c c' A A'.
    rewrite strings_map in A. cbn [app] in A'. rewrite A in A'. injection A' as <-.
    intros url context dom _. split; congruence.
  - rewrite U, D, X, F, P. destruct (urls_client E (keepText a) (w_fetch W) (map snd default_lists)) as [K _].
    destruct (K bs Q H) as (r & R & (_ & C)). exists r. split; auto.
Qed.

Lemma given_some o x : given o = Some x -> o = Some x.
Proof. destruct o as [[|? ?]|]; cbn; congruence. Qed.

Lemma isGiven_spec o : isGiven o = true <-> exists x, given o = Some x.
Proof. unfold isGiven. destruct (given o); split; eauto; try easy. intros (x & X). discriminate. Qed.

(** What a run with an answer did. *)
Lemma run_checked E W a ans st file : checkRun E W a = Ok (OChecked ans st file) ->
  exists host c c', given (a_host a) = Some host /\
    (isGiven (a_location a) = true \/ isGiven (a_list a) = true) /\ a_stats a = false /\
    source E W a = Some (Ok c) /\ answerFor E W a host c = Ok (Some (ans, c')) /\
    st = getMatchingStats c' /\
    match given (a_output a) with
    | None => file = None
    | Some f => exists s, serialize c' true true = Ok s /\ file = Some (f, s)
    end.
Proof.
  unfold checkRun. destruct (negb _) eqn:N; [discriminate|]. intros H.
  apply negb_false_iff in N.
  destruct (source E W a) as [r|] eqn:S; [|discriminate].
  apply bind_ok in H as (c & -> & H). destruct (a_stats a) eqn:T; [discriminate|].
  rewrite orb_false_r in N. apply andb_prop in N as [N1 N2]. apply orb_prop in N2.
  apply isGiven_spec in N1 as (h & N1). pose proof (given_some _ _ N1) as Q. rewrite Q in H.
  apply bind_ok in H as (x & A & H). destruct x as [[ans0 c']|]; [|discriminate].
  exists h, c, c'. split; auto. split; auto. split; auto. split; auto.
  destruct (given (a_output a)) as [f|].
  - apply bind_ok in H as (s & S1 & H). injection H as <- <- <-. split; auto. split; auto. eauto.
  - injection H as <- <- <-. auto.
Qed.

(** ** The answer *)
Lemma prints_matches E W a d bs b st file c host l v c1 :
  loads W a d bs -> Forall nonul bs -> plain_request W a ->
  checkRun E W a = Ok (OChecked (AMatches b) st file) ->
  a_host a = Some host -> a_location a = Some l ->
  after E (map (Parse (keepText a)) (with_added d bs)) = Ok c ->
  matches E c (cstr l) (typeOf a) (Some host) = Ok (v, c1) -> b = v_block v.
Proof.
  intros L H (P & _) R Hh Hl A M.
  apply run_checked in R as (h & c0 & c0' & G & _ & _ & S & Ans & _).
  apply given_some in G. rewrite Hh in G. injection G as <-.
  destruct (source_client E W a d bs L H) as (r & S' & K). rewrite S in S'. injection S' as <-.
  specialize (K c0 c eq_refl A l (typeOf a) (Some host) (P l Hl)) as [K _].
  unfold answerFor in Ans. destruct (given (a_location a)) as [l'|] eqn:GL.
  - apply given_some in GL. rewrite Hl in GL. injection GL as <-.
    destruct (a_discover a); [apply bind_ok in Ans as (f & _ & Ans); discriminate|].
    apply bind_ok in Ans as (x & J & Ans). injection Ans as <- <-.
    unfold jsMatches, js_string in J. apply bind_ok in J as ([v0 c2] & M0 & J). injection J as <-.
    cbn [fst snd]. exact (K _ _ _ _ M0 M).
  - destruct (w_file _ _); [|discriminate]. destruct (a_discover a);
      apply bind_ok in Ans as (x & _ & Ans); discriminate.
Qed.

Lemma prints_counts E W a d bs m k st file c host p text :
  loads W a d bs -> Forall nonul bs -> plain_request W a -> a_discover a = false ->
  checkRun E W a = Ok (OChecked (ACounts m k) st file) ->
  a_host a = Some host -> a_list a = Some p -> w_file W p = Some text ->
  after E (map (Parse (keepText a)) (with_added d bs)) = Ok c ->
  (forall s, In s (readSiteList text) ->
     exists v c1, matches E c (cstr s) (typeOf a) (Some host) = Ok (v, c1)) ->
  divided (blocks E c (typeOf a) host) (readSiteList text) m k.
Proof.
  intros L H (_ & P) Di R Hh Hl Ht A M.
  apply run_checked in R as (h & c0 & c0' & G & _ & _ & S & Ans & _).
  apply given_some in G. rewrite Hh in G. injection G as <-.
  destruct (source_client E W a d bs L H) as (r & S' & K). rewrite S in S'. injection S' as <-.
  specialize (K c0 c eq_refl A).
  unfold answerFor in Ans. rewrite Di in Ans. destruct (given (a_location a)) as [l'|] eqn:GL.
  - apply bind_ok in Ans as (x & _ & Ans). discriminate.
  - rewrite Hl, Ht in Ans. apply bind_ok in Ans as ([[m0 k0] c2] & C & Ans). injection Ans as <- <- <-.
    cbn [fst snd]. pose proof C as C0. apply checkList_counts in C as [D _].
    assert (forall s, In s (readSiteList text) -> nonul s) as NS.
    { apply Forall_forall. apply (nonul_split text). exact (P p text Hl Ht). }
    assert (forall s, In s (readSiteList text) ->
      exists v c1, matches E c0 (cstr s) (typeOf a) (Some host) = Ok (v, c1)) as M0.
    { clear -C0. unfold checkList in C0. revert C0.
      generalize 0 at 1. generalize 0. generalize m0 k0 c2.
      assert (forall sites c0 x y z, foldM (fun (s : nat * nat * client) site =>
           let '(m, k, c) := s in
           r <- jsMatches E c site (typeOf a) (Some host) ;;
           if fst r then Ok (S m, k, snd r) else Ok (m, S k, snd r)) (x, y, c0) sites = Ok z ->
        forall s, In s sites -> exists v c1, matches E c0 (cstr s) (typeOf a) (Some host) = Ok (v, c1)) as K.
      { induction sites as [|s sites IH]; intros c x y z F t I; [destruct I|].
        cbn [foldM] in F. apply bind_ok in F as (w & F1 & F). apply bind_ok in F1 as ([b c1] & J & F1).
        unfold jsMatches, js_string in J. apply bind_ok in J as ([v c3] & M & J). injection J as <- <-.
        destruct I as [<-|I]; [eauto|]. cbn [fst snd] in *.
        assert (exists x' y', w = (x', y', c3)) as (x' & y' & ->).
        { destruct (v_block v); injection F1 as <-; eauto. }
        destruct (IH _ _ _ _ F t I) as (v' & c4 & M').
        apply asked_alike in M.
        destruct (answers_alike E c c3 (cstr t) (typeOf a) (Some host) M) as [Q _].
        rewrite M' in Q. cbn [rmap bind fst] in Q.
        destruct (matches E c (cstr t) (typeOf a) (Some host)) as [[v5 c5]|]; [eauto|discriminate]. }
      intros; eapply K; eauto. }
    clear -D NS M M0 K. induction D as [|x l m k B D IH|x l m k B D IH]; [constructor| |].
    + apply div_yes; [|apply IH; intros; [apply M|apply NS|apply M0]; now right].
      destruct B as (v0 & c0' & M1 & V). destruct (M x) as (v & c1 & M2); [now left|].
      exists v, c1. split; auto. rewrite <- V. symmetry.
      destruct (K x (typeOf a) (Some host) (NS x (or_introl eq_refl))) as [K1 _]. eauto.
    + apply div_no; [|apply IH; intros; [apply M|apply NS|apply M0]; now right].
      intros (v & c1 & M2 & V). apply B. destruct (M0 x) as (v0 & c0' & M1); [now left|].
      exists v0, c0'. split; auto. rewrite <- V.
      destruct (K x (typeOf a) (Some host) (NS x (or_introl eq_refl))) as [K1 _]. eauto.
Qed.

(** With --discover the answer is that of the other query, and every address of
    a list of sites counts as matching. *)
Lemma prints_found E W a d bs x st file c host l v :
  loads W a d bs -> Forall nonul bs -> plain_request W a ->
  checkRun E W a = Ok (OChecked (AFound x) st file) ->
  a_host a = Some host -> a_location a = Some l ->
  after E (map (Parse (keepText a)) (with_added d bs)) = Ok c ->
  findMatchingFilters E c (cstr l) (typeOf a) (Some host) = Ok v -> fd_matches x = v_block v.
Proof.
  intros L H (P & _) R Hh Hl A M.
  apply run_checked in R as (h & c0 & c0' & G & _ & _ & S & Ans & _).
  apply given_some in G. rewrite Hh in G. injection G as <-.
  destruct (source_client E W a d bs L H) as (r & S' & K). rewrite S in S'. injection S' as <-.
  specialize (K c0 c eq_refl A l (typeOf a) (Some host) (P l Hl)) as [_ K].
  unfold answerFor in Ans. destruct (given (a_location a)) as [l'|] eqn:GL.
  - apply given_some in GL. rewrite Hl in GL. injection GL as <-.
    destruct (a_discover a).
    + apply bind_ok in Ans as (y & J & Ans). injection Ans as <- <-.
      unfold jsFind, js_string in J. apply bind_ok in J as (v0 & M0 & J).
      apply bind_ok in J as (p & _ & J). apply bind_ok in J as (q & _ & J). injection J as <-.
      cbn [fd_matches]. exact (K _ _ M0 M).
    + apply bind_ok in Ans as (y & _ & Ans). discriminate.
  - destruct (w_file _ _); [|discriminate]. destruct (a_discover a);
      apply bind_ok in Ans as (y & _ & Ans); discriminate.
Qed.

Lemma prints_discovered E W a m k st file p text : a_discover a = true ->
  checkRun E W a = Ok (OChecked (ACounts m k) st file) ->
  a_list a = Some p -> w_file W p = Some text ->
  m = length (readSiteList text) /\ k = 0.
Proof.
  intros Di R Hl Ht. apply run_checked in R as (h & c0 & c0' & G & _ & _ & S & Ans & _).
  unfold answerFor in Ans. rewrite Di in Ans. destruct (given (a_location a)) as [l'|] eqn:GL.
  - apply bind_ok in Ans as (y & _ & Ans). discriminate.
  - rewrite Hl, Ht in Ans. apply bind_ok in Ans as (r & C & Ans). injection Ans as <- <- <-.
    apply discover_counts_all in C. now subst r.
Qed.

(** ** Saving and checking again *)
Definition storable_text (t : bytes) : Prop :=
  forall l f, In l (text_lines t) -> parses_to false l f -> storable f.

Lemma storable_texts ts : Forall storable_text ts <-> all_storable (map (Parse false) ts).
Proof.
  split.
  - intros H p l f I P. unfold loaded_lines in I. rewrite loaded_parses in I. cbn [app] in I.
    apply in_flat_map in I as (t & J & I). apply in_map_iff in I as (l' & X & I). injection X as <- <-.
    rewrite Forall_forall in H. exact (H t J l' f I P).
  - intros H. apply Forall_forall. intros t J l f I P. apply (H false l f); auto.
    unfold loaded_lines. rewrite loaded_parses. cbn [app]. apply in_flat_map. exists t. split; auto.
    now apply in_map.
Qed.

Lemma storable_sanitize t : nonul t -> storable_text t -> storable_text (sanitizeABPInput t).
Proof.
  intros N H. assert (Forall storable_text (map sanitizeABPInput [t])) as K.
  { apply storable_texts. apply prepared_storable; [auto|]. apply storable_texts. auto. }
  now inversion K.
Qed.

Lemma storable_join ts : ts <> [] -> Forall storable_text ts -> storable_text (join_lf ts).
Proof.
  intros NE H l f I P. rewrite text_lines_join in I by auto.
  apply in_flat_map in I as (t & J & I). rewrite Forall_forall in H. exact (H t J l f I P).
Qed.

Lemma source_texts E W a d bs : loads W a d bs -> Forall nonul bs ->
  exists ts, source E W a = Some (clientFromStrings E (keepText a) ts) /\
    Forall nonul ts /\ (Forall storable_text bs -> Forall storable_text ts).
Proof.
  intros L H. unfold source.
  assert (forall b, nonul b ->
    Forall nonul [sanitizeABPInput (sanitizeABPInput b)] /\
    (Forall storable_text [b] -> Forall storable_text [sanitizeABPInput (sanitizeABPInput b)])) as K.
  { intros b N. split; [|intros S; inversion S; subst]; constructor; auto.
    - now apply sanitize_nonul, sanitize_nonul.
    - apply storable_sanitize; [now apply sanitize_nonul|now apply storable_sanitize]. }
  destruct L as [u url b U I F|u b U D X F|t U D X F|p t U D X F P Q|bs U D X F P Q].
  - rewrite U, (proj1 (uuid_lookup E (keepText a) (w_fetch W) u) url I), (catalogue_plain _ _ I).
    unfold makeFromListURL, getSingleListData. rewrite F. cbn [option_map].
    eexists. split; [reflexivity|]. inversion H; subst. now apply K.
  - rewrite U, D, X. unfold makeFromListURL, getSingleListData. rewrite F. cbn [option_map].
    eexists. split; [reflexivity|]. inversion H; subst. now apply K.
  - rewrite U, D, X, F. exists [t]. auto.
  - rewrite U, D, X, F, P, Q. exists [t]. auto.
  - rewrite U, D, X, F, P. unfold makeFromListURLs.
    destruct (all_of_bodies (w_fetch W) None (map snd default_lists)) as [(bs0 & F0 & ->)|((v & I & N) & ->)].
    2:{ exfalso. clear - Q I N. revert I. induction Q as [|x b urls bs Z G IH]; [intros []|].
        intros [->|I]; [congruence|auto]. }
    rewrite (bodies_fun _ _ _ _ F0 Q). cbn [option_map].
    eexists. split; [reflexivity|].
    change (map (singleListData None) bs) with (map sanitizeABPInput bs).
    assert (Forall nonul (map sanitizeABPInput bs)) as H'.
    { apply Forall_forall. intros x I. apply in_map_iff in I as (t & <- & I).
      apply sanitize_nonul. rewrite Forall_forall in H. auto. }
    assert (bs <> []) as NE by (intros ->; inversion Q).
    split; [|intros S]; constructor; auto.
    + now apply sanitize_nonul, nonul_join.
    + apply storable_sanitize; [now apply nonul_join|]. apply storable_join.
      * destruct bs; [easy|discriminate].
      * apply Forall_forall. intros x I. apply in_map_iff in I as (t & <- & I).
        rewrite Forall_forall in H, S. apply storable_sanitize; auto.
Qed.

Lemma checkList_asks E context host sites : forall c m k m' k' c',
  foldM (fun (s : nat * nat * client) site =>
           let '(m, k, c) := s in
           r <- jsMatches E c site context (Some host) ;;
           if fst r then Ok (S m, k, snd r) else Ok (m, S k, snd r)) (m, k, c) sites
    = Ok (m', k', c') ->
  continue E c (map (fun s => Ask s context (Some host)) sites) = Ok c'.
Proof.
  induction sites as [|s sites IH]; intros c m k m' k' c' H; cbn [foldM] in H.
  - now injection H as _ _ <-.
  - apply bind_ok in H as (w & F1 & F). apply bind_ok in F1 as ([b c1] & J & F1).
    unfold jsMatches, js_string in J. apply bind_ok in J as ([v c3] & M & J). injection J as <- <-.
    cbn [map]. unfold continue in *. cbn [foldM perform]. rewrite M. cbn [bind rmap snd fst] in *.
    destruct (v_block v); injection F1 as <-; eapply IH; exact F.
Qed.

(** The answers of two clients with the same verdicts. *)
Definition agree (E : env) (c c2 : client) : Prop :=
  forall url context dom v c1, matches E c url context dom = Ok (v, c1) ->
    exists w c1', matches E c2 url context dom = Ok (w, c1') /\ v_block v = v_block w.

Lemma checkList_agree E context host sites : forall c d m k m' k' c',
  agree E c d ->
  foldM (fun (s : nat * nat * client) site =>
           let '(m, k, c) := s in
           r <- jsMatches E c site context (Some host) ;;
           if fst r then Ok (S m, k, snd r) else Ok (m, S k, snd r)) (m, k, c) sites
    = Ok (m', k', c') ->
  exists d', foldM (fun (s : nat * nat * client) site =>
           let '(m, k, c) := s in
           r <- jsMatches E c site context (Some host) ;;
           if fst r then Ok (S m, k, snd r) else Ok (m, S k, snd r)) (m, k, d) sites
    = Ok (m', k', d').
Proof.
  induction sites as [|s sites IH]; intros c d m k m' k' c' Ag H; cbn [foldM] in *.
  - injection H as <- <- <-. eauto.
  - apply bind_ok in H as (w & F1 & F). apply bind_ok in F1 as ([b c1] & J & F1).
    unfold jsMatches, js_string in J. apply bind_ok in J as ([v c3] & M & J). injection J as <- <-.
    destruct (Ag _ _ _ _ _ M) as (w2 & d1 & M2 & V).
    unfold jsMatches at 1, js_string. rewrite M2. cbn [bind fst snd] in *. rewrite <- V.
    assert (agree E c3 d1) as Ag'.
    { apply asked_alike in M, M2. intros url x dom v0 c0 Q.
      destruct (answers_alike E c c3 url x dom M) as [X _].
      destruct (answers_alike E d d1 url x dom M2) as [Y _].
      rewrite Q in X. cbn [rmap bind fst] in X.
      destruct (matches E c url x dom) as [[v5 c5]|] eqn:Q5; [|discriminate].
      injection X as ->. destruct (Ag _ _ _ _ _ Q5) as (w6 & c6 & Q6 & V6).
      rewrite Q6 in Y. cbn [rmap bind fst] in Y.
      destruct (matches E d1 url x dom) as [[v7 c7]|] eqn:Q7; [|discriminate].
      injection Y as ->. eauto. }
    destruct (v_block v); injection F1 as <-; cbn [bind]; eapply IH; eauto.
Qed.

Lemma answer_asks E W a host c ans c' : a_discover a = false -> plain_request W a ->
  (isGiven (a_location a) = true \/ isGiven (a_list a) = true) ->
  answerFor E W a host c = Ok (Some (ans, c')) ->
  alike c c' /\ exists asks, history asks /\ continue E c asks = Ok c' /\
    (forall k, In k asks -> exists u x d, k = Ask u x d) .
Proof.
  intros Di (P1 & P2) G A. unfold answerFor in A. rewrite Di in A.
  destruct (given (a_location a)) as [l|] eqn:GL.
  - apply bind_ok in A as ([b c1] & J & A). injection A as <- <-. cbn [fst snd].
    unfold jsMatches, js_string in J. apply bind_ok in J as ([v c3] & M & J). injection J as _ <-.
    split; [now apply asked_alike in M|].
    exists [Ask l (typeOf a) (Some host)]. apply given_some in GL. split; [|split].
    + constructor; [exact (P1 l GL)|constructor].
    + unfold continue. cbn [foldM perform]. rewrite M. reflexivity.
    + intros k [<-|[]]. eauto.
  - assert (isGiven (a_list a) = true) as G2.
    { destruct G as [G|G]; auto. unfold isGiven in G. now rewrite GL in G. }
    apply isGiven_spec in G2 as (p & G2). apply given_some in G2. rewrite G2 in A.
    destruct (w_file W p) as [text|] eqn:F; [|discriminate].
    apply bind_ok in A as ([[m k] c1] & C & A). injection A as <- <-. cbn [fst snd].
    split; [unfold checkList in C; now apply checkList_gen in C as (? & ? & _ & _ & _ & ?)|].
    exists (map (fun s => Ask s (typeOf a) (Some host)) (readSiteList text)). split; [|split].
    + apply Forall_forall. intros q I. apply in_map_iff in I as (s & <- & I).
      pose proof (nonul_split text (P2 p text G2 F)) as NS. rewrite Forall_forall in NS. now apply NS.
    + eapply checkList_asks. exact C.
    + intros q I. apply in_map_iff in I as (s & <- & I). eauto.
Qed.

Lemma answer_agree E W W' a f host c d ans c' : a_discover a = false ->
  (forall p, a_list a = Some p -> w_file W' p = w_file W p) ->
  (isGiven (a_location a) = true \/ isGiven (a_list a) = true) ->
  agree E c d -> answerFor E W a host c = Ok (Some (ans, c')) ->
  exists d', answerFor E W' (from_dat f a) host d = Ok (Some (ans, d')).
Proof.
  intros Di Fl G Ag A. unfold answerFor in *.
  cbn [from_dat a_location a_discover a_list].
  change (typeOf (from_dat f a)) with (typeOf a). rewrite Di in *.
  destruct (given (a_location a)) as [l|] eqn:GL.
  - apply bind_ok in A as ([b c1] & J & A). injection A as <- <-. cbn [fst snd].
    unfold jsMatches, js_string in *. apply bind_ok in J as ([v c3] & M & J). injection J as <- <-.
    destruct (Ag _ _ _ _ _ M) as (w & d1 & -> & V). cbn [bind fst snd]. rewrite <- V. eauto.
  - assert (isGiven (a_list a) = true) as G2.
    { destruct G as [G|G]; auto. unfold isGiven in G. now rewrite GL in G. }
    apply isGiven_spec in G2 as (p & G2). apply given_some in G2. rewrite G2 in A |- *.
    rewrite (Fl p G2).
    destruct (w_file W p) as [text|] eqn:F; [|discriminate].
    apply bind_ok in A as ([[m k] c1] & C & A). injection A as <- <-. cbn [fst snd].
    unfold checkList in *. destruct (checkList_agree _ _ _ _ _ d _ _ _ _ _ Ag C) as (d' & ->).
    cbn [bind fst snd]. eauto.
Qed.

Lemma saved_run E W a d bs ans st f data :
  loads W a d bs -> Forall nonul bs -> plain_request W a -> a_discover a = false ->
  checkRun E W a = Ok (OChecked ans st (Some (f, data))) ->
  exists host c c' calls, given (a_host a) = Some host /\ given (a_output a) = Some f /\
    (isGiven (a_location a) = true \/ isGiven (a_list a) = true) /\ a_stats a = false /\
    source E W a = Some (Ok c) /\ answerFor E W a host c = Ok (Some (ans, c')) /\
    serialize c' true true = Ok data /\ alike c c' /\ history calls /\ after E calls = Ok c' /\
    (forall t, tagExists c' t = tagExists client0 t) /\
    (all_storable (map (Parse false) bs) -> all_storable calls).
Proof.
  intros L H P Di R.
  apply run_checked in R as (host & c & c' & Gh & G & Ts & So & A & _ & O).
  destruct (given (a_output a)) as [f0|] eqn:GO; [|discriminate].
  destruct O as (s & Ser & O). injection O as <- <-.
  destruct (source_texts E W a d bs L H) as (ts & So' & Ht & St).
  pose proof So as So2. rewrite So in So'. injection So' as So'. rewrite strings_map in So'. symmetry in So'.
  assert (keepText a = false) as K by (unfold keepText; now rewrite Di). rewrite K in So'.
  destruct (answer_asks E W a host c ans c' Di P G A) as (Al & asks & Ha & C & Asks).
  set (calls := map (Parse false) ts ++ asks).
  assert (after E calls = Ok c') as A1.
  { unfold calls, after in *. rewrite foldM_app, So'. exact C. }
  assert (history calls) as H1.
  { apply Forall_app. split; auto. now apply history_parses. }
  exists host, c, c', calls. split; auto. split; auto. split; auto. split; auto. split; auto. split; auto.
  split; auto. split; auto. split; auto. split; auto. split.
  - intros t. destruct (P_Hist.hist E calls c' H1 A1) as (rs & _ & _ & T).
    destruct (tagExists c' t) eqn:X; auto. apply T in X as (p & q & X & _).
    assert (In (AddTag t) calls) as J by (rewrite X; apply in_or_app; cbn; auto).
    unfold calls in J. apply in_app_iff in J as [J|J].
    + apply in_map_iff in J as (? & J & _); discriminate.
    + destruct (Asks _ J) as (u & x & dm & ?). discriminate.
  - intros S. apply storable_texts, St, storable_texts in S.
    unfold all_storable, loaded_lines, calls. rewrite loaded_from_app.
    assert (forall L0, loaded_from L0 asks = L0) as Q.
    { clear -Asks. induction asks as [|k ks IH]; intros L0; auto.
      destruct (Asks k (or_introl eq_refl)) as (u & x & dm & ->). cbn [loaded_from]. apply IH.
      intros k I. apply Asks. now right. }
    rewrite Q. exact S.
Qed.

(** The run from the data file. *)
Lemma dat_run E W W' a f data c2 host ans c c' :
  a_discover a = false -> given (a_host a) = Some host -> given (a_output a) = Some f ->
  (isGiven (a_location a) = true \/ isGiven (a_list a) = true) -> a_stats a = false ->
  w_file W' f = Some data -> (forall p, a_list a = Some p -> w_file W' p = w_file W p) ->
  deserialize data client0 = Ok (c2, true) -> agree E c c2 ->
  answerFor E W a host c = Ok (Some (ans, c')) ->
  exists st', checkRun E W' (from_dat f a) = Ok (OChecked ans st' None).
Proof.
  intros Di Gh GO G Ts Fd Fl De Ag A.
  destruct (answer_agree E W W' a f host c c2 ans c' Di Fl G Ag A) as (d' & A').
  exists (getMatchingStats d'). unfold checkRun.
  cbn [from_dat a_host a_location a_list a_stats a_output]. rewrite Ts.
  assert (isGiven (a_host a) = true) as -> by (unfold isGiven; now rewrite Gh).
  assert (isGiven (a_location a) || isGiven (a_list a) = true) as -> by (now apply orb_true_iff).
  cbn [andb orb negb].
  assert (source E W' (from_dat f a) = Some (Ok c2)) as ->.
  { unfold source. cbn [from_dat a_uuid a_dat given].
    destruct (a_output a) as [[|x o]|]; try discriminate. cbn [given] in GO. injection GO as GO.
    rewrite <- GO in *. rewrite Fd. cbn [option_map]. unfold clientFromDAT. now rewrite De. }
  cbn [bind]. apply given_some in Gh. rewrite Gh, A'. cbn [bind given]. reflexivity.
Qed.

Lemma agree_alike E c c' d : alike c c' -> agree E c' d -> agree E c d.
Proof.
  intros Al Q1 url x dom v c1 M. destruct (answers_alike E c c' url x dom Al) as [Y _].
  rewrite M in Y. cbn [rmap bind fst] in Y.
  destruct (matches E c' url x dom) as [[v5 c5]|] eqn:M5; [|discriminate]. injection Y as ->.
  destruct (Q1 _ _ _ _ _ M5) as (w & c6 & M6 & V). eauto.
Qed.

Lemma saved_check E W W' a d bs ans st f data :
  loads W a d bs -> Forall nonul bs -> plain_request W a -> a_discover a = false ->
  all_storable (map (Parse false) bs) ->
  checkRun E W a = Ok (OChecked ans st (Some (f, data))) ->
  w_file W' f = Some data -> (forall p, a_list a = Some p -> w_file W' p = w_file W p) ->
  exists st', checkRun E W' (from_dat f a) = Ok (OChecked ans st' None).
Proof.
  intros L H P Di S R Fd Fl.
  destruct (saved_run E W a d bs ans st f data L H P Di R)
    as (host & c & c' & calls & Gh & GO & G & Ts & So & A & Ser & Al & H1 & A1 & T & St).
  destruct (P_Ser6.restored_decides E calls c' H1 A1 true true data client0 [] (St S) Ser) as (c2 & De & Q).
  { intros t. now rewrite T. }
  rewrite app_nil_r in De.
  destruct (Q [] c') as (c2' & C2 & Q1 & _); [constructor|reflexivity|].
  injection C2 as <-.
  apply (dat_run E W W' a f data c2 host ans c c'); auto.
  apply (agree_alike E c c'); auto. intros url x dom v c1 M.
  destruct (Q1 _ _ _ _ _ M) as (w & c6 & M6 & V & _). eauto.
Qed.

Lemma saved_any E W W' a d bs ans st f data :
  loads W a d bs -> Forall nonul bs -> plain_request W a -> a_discover a = false ->
  checkRun E W a = Ok (OChecked ans st (Some (f, data))) ->
  w_file W' f = Some data -> (forall p, a_list a = Some p -> w_file W' p = w_file W p) ->
  exists host c, given (a_host a) = Some host /\ source E W a = Some (Ok c) /\
    forall ans' c1, answerFor E W a host (restarted c client0) = Ok (Some (ans', c1)) ->
      exists st', checkRun E W' (from_dat f a) = Ok (OChecked ans' st' None).
Proof.
  intros L H P Di R Fd Fl.
  destruct (saved_run E W a d bs ans st f data L H P Di R)
    as (host & c & c' & calls & Gh & GO & G & Ts & So & A & Ser & Al & H1 & A1 & T & St).
  exists host, c. split; auto. split; auto. intros ans' c1 A'.
  destruct (P_Life2.saved_again E calls c' true true [] client0 H1 A1) as (file & c2 & S & De & Q & _).
  rewrite Ser in S. injection S as <-. rewrite app_nil_r in De.
  apply (dat_run E W W' a f data c2 host ans' (restarted c client0) c1); auto.
  apply (agree_alike E _ (restarted c' client0)); [now apply alike_restarted|].
  intros url x dom v c3 M. destruct (Q _ _ _ _ _ M) as (w & c6 & M6 & V & _). eauto.
Qed.

(** ** Errors *)
Lemma in_or_not (u : bytes) (cat : list (bytes * bytes)) :
  (exists url, In (u, url) cat) \/ (forall url, ~ In (u, url) cat).
Proof.
  destruct (in_dec (list_eq_dec Ascii.ascii_dec) u (map fst cat)) as [I|I].
  - left. apply in_map_iff in I as ([u' url] & X & I). cbn [fst] in X. subst u'. eauto.
  - right. intros url J. apply I. apply in_map_iff. exists (u, url). auto.
Qed.

Lemma source_none E W a : source E W a = None <-> nothing_to_load W a.
Proof.
  unfold nothing_to_load, source. split.
  - intros S. split.
    + intros d bs L.
      destruct L as [u url b U I F|u b U D X F|t U D X F|p t U D X F P Q|bs U D X F P Q].
      * rewrite U, (proj1 (uuid_lookup E (keepText a) (w_fetch W) u) url I), (catalogue_plain _ _ I) in S.
        unfold makeFromListURL, getSingleListData in S. rewrite F in S. discriminate.
      * rewrite U, D, X in S. unfold makeFromListURL, getSingleListData in S. rewrite F in S. discriminate.
      * rewrite U, D, X, F in S. discriminate.
      * rewrite U, D, X, F, P, Q in S. discriminate.
      * rewrite U, D, X, F, P in S. unfold makeFromListURLs in S.
        destruct (all_of_bodies (w_fetch W) None (map snd default_lists)) as [(bs0 & F0 & Y)|((v & I & N) & Y)].
        { rewrite Y in S. discriminate. }
        clear - Q I N. revert I. induction Q as [|x b urls bs Z G IH]; [intros []|].
        intros [->|I]; [congruence|auto].
    + intros U f D. rewrite U, D in S. destruct (w_file W f); [discriminate|reflexivity].
  - intros (L & K). destruct (given (a_uuid a)) as [u|] eqn:U.
    { destruct (makeFromListUUID E (keepText a) (w_fetch W) u) as [r|] eqn:M; auto. exfalso.
      destruct (in_or_not u catalogue) as [(url & I)|I].
      - rewrite (proj1 (uuid_lookup E (keepText a) (w_fetch W) u) url I), (catalogue_plain _ _ I) in M.
        unfold makeFromListURL, getSingleListData in M.
        destruct (w_fetch W url) as [b|] eqn:F; [|discriminate].
        exact (L true [b] (loads_uuid W a u url b U I F)).
      - rewrite (proj2 (uuid_lookup E (keepText a) (w_fetch W) u) I) in M. discriminate. }
    destruct (given (a_dat a)) as [f|] eqn:D.
    { rewrite (K eq_refl f eq_refl). reflexivity. }
    destruct (given (a_http a)) as [v|] eqn:X.
    { unfold makeFromListURL, getSingleListData. destruct (w_fetch W v) as [b|] eqn:F; auto.
      exfalso. apply (L true [b]). eapply loads_http; eauto. }
    destruct (given (a_filter a)) as [t|] eqn:F.
    { exfalso. apply (L false [t]). eapply loads_filter; eauto. }
    destruct (given (a_path a)) as [p|] eqn:P.
    { destruct (w_file W p) as [t|] eqn:Q; auto. exfalso. apply (L false [t]). eapply loads_path; eauto. }
    unfold makeFromListURLs.
    destruct (all_of_bodies (w_fetch W) None (map snd default_lists)) as [(bs0 & F0 & Y)|((v & I & N) & Y)].
    { exfalso. apply (L true bs0). eapply loads_default; eauto. }
    rewrite Y. reflexivity.
Qed.

Lemma answer_none E W a host c :
  answerFor E W a host c = Ok None ->
  given (a_location a) = None /\
  w_file W (match a_list a with Some p => p | None => [] end) = None.
Proof.
  unfold answerFor. destruct (given (a_location a)) as [l|].
  - destruct (a_discover a); intros H; apply bind_ok in H as (x & _ & H); discriminate.
  - destruct (w_file W _) as [t|]; auto.
    destruct (a_discover a); intros H; apply bind_ok in H as (x & _ & H); discriminate.
Qed.

Lemma run_outcome E W a o : checkRun E W a = Ok o ->
  (o = OUsage <-> ~ asks_for a) /\
  (o = OError <-> asks_for a /\ (nothing_to_load W a \/ no_sites W a)) /\
  (forall n, o = OStats n -> a_stats a = true) /\
  (forall ans st file, o = OChecked ans st file ->
     a_stats a = false /\
     (given (a_output a) = None -> file = None) /\
     (forall f, given (a_output a) = Some f -> exists data, file = Some (f, data))).
Proof.
  intros H.
  assert (asks_for a <-> isGiven (a_host a) && (isGiven (a_location a) || isGiven (a_list a)) || a_stats a = true) as A.
  { unfold asks_for. rewrite orb_true_iff, andb_true_iff, orb_true_iff, !isGiven_spec. tauto. }
  assert (forall ans st file, o = OChecked ans st file ->
     a_stats a = false /\
     (given (a_output a) = None -> file = None) /\
     (forall f, given (a_output a) = Some f -> exists data, file = Some (f, data))) as K.
  { intros ans st file ->. apply run_checked in H as (host & c & c' & _ & _ & T & _ & _ & _ & O).
    split; auto. destruct (given (a_output a)) as [f|].
    - destruct O as (s & _ & ->). split; [discriminate|]. intros f' X. injection X as <-. eauto.
    - split; auto. discriminate. }
  unfold checkRun in H. rewrite A.
  destruct (isGiven (a_host a) && (isGiven (a_location a) || isGiven (a_list a)) || a_stats a) eqn:Q; cbn [negb] in H.
  2:{ injection H as <-. split; [easy|]. split; [easy|]. split; [discriminate|auto]. }
  destruct (source E W a) as [r|] eqn:S.
  2:{ injection H as <-. apply source_none in S. split; [easy|]. split; [split; auto|]. split; [discriminate|auto]. }
  assert (~ nothing_to_load W a) as NL by (intros X; apply (source_none E) in X; congruence).
  apply bind_ok in H as (c & -> & H). destruct (a_stats a) eqn:T.
  { injection H as <-. split; [easy|]. split; [|split; auto].
    split; [discriminate|]. intros (_ & [X|(X & _)]); [easy|congruence]. }
  rewrite orb_false_r in Q. apply andb_prop in Q as [N1 N2]. apply orb_prop in N2.
  apply isGiven_spec in N1 as (h & N1). apply given_some in N1. rewrite N1 in H.
  apply bind_ok in H as (x & An & H). destruct x as [[ans c']|].
  - assert (exists st file, o = OChecked ans st file) as (st & file & ->).
    { destruct (given (a_output a)) as [f|].
      - apply bind_ok in H as (s & _ & H). injection H as <-. eauto.
      - injection H as <-. eauto. }
    split; [easy|]. split; [|split; auto; discriminate].
    split; [discriminate|]. intros (_ & [X|(_ & GL & p & GP & F)]); [easy|]. exfalso.
    unfold answerFor in An. rewrite GL in An. apply given_some in GP. rewrite GP, F in An. discriminate.
  - injection H as <-. apply answer_none in An as (GL & F).
    split; [easy|]. split; [|split; auto; discriminate]. split; auto. intros _. split; auto. right.
    split; auto. split; auto. destruct N2 as [N2|N2].
    + apply isGiven_spec in N2 as (l & N2). congruence.
    + apply isGiven_spec in N2 as (p & N2). exists p. split; auto. apply given_some in N2. now rewrite N2 in F.
Qed.

(** ** The type *)
Lemma names_unique x y : In x filterOptions -> In y filterOptions -> fst x = fst y -> x = y.
Proof.
  assert (K : forallb (fun x => forallb (fun y => negb (beq (fst x) (fst y)) || N.eqb (snd x) (snd y))
    filterOptions) filterOptions = true) by (vm_compute; reflexivity).
  intros X Y Q. rewrite forallb_forall in K. specialize (K x X). rewrite forallb_forall in K.
  specialize (K y Y). rewrite Q in K. assert (beq (fst y) (fst y) = true) as R by now apply beq_eq.
  rewrite R in K. cbn in K. apply N.eqb_eq in K. destruct x, y; cbn in *; congruence.
Qed.

Lemma type_asked a :
  (a_type a = None -> typeOf a = 0%N) /\
  (forall name mask, a_type a = Some name -> In (name, mask) filterOptions -> typeOf a = mask) /\
  (forall name, a_type a = Some name -> (forall mask, ~ In (name, mask) filterOptions) -> typeOf a = 0%N).
Proof.
  unfold typeOf. split; [intros ->; reflexivity|]. split.
  - intros name mask -> I. unfold filterOption.
    destruct (find (fun e => beq (fst e) name) filterOptions) as [e|] eqn:F.
    + apply find_some in F as [F Q]. apply beq_eq in Q.
      now rewrite (names_unique e (name, mask) F I Q).
    + eapply find_none in F; [|exact I]. cbn [fst] in F.
      assert (beq name name = true) as R by now apply beq_eq. congruence.
  - intros name -> H. unfold filterOption.
    destruct (find (fun e => beq (fst e) name) filterOptions) as [[n m]|] eqn:F; auto.
    apply find_some in F as [F Q]. apply beq_eq in Q. cbn [fst] in Q. subst n. destruct (H m F).
Qed.
