(** What rules in the usual syntax match. *)
From Verif Require Import Base Flags Url Sets FilterM ParseM ClientM Spec SpecM
  P_Base P_Url P_Match P_Rule P_Parse P_List P_Shape P_Fp P_Line P_Props2 P_Props3
  P_Line2 P_Line3 P_Line4 P_Line5 P_Fp2.

Lemma pairs_substring url p : In p (pairs url) -> length p = 2 /\ substring p url.
Proof.
  induction url as [|x s IH]; [easy|]. destruct s as [|y s]; [easy|].
  cbn [pairs In]. intros [<-|I].
  - split; auto. exists [], s. reflexivity.
  - destruct (IH I) as (L & a & b & E). split; auto.
    exists (x :: a), b. cbn [app]. now rewrite <- E.
Qed.

Lemma pairs_held_covers E b url :
  pairs_held E (Some b) url -> covers (e_hash2 E) b url.
Proof.
  intros H p I. apply pairs_substring in I as [L I]. now apply H.
Qed.

Lemma host_arg_hostOf url host : host_arg url host -> host = [] \/ host = hostOf url.
Proof. intros [->|H]; auto. right. symmetry. now apply hostOf_spec. Qed.

(** ** C05 *)
Lemma wf_bloom E f url context dom bf host r :
  (forall d t, f_data f = Some (d, t) -> nonul d) -> nonul url ->
  host_arg url host -> pairs_held E bf url ->
  filter_matches E f (cstr url) (length url) context dom None host = Ok r ->
  filter_matches E f (cstr url) (length url) context dom bf host = Ok r.
Proof.
  intros Hd Hu Hh Hb H. destruct bf as [b|]; auto.
  apply filter_matches_bloom; auto.
  - now apply host_arg_hostOf.
  - now apply pairs_held_covers.
Qed.

(** ** Evaluation of parsed rules *)
Lemma wf_eval E f url context dom bf host :
  wf_rule f -> nonul url -> host_arg url host -> pairs_held E bf url ->
  (unanchored f -> forall d t p, f_data f = Some (d, t) -> In p (split_on "*" d) ->
     ~ interior_caret p) ->
  filter_matches E f (cstr url) (length url) context dom bf host =
  Ok (matchesOptions f context dom && tmatch E f url).
Proof.
  intros W Hu Hh Hb Hc.
  destruct (f_data f) as [[d t]|] eqn:Hd.
  - destruct (wf_nonul f d t W Hd) as [Td ->].
    apply wf_bloom; auto.
    { intros d' t' E'. rewrite Hd in E'.
      assert (d' = d) as -> by congruence. now apply line_text_nonul. }
    pose proof (filter_matches_eval E f url context dom host d [NUL] Hu Hd
      (line_text_nonul _ Td)) as K.
    destruct (filter_matches _ _ _ _ _ _ None _) as [r|].
    + f_equal. unfold tmatch. rewrite Hd. apply K.
      * left. exists []. auto.
      * now apply host_arg_hostOf.
    + exfalso. destruct K as (U & p & I & C).
      * left. exists []. auto.
      * now apply host_arg_hostOf.
      * assert (~ interior_caret p) as N by (eapply Hc; eauto).
        apply caret_safe_spec in N. congruence.
  - rewrite filter_matches_null by auto. unfold tmatch. rewrite Hd.
    now rewrite andb_false_r.
Qed.

(** Whatever it returns. *)
Lemma wf_eval_some E f url context dom bf host r :
  wf_rule f -> nonul url -> host_arg url host -> pairs_held E bf url ->
  filter_matches E f (cstr url) (length url) context dom None host = Ok r ->
  filter_matches E f (cstr url) (length url) context dom bf host = Ok r /\
  r = matchesOptions f context dom && tmatch E f url.
Proof.
  intros W Hu Hh Hb H. split.
  - apply wf_bloom; auto. intros d t Hd. destruct (wf_nonul f d t W Hd) as [Td _].
    now apply line_text_nonul.
  - destruct (f_data f) as [[d t]|] eqn:Hd.
    + destruct (wf_nonul f d t W Hd) as [Td ->].
      pose proof (filter_matches_eval E f url context dom host d [NUL] Hu Hd
        (line_text_nonul _ Td)) as K.
      rewrite H in K. unfold tmatch. rewrite Hd. apply K.
      * left. exists []. auto.
      * now apply host_arg_hostOf.
    + rewrite filter_matches_null in H by auto. unfold tmatch. rewrite Hd.
      rewrite andb_false_r. congruence.
Qed.

(** ** Rules in the usual syntax *)
Lemma shape_anchor_bits r :
  has (shape_type r) FTLeftAnchored =
    match x_anchor r with LeftBar => true | _ => false end /\
  has (shape_type r) FTRightAnchored = x_right r /\
  has (shape_type r) FTHostAnchored =
    match x_anchor r with HostBars => true | _ => false end.
Proof.
  unfold shape_type.
  destruct (x_anchor r), (x_exception r), (x_right r), (host_only r); auto.
Qed.

Section Rule.
  Context (E : env) (pres : bool) (r : rule_syntax) (f : filter) (b : bool)
    (G : good_rule r)
    (HP : parse_filter pres (cstr (rule_line r)) (length (rule_line r)) = Ok (f, b))
    (url : bytes) (Hu : nonul url).

  Lemma rule_shape : f = shape pres r.
  Proof.
    pose proof (good_rule_line r G) as Hl.
    rewrite parse_filter_cstr, parse_rule_line in HP by auto. congruence.
  Qed.

  Lemma rule_wf : wf_rule f.
  Proof. eapply line_wf; eauto. now apply good_rule_line. Qed.

  Lemma rule_tmatch :
    tmatch E f url =
    match x_anchor r, x_right r with
    | LeftBar, true => beq (x_body r) url
    | LeftBar, false => prefixb (x_body r) url
    | _, true => endsWith url (x_body r)
    | NoAnchor, false => wildb url (split_on "*" (x_body r)) 0
    | HostBars, false =>
        negb (isThirdPartyHost (host_prefix (x_body r)) (hostOf url)) &&
        wildb url (split_on "*" (x_body r)) 0
    end.
  Proof.
    rewrite rule_shape. unfold tmatch, patb, hostchk, hkey.
    destruct (shape_fields pres r) as (F1 & F2 & F3 & _).
    destruct (shape_bits r) as (B1 & _).
    destruct (shape_anchor_bits r) as (A1 & A2 & A3).
    rewrite F2, F1, F3, B1, A1, A2, A3. unfold shape_host.
    destruct (x_anchor r), (x_right r); reflexivity.
  Qed.

  Lemma rule_body_text : nonul (x_body r).
  Proof.
    intros I. destruct G as (_ & G2 & _). apply G2 in I as (_ & _ & _ & I & _). easy.
  Qed.

  Lemma rule_unanchored :
    unanchored f <-> x_anchor r <> LeftBar /\ x_right r = false.
  Proof.
    rewrite rule_shape. unfold unanchored.
    destruct (shape_fields pres r) as (F1 & _).
    destruct (shape_bits r) as (B1 & _).
    destruct (shape_anchor_bits r) as (A1 & A2 & A3).
    rewrite F1, B1, A1, A2. destruct (x_anchor r); intuition congruence.
  Qed.

  Lemma rule_eval context dom bf host :
    host_arg url host -> pairs_held E bf url ->
    (x_anchor r = LeftBar \/ x_right r = true \/ carets_end (x_body r)) ->
    filter_matches E f (cstr url) (length url) context dom bf host =
    Ok (matchesOptions f context dom && tmatch E f url).
  Proof.
    intros Hh Hb Hc. apply wf_eval; auto.
    - exact rule_wf.
    - intros U d t p Hd I. apply rule_unanchored in U as [U1 U2].
      destruct Hc as [Hc|[Hc|Hc]]; try congruence.
      rewrite rule_shape in Hd. destruct (shape_fields pres r) as (_ & F2 & _).
      rewrite F2 in Hd. assert (d = x_body r) as -> by congruence.
      eapply Hc; eauto. apply split_pieces_of.
  Qed.

  Lemma rule_pieces :
    x_anchor r = NoAnchor -> x_right r = false ->
    forall pieces, pieces_of (x_body r) pieces ->
    (tmatch E f url = true <-> pieces_found url 0 pieces).
  Proof.
    intros A R pieces Hp. rewrite rule_tmatch, A, R.
    apply pieces_of_unique in Hp as ->. apply wildb_spec.
  Qed.
End Rule.

(** ** Plain patterns *)
Lemma nth_firstn_lt {A} (l : list A) n j d : j < n -> nth j (firstn n l) d = nth j l d.
Proof.
  revert n j; induction l as [|x l IH]; intros [|n] [|j] H; cbn; auto; try lia.
  apply IH. lia.
Qed.

Lemma plain_piece_at t url i :
  ~ In "^"%char t ->
  (piece_at t url i <-> occurs_at t url i \/ (t = [] /\ i = length url + 1)).
Proof.
  intros N. split.
  - intros [L H].
    destruct (le_lt_dec (i + length t) (length url)) as [L'|L'].
    + left. exists (firstn i url), (skipn (i + length t) url).
      split; [|rewrite firstn_length; lia].
      rewrite <- (firstn_skipn i url) at 1. f_equal.
      rewrite <- (firstn_skipn (length t) (skipn i url)) at 1.
      rewrite skipn_skipn. replace (length t + i) with (i + length t) by lia. f_equal.
      apply nth_ext with (d := NUL) (d' := NUL).
      { rewrite firstn_length, skipn_length. lia. }
      intros j Hj. rewrite firstn_length, skipn_length in Hj.
      assert (j < length t) as Hj' by lia.
      destruct (nth_error t j) as [c|] eqn:Et.
      2:{ apply nth_error_None in Et. lia. }
      specialize (H j c Et). destruct (nth_error url (i + j)) as [x|] eqn:Eu.
      2:{ cbn in H. subst c. apply nth_error_In in Et. easy. }
      cbn in H. destruct H as [->|[-> _]].
      * rewrite (nth_error_nth _ _ _ Et).
        rewrite <- nth_error_skipn in Eu.
        rewrite nth_firstn_lt by auto. now apply nth_error_nth.
      * apply nth_error_In in Et. easy.
    + destruct t as [|c t]; [right; cbn in *; split; auto; lia|].
      exfalso.
      assert (exists x, nth_error (c :: t) (length t) = Some x) as (x & Ex).
      { destruct (nth_error (c :: t) (length t)) eqn:E0; eauto.
        apply nth_error_None in E0. cbn in E0. lia. }
      specialize (H _ _ Ex).
      replace (nth_error url (i + length t)) with (@None ascii) in H.
      2:{ symmetry. apply nth_error_None. cbn in L'. lia. }
      cbn in H. subst x. apply nth_error_In in Ex. easy.
  - intros [(a & b & -> & <-)|[-> ->]].
    + split; [rewrite !app_length; lia|]. intros j c Ej.
      rewrite (nth_error_mid a t b j c Ej). cbn. auto.
    + split; [cbn; lia|]. intros [|j] c; discriminate.
Qed.

Lemma occurs_substring t url : substring t url <-> exists i, occurs_at t url i.
Proof.
  split.
  - intros (a & b & E). exists (length a), a, b. auto.
  - intros (i & a & b & E & _). exists a, b. auto.
Qed.

Lemma plain_pieces t : plain t -> pieces_of t [t].
Proof.
  intros [N _]. split; [easy|]. split; auto. intros p [<-|[]]. auto.
Qed.

Lemma plain_found t url from i :
  ~ In "^"%char t -> t <> [] ->
  (piece_found url from t i <-> from <= i /\ occurs_at t url i).
Proof.
  intros N Ne. split.
  - intros (I1 & I2 & I3 & I4 & I5). split; auto.
    apply plain_piece_at in I3; auto. destruct I3 as [I3|[I3 _]]; [auto|easy].
  - intros (I1 & I2). assert (i + length t <= length url) as L.
    { destruct I2 as (a & b & -> & <-). rewrite !app_length. lia. }
    assert (0 < length t) as Lt by (destruct t; [easy|cbn; lia]).
    split; auto. split; [lia|]. split; [apply plain_piece_at; auto|].
    split; [|lia]. intros ->. apply N. cbn; auto.
Qed.

Lemma plain_single t url :
  plain t -> t <> [] -> (pieces_found url 0 [t] <-> substring t url).
Proof.
  intros [_ N] Ne. rewrite occurs_substring. split.
  - intros H. inversion H as [| |from piece i more H1 H2]; subst; [easy|].
    apply plain_found in H1 as [_ H1]; eauto.
  - intros (i & H). apply pf_cons with (i := i); [|constructor].
    apply plain_found; auto. split; [lia|auto].
Qed.

(** C12 *)
Lemma plain_rule E pres r f b url context dom bf host :
  good_rule r -> x_anchor r = NoAnchor -> x_right r = false -> plain (x_body r) ->
  parse_filter pres (cstr (rule_line r)) (length (rule_line r)) = Ok (f, b) ->
  nonul url -> host_arg url host -> pairs_held E bf url ->
  exists v, filter_matches E f (cstr url) (length url) context dom bf host = Ok v /\
    (v = true <-> matchesOptions f context dom = true /\ substring (x_body r) url).
Proof.
  intros G A R P HP Hu Hh Hb. eexists. split.
  - eapply rule_eval; eauto. right. right. intros pieces p Hp I (x & y & E1 & _).
    apply pieces_of_unique in Hp as ->. rewrite split_on_none in I by apply P.
    destruct I as [<-|[]]. destruct P as [_ P]. apply P. rewrite E1.
    apply in_or_app. cbn; auto.
  - rewrite andb_true_iff.
    rewrite (rule_pieces E pres r f b G HP url A R [x_body r]) by now apply plain_pieces.
    rewrite plain_single; auto; [tauto|]. apply G.
Qed.

(** ** C13 *)
Lemma piece_rule E pres r f b url context dom bf host v pieces :
  good_rule r -> x_anchor r = NoAnchor -> x_right r = false ->
  pieces_of (x_body r) pieces ->
  parse_filter pres (cstr (rule_line r)) (length (rule_line r)) = Ok (f, b) ->
  nonul url -> host_arg url host -> pairs_held E bf url ->
  filter_matches E f (cstr url) (length url) context dom None host = Ok v ->
  filter_matches E f (cstr url) (length url) context dom bf host = Ok v /\
  (v = true <-> matchesOptions f context dom = true /\ pieces_found url 0 pieces).
Proof.
  intros G A R P HP Hu Hh Hb H.
  destruct (wf_eval_some E f url context dom bf host v) as [H1 H2]; auto.
  { eapply rule_wf; eauto. }
  split; auto. rewrite H2, andb_true_iff.
  now rewrite (rule_pieces E pres r f b G HP url A R pieces P).
Qed.

Lemma found_in_order url from pieces :
  from <= length url + 1 -> pieces_found url from pieces -> pieces_in_order url from pieces.
Proof.
  intros L H. induction H as [from|from|from piece i more (I1 & I2 & I3 & I4 & I5) H IH].
  - constructor.
  - apply po_cons with (i := from); auto; [|constructor].
    split; [cbn; lia|]. intros [|j] pc; discriminate.
  - apply po_cons with (i := i); auto. apply IH. apply I3.
Qed.

(** Empty pieces only at both ends. *)
Definition inner_nonempty (pieces : list bytes) : Prop :=
  forall a p q, pieces = a ++ p :: q -> a <> [] -> q <> [] -> p <> [].

Lemma in_order_found url from pieces :
  (forall p, In p pieces -> ~ In "^"%char p) ->
  (forall a p q, pieces = a ++ p :: q -> q <> [] -> p <> []) ->
  pieces_in_order url from pieces -> pieces_found url from pieces.
Proof.
  intros Hc Hn H. induction H as [from|from piece i more L HA H IH].
  - constructor.
  - destruct piece as [|c piece].
    + destruct more as [|q more]; [constructor|].
      exfalso. apply (Hn [] [] (q :: more)); easy.
    + apply pf_cons with (i := i).
      * apply plain_found; [apply Hc; cbn; auto|easy|]. split; auto.
        apply plain_piece_at in HA; [|apply Hc; cbn; auto].
        destruct HA as [HA|[HA _]]; [auto|easy].
      * apply IH.
        -- intros p I. apply Hc. cbn; auto.
        -- intros a p q -> Nq. apply (Hn ((c :: piece) :: a) p q); auto.
Qed.

Lemma in_order_found_first url pieces :
  url <> [] ->
  (forall p, In p pieces -> ~ In "^"%char p) -> inner_nonempty pieces ->
  pieces_in_order url 0 pieces -> pieces_found url 0 pieces.
Proof.
  intros Nu Hc Hn H. destruct pieces as [|[|c p] more].
  - constructor.
  - destruct more as [|q more]; [constructor|].
    inversion H as [|from piece i more' L HA H' E1]; subst.
    apply pf_cons with (i := 0).
    + split; [lia|]. split; [destruct url; [easy|cbn; lia]|].
      split; [split; [cbn; lia|intros [|j] pc; discriminate]|].
      split; [discriminate|]. cbn. destruct url; [easy|cbn; lia].
    + apply pieces_found_mono with (from' := i + length (@nil ascii)); [cbn; lia|].
      apply in_order_found; auto.
      * intros x I. apply Hc. cbn; auto.
      * intros a x y E Ny. apply (Hn ([] :: a) x y); [cbn; now rewrite E|easy|auto].
  - apply in_order_found; auto.
    intros a x y E Ny. destruct a as [|z a]; [cbn in E; congruence|].
    apply (Hn (z :: a) x y); auto. easy.
Qed.

Lemma no_double_star_inner pat pieces :
  pieces_of pat pieces -> no_double_star pat -> inner_nonempty pieces.
Proof.
  intros (_ & -> & _) N a p q -> Na Nq ->. apply N. clear N.
  assert (forall x y : list bytes, x <> [] -> y <> [] ->
            exists u v, star_join (x ++ [] :: y) = u ++ B "**" ++ v) as K.
  { intros x y Hx Hy. induction x as [|w x IH]; [easy|]. destruct x as [|w' x].
    - destruct y as [|z y]; [easy|]. exists w, (star_join (z :: y)). reflexivity.
    - destruct IH as (u & v & Eu); [easy|]. exists (w ++ B "*" ++ u), v.
      change (star_join ((w :: w' :: x) ++ [] :: y))
        with (w ++ B "*" ++ star_join ((w' :: x) ++ [] :: y)).
      rewrite Eu. now rewrite <- !app_assoc. }
  destruct (K a q Na Nq) as (u & v & Eu). exists u, v. exact Eu.
Qed.

Lemma caretless_pieces pat pieces :
  pieces_of pat pieces -> ~ In "^"%char pat ->
  forall p, In p pieces -> ~ In "^"%char p.
Proof.
  intros Hp N p I J. apply pieces_of_unique in Hp as ->.
  apply N. eapply split_on_In; eauto.
Qed.

Lemma star_rule E pres r f b url context dom bf host pieces :
  good_rule r -> x_anchor r = NoAnchor -> x_right r = false ->
  pieces_of (x_body r) pieces -> ~ In "^"%char (x_body r) ->
  no_double_star (x_body r) ->
  parse_filter pres (cstr (rule_line r)) (length (rule_line r)) = Ok (f, b) ->
  nonul url -> url <> [] -> host_arg url host -> pairs_held E bf url ->
  exists v, filter_matches E f (cstr url) (length url) context dom bf host = Ok v /\
    (v = true <-> matchesOptions f context dom = true /\ pieces_in_order url 0 pieces).
Proof.
  intros G A R P Nc Nd HP Hu Nu Hh Hb. eexists. split.
  - eapply rule_eval; eauto. right. right. intros ps p Hp I (x & y & E1 & _).
    eapply caretless_pieces; eauto. rewrite E1. apply in_or_app. cbn; auto.
  - rewrite andb_true_iff, (rule_pieces E pres r f b G HP url A R pieces P).
    split; intros [H1 H2]; split; auto.
    + apply found_in_order; auto. lia.
    + apply in_order_found_first; auto.
      * eapply caretless_pieces; eauto.
      * eapply no_double_star_inner; eauto.
Qed.

(** ** Rules without options *)
Lemma unrestricted_options pres r f b context dom :
  good_rule r ->
  parse_filter pres (cstr (rule_line r)) (length (rule_line r)) = Ok (f, b) ->
  unrestricted r context -> matchesOptions f context dom = true.
Proof.
  intros G HP [O D]. rewrite (rule_shape pres r f b G HP).
  unfold shape, apply_options. rewrite O. unfold matchesOptions, hasUnsupportedOptions.
  assert (f_opt (set_data (if pres then set_rule (shape_base r) (Some (rule_line r))
                           else shape_base r) (x_body r)) = 0%N) as -> by now destruct pres.
  assert (f_anti (set_data (if pres then set_rule (shape_base r) (Some (rule_line r))
                           else shape_base r) (x_body r)) = 0%N) as -> by now destruct pres.
  assert (f_dom (set_data (if pres then set_rule (shape_base r) (Some (rule_line r))
                           else shape_base r) (x_body r)) = None) as -> by now destruct pres.
  rewrite D. change (has 0 FOUnsupportedSoSkipCheck) with false. cbn [andb negb].
  change (has 0 FODocument) with false. cbn [andb negb].
  change (N.ldiff 0 BehavioralFilterOnly =? 0)%N with true.
  change (has 0 FOResourcesOnly) with false. change (has 0 FOThirdParty) with false.
  cbn [andb negb]. destruct (context =? 0)%N; cbn [negb];
    now destruct (has context (N.lor FOThirdParty FONotThirdParty)).
Qed.

(** ** C14 *)
Lemma trailing_caret_found p t :
  p <> [] -> t <> [] -> pieces_found (p ++ t) 0 [t ++ B "^"].
Proof.
  intros Np Nt. apply pf_cons with (i := length p); [|constructor].
  assert (0 < length p) by (destruct p; [easy|cbn; lia]).
  assert (0 < length t) by (destruct t; [easy|cbn; lia]).
  split; [lia|]. split; [rewrite app_length; lia|]. split.
  - split; [rewrite !app_length; cbn; lia|]. intros j pc Hj.
    rewrite nth_error_app2 by lia. replace (length p + j - length p) with j by lia.
    destruct (lt_dec j (length t)).
    + rewrite nth_error_app1 in Hj by auto. rewrite Hj. cbn. auto.
    + rewrite nth_error_app2 in Hj by lia.
      assert (j = length t) as ->.
      { destruct (j - length t) as [|[|k]] eqn:Ej; [lia|discriminate|discriminate]. }
      rewrite Nat.sub_diag in Hj. cbn in Hj. assert (pc = "^"%char) as -> by congruence.
      assert (nth_error t (length t) = None) as -> by (apply nth_error_None; lia).
      reflexivity.
  - split; [|lia]. intros E. apply (f_equal (@length _)) in E.
    rewrite app_length in E. cbn in E. lia.
Qed.

Lemma trailing_pieces t : ~ In "*"%char t -> pieces_of (t ++ B "^") [t ++ B "^"].
Proof.
  intros N. split; [easy|]. split; auto. intros p [<-|[]] I.
  apply in_app_or in I as [I|I]; [easy|]. cbn in I. now destruct I as [I|[]].
Qed.

Lemma trailing_carets r t : x_body r = t ++ B "^" -> plain t -> carets_end (x_body r).
Proof.
  intros E [P1 P2] pieces p Hp I. rewrite E in Hp.
  apply pieces_of_unique in Hp. pose proof (trailing_pieces t P1) as K.
  apply pieces_of_unique in K. rewrite <- K in Hp. subst pieces.
  destruct I as [<-|[]]. intros (x & y & E1 & Ny).
  destruct y as [|z y'] using rev_ind; [easy|]. clear IHy'.
  assert (t = x ++ B "^" ++ y') as ->.
  { replace (x ++ B "^" ++ y' ++ [z]) with ((x ++ B "^" ++ y') ++ [z]) in E1
      by now rewrite <- !app_assoc.
    apply app_inj_tail in E1 as [E1 _]. exact E1. }
  apply P2. apply in_or_app. right. cbn. auto.
Qed.

Lemma trailing_rule E pres r f b p t context dom bf host :
  good_rule r -> x_anchor r = NoAnchor -> x_right r = false ->
  x_body r = t ++ B "^" -> plain t -> t <> [] -> p <> [] ->
  parse_filter pres (cstr (rule_line r)) (length (rule_line r)) = Ok (f, b) ->
  nonul (p ++ t) -> host_arg (p ++ t) host -> pairs_held E bf (p ++ t) ->
  unrestricted r context ->
  filter_matches E f (cstr (p ++ t)) (length (p ++ t)) context dom bf host = Ok true.
Proof.
  intros G A R Eb P Nt Np HP Hu Hh Hb Un.
  rewrite (rule_eval E pres r f b G HP (p ++ t) Hu context dom bf host Hh Hb).
  2:{ right. right. eapply trailing_carets; eauto. }
  rewrite (unrestricted_options pres r f b context dom G HP Un). cbn [andb]. f_equal.
  apply (rule_pieces E pres r f b G HP (p ++ t) A R [t ++ B "^"]).
  - rewrite Eb. apply trailing_pieces, P.
  - now apply trailing_caret_found.
Qed.

(** ** C15 *)
Lemma anchored_rule E pres r f b url context dom bf host :
  good_rule r -> x_anchor r = LeftBar \/ x_right r = true ->
  parse_filter pres (cstr (rule_line r)) (length (rule_line r)) = Ok (f, b) ->
  nonul url -> host_arg url host -> pairs_held E bf url ->
  exists v, filter_matches E f (cstr url) (length url) context dom bf host = Ok v /\
    (v = true <-> matchesOptions f context dom = true /\
       match x_anchor r, x_right r with
       | LeftBar, false => exists rest, url = x_body r ++ rest
       | LeftBar, true => url = x_body r
       | _, _ => exists before, url = before ++ x_body r
       end).
Proof.
  intros G A HP Hu Hh Hb. eexists. split.
  - eapply rule_eval; eauto. tauto.
  - rewrite andb_true_iff, (rule_tmatch E pres r f b G HP url).
    destruct (x_anchor r), (x_right r);
      try (exfalso; destruct A as [A|A]; congruence).
    + now rewrite endsWith_spec.
    + rewrite beq_eq. intuition congruence.
    + now rewrite prefixb_spec.
    + now rewrite endsWith_spec.
Qed.

(** ** C16 *)
Lemma body_host_prefix body h : body_host body h -> host_prefix body = h.
Proof. intros (rest & -> & H1 & H2). now apply host_prefix_app. Qed.

Lemma host_rule E pres r f b url uh h context dom bf host v pieces :
  good_rule r -> x_anchor r = HostBars -> x_right r = false ->
  body_host (x_body r) h -> pieces_of (x_body r) pieces ->
  parse_filter pres (cstr (rule_line r)) (length (rule_line r)) = Ok (f, b) ->
  nonul url -> url_has_host url uh -> host_arg url host -> pairs_held E bf url ->
  filter_matches E f (cstr url) (length url) context dom None host = Ok v ->
  filter_matches E f (cstr url) (length url) context dom bf host = Ok v /\
  (v = true <-> matchesOptions f context dom = true /\ first_party h uh /\
                pieces_found url 0 pieces).
Proof.
  intros G A R Bh P HP Hu Huh Hh Hb H.
  destruct (wf_eval_some E f url context dom bf host v) as [H1 H2]; auto.
  { eapply rule_wf; eauto. }
  split; auto. rewrite H2, andb_true_iff.
  rewrite (rule_tmatch E pres r f b G HP url), A, R, andb_true_iff, negb_true_iff.
  rewrite isThirdPartyHost_spec, (body_host_prefix _ _ Bh), (hostOf_spec _ _ Huh).
  apply pieces_of_unique in P as ->. now rewrite wildb_spec.
Qed.

(** ** C17 *)
Lemma rule_defined E pres l f b url context dom bf host :
  line_text l -> parse_filter pres (cstr l) (length l) = Ok (f, b) ->
  nonul url -> host_arg url host -> pairs_held E bf url ->
  (forall d t, f_data f = Some (d, t) -> carets_end d) ->
  exists v, filter_matches E f (cstr url) (length url) context dom bf host = Ok v.
Proof.
  intros Hl HP Hu Hh Hb Hc. eexists. apply wf_eval; auto.
  - eapply line_wf; eauto.
  - intros _ d t p Hd I. apply (Hc d t Hd (split_on "*" d)); auto.
    apply split_pieces_of.
Qed.

(** ** Deciding side conditions of concrete rules *)
Definition body_charb (c : ascii) : bool :=
  negb (existsb (ceq c) ([NUL; CR; LF] ++ B "|$#")).

Definition good_ruleb (r : rule_syntax) : bool :=
  negb (beq (x_body r) []) && forallb body_charb (x_body r)
  && (match x_anchor r with NoAnchor => false | _ => true end
      || (negb (existsb (ceq (hd NUL (x_body r))) (TAB :: B "@![ "))
          && (negb (ceq (hd NUL (x_body r)) "/")
              || negb (ceq (last (rule_line r) NUL) "/"))))
  && match x_options r with
     | None => true
     | Some o => forallb (fun c => negb (existsb (ceq c) [NUL; CR; LF])) o
                 && negb (ceq (hd NUL o) "$")
     end
  && (length (rule_line r) <? N.to_nat 2048).

Lemma existsb_ceq_false c l : negb (existsb (ceq c) l) = true -> ~ In c l.
Proof.
  rewrite negb_true_iff. intros H I.
  assert (existsb (ceq c) l = true) as K; [|congruence].
  apply existsb_exists. exists c. split; auto. apply ceq_refl.
Qed.

Lemma good_ruleb_ok r : good_ruleb r = true -> good_rule r.
Proof.
  unfold good_ruleb. rewrite !andb_true_iff. intros ((((H1 & H2) & H3) & H4) & H5).
  assert (x_body r <> []) as Nb.
  { intros E. rewrite E in H1. discriminate. }
  split; auto. split.
  { intros c I. rewrite forallb_forall in H2. apply H2, existsb_ceq_false in I.
    repeat split; intros ->; apply I; cbn; tauto. }
  split.
  { intros A. rewrite A in H3. cbn [orb] in H3. apply andb_true_iff in H3 as [H3 H6].
    unfold plain_start. destruct (x_body r) as [|c b]; [easy|]. cbn [hd] in *.
    apply existsb_ceq_false in H3. split; [|split].
    - intros I. apply H3. right. exact I.
    - intros ->. apply H3. cbn; auto.
    - intros ->. right. cbn [ceq] in H6. rewrite ceq_refl in H6. cbn [negb orb] in H6.
      intros E. rewrite E in H6. discriminate. }
  split.
  { intros o E. rewrite E in H4. apply andb_true_iff in H4 as [H4 H6]. split.
    - intros c I. rewrite forallb_forall in H4. apply H4, existsb_ceq_false in I.
      repeat split; intros ->; apply I; cbn; tauto.
    - destruct o as [|x o]; [easy|]. cbn in *. intros [= ->]. discriminate. }
  apply Nat.ltb_lt in H5. change (N.to_nat 2048) with 2048 in H5. exact H5.
Qed.

(** ** The Bloom filter built by the client holds all pairs *)
Lemma substring_pairs p url : length p = 2 -> substring p url -> In p (pairs url).
Proof.
  intros L (a & b & ->). destruct p as [|x [|y [|]]]; try discriminate. clear L.
  induction a as [|z a IH]; cbn [app].
  - cbn. auto.
  - destruct a as [|w a]; cbn; cbn in IH; auto.
Qed.

Lemma inputBloom_held E url : pairs_held E (Some (inputBloom E url)) url.
Proof.
  intros b p [= <-] L S. apply covers_inputBloom. now apply substring_pairs.
Qed.
