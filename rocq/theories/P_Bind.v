(** Calls from JavaScript (C85-C88). *)
From Coq Require Import Lia.
From Verif Require Import Base Flags Protocol Url Sets FilterM ParseM ClientM SerialM JsM OwnM OwnT BindM
  Spec SpecM SpecC SpecQ SpecE SpecN SpecO SpecU SpecV
  P_Base P_Protocol P_Parse P_List P_Rule P_Line P_Match2 P_Hist P_Line2 P_Line5 P_Fault P_Safe P_End P_Exact P_Utf P_Utf2.
From Verif Require P_Dec6.
From Verif Require Import SpecC.

(** ** NUL *)

Lemma before_nul_nonul t : nonul (before_nul t).
Proof.
  induction t as [|c t IH]; cbn; [easy|]. destruct (ceq_spec c NUL); [easy|].
  intros [->|I]; [easy|]. now apply IH.
Qed.

Lemma before_nul_id t : nonul t -> before_nul t = t.
Proof.
  induction t as [|c t IH]; intros H; [reflexivity|]. apply nonul_cons in H as [H1 H2]. cbn.
  destruct (ceq_spec c NUL); [easy|]. now rewrite IH.
Qed.

Lemma before_nul_split t : exists x, cstr t = before_nul t ++ NUL :: x.
Proof.
  induction t as [|c t (x & E)]; [exists []; reflexivity|]. cbn [before_nul].
  destruct (ceq_spec c NUL) as [->|N].
  - exists (cstr t). reflexivity.
  - exists x. change (cstr (c :: t)) with (c :: cstr t). now rewrite E.
Qed.

Lemma before_nul_app t x : before_nul (t ++ NUL :: x) = before_nul t.
Proof.
  induction t as [|c t IH]; [reflexivity|]. cbn. destruct (ceq c NUL); [reflexivity|]. now rewrite IH.
Qed.

Lemma strlen_at t x : nonul t -> strlen (t ++ NUL :: x) = Ok (length t).
Proof.
  induction t as [|c t IH]; intros H; [reflexivity|]. apply nonul_cons in H as [H1 H2].
  cbn [app strlen]. destruct (ceq_spec c NUL); [easy|]. now rewrite IH.
Qed.

Lemma c_text_cstr t : c_text (cstr t) = Ok (before_nul t).
Proof.
  destruct (before_nul_split t) as (x & E). unfold c_text. rewrite E, strlen_at by apply before_nul_nonul.
  cbn [bind]. now rewrite firstn_app, Nat.sub_diag, firstn_all, app_nil_r.
Qed.

Lemma parse_before E pres t c : parse E pres (cstr t) c = parse E pres (cstr (before_nul t)) c.
Proof.
  destruct (before_nul_split t) as (x & E1). rewrite E1. apply parse_cut, before_nul_nonul.
Qed.

(** ** Conversions *)

Lemma given_text J v s : to_string v = Some s -> given J v = Ok (cstr (utf8 (j_lone J) s)).
Proof. intros E. unfold given, pointer. now rewrite E. Qed.

Lemma page_text J v t : text_of J v t -> page_arg J v = Ok (Some t).
Proof.
  intros (s & E & ->). unfold page_arg, pointer. rewrite E. cbn [option_map].
  now rewrite c_text_cstr.
Qed.

Lemma means_act J E c m x : means J m x ->
  rmap fst (invoke J E c (fst m) (snd m)) = act E c x.
Proof.
  intros M; destruct M as [args|args t T|args t T|args t T|args u page T Nu P|args|args|b s args];
    cbn [fst snd invoke act perform].
  - reflexivity.
  - destruct T as (s & T & ->). rewrite (given_text J _ _ T). cbn [bind]. rewrite parse_before.
    now destruct (parse _ _ _ _).
  - destruct T as (s & T & ->). rewrite (given_text J _ _ T). cbn [bind]. now rewrite c_text_cstr.
  - destruct T as (s & T & ->). rewrite (given_text J _ _ T). cbn [bind]. now rewrite c_text_cstr.
  - rewrite (given_text J _ _ T), (page_text J _ _ P). cbn [bind].
    now destruct (matches _ _ _ _ _).
  - reflexivity.
  - now destruct (serialize c true true).
  - now destruct (deserialize b c).
Qed.

Lemma session_means J E ms xs : Forall2 (means J) ms xs ->
  session J E ms = foldM (act E) client0 xs.
Proof.
  unfold session. generalize client0. intros c H. revert c.
  induction H as [|m x ms xs M F IH]; intros c; [reflexivity|]. cbn [foldM].
  rewrite (means_act J E c m x M). destruct (act E c x); cbn [bind]; auto.
Qed.

Lemma means_ok J m x : means J m x -> ncall_ok x.
Proof.
  intros M; destruct M as [args|args t T|args t T|args t T|args u page T Nu P|args|args|b s args];
    cbn; auto. destruct T as (s & _ & ->). apply before_nul_nonul.
Qed.

Lemma act_calls E calls c : foldM (act E) c (map Call calls) = foldM (perform E) c calls.
Proof.
  revert c. induction calls as [|k calls IH]; intros c; [reflexivity|]. cbn [map foldM act].
  destruct (perform E c k); cbn [bind]; auto.
Qed.

Lemma session_calls J E ms calls : Forall2 (means J) ms (map Call calls) ->
  session J E ms = after E calls /\ history calls.
Proof.
  intros H. split.
  - rewrite (session_means J E ms _ H). apply act_calls.
  - apply Forall_forall. intros k I.
    assert (Q : Forall ncall_ok (map Call calls)).
    { clear -H. induction H; constructor; eauto using means_ok. }
    rewrite Forall_forall in Q. apply (Q (Call k)). now apply in_map.
Qed.

(** ** U+0000 *)

Lemma points_sep lone u r : high u = false -> low u = false -> forall s,
  points lone (s ++ u :: r) = points lone s ++ u :: points lone r.
Proof.
  intros H L s. remember (length s) as n eqn:En. revert s En.
  induction n as [n IH] using lt_wf_ind. intros s ->.
  destruct s as [|x s]; cbn [app points].
  { now rewrite H, L. }
  destruct (high x).
  - destruct s as [|y s]; cbn [app].
    + rewrite L. cbn [points]. now rewrite H, L.
    + destruct (low y).
      * rewrite (IH (length s)) by (cbn; auto with arith). reflexivity.
      * change (y :: s ++ u :: r) with ((y :: s) ++ u :: r).
        rewrite (IH (length (y :: s))) by (cbn; auto with arith). reflexivity.
  - destruct (low x); rewrite (IH (length s)) by (cbn; auto with arith); reflexivity.
Qed.

Lemma utf8_cut lone s r : before_nul (utf8 lone (s ++ 0%N :: r)) = before_nul (utf8 lone s).
Proof.
  unfold utf8. rewrite (points_sep lone 0%N r eq_refl eq_refl), flat_map_app. cbn [flat_map].
  change (encode 0) with [NUL]. cbn [app]. apply before_nul_app.
Qed.

Lemma nul_in lone s : well_formed s -> (nonul (utf8 lone s) <-> ~ In 0%N s).
Proof.
  intros (ps & T). rewrite (utf8_text _ _ _ T). destruct T as [F ->].
  unfold nonul. rewrite (ascii_in_text ps NUL F) by reflexivity.
  now rewrite (unit_in_text ps 0%N F).
Qed.

Lemma parse_cut_js J E c s r rest :
  invoke J E c MParse (JStr (s ++ 0%N :: r) :: rest) = invoke J E c MParse (JStr s :: rest).
Proof.
  cbn [invoke]. rewrite (given_text J (arg (JStr (s ++ 0%N :: r) :: rest) 0) (s ++ 0%N :: r) eq_refl),
    (given_text J (arg (JStr s :: rest) 0) s eq_refl). cbn [bind].
  change (arg (JStr (s ++ 0%N :: r) :: rest) 1) with (arg (JStr s :: rest) 1).
  rewrite (parse_before E _ (utf8 _ (s ++ _))), (parse_before E _ (utf8 _ s)).
  now rewrite utf8_cut.
Qed.

(** ** Plain words *)

Definition wordb (c : ascii) : bool :=
  let n := N_of_ascii c in
  ((48 <=? n) && (n <=? 57) || (65 <=? n) && (n <=? 90) || (97 <=? n) && (n <=? 122) || (128 <=? n))%N.

Lemma wordb_not c d : wordb c = true -> wordb d = false -> c <> d.
Proof. congruence. Qed.

Lemma word_bytes lone w c : well_formed w -> Forall word_unit w -> In c (utf8 lone w) -> wordb c = true.
Proof.
  intros (ps & T) W. rewrite (utf8_text _ _ _ T). destruct T as [F ->]. intros I.
  apply in_flat_map in I as (p & I & J). rewrite Forall_forall in F. pose proof (F p I) as S.
  unfold wordb. cbv zeta. destruct (encode_char p c S J) as [(L & _ & ->)|(_ & L)].
  - rewrite byte_val by lia. rewrite Forall_forall in W. specialize (W p).
    assert (In p (flat_map utf16 ps)) as K.
    { apply in_flat_map. exists p. split; auto. rewrite utf16_small by lia. now left. }
    specialize (W K). unfold word_unit in W.
    rewrite !orb_true_iff, !andb_true_iff, !N.leb_le. lia.
  - rewrite !orb_true_iff. right. now apply N.leb_le.
Qed.

Lemma encode_length p : scalar p -> length (encode p) <= 3 * length (utf16 p).
Proof.
  intros _. unfold encode, utf16.
  destruct (N.ltb_spec p 128), (N.ltb_spec p 2048), (N.ltb_spec p 65536); cbn [length]; lia.
Qed.

Lemma utf8_length lone s : well_formed s -> length (utf8 lone s) <= 3 * length s.
Proof.
  intros (ps & T). rewrite (utf8_text _ _ _ T). destruct T as [F ->].
  induction F as [|p ps S F IH]; [cbn; lia|]. cbn [flat_map]. rewrite !app_length.
  pose proof (encode_length p S). lia.
Qed.

Lemma utf8_nonempty lone s : well_formed s -> s <> [] -> utf8 lone s <> [].
Proof.
  intros W N E. apply N. apply (utf8_injective lone s []); auto.
  exists []. split; [constructor|reflexivity].
Qed.

Definition word_rule (t : bytes) : rule_syntax := mkRule false NoAnchor t false None.

Lemma word_rule_line t : rule_line (word_rule t) = t.
Proof. unfold rule_line, pattern_line. cbn. now rewrite !app_nil_r. Qed.

Ltac notword H := intros ->; vm_compute in H; discriminate H.

Lemma word_usual t : t <> [] -> (forall c, In c t -> wordb c = true) -> length t < 2048 ->
  usual_rule (word_rule t) /\ plain t.
Proof.
  intros N W L.
  assert (P : plain t) by (split; intros I; specialize (W _ I); vm_compute in W; discriminate W).
  split; [|exact P]. split; [|split].
  - split; [exact N|]. split; [|split; [|split]].
    + cbn [x_body word_rule]. intros c I; specialize (W _ I). repeat split; notword W.
    + intros _. unfold plain_start. cbn [x_body word_rule]. destruct t as [|c t]; [easy|].
      specialize (W c (or_introl eq_refl)). repeat split.
      * intros J. vm_compute in J.
        repeat (destruct J as [J|J]; [subst c; vm_compute in W; discriminate W|]). easy.
      * notword W.
      * notword W.
    + cbn [x_options word_rule]. discriminate.
    + now rewrite word_rule_line.
  - split; [|intros (A & _); discriminate A]. right. right. cbn [word_rule x_body].
    intros pieces p a b Hp I E. exfalso. apply pieces_of_unique in Hp as ->.
    rewrite split_on_none in I by apply P. destruct I as [<-|[]]. apply P. rewrite E.
    apply in_or_app. right. now left.
  - exists []. split; [reflexivity|]. split; [intros n [[[] _]|[]]|intros s []].
Qed.

Lemma rule_of_words r t : usual_rule r -> rule_line r = t -> (forall c, In c t -> wordb c = true) ->
  r = word_rule t.
Proof.
  intros (G & _) E W. destruct r as [e a b rt o]. unfold rule_line, pattern_line in E. cbn in E.
  assert (NO : forall c, wordb c = false -> ~ In c t) by (intros c H I; rewrite (W c I) in H; discriminate).
  destruct o as [o|].
  { destruct (NO "$"%char eq_refl). rewrite <- E. apply in_or_app. right. now left. }
  destruct rt.
  { destruct (NO "|"%char eq_refl). rewrite <- E. rewrite !in_app_iff. left. right. right. right. now left. }
  destruct e.
  { destruct (NO "@"%char eq_refl). rewrite <- E. now left. }
  destruct a.
  - cbn [app] in E. rewrite !app_nil_r in E. unfold word_rule. now subst.
  - destruct (NO "|"%char eq_refl). rewrite <- E. now left.
  - destruct (NO "|"%char eq_refl). rewrite <- E. now left.
Qed.

Lemma cuts_cover {A} sa (xs : list A) x : In x xs -> sa x = true \/ exists l, In l (cuts sa xs) /\ In x l.
Proof.
  induction xs as [|y xs IH]; intros I; [easy|]. cbn [cuts]. destruct (sa y) eqn:Y.
  - destruct I as [->|I]; [auto|]. destruct (IH I) as [H|(l & H1 & H2)]; [auto|].
    right. exists l. split; auto. now right.
  - destruct (cuts sa xs) as [|w ws] eqn:C; [now apply cuts_nonempty in C|].
    destruct I as [->|I]; [right; exists (x :: w); split; now left|].
    destruct (IH I) as [H|(l & [->|H1] & H2)]; [auto| |].
    + right. exists (y :: l). split; [now left|now right].
    + right. exists l. split; auto. now right.
Qed.

Lemma words_nonul lone s : well_formed s ->
  (forall l, In l (js_lines s) -> l = [] \/ plain_word l) -> nonul (utf8 lone s).
Proof.
  intros W H. apply nul_in; auto. intros I. rewrite js_lines_cuts in H.
  destruct (cuts_cover (fun u => N.eqb u 13 || N.eqb u 10) s 0%N I) as [X|(l & J & K)];
    [discriminate X|].
  destruct (H l J) as [->|(_ & F & _)]; [easy|].
  rewrite Forall_forall in F. specialize (F _ K). unfold word_unit in F. lia.
Qed.

Lemma no_document context : has context FODocument = false -> ~ declared context (B "document").
Proof.
  intros H (_ & c & I & (i & T1 & T2)).
  assert (c = FODocument) as ->.
  { vm_compute in I. repeat (destruct I as [I|I]; [try discriminate I; injection I as <-; reflexivity|]).
    easy. }
  unfold has in H. apply negb_false_iff, N.eqb_eq in H.
  assert (N.testbit (N.land context FODocument) i = true) as X by (rewrite N.land_spec, T1, T2; reflexivity).
  rewrite H in X. now rewrite N.bits_0 in X.
Qed.

Lemma ascii_wf s : ascii_text s -> well_formed s.
Proof. intros H. exists s. now apply ascii_well_formed. Qed.

Lemma wf_cons u s : (u < 55296)%N -> well_formed (u :: s) -> well_formed s.
Proof.
  intros L (ps & F & E). destruct ps as [|p ps]; [discriminate E|]. inversion F as [|? ? S F']; subst.
  cbn [flat_map] in E. unfold utf16 in E. destruct (N.ltb_spec p 65536).
  - injection E as -> ->. exists ps. split; auto.
  - exfalso. apply (f_equal (hd 0%N)) in E. cbn [app hd] in E. dm.
Qed.

Lemma utf8_cons lone u s : (u < 128)%N -> utf8 lone (u :: s) = ascii_of_N u :: utf8 lone s.
Proof.
  intros H. unfold utf8. cbn [points].
  destruct (high u) eqn:X; [apply high_spec in X; lia|].
  destruct (low u) eqn:Y; [apply low_spec in Y; lia|].
  cbn [flat_map]. now rewrite encode_ascii.
Qed.

Lemma utf8_ascii_app lone a s : ascii_text a -> utf8 lone (a ++ s) = map ascii_of_N a ++ utf8 lone s.
Proof.
  induction 1 as [|u a L F IH]; [reflexivity|]. cbn [app map]. now rewrite utf8_cons, IH.
Qed.

Lemma wf_ascii_app a s : ascii_text a -> well_formed (a ++ s) -> well_formed s.
Proof.
  induction 1 as [|u a L F IH]; [auto|]. cbn [app]. intros W. apply IH.
  apply (wf_cons u); [lia|exact W].
Qed.

Lemma U_ascii s : forallb (fun c => N_of_ascii c <? 128)%N (B s) = true ->
  ascii_text (U s) /\ map ascii_of_N (U s) = B s.
Proof.
  intros H. unfold U. rewrite map_map. split.
  - apply Forall_forall. intros u I. apply in_map_iff in I as (c & <- & I).
    rewrite forallb_forall in H. now apply N.ltb_lt, H.
  - rewrite <- (map_id (B s)) at 2. apply map_ext. intros c. apply ascii_N_embedding.
Qed.

Lemma wf_sep a u b : (u < 55296)%N -> well_formed (a ++ u :: b) -> well_formed a /\ well_formed b.
Proof.
  intros L (ps & F & E).
  assert (S : scalar u) by (left; lia).
  destruct (code_occurs utf16 unit_lead scalar utf16_lead utf16_prefix ps F [u] a b)
    as (us & vs & -> & -> & ->); [now repeat constructor|discriminate| |].
  - cbn [flat_map]. rewrite utf16_small by lia. now rewrite <- E.
  - apply Forall_app in F as [F1 F2]. apply Forall_app in F2 as [_ F2].
    split; [exists us|exists vs]; split; auto.
Qed.

Lemma utf8_sep lone a u b : (u < 128)%N ->
  utf8 lone (a ++ u :: b) = utf8 lone a ++ ascii_of_N u :: utf8 lone b.
Proof.
  intros L. unfold utf8. rewrite points_sep, flat_map_app.
  - cbn [flat_map]. now rewrite encode_ascii.
  - destruct (high u) eqn:X; [apply high_spec in X; lia|reflexivity].
  - destruct (low u) eqn:X; [apply low_spec in X; lia|reflexivity].
Qed.

Lemma host_bytes lone h c : well_formed h -> Forall (fun u => word_unit u \/ u = 45%N \/ u = 46%N) h ->
  In c (utf8 lone h) -> ~ In c separators.
Proof.
  intros (ps & T) W. rewrite (utf8_text _ _ _ T). destruct T as [F ->]. intros I K.
  assert (L : (N_of_ascii c < 128)%N).
  { vm_compute in K. repeat (destruct K as [<-|K]; [reflexivity|]). easy. }
  apply (ascii_in_text ps c F L) in I.
  assert (J : In (N_of_ascii c) (flat_map utf16 ps)) by (apply unit_in_text; auto; lia).
  rewrite Forall_forall in W. specialize (W _ J). unfold word_unit in W.
  vm_compute in K. repeat (destruct K as [<-|K]; [cbn in W; lia|]). easy.
Qed.

Lemma js_web_host lone url : well_formed url -> js_web url ->
  web_url (utf8 lone url) /\ exists uh, url_has_host (utf8 lone url) uh.
Proof.
  intros Wf (scheme & h & rest & S & N & F & ->).
  assert (Q : exists sch, (sch = B "http" \/ sch = B "https") /\
    utf8 lone (scheme ++ U "://" ++ h ++ U "/" ++ rest)
    = sch ++ B "://" ++ utf8 lone h ++ "/"%char :: utf8 lone rest /\ well_formed h).
  { assert (X : exists x, (x = "http" \/ x = "https")%string /\ scheme = U x)
      by (destruct S as [-> | ->]; eauto).
    destruct X as (x & X & ->). exists (B x). split; [destruct X as [-> | ->]; auto|].
    destruct (U_ascii x) as [A1 A2]; [now destruct X as [-> | ->]|].
    destruct (U_ascii "://") as [B1 B2]; [reflexivity|].
    split.
    - rewrite (utf8_ascii_app lone (U x)), (utf8_ascii_app lone (U "://")), A2, B2 by auto.
      do 2 f_equal. change (U "/" ++ rest) with (47%N :: rest). now rewrite utf8_sep.
    - apply wf_ascii_app in Wf; [|exact A1]. apply wf_ascii_app in Wf; [|exact B1].
      now apply (wf_sep h 47%N rest). }
  destruct Q as (sch & S' & -> & Wh). split.
  - split.
    + destruct S' as [-> | ->]; rewrite !app_length; cbn; lia.
    + exists [], sch, (utf8 lone h ++ "/"%char :: utf8 lone rest). split; [reflexivity|].
      split; [now left|]. destruct S' as [-> | ->]; [left|right; left]; repeat constructor.
  - exists (utf8 lone h). exists sch, (B "//"), ("/"%char :: utf8 lone rest).
    split; [reflexivity|]. split; [destruct S' as [-> | ->]; vm_compute; intuition discriminate|].
    split; [intros x [<-|[<-|[]]]; reflexivity|]. split; [intros c; now apply host_bytes|].
    split; [intros X; now apply utf8_nonempty in X|].
    right. exists "/"%char, (utf8 lone rest). split; [reflexivity|]. cbn. auto.
Qed.

Lemma plain_fits lone w url uh : well_formed w -> plain_word w -> well_formed url ->
  (pattern_fits (word_rule (utf8 lone w)) (utf8 lone url) uh <-> occurs w url).
Proof.
  intros Ww (N & F & L) Wu. pose proof (utf8_nonempty lone w Ww N) as Ne.
  pose proof (utf8_length lone w Ww) as Len.
  destruct (word_usual (utf8 lone w) Ne) as [_ P].
  { intros c. now apply word_bytes. }
  { lia. }
  rewrite <- (utf8_occurs lone w url Ww Wu). unfold pattern_fits. cbn [word_rule x_anchor x_right x_body].
  split.
  - intros (pieces & Hp & Hf). apply pieces_of_unique in Hp as ->.
    rewrite split_on_none in Hf by apply P. apply (plain_single _ _ P Ne) in Hf. exact Hf.
  - intros Hs. exists [utf8 lone w]. split.
    + split; [discriminate|]. split; [reflexivity|]. intros p [<-|[]]. apply P.
    + now apply (plain_single _ _ P Ne).
Qed.

Lemma plain_list J E s url ctx page :
  well_formed s -> (forall l, In l (js_lines s) -> l = [] \/ plain_word l) ->
  well_formed url -> ~ In 0%N url -> js_web url ->
  to_number J ctx <> None -> has (to_mask J ctx) FODocument = false -> to_string page <> None ->
  exists c c' b, session J E [(MParse, [JStr s])] = Ok c /\
    invoke J E c MMatches [JStr url; ctx; page] = Ok (c', RBool b) /\
    (b = true <-> exists l, In l (js_lines s) /\ l <> [] /\ occurs l url).
Proof.
  intros Ws Hl Wu Nu Web Nc Nd Np. set (lone := j_lone J).
  destruct (utf8_lines lone s Ws) as [EL WL].
  pose proof (words_nonul lone s Ws Hl) as Ns.
  set (calls := [Parse false (utf8 lone s)]).
  assert (UL : usual_list calls).
  { intros pres l I. cbn [calls loaded_lines loaded_from app] in I.
    apply in_map_iff in I as (l' & [= <- <-] & I). rewrite EL in I. apply in_map_iff in I as (w & <- & I).
    destruct (Hl w I) as [->|(N & F & L)].
    - left. apply (nn_comment [] []); [easy|now left|cbn; lia].
    - right. exists (word_rule (utf8 lone w)). split; [now rewrite word_rule_line|].
      apply word_usual; [now apply utf8_nonempty; auto|intros c; apply word_bytes; auto|].
      pose proof (utf8_length lone w (WL w I)). lia. }
  assert (M : Forall2 (means J) [(MParse, [JStr s])] (map Call calls)).
  { constructor; [|constructor]. rewrite <- (before_nul_id _ Ns) at 1.
    apply (means_parse J [JStr s]). exists s. auto. }
  destruct (session_calls J E _ _ M) as [ES Hi].
  destruct (usual_safe_history E calls Hi) as (c & A & _).
  { intros pres t l [I|[]] I2. injection I as <- <-. rewrite EL in I2.
    apply in_map_iff in I2 as (w & <- & I2). destruct (Hl w I2) as [->|(N & F & L)].
    - left. split; [apply (nn_comment [] []); [easy|now left|cbn; lia]|].
      apply safe_short; [cbn; lia|reflexivity].
    - right. pose proof (utf8_length lone w (WL w I2)) as Len. exists (word_rule (utf8 lone w)).
      rewrite word_rule_line. split; [reflexivity|].
      destruct (word_usual (utf8 lone w)) as [(G & S & _) _];
        [now apply utf8_nonempty; auto|intros x; apply word_bytes; auto|lia|].
      split; [exact G|]. split; [exact S|]. intros d (a & b & E1) _ _.
      apply (f_equal (@length ascii)) in E1. rewrite !app_length in E1. lia. }
  destruct (js_web_host lone url Wu Web) as [WU (uh & Hh)].
  pose proof (proj2 (nul_in lone url Wu) Nu) as Nu'.
  destruct (to_string page) as [pg|] eqn:Ep; [|easy].
  set (pt := before_nul (utf8 lone pg)).
  destruct (text_decides E calls c (utf8 lone url) uh (to_mask J ctx) (Some pt) Hi A Nu' Hh UL)
    as (v & c' & Mt & D).
  exists c, c', (v_block v). split; [now rewrite ES|]. split.
  - cbn [invoke]. rewrite (given_text J (arg [JStr url; ctx; page] 0) url eq_refl).
    change (arg [JStr url; ctx; page] 2) with page. change (arg [JStr url; ctx; page] 1) with ctx.
    rewrite (page_text J page pt) by (exists pg; auto). cbn [bind]. fold lone. rewrite Mt. cbn [bind fst snd].
    destruct (to_number J ctx) as [z|]; [|easy]. rewrite Ep. reflexivity.
  - rewrite D.
    assert (LL : forall pres l, In (pres, l) (loaded_lines calls) ->
              exists w, In w (js_lines s) /\ l = utf8 lone w /\ pres = false).
    { intros pres l I. cbn [calls loaded_lines loaded_from app] in I.
      apply in_map_iff in I as (l' & [= <- <-] & I). rewrite EL in I.
      apply in_map_iff in I as (w & <- & I). eauto. }
    assert (RL : forall r, rule_loaded calls r -> exists w, In w (js_lines s) /\ plain_word w /\
                           r = word_rule (utf8 lone w)).
    { intros r (Us & pres & I). destruct (LL _ _ I) as (w & I2 & E1 & _). exists w.
      destruct (Hl w I2) as [->|Pw].
      - exfalso. destruct Us as ((B0 & _) & _). unfold rule_line, pattern_line in E1.
        cbn in E1. destruct (x_body r); [easy|].
        apply (f_equal (@length ascii)) in E1. rewrite !app_length in E1. cbn in E1. lia.
      - split; [exact I2|]. split; [exact Pw|]. apply rule_of_words; auto.
        intros x. apply word_bytes; [now apply WL|apply Pw]. }
    split.
    + intros (_ & (r & R & _ & _ & (Fit & _)) & _). destruct (RL r R) as (w & I & Pw & ->).
      exists w. split; [exact I|]. split; [apply Pw|]. now apply (plain_fits lone w url uh) in Fit; auto.
    + intros (w & I & N & O). destruct (Hl w I) as [->|Pw]; [easy|].
      split; [exact WU|]. split.
      * exists (word_rule (utf8 lone w)). split; [|split; [reflexivity|split; [|split]]].
        -- split.
           ++ pose proof (utf8_length lone w (WL w I)) as Len. destruct Pw as (_ & F & L).
              apply word_usual; [now apply utf8_nonempty; auto|intros x; apply word_bytes; auto|lia].
           ++ exists false. rewrite word_rule_line. cbn [calls loaded_lines loaded_from app].
              apply in_map. rewrite EL. now apply in_map.
        -- split; [intros (X & _); discriminate X|].
           intros dl (_ & _ & parts & O1 & (a & b & O2 & _)). cbn in O1. subst parts.
           destruct a; discriminate O2.
        -- apply plain_fits; auto.
        -- exists []. split; [reflexivity|]. split; [|intros t (a & b & X & _); destruct a; discriminate X].
           split; [intros n [[] _]|]. split; [intros X; now destruct (no_document _ Nd)|].
           split; [split; [intros _ n [[[] _]|[]]|]|].
           ++ intros _. split; [left; intros n [[] _]|intros n []].
           ++ split; [intros dl d (a & b & X & _); destruct a; discriminate X|].
              split; [intros [[] _]|intros []].
      * intros (r & R & X & _). destruct (RL r R) as (w' & _ & _ & ->). discriminate X.
Qed.

(** ** Exceptions *)

Lemma throws_alike J E c m args c' : invoke J E c m args = Ok (c', RThrows) -> P_Dec6.alike c c'.
Proof.
  destruct m; cbn [invoke]; intros H.
  - discriminate H.
  - apply bind_ok in H as (p & _ & H). apply bind_ok in H as (d & _ & H). discriminate H.
  - apply bind_ok in H as (p & G & H). apply bind_ok in H as (d & _ & H).
    apply bind_ok in H as ([v c1] & M & H). injection H as <- _. cbn [snd].
    unfold given, pointer in G. destruct (to_string (arg args 0)) as [s|]; [|discriminate G].
    injection G as <-.
    apply (P_Dec6.asks_alike E [Ask (utf8 (j_lone J) s) (to_mask J (arg args 1)) d] c c1).
    + repeat constructor.
    + cbn [foldM perform]. now rewrite M.
  - apply bind_ok in H as (p & _ & H). apply bind_ok in H as (d & _ & H).
    apply bind_ok in H as (v & _ & H). apply bind_ok in H as (a & _ & H).
    apply bind_ok in H as (b & _ & H). injection H as <- _. apply P_Dec6.alike_refl.
  - apply bind_ok in H as (p & _ & H). discriminate H.
  - destruct args as [|[] args]; try (injection H as <-; apply P_Dec6.alike_refl).
    apply bind_ok in H as (p & _ & H). discriminate H.
  - apply bind_ok in H as (p & _ & H). apply bind_ok in H as (d & _ & H). discriminate H.
  - apply bind_ok in H as (p & _ & H). apply bind_ok in H as (d & _ & H). discriminate H.
  - discriminate H.
  - apply bind_ok in H as (p & _ & H). apply bind_ok in H as (d & _ & H).
    apply bind_ok in H as (l & _ & H). discriminate H.
Qed.

Lemma throws_inert J E c m args c' : invoke J E c m args = Ok (c', RThrows) ->
  forall url context dom,
  rmap fst (matches E c' url context dom) = rmap fst (matches E c url context dom) /\
  findMatchingFilters E c' url context dom = findMatchingFilters E c url context dom.
Proof.
  intros H url context dom. apply P_Dec6.answers_alike, P_Dec6.alike_sym. eapply throws_alike; eauto.
Qed.

Lemma throws_deserialize J E c args c' : invoke J E c MDeserialize args = Ok (c', RThrows) -> c' = c.
Proof.
  cbn [invoke]. intros H. destruct args as [|[] args]; try (now injection H as <-).
  apply bind_ok in H as (p & _ & H). discriminate H.
Qed.

(** ** Null pointers *)

Lemma null_crash J E c m args : takes_text m -> to_string (arg args 0) = None ->
  invoke J E c m args = UB.
Proof.
  intros I N. assert (G : given J (arg args 0) = UB) by (unfold given, pointer; now rewrite N).
  cbn in I. repeat (destruct I as [<-|I]; [cbn [invoke]; now rewrite G|]). easy.
Qed.

Lemma session_safe J E ms calls : Forall2 (means J) ms (map Call calls) -> safe_calls E calls ->
  exists c, session J E ms = Ok c /\
  forall args s, to_string (arg args 0) = Some s -> nonul (utf8 (j_lone J) s) ->
    exists c' r, invoke J E c MMatches args = Ok (c', r).
Proof.
  intros M S. destruct (session_calls J E ms calls M) as [E1 Hi].
  destruct (safe_history E calls Hi S) as (c & A & Q). exists c. rewrite E1. split; [exact A|].
  intros args s T N. cbn [invoke]. rewrite (given_text J _ _ T). cbn [bind].
  assert (P : exists d, page_arg J (arg args 2) = Ok d).
  { unfold page_arg, pointer. destruct (to_string (arg args 2)); cbn [option_map]; [|eauto].
    rewrite c_text_cstr. cbn [rmap]. eauto. }
  destruct P as (d & ->). cbn [bind].
  destruct (Q (utf8 (j_lone J) s) (to_mask J (arg args 1)) d N) as [(v & c' & ->) _].
  cbn [bind]. eauto.
Qed.

Lemma all_lines J E s : well_formed s -> ~ In 0%N s ->
  session J E [(MParse, [JStr s])] = after E [Parse false (utf8 (j_lone J) s)] /\
  loaded_lines [Parse false (utf8 (j_lone J) s)] = map (fun l => (false, utf8 (j_lone J) l)) (js_lines s).
Proof.
  intros W N. pose proof (proj2 (nul_in (j_lone J) s W) N) as Ns. split.
  - apply (session_calls J E [(MParse, [JStr s])] [Parse false (utf8 (j_lone J) s)]).
    constructor; [|constructor]. rewrite <- (before_nul_id _ Ns) at 1.
    apply (means_parse J [JStr s]). exists s. auto.
  - cbn [loaded_lines loaded_from app]. unfold loaded_lines. cbn [loaded_from app].
    rewrite (proj1 (utf8_lines (j_lone J) s W)). now rewrite map_map.
Qed.

Lemma session_is_calls J E ms xs : Forall2 (means J) ms xs ->
  session J E ms = foldM (act E) client0 xs /\ Forall ncall_ok xs.
Proof.
  intros H. split; [now apply session_means|]. induction H; constructor; eauto using means_ok.
Qed.
