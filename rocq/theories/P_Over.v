(** Exactly when [indexOfFilter] reads behind the URL. *)
From Verif Require Import Base Flags Url Sets FilterM ParseM ClientM Spec SpecM SpecR
  P_Base P_Url P_Match P_Rule P_Parse P_Shape P_Fp P_Fp2 P_Line4
  P_Line5 P_Match2.

(** ** The inner loop *)
Lemma fits_cons_nonsep pc c a s :
  fitsb (pc :: a) (c :: s) = cfits pc c && fitsb a s.
Proof. reflexivity. Qed.

Lemma ij_ub piece s :
  nonul s -> nonul piece ->
  (ij piece (cstr s) = UB <->
   exists a b, piece = a ++ "^"%char :: b /\ b <> [] /\ length a = length s /\
               fitsb a s = true).
Proof.
  revert s; induction piece as [|pc piece IH]; intros s Hs Hp.
  { cbn. split; [easy|]. intros (a & b & E & _). now destruct a. }
  apply nonul_cons in Hp as [Hp1 Hp2].
  destruct s as [|c s].
  - cbn [cstr app ij]. destruct (ceq_spec pc NUL); [easy|].
    rewrite ceq_refl, orb_true_r, andb_true_r. split.
    + destruct (ceq_spec pc "^") as [->|N]; [|easy].
      destruct piece as [|pc' piece]; [easy|]. intros _.
      exists [], (pc' :: piece). repeat split; easy.
    + intros (a & b & E & N & L & _). destruct a; [|discriminate L].
      injection E as -> ->. rewrite ceq_refl. now destruct b.
  - change (cstr (c :: s)) with (c :: cstr s).
    apply nonul_cons in Hs as [Hs1 Hs2]. cbn [ij]. specialize (IH s Hs2 Hp2).
    assert (cfits pc c = true ->
       (ij piece (cstr s) = UB <->
        exists a b, pc :: piece = a ++ "^"%char :: b /\ b <> [] /\
          length a = length (c :: s) /\ fitsb a (c :: s) = true)) as K.
    { intros F. rewrite IH. split.
      - intros (a & b & E & N & L & Fi). exists (pc :: a), b.
        rewrite E. cbn [app length fitsb]. rewrite F, Fi, L. repeat split; auto.
      - intros (a & b & E & N & L & Fi). destruct a as [|x a]; [discriminate L|].
        injection E as <- E. cbn [fitsb] in Fi. apply andb_true_iff in Fi as [_ Fi].
        exists a, b. cbn in L. repeat split; auto. }
    unfold cfits in K. destruct (ceq pc c) eqn:E1; cbn [orb] in K; auto.
    destruct (ceq_spec c NUL); [easy|]. rewrite orb_false_r.
    destruct (ceq pc "^" && isSeparatorChar c) eqn:E2; auto.
    split; [easy|]. intros (a & b & E & N & L & Fi).
    destruct a as [|x a]; [discriminate L|]. injection E as <- E.
    cbn [fitsb] in Fi. unfold cfits in Fi. now rewrite E1, E2 in Fi.
Qed.

Lemma ij_abort piece s :
  nonul s -> nonul piece ->
  (ij piece (cstr s) = Ok MAbort <->
   exists a c b, piece = a ++ c :: b /\ c <> "^"%char /\ length a = length s /\
                 fitsb a s = true).
Proof.
  revert s; induction piece as [|pc piece IH]; intros s Hs Hp.
  { cbn. split; [easy|]. intros (a & c & b & E & _). now destruct a. }
  apply nonul_cons in Hp as [Hp1 Hp2].
  destruct s as [|c s].
  - cbn [cstr app ij]. destruct (ceq_spec pc NUL); [easy|].
    rewrite ceq_refl, orb_true_r, andb_true_r. split.
    + destruct (ceq_spec pc "^") as [->|N].
      * destruct piece as [|pc' piece]; easy.
      * intros _. exists [], pc, piece. repeat split; easy.
    + intros (a & c & b & E & N & L & _). destruct a; [|discriminate L].
      injection E as <- <-. now destruct (ceq_spec pc "^").
  - change (cstr (c :: s)) with (c :: cstr s).
    apply nonul_cons in Hs as [Hs1 Hs2]. cbn [ij]. specialize (IH s Hs2 Hp2).
    assert (cfits pc c = true ->
       (ij piece (cstr s) = Ok MAbort <->
        exists a x b, pc :: piece = a ++ x :: b /\ x <> "^"%char /\
          length a = length (c :: s) /\ fitsb a (c :: s) = true)) as K.
    { intros F. rewrite IH. split.
      - intros (a & x & b & E & N & L & Fi). exists (pc :: a), x, b.
        rewrite E. cbn [app length fitsb]. rewrite F, Fi, L. repeat split; auto.
      - intros (a & x & b & E & N & L & Fi). destruct a as [|y a]; [discriminate L|].
        injection E as <- E. cbn [fitsb] in Fi. apply andb_true_iff in Fi as [_ Fi].
        exists a, x, b. cbn in L. repeat split; auto. }
    unfold cfits in K. destruct (ceq pc c) eqn:E1; cbn [orb] in K; auto.
    destruct (ceq_spec c NUL); [easy|]. rewrite orb_false_r.
    destruct (ceq pc "^" && isSeparatorChar c) eqn:E2; auto.
    split; [easy|]. intros (a & x & b & E & N & L & Fi).
    destruct a as [|y a]; [discriminate L|]. injection E as <- E.
    cbn [fitsb] in Fi. unfold cfits in Fi. now rewrite E1, E2 in Fi.
Qed.

(** ** The outer loop *)
Lemma io_ub piece s :
  nonul s -> nonul piece ->
  (io (length s) piece (cstr s) = UB <->
   exists k, k < length s /\ ij piece (cstr (skipn k s)) = UB /\
     forall j, j < k -> ij piece (cstr (skipn j s)) = Ok MNo).
Proof.
  intros Hs Hp. induction s as [|c s IH].
  { cbn. split; [easy|]. intros (k & L & _). lia. }
  apply nonul_cons in Hs as [Hs1 Hs2]. specialize (IH Hs2).
  cbn [length io].
  destruct (ij piece (cstr (c :: s))) as [[]|] eqn:J; cbn [bind].
  - split; [easy|]. intros (k & L & U & A). destruct k as [|k].
    + cbn [skipn] in U. congruence.
    + specialize (A 0 ltac:(lia)). cbn [skipn] in A. congruence.
  - change (cstr (c :: s)) with (c :: cstr s).
    assert (rmap (option_map S) (io (length s) piece (cstr s)) = UB <->
            io (length s) piece (cstr s) = UB) as ->.
    { destruct (io _ _ _); cbn; split; easy. }
    rewrite IH. split.
    + intros (k & L & U & A). exists (S k). split; [lia|]. split; auto.
      intros [|j] Hj; auto. apply A. lia.
    + intros ([|k] & L & U & A); [cbn [skipn] in U; congruence|].
      exists k. split; [lia|]. split; auto. intros j Hj. apply (A (S j)). lia.
  - split; [easy|]. intros (k & L & U & A). destruct k as [|k].
    + cbn [skipn] in U. congruence.
    + specialize (A 0 ltac:(lia)). cbn [skipn] in A. congruence.
  - split; auto. intros _. exists 0. split; [lia|]. split; auto. lia.
Qed.

Lemma ij_no piece s :
  nonul s -> nonul piece ->
  (ij piece (cstr s) = Ok MNo <->
   fitsb piece s = false /\
   forall a c b, piece = a ++ c :: b -> length a = length s -> fitsb a s = true ->
     c = "^"%char /\ b = []).
Proof.
  intros Hs Hp. pose proof (ij_spec piece s Hs Hp) as S.
  pose proof (ij_ub piece s Hs Hp) as U. pose proof (ij_abort piece s Hs Hp) as A.
  split.
  - intros J. rewrite J in S, U, A. split; auto. intros a c b E L F.
    destruct (ascii_dec c "^") as [->|N].
    + split; auto. destruct b as [|x b]; auto. exfalso.
      assert (@Ok jres MNo = UB) as X by (apply U; exists a, (x :: b); repeat split; easy).
      discriminate X.
    + exfalso. assert (Ok MNo = Ok MAbort) as X by (apply A; exists a, c, b; auto).
      discriminate X.
  - intros [F H]. destruct (ij piece (cstr s)) as [[]|]; auto.
    + congruence.
    + exfalso. destruct (proj1 A eq_refl) as (a & c & b & E & N & L & Fi).
      now destruct (H a c b E L Fi).
    + exfalso. destruct (proj1 U eq_refl) as (a & b & E & N & L & Fi).
      now destruct (H a _ b E L Fi).
Qed.

(** A piece whose '^' comes to stand on the terminator as last character fits. *)
Lemma fitsb_last a s : length a = length s -> fitsb a s = true ->
  fitsb (a ++ ["^"%char]) s = true.
Proof.
  revert s; induction a as [|x a IH]; intros [|c s] L F; try discriminate L; auto.
  cbn [app fitsb] in *. apply andb_true_iff in F as [F1 F2]. rewrite F1.
  apply IH; auto.
Qed.

Lemma runs_out_fits url piece i a c b :
  runs_out url piece i a c b <->
  piece = a ++ c :: b /\ i < length url /\ length a = length (skipn i url) /\
  fitsb a (skipn i url) = true.
Proof.
  unfold runs_out. rewrite skipn_length. split.
  - intros (E & L & La & P). split; auto. split; auto. split; [lia|].
    apply fitsb_piece_at; auto. lia.
  - intros (E & L & La & P). split; auto. split; auto. split; [lia|].
    apply fitsb_piece_at; auto. lia.
Qed.

Lemma indexOf_ub url from piece :
  nonul url -> nonul piece ->
  (indexOfFilter (cstr url) (length url) from piece = UB <-> overread url from piece).
Proof.
  intros Hu Hp. unfold indexOfFilter, overread.
  assert ((length piece =? 1) && beq piece (B "^") = beq piece (B "^")) as ->.
  { destruct (beq_spec piece (B "^")) as [->|N]; auto. apply andb_false_r. }
  destruct (beq_spec piece (B "^")) as [->|N1].
  { split; [easy|]. intros (_ & i & a & b & _ & (E & _) & Nb & _).
    destruct a as [|x a]; [now injection E as <-|]. injection E as _ E.
    now destruct a. }
  destruct ((length url <? from) || (length url - from <? length piece)) eqn:G.
  { split; [easy|]. intros (L & i & a & b & I1 & (E & I2 & _) & _).
    apply orb_true_iff in G. rewrite !Nat.ltb_lt in G. lia. }
  apply orb_false_iff in G. rewrite !Nat.ltb_ge in G.
  rewrite skipn_cstr by lia. rewrite <- skipn_length.
  assert (forall k, nonul (skipn k url)) as Hk by (intros; now apply nonul_skipn).
  rewrite io_ub by auto. split.
  - intros (k & L & U & A). rewrite skipn_length in L. split; [lia|].
    rewrite skipn_skipn in U. apply ij_ub in U as (a & b & E & Nb & La & F); auto.
    exists (k + from), a, b. split; [lia|]. split.
    { apply runs_out_fits. repeat split; auto. lia. }
    split; auto. intros j J1 J2. specialize (A (j - from) ltac:(lia)).
    rewrite skipn_skipn in A. replace (j - from + from) with j in A by lia.
    apply ij_no in A as [A1 A2]; auto. split.
    + rewrite <- fitsb_piece_at by lia. congruence.
    + intros a' c b' R. apply runs_out_fits in R as (R1 & R2 & R3 & R4).
      now destruct (A2 a' c b').
  - intros (L & i & a & b & I1 & R & Nb & A). pose proof R as R0.
    apply runs_out_fits in R0 as (R1 & R2 & R3 & R4).
    (* the first offset whose inner loop runs out *)
    assert (exists k, k < length url - from /\ ij piece (cstr (skipn (k + from) url)) = UB /\
              (forall j, j < k -> ij piece (cstr (skipn (j + from) url)) <> UB) /\
              k + from <= i) as (k & K1 & K2 & K3 & K4).
    { assert (ij piece (cstr (skipn i url)) = UB) as Ui
        by (apply ij_ub; auto; exists a, b; auto).
      clear A R R3 R4. remember (i - from) as d eqn:Ed.
      assert (i = d + from) as -> by lia. clear Ed I1.
      induction d as [d IH] using lt_wf_ind.
      destruct (existsb (fun j => match ij piece (cstr (skipn (j + from) url)) with
                                  | UB => true | _ => false end) (seq 0 d)) eqn:X.
      - apply existsb_exists in X as (j & J1 & J2). apply in_seq in J1.
        destruct (ij piece (cstr (skipn (j + from) url))) eqn:J3; [easy|].
        destruct (IH j) as (k & K); auto; try lia. exists k.
        destruct K as (K1 & K2 & K3 & K4). repeat split; auto. lia.
      - exists d. split; [lia|]. split; auto. split; [|lia].
        intros j Hj Uj. rewrite existsb_false in X.
        specialize (X j ltac:(apply in_seq; lia)). cbv beta in X. now rewrite Uj in X. }
    exists k. rewrite skipn_length. split; auto. rewrite skipn_skipn. split; auto.
    intros j Hj. rewrite skipn_skipn. specialize (K3 j Hj).
    destruct (A (j + from) ltac:(lia) ltac:(lia)) as [A1 A2].
    apply ij_no; auto. rewrite <- fitsb_piece_at in A1 by lia.
    split; [now apply not_true_is_false|]. intros a' c b' E La F.
    assert (c = "^"%char) as ->.
    { apply (A2 a' c b'). apply runs_out_fits. repeat split; auto. lia. }
    split; auto. destruct b' as [|x b']; auto. exfalso. apply K3.
    apply ij_ub; auto. exists a', (x :: b'). repeat split; easy.
Qed.

(** ** The pair test *)
Lemma pairs_split (p q : bytes) :
  In q (pairs p) <-> exists l x y r, q = [x; y] /\ p = l ++ x :: y :: r.
Proof.
  rewrite pairs_spec. split.
  - intros (j & x & y & -> & E1 & E2).
    apply nth_error_split in E1 as (l & r & -> & <-).
    rewrite nth_error_app2 in E2 by lia.
    replace (S (length l) - length l) with 1 in E2 by lia. cbn in E2.
    destruct r as [|z r]; [easy|]. injection E2 as ->. exists l, x, y, r. auto.
  - intros (l & x & y & r & -> & ->). exists (length l), x, y. split; auto.
    rewrite !nth_error_app2 by lia. replace (length l - length l) with 0 by lia.
    replace (S (length l) - length l) with 1 by lia. auto.
Qed.

Lemma removelast_pairs (p l : bytes) x y (r : bytes) :
  removelast p = l ++ x :: y :: r <->
  exists r', p = l ++ x :: y :: r' /\ r' <> [] /\ r = removelast r'.
Proof.
  split.
  - intros E. destruct p as [|z p] using rev_ind.
    { destruct l; discriminate E. }
    rewrite removelast_last in E. subst p. exists (r ++ [z]).
    rewrite <- app_assoc. cbn [app]. rewrite removelast_last. repeat split; auto.
    now destruct r.
  - intros (r' & -> & N & ->). rewrite removelast_app by easy.
    f_equal. cbn [removelast]. destruct r'; easy.
Qed.

Lemma part_pairs_searched E bf piece :
  part_pairs_ok (e_hash2 E) bf piece = true <-> searched E bf piece.
Proof.
  unfold searched. destruct bf as [b|]; [|cbn; split; easy].
  cbn [part_pairs_ok]. rewrite forallb_forall. split.
  - intros H b' [= <-] l x y r E1 N.
    assert (In [x; y] (pairs (removelast piece))) as I.
    { apply pairs_split. exists l, x, y, (removelast r). split; auto.
      apply removelast_pairs. exists r. auto. }
    specialize (H _ I). rewrite orb_true_iff in H. cbn [existsb] in H.
    rewrite orb_false_r, orb_true_iff, !isSeparatorChar_spec in H. tauto.
  - intros H pr I. apply pairs_split in I as (l & x & y & r & -> & E1).
    apply removelast_pairs in E1 as (r' & E1 & N & _).
    rewrite orb_true_iff. cbn [existsb].
    rewrite orb_false_r, orb_true_iff, !isSeparatorChar_spec.
    destruct (H b eq_refl l x y r' E1 N); tauto.
Qed.

(** ** The loop over the pieces *)
Lemma first_found_findp url from piece i :
  first_found url from piece i <->
  exists k, findp url from piece = Some k /\ i = k + from.
Proof.
  split.
  - intros [F1 F2]. destruct (findp url from piece) as [k|] eqn:F.
    + apply findp_some in F as [G1 G2]. exists k. split; auto.
      specialize (F2 _ G1). specialize (G2 _ F1). lia.
    + now apply findp_none with (i := i) in F.
  - intros (k & F & ->). apply findp_some in F as [G1 G2]. split; auto.
Qed.

Lemma wild_ub E bf url parts from :
  nonul url -> (forall p, In p parts -> nonul p) -> pairs_held E bf url ->
  (wild (e_hash2 E) bf parts [NUL] (cstr url) (length url) from = UB <->
   overreads (searched E bf) url from parts).
Proof.
  intros Hu Hp Hb. revert from Hp. induction parts as [|p more IH]; intros from Hp.
  { cbn. split; [easy|]. intros H. inversion H. }
  assert (nonul p) as Np by (apply Hp; cbn; auto).
  assert (forall from, wild (e_hash2 E) bf more [NUL] (cstr url) (length url) from = UB <->
            overreads (searched E bf) url from more) as IH'
    by (intros f0; apply IH; intros; apply Hp; cbn; auto).
  clear IH.
  assert (
    (if negb (part_pairs_ok (e_hash2 E) bf p) then Ok false
     else r <- indexOfFilter (cstr url) (length url) from p ;;
        match r with
        | None => Ok false
        | Some k =>
            match more with
            | [] => Ok true
            | _ =>
                c <- rd (cstr url) (k + from) ;;
                if ceq c NUL then Ok true
                else wild (e_hash2 E) bf more [NUL] (cstr url) (length url)
                          (k + from + length p)
            end
        end) = UB <-> overreads (searched E bf) url from (p :: more)) as K.
  { pose proof (indexOf_ub url from p Hu Np) as U.
    pose proof (indexOfFilter_spec url from p Hu Np) as S.
    pose proof (part_pairs_searched E bf p) as PS.
    assert (forall i, first_found url from p i ->
              part_pairs_ok (e_hash2 E) bf p = true) as PF.
    { intros i [F _]. destruct bf as [b|]; auto. eapply part_pairs_found; eauto.
      now apply pairs_held_covers. }
    assert (overread url from p -> forall i, ~ first_found url from p i) as X.
    { intros O i F. apply first_found_findp in F as (k & F & _).
      pose proof (findp_some _ _ _ _ F) as [[F1 [F2 [F3 [F4 F5]]]] F6].
      destruct O as (L & o & a & b & O1 & O2 & Nb & O3).
      destruct (Nat.lt_ge_cases (k + from) o) as [Q|Q].
      - now destruct (O3 (k + from) F1 Q).
      - destruct O2 as (-> & O4 & O5 & _). destruct F3 as [F3 _].
        rewrite app_length in F3. cbn [length] in F3. destruct b; [easy|].
        cbn [length] in F3. lia. }
    split.
    - destruct (part_pairs_ok (e_hash2 E) bf p) eqn:PP; cbn [negb]; [|easy].
      destruct (indexOfFilter (cstr url) (length url) from p) as [[k|]|] eqn:I;
        cbn [bind]; try easy.
      + destruct more as [|m more0] eqn:Em; [easy|]. rewrite <- Em in *.
        symmetry in S. pose proof (findp_lt _ _ _ _ S) as L.
        destruct (rd_url url (k + from) Hu L) as (c & -> & N). cbn [bind].
        destruct (ceq_spec c NUL); [easy|]. intros W. apply IH' in W.
        eapply or_next; eauto. apply first_found_findp. eauto.
      + intros _. apply or_here; [now apply PS|now apply U].
    - intros O. inversion O as [from' p' more' O1 O2|from' p' i more' O1 O2]; subst.
      + apply PS in O1. rewrite O1. cbn [negb]. apply U in O2. now rewrite O2.
      + rewrite (PF i O1). cbn [negb].
        assert (indexOfFilter (cstr url) (length url) from p <> UB) as Nu.
        { intros Q. apply U in Q. now apply (X Q i). }
        destruct (indexOfFilter (cstr url) (length url) from p) as [o|]; [|easy].
        apply first_found_findp in O1 as (k & F & ->). rewrite F in S. subst o.
        cbn [bind]. destruct more as [|m more0] eqn:Em; [inversion O2|].
        rewrite <- Em in *. pose proof (findp_lt _ _ _ _ F) as L.
        destruct (rd_url url (k + from) Hu L) as (c & -> & N). cbn [bind].
        destruct (ceq_spec c NUL); [easy|]. now apply IH'. }
  cbn [wild]. destruct p as [|pc p0]; [destruct more as [|m more0]|].
  - clear K. cbn. split; [easy|]. intros O. exfalso.
    inversion O as [from' p' more' O1 O2|from' p' i more' O1 O2]; subst.
    + destruct O2 as (_ & i & a & b & _ & (Q & _) & _). now destruct a.
    + inversion O2.
  - cbn [bind negb]. exact K.
  - cbn [bind negb]. exact K.
Qed.

(** ** [Filter::matches] *)
Lemma matches_ub E f url context dom bf host d :
  nonul url -> f_data f = Some (d, [NUL]) -> nonul d -> host_arg url host ->
  pairs_held E bf url ->
  (filter_matches E f (cstr url) (length url) context dom bf host = UB <->
   matchesOptions f context dom = true /\ unanchored f /\ hostchk f url = true /\
   overreads (searched E bf) url 0 (split_on "*" d)).
Proof.
  intros Hu Hd Nd Hh Hb. unfold filter_matches, unanchored. rewrite Hd.
  destruct (matchesOptions f context dom); cbn [negb]; [|split; easy].
  destruct (has (f_type f) FTRegex) eqn:R.
  { rewrite strlen_cstr by auto. cbn [bind]. split; [easy|intuition congruence]. }
  destruct (has (f_type f) FTRightAnchored) eqn:RA.
  { rewrite andb_true_r. split; [|intuition congruence].
    destruct (has (f_type f) FTLeftAnchored).
    - unfold cstr. now rewrite strcmp_eq_app by auto.
    - destruct (Nat.ltb_spec (length url) (length d)); [easy|].
      rewrite skipn_cstr by lia. unfold cstr. rewrite strcmp_eq_app; auto; [easy|].
      now apply nonul_skipn. }
  rewrite andb_false_r.
  destruct (has (f_type f) FTLeftAnchored) eqn:LA.
  { split; [|intuition congruence]. unfold cstr. now rewrite strncmp_eq_app by auto. }
  assert (
    (if has (f_type f) FTHostAnchored
     then cur <- match host with [] => getUrlHost (cstr url) | _ => Ok host end;;
          (if negb (host_pairs_ok (e_hash2 E) bf
                     match f_host f with Some h => h | None => [] end)
           then Ok false
           else Ok (negb (isThirdPartyHost
                     match f_host f with Some h => h | None => [] end cur)))
     else Ok true) = Ok (hostchk f url)) as G.
  { unfold hostchk. destruct (has (f_type f) FTHostAnchored); auto.
    cbn [negb orb]. unfold hkey.
    replace (match host with [] => getUrlHost (cstr url) | _ => Ok host end)
      with (Ok (hostOf url)).
    - cbn [bind]. destruct (isThirdPartyHost _ (hostOf url)) eqn:T3.
      + now destruct (negb (host_pairs_ok _ _ _)).
      + destruct bf as [b|]; auto. rewrite (host_pairs_covered _ _ _ url); auto.
        now apply pairs_held_covers.
    - apply host_arg_hostOf in Hh as [->| ->]; [now rewrite getUrlHost_cstr|].
      destruct (hostOf url) eqn:E1; auto. now rewrite getUrlHost_cstr, E1. }
  cbv zeta. rewrite (bind_Ok_eq _ _ _ G).
  destruct (hostchk f url); cbn [negb]; [|split; [easy|intuition congruence]].
  rewrite wild_ub; auto; [tauto|]. intros p. now apply split_on_nonul.
Qed.

(** Any rule that comes from a line. *)
Lemma wf_ub E f url context dom bf host :
  wf_rule f -> nonul url -> host_arg url host -> pairs_held E bf url ->
  (filter_matches E f (cstr url) (length url) context dom bf host = UB <->
   exists d, f_data f = Some (d, [NUL]) /\
   matchesOptions f context dom = true /\ unanchored f /\ hostchk f url = true /\
   overreads (searched E bf) url 0 (split_on "*" d)).
Proof.
  intros W Hu Hh Hb. destruct (f_data f) as [[d t]|] eqn:Hd.
  - destruct (wf_nonul f d t W Hd) as [Td ->].
    rewrite (matches_ub E f url context dom bf host d); auto using line_text_nonul.
    split; [intros H; exists d; auto|].
    intros (d' & Q & H). assert (d' = d) as -> by congruence. auto.
  - rewrite filter_matches_null by auto. split; [easy|]. now intros (d & Q & _).
Qed.

Lemma rule_ub E pres r f b url uh h pieces context dom bf host :
  good_rule r ->
  parse_filter pres (cstr (rule_line r)) (length (rule_line r)) = Ok (f, b) ->
  body_host (x_body r) h -> pieces_of (x_body r) pieces ->
  nonul url -> url_has_host url uh -> host_arg url host -> pairs_held E bf url ->
  (filter_matches E f (cstr url) (length url) context dom bf host = UB <->
   matchesOptions f context dom = true /\
   x_anchor r <> LeftBar /\ x_right r = false /\
   (x_anchor r = HostBars -> first_party h uh) /\
   overreads (searched E bf) url 0 pieces).
Proof.
  intros G HP Bh P Hu Huh Hh Hb.
  pose proof (rule_shape pres r f b G HP) as Sh.
  destruct (shape_fields pres r) as (F1 & F2 & F3 & _).
  assert (f_data f = Some (x_body r, [NUL])) as Hd by (rewrite Sh; apply F2).
  rewrite (matches_ub E f url context dom bf host (x_body r)); auto.
  2:{ eapply rule_body_text; eauto. }
  rewrite (rule_unanchored pres r f b G HP).
  apply pieces_of_unique in P as ->.
  assert (hostchk f url = true <-> (x_anchor r = HostBars -> first_party h uh)) as ->;
    [|tauto].
  unfold hostchk. rewrite Sh, F1.
  destruct (shape_anchor_bits r) as (_ & _ & A3). rewrite A3.
  destruct (x_anchor r) eqn:A; cbn [negb orb]; try (split; [discriminate|reflexivity]).
  unfold hkey. rewrite F3. unfold shape_host. rewrite A.
  rewrite negb_true_iff, isThirdPartyHost_spec, (hostOf_spec _ _ Huh).
  rewrite (body_host_prefix _ _ Bh). split; auto.
Qed.

(** No overread if nothing of a piece in front of an inner '^' fits the end of
    the URL. *)
Lemma overreads_ends sch url from pieces :
  overreads sch url from pieces ->
  exists p a b i, In p pieces /\ p = a ++ B "^" ++ b /\ a <> [] /\ b <> [] /\
    i + length a = length url /\ piece_at a url i.
Proof.
  intros H. induction H as [from p more _ (_ & i & a & b & _ & (E & L & La & P) & Nb & _)
                           |from p i more _ _ IH].
  - exists p, a, b, i. repeat split; auto; try apply P.
    + cbn. auto.
    + intros ->. cbn in La. lia.
  - destruct IH as (q & a & b & j & I & R). exists q, a, b, j.
    split; [cbn; auto|auto].
Qed.

(** ** '^' at the end of a pattern, and inside it *)
Lemma piece_at_app p q url i :
  piece_at (p ++ q) url i <-> piece_at p url i /\ piece_at q url (i + length p).
Proof.
  unfold piece_at. rewrite app_length. split.
  - intros [L H]. split; (split; [lia|]); intros j pc Hj.
    + apply H. rewrite nth_error_app1; auto. apply nth_error_Some. congruence.
    + rewrite <- Nat.add_assoc. apply H. rewrite nth_error_app2 by lia.
      now replace (length p + j - length p) with j by lia.
  - intros [[L1 H1] [L2 H2]]. split; [lia|]. intros j pc Hj.
    destruct (Nat.lt_ge_cases j (length p)) as [L|L].
    + rewrite nth_error_app1 in Hj by auto. auto.
    + rewrite nth_error_app2 in Hj by auto. specialize (H2 _ _ Hj).
      now replace (i + length p + (j - length p)) with (i + j) in H2 by lia.
Qed.

Lemma piece_at_one c url i :
  piece_at [c] url i <-> i <= length url /\ char_fits c (nth_error url i).
Proof.
  unfold piece_at. cbn [length]. split.
  - intros [L H]. split; [lia|]. specialize (H 0 c eq_refl).
    now rewrite Nat.add_0_r in H.
  - intros [L H]. split; [lia|]. intros [|j] pc Hj; [|now destruct j].
    injection Hj as <-. now rewrite Nat.add_0_r.
Qed.

Lemma occurs_caret t a b :
  char_fits "^" (nth_error (a ++ t ++ b) (length a + length t)) <->
  b = [] \/ exists c b', b = c :: b' /\ In c separators.
Proof.
  rewrite app_assoc, nth_error_app2 by (rewrite app_length; lia).
  rewrite app_length, Nat.sub_diag. destruct b as [|c b]; cbn [nth_error char_fits].
  - split; auto.
  - split.
    + intros [<-|[_ H]]; right; eexists; eexists; split; eauto. cbn. tauto.
    + intros [[=]|(c' & b' & [= <- <-] & H)]; auto.
Qed.

Lemma trailing_exact t url :
  plain t -> t <> [] ->
  (pieces_found url 0 [t ++ B "^"] <->
   (exists a c b, url = a ++ t ++ c :: b /\ In c separators) \/
   (exists a, a <> [] /\ url = a ++ t)).
Proof.
  intros [_ P] Nt. assert (0 < length t) as Lt by (destruct t; [easy|cbn; lia]).
  split.
  - intros H. inversion H as [|from Q|from piece i more F _]; subst.
    { destruct t; [easy|discriminate]. }
    destruct F as (_ & F2 & F3 & _ & F5).
    change (B "^") with ["^"%char] in F3, F5.
    apply piece_at_app in F3 as [F3 F4]. apply piece_at_one in F4 as [F4 F6].
    apply plain_piece_at in F3; auto. destruct F3 as [(a & b & -> & <-)|[-> _]]; [|easy].
    apply occurs_caret in F6. destruct F6 as [->|(c & b' & -> & S)].
    + right. exists a. rewrite app_nil_r. split; auto. intros ->.
      rewrite !app_length in F5. cbn in F5. lia.
    + left. exists a, c, b'. auto.
  - intros H.
    assert (exists a b, url = a ++ t ++ b /\ (b = [] -> a <> []) /\
              (b = [] \/ exists c b', b = c :: b' /\ In c separators))
      as (a & b & -> & Na & Hb).
    { destruct H as [(a & c & b & -> & S)|(a & Na & ->)].
      - exists a, (c :: b). split; auto. split; [easy|]. right. eauto.
      - exists a, []. rewrite app_nil_r. auto. }
    apply pf_cons with (i := length a); [|constructor].
    split; [lia|]. rewrite !app_length. split; [lia|].
    change (B "^") with ["^"%char]. split.
    + apply piece_at_app. split.
      * apply plain_piece_at; auto. left. exists a, b. auto.
      * apply piece_at_one. rewrite !app_length. split; [lia|]. now apply occurs_caret.
    + split.
      * intros Q. apply (f_equal (@length _)) in Q. rewrite app_length in Q.
        cbn in Q. lia.
      * cbn [length]. intros Q. destruct b; [|cbn in Q; lia].
        destruct a; [now destruct Na|cbn; lia].
Qed.

Lemma middle_exact t u url :
  plain t -> plain u -> u <> [] ->
  (pieces_found url 0 [t ++ B "^" ++ u] <->
   exists a c b, url = a ++ t ++ c :: u ++ b /\ In c separators).
Proof.
  intros [_ Pt] [_ Pu] Nu. assert (0 < length u) as Lu by (destruct u; [easy|cbn; lia]).
  change (B "^") with ["^"%char]. split.
  - intros H. inversion H as [|from Q|from piece i more F _]; subst.
    { destruct t; discriminate. }
    destruct F as (_ & F2 & F3 & _ & _).
    apply piece_at_app in F3 as [F3 F4].
    apply (piece_at_app ["^"%char] u) in F4 as [F4 F5]. apply piece_at_one in F4 as [F4 F6].
    cbn [length] in F5.
    apply plain_piece_at in F5; auto. destruct F5 as [(x & b & E & L)|[-> _]]; [|easy].
    assert (i + length t < length url) as L2.
    { rewrite E, !app_length. lia. }
    apply plain_piece_at in F3; auto. destruct F3 as [(a & y & E2 & L3)|[-> F3]]; [|lia].
    rewrite E2, <- L3 in F6. apply occurs_caret in F6.
    destruct F6 as [->|(c & y' & -> & S)].
    { rewrite E2, !app_length in L2. cbn in L2. lia. }
    exists a, c, b. split; auto. rewrite E2. do 2 f_equal.
    rewrite E2 in E. rewrite app_assoc in E.
    assert ((a ++ t) ++ c :: y' = (a ++ t ++ [c]) ++ y') as Q
      by now rewrite <- !app_assoc.
    rewrite Q in E.
    assert (length (a ++ t ++ [c]) = length x) as LL.
    { rewrite L, !app_length. cbn. lia. }
    apply app_eq_len in E as [_ E]; auto. now rewrite E.
  - intros (a & c & b & -> & S). apply pf_cons with (i := length a); [|constructor].
    split; [lia|]. rewrite !app_length. cbn [length]. rewrite app_length.
    split; [lia|]. split.
    + apply piece_at_app. split.
      * apply plain_piece_at; auto. left. exists a, (c :: u ++ b). auto.
      * apply (piece_at_app ["^"%char] u). split.
        -- apply piece_at_one. split; [rewrite !app_length; cbn; lia|].
           apply occurs_caret. right. eauto.
        -- cbn [length]. apply plain_piece_at; auto. left.
           exists (a ++ t ++ [c]), b. split; [now rewrite <- !app_assoc|].
           rewrite !app_length. cbn. lia.
    + split; [|lia]. intros Q. apply (f_equal (@length _)) in Q.
      rewrite !app_length in Q. cbn in Q. lia.
Qed.
