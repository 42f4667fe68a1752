(** Proofs about fingerprints. *)
From Verif Require Import Base Flags Url Sets FilterM ParseM ClientM Spec P_Base
  P_Url P_Match P_Rule.

(** ** strstr *)
Fixpoint find_sub (s needle : bytes) : option nat :=
  if prefixb needle s then Some 0
  else match s with
       | [] => None
       | _ :: s' => option_map S (find_sub s' needle)
       end.

Lemma prefixb_cstr n s : nonul n -> prefixb n (cstr s) = prefixb n s.
Proof.
  revert s; induction n as [|x n IH]; intros s H; [now destruct s|].
  apply nonul_cons in H as [H1 H2]. destruct s as [|c s].
  - cbn. destruct (ceq_spec x NUL); [easy|reflexivity].
  - cbn. unfold cstr in IH. now rewrite IH.
Qed.

Lemma strstr_cstr s needle :
  nonul s -> nonul needle -> strstr (cstr s) needle = Ok (find_sub s needle).
Proof.
  intros Hs Hn. induction s as [|c s IH].
  - change (strstr (cstr []) needle) with
      (if prefixb needle (cstr []) then Ok (Some 0) else Ok (@None nat)).
    rewrite prefixb_cstr by auto. cbn [find_sub].
    now destruct (prefixb needle []).
  - apply nonul_cons in Hs as [H1 H2].
    change (cstr (c :: s)) with (c :: cstr s). cbn [strstr].
    change (c :: cstr s) with (cstr (c :: s)). rewrite prefixb_cstr by auto.
    cbn [find_sub]. destruct (prefixb needle (c :: s)); auto.
    destruct (ceq_spec c NUL); [easy|]. now rewrite IH.
Qed.

Lemma find_sub_some s n k :
  find_sub s n = Some k ->
  (exists a b, s = a ++ n ++ b /\ length a = k) /\
  (forall a b, s = a ++ n ++ b -> k <= length a).
Proof.
  revert k; induction s as [|c s IH]; intros k H; cbn [find_sub] in H.
  - destruct (prefixb n []) eqn:P; [|discriminate]. injection H as <-.
    apply prefixb_spec in P as [r P]. split; [|lia]. exists [], r. auto.
  - destruct (prefixb n (c :: s)) eqn:P.
    + injection H as <-. apply prefixb_spec in P as [r P]. split; [|lia].
      exists [], r. auto.
    + destruct (find_sub s n) as [j|]; [|discriminate]. injection H as <-.
      destruct (IH j eq_refl) as [(a & b & E1 & E2) H2]. split.
      * exists (c :: a), b. cbn. rewrite E1 at 1. auto.
      * intros a' b' E. destruct a' as [|x a'].
        -- cbn [app] in E. rewrite E in P.
           assert (prefixb n (n ++ b') = true) by (apply prefixb_spec; eauto).
           congruence.
        -- cbn in E. injection E as -> E. apply H2 in E. cbn. lia.
Qed.

Lemma find_sub_none s n a b : find_sub s n = None -> s <> a ++ n ++ b.
Proof.
  revert a; induction s as [|c s IH]; intros a H E; cbn [find_sub] in H.
  - destruct a; [|discriminate]. cbn [app] in E. rewrite E in H.
    destruct n; [discriminate|]. discriminate E.
  - destruct (prefixb n (c :: s)) eqn:P; [discriminate|].
    destruct (find_sub s n) eqn:F; [discriminate|].
    destruct a as [|x a].
    + cbn [app] in E. rewrite E in P.
      assert (prefixb n (n ++ b) = true) by (apply prefixb_spec; eauto).
      congruence.
    + cbn in E. injection E as -> E. now apply (IH a).
Qed.

(** Occurrence inside the first [m] bytes. *)
Definition sub_within (s sub : bytes) (m : nat) : bool :=
  match find_sub s sub with Some k => k + length sub <=? m | None => false end.

Lemma sub_within_spec s sub m :
  m <= length s ->
  sub_within s sub m = true <-> substring sub (firstn m s).
Proof.
  intros Hm. unfold sub_within. split.
  - destruct (find_sub s sub) as [k|] eqn:F; [|discriminate].
    intros L. apply Nat.leb_le in L. apply find_sub_some in F as [(a & b & E1 & E2) _].
    exists a, (firstn (m - k - length sub) b). rewrite E1.
    rewrite !firstn_app. rewrite (firstn_all2 a) by lia. f_equal.
    rewrite (firstn_all2 sub) by lia. f_equal. f_equal. lia.
  - intros (a & b & E).
    assert (s = a ++ sub ++ (b ++ skipn m s)) as E2.
    { rewrite <- (firstn_skipn m s) at 1. rewrite E. now rewrite <- !app_assoc. }
    destruct (find_sub s sub) as [k|] eqn:F.
    + apply find_sub_some in F as [_ H]. apply H in E2. apply Nat.leb_le.
      pose proof (f_equal (@length ascii) E) as L.
      rewrite firstn_length, !app_length in L. lia.
    + exfalso. eapply find_sub_none; eauto.
Qed.

Lemma nonul_http : nonul (B "http"). Proof. now apply nonulb_ok. Qed.
Lemma nonul_www : nonul (B "www"). Proof. now apply nonulb_ok. Qed.

Lemma hasBad_cstr s m :
  nonul s ->
  hasBadSubstring badSubstrings (cstr s) m =
  Ok (sub_within s (B "http") m || sub_within s (B "www") m).
Proof.
  intros H. unfold badSubstrings. cbn [hasBadSubstring].
  rewrite !strstr_cstr by (auto using nonul_http, nonul_www). cbn [bind].
  unfold sub_within.
  destruct (find_sub s (B "http")) as [k|].
  - destruct (_ <=? m); auto. cbn [orb].
    destruct (find_sub s (B "www")); auto. now destruct (_ <=? m).
  - cbn [orb]. destruct (find_sub s (B "www")); auto. now destruct (_ <=? m).
Qed.

Lemma isFingerprintChar_spec c :
  isFingerprintChar c = true <-> ~ In c fp_special.
Proof.
  unfold isFingerprintChar, fp_special. cbn.
  rewrite !andb_true_iff, !negb_true_iff, !ceq_neq. intuition congruence.
Qed.

(** Windows starting at the head of [s]. *)
Definition fp_here (bads : list bytes) (s : bytes) : Prop :=
  exists w r, s = w ++ r /\ good_fp bads w.

Lemma isBad_spec bads w :
  nonul w -> isBadFingerprint bads w = true <->
             exists bad r, In bad bads /\ bad = w ++ r.
Proof.
  intros H. unfold isBadFingerprint. rewrite existsb_exists. split.
  - intros (bad & I & P). rewrite prefixb_cstr in P by auto.
    apply prefixb_spec in P as [r P]. eauto.
  - intros (bad & r & I & E). exists bad. split; auto.
    rewrite prefixb_cstr by auto. apply prefixb_spec. eauto.
Qed.

Lemma app_eq_len {A} (a b c d : list A) :
  a ++ b = c ++ d -> length a = length c -> a = c /\ b = d.
Proof.
  revert c; induction a as [|x a IH]; intros [|y c] E L; try discriminate; auto.
  cbn in E, L. injection E as -> E. apply IH in E as [-> ->]; auto.
Qed.

Lemma substring_trans a b c : substring a b -> substring b c -> substring a c.
Proof.
  intros (p & q & ->) (r & s & ->). exists (r ++ p), (q ++ s).
  now rewrite <- !app_assoc.
Qed.

Lemma firstn_substring {A} n m (s : list A) :
  n <= m -> exists r, firstn m s = firstn n s ++ r.
Proof.
  intros H. exists (firstn (m - n) (skipn n s)).
  replace m with (n + (m - n)) at 1 by lia. generalize (m - n). clear m H. intros m.
  revert s. induction n as [|n IH]; intros s; [reflexivity|].
  destruct s; cbn. { now rewrite firstn_nil. }
  f_equal. apply IH.
Qed.

(** One attempt. *)
Lemma gf_window_spec bads s todo size :
  nonul s -> size + todo = 6 -> size <= length s -> todo > 0 ->
  (forall i c, i < size -> nth_error s i = Some c -> ~ In c fp_special) ->
  ~ substring (B "http") (firstn size s) -> ~ substring (B "www") (firstn size s) ->
  exists r, gf_window bads (cstr s) size todo = Ok r /\
    match r with
    | WEnd => length s < 6
    | WSkip k => 1 <= k <= 6 /\ k <= length s /\
        exists c, nth_error s (k - 1) = Some c /\ In c fp_special
    | WNext => s <> [] /\ ~ fp_here bads s
    | WFound fp => good_fp bads fp /\ exists r, s = fp ++ r
    end.
Proof.
  intros Hs. revert size. induction todo as [|todo IH]; intros size Ht Hl Hp Hc Hh Hw.
  { lia. }
  cbn [gf_window].
  destruct (Nat.eq_dec size (length s)) as [->|N].
  { unfold cstr. rewrite <- (Nat.add_0_r (length s)), rd_app2. cbn.
    exists WEnd. split; auto. lia. }
  assert (size < length s) as L by lia.
  unfold cstr at 1. rewrite rd_app1 by auto.
  destruct (nth_error s size) as [c|] eqn:En.
  2:{ apply nth_error_None in En. lia. }
  unfold rd. rewrite En. cbn [bind].
  assert (c <> NUL) as Nc by (eapply nonul_in; eauto using nth_error_In).
  destruct (ceq_spec c NUL); [easy|].
  destruct (isFingerprintChar c) eqn:FC; cbn [negb].
  2:{ exists (WSkip (S size)). split; auto. split; [lia|]. split; [lia|].
      exists c. cbn [Nat.sub]. rewrite Nat.sub_0_r. split; auto.
      destruct (in_dec ascii_dec c fp_special) as [I|I]; auto.
      apply isFingerprintChar_spec in I. congruence. }
  rewrite hasBad_cstr by auto. cbn [bind].
  assert (forall sub, sub_within s sub (size + 1) = true ->
            sub = B "http" \/ sub = B "www" -> s <> [] /\ ~ fp_here bads s) as HB.
  { intros sub SW Hsub. split; [intros ->; cbn in L; lia|].
    intros (w & r & E & G1 & G2 & G3 & G4 & G5).
    apply sub_within_spec in SW; [|lia].
    assert (substring sub w) as SW'.
    { eapply substring_trans; [apply SW|].
      assert (w = firstn 6 s) as ->.
      { rewrite E, <- G1. now rewrite firstn_app_exact. }
      destruct (firstn_substring (size + 1) 6 s) as [q ->]; [lia|].
      exists [], q. reflexivity. }
    destruct Hsub as [-> | ->]; auto. }
  destruct (sub_within s (B "http") (size + 1)) eqn:S1.
  { exists WNext. split; auto. eapply HB; eauto. }
  destruct (sub_within s (B "www") (size + 1)) eqn:S2.
  { exists WNext. split; auto. eapply HB; eauto. }
  cbn [orb].
  assert (forall sub, sub_within s sub (size + 1) = false ->
            ~ substring sub (firstn (size + 1) s)) as HG.
  { intros sub E K. apply sub_within_spec in K; [|lia]. congruence. }
  destruct todo as [|todo'].
  - assert (size = 5) as -> by lia. cbv zeta.
    replace (firstn kFingerprintSize (cstr s)) with (firstn 6 s).
    2:{ unfold cstr, kFingerprintSize. rewrite firstn_app.
        replace (6 - length s) with 0 by lia. cbn [firstn]. now rewrite app_nil_r. }
    assert (nonul (firstn 6 s)) as Nf by now apply nonul_firstn.
    destruct (isBadFingerprint bads (firstn 6 s)) eqn:EB.
    + exists WNext. split; auto. split; [intros ->; cbn in L; lia|].
      intros (w & r & E & G1 & G2 & G3 & G4 & G5).
      assert (w = firstn 6 s) as ->.
      { rewrite E, <- G1. now rewrite firstn_app_exact. }
      apply isBad_spec in EB; auto.
    + exists (WFound (firstn 6 s)). split; auto. split.
      * repeat split.
        -- rewrite firstn_length. lia.
        -- intros x I. apply In_nth_error in I as [i Hi].
           assert (i < 6) as Li.
           { assert (i < length (firstn 6 s)) by (apply nth_error_Some; congruence).
             rewrite firstn_length in H. lia. }
           assert (nth_error s i = Some x) as Hi'.
           { rewrite <- (firstn_skipn 6 s), nth_error_app1; auto.
             rewrite firstn_length. lia. }
           destruct (Nat.eq_dec i 5) as [->|Ni].
           ++ rewrite En in Hi'. injection Hi' as <-.
              now apply isFingerprintChar_spec.
           ++ apply (Hc i); auto. lia.
        -- apply HG. exact S1.
        -- apply HG. exact S2.
        -- intros K. apply isBad_spec in K; auto. congruence.
      * exists (skipn 6 s). now rewrite firstn_skipn.
  - apply IH; try lia.
    + intros i x Li Hi. destruct (Nat.eq_dec i size) as [->|].
      * rewrite En in Hi. injection Hi as <-. now apply isFingerprintChar_spec.
      * apply (Hc i); auto. lia.
    + rewrite <- Nat.add_1_r. apply HG. exact S1.
    + rewrite <- Nat.add_1_r. apply HG. exact S2.
Qed.

(** First usable window. *)
Inductive scan_fp (bads : list bytes) : bytes -> option bytes -> Prop :=
| sf_found s w r : s = w ++ r -> good_fp bads w -> scan_fp bads s (Some w)
| sf_next c s o : ~ fp_here bads (c :: s) -> scan_fp bads s o ->
    scan_fp bads (c :: s) o
| sf_nil : scan_fp bads [] None.

Lemma no_fp_short bads s : length s < 6 -> ~ fp_here bads s.
Proof.
  intros L (w & r & -> & G1 & _). rewrite app_length in L. lia.
Qed.

Lemma scan_short bads s : length s < 6 -> scan_fp bads s None.
Proof.
  induction s as [|c s IH]; intros L; [constructor|].
  apply sf_next; [now apply no_fp_short|]. apply IH. cbn in L. lia.
Qed.

Lemma scan_skip bads k s o :
  k <= length s ->
  (forall j, j < k -> ~ fp_here bads (skipn j s)) ->
  scan_fp bads (skipn k s) o -> scan_fp bads s o.
Proof.
  revert s; induction k as [|k IH]; intros s L H Sc; auto.
  destruct s as [|c s]; [cbn in L; lia|].
  apply sf_next.
  - apply (H 0). lia.
  - apply IH; auto.
    + cbn in L. lia.
    + intros j Lj. apply (H (S j)). lia.
Qed.

Lemma gf_scan_spec bads n s skip :
  nonul s -> length s <= n -> skip <= length s ->
  exists o, gf_scan bads (cstr s) skip = Ok o /\ scan_fp bads (skipn skip s) o.
Proof.
  revert s skip; induction n as [|n IH]; intros s skip Hs Ln Lk.
  - destruct s; [|cbn in Ln; lia]. destruct skip; [|cbn in Lk; lia].
    exists None. split; [reflexivity|constructor].
  - destruct skip as [|k].
    + cbn [skipn].
      destruct (gf_window_spec bads s 6 0 Hs eq_refl) as (w & E & K); try lia.
      { intros (a & b & E). destruct a; discriminate. }
      { intros (a & b & E). destruct a; discriminate. }
      destruct s as [|c s].
      { exists None. split; [reflexivity|constructor]. }
      change (cstr (c :: s)) with (c :: cstr s) in *. cbn [gf_scan].
      unfold kFingerprintSize. rewrite E. cbn [bind].
      apply nonul_cons in Hs as [Hc Hs].
      destruct w as [|k| |fp].
      * exists None. split; auto. now apply scan_short.
      * destruct K as ((K1 & K2) & K3 & x & Hx & Ix).
        destruct (IH s (k - 1)) as (o & E2 & S2); auto.
        { cbn in Ln. lia. } { cbn in K3. lia. }
        exists o. split; auto. apply scan_skip with (k := k); auto.
        -- intros j Lj (w & r & Ej & G1 & G2 & _).
           apply (G2 x); auto.
           assert (nth_error (skipn j (c :: s)) (k - 1 - j) = Some x) as Hn.
           { rewrite nth_error_skipn. now replace (j + (k - 1 - j)) with (k - 1) by lia. }
           rewrite Ej in Hn. rewrite nth_error_app1 in Hn by lia.
           eapply nth_error_In; eauto.
        -- destruct k as [|k]; [lia|]. cbn [skipn]. cbn in S2.
           now rewrite Nat.sub_0_r in S2.
      * destruct K as [_ K].
        destruct (IH s 0) as (o & E2 & S2); auto; try lia.
        { cbn in Ln. lia. }
        exists o. split; auto. apply sf_next; auto.
      * destruct K as (K1 & r & K2). exists (Some fp). split; auto.
        eapply sf_found; eauto.
    + destruct s as [|c s]; [cbn in Lk; lia|].
      change (cstr (c :: s)) with (c :: cstr s). cbn [gf_scan skipn].
      apply nonul_cons in Hs as [Hc Hs]. apply IH; auto; cbn in *; lia.
Qed.

Lemma scan_fp_some bads s w : scan_fp bads s (Some w) -> first_fp bads s w.
Proof.
  remember (Some w) as o eqn:Eo. induction 1 as [s w' r E G|c s o H Sc IH|].
  - injection Eo as ->. split; auto. exists 0. split; [|lia].
    exists [], r. auto.
  - destruct (IH Eo) as (G & i & (a & b & E1 & E2) & M). split; auto.
    exists (S i). split.
    + exists (c :: a), b. cbn. rewrite E1, E2. auto.
    + intros w' i' (a' & b' & E3 & E4) G'.
      destruct a' as [|x a'].
      * exfalso. apply H. exists w', b'. auto.
      * cbn in E3. injection E3 as -> E3. cbn in E4. subst i'.
        assert (i <= length a') by (apply (M w' (length a')); auto; exists a', b'; auto).
        lia.
  - discriminate.
Qed.

Lemma scan_fp_none bads s : scan_fp bads s None -> no_fp bads s.
Proof.
  remember None as o eqn:Eo. induction 1 as [s w' r E G|c s o H Sc IH|];
    [discriminate| |].
  - intros w (a & b & E) G. destruct a as [|x a].
    + apply H. exists w, b. auto.
    + cbn in E. injection E as -> E. apply (IH Eo w); auto. exists a, b. auto.
  - intros w (a & b & E) G. destruct G as (L & _).
    apply (f_equal (@length ascii)) in E. rewrite !app_length in E. cbn in E. lia.
Qed.

Definition fp_result (bads : list bytes) (s : bytes) (o : option bytes) : Prop :=
  match o with Some w => first_fp bads s w | None => no_fp bads s end.

Lemma getFingerprintStr_spec bads s :
  nonul s ->
  exists o, getFingerprintStr bads (cstr s) = Ok o /\ fp_result bads s o.
Proof.
  intros H. destruct (gf_scan_spec bads (length s) s 0 H (le_n _)) as (o & E & Sc).
  { lia. }
  exists o. split; auto. destruct o as [w|].
  - now apply scan_fp_some.
  - now apply scan_fp_none.
Qed.

(** A parsed rule. *)
Lemma getFingerprint_spec E f d :
  has (f_type f) FTRegex = false -> f_data f = Some (d, [NUL]) -> nonul d ->
  (has (f_type f) FTHostAnchored = true ->
     exists h, f_host f = Some h /\ length h <= length d) ->
  exists o, getFingerprint E f = Ok o /\
    (if has (f_type f) FTHostAnchored
     then (exists w, o = Some w /\
                     first_fp (e_bads E) (skipn (length (hkey f)) d) w) \/
          (no_fp (e_bads E) (skipn (length (hkey f)) d) /\ fp_result (e_bads E) d o)
     else fp_result (e_bads E) d o).
Proof.
  intros R Hd Nd Hh. unfold getFingerprint. rewrite R, Hd.
  destruct (getFingerprintStr_spec (e_bads E) d Nd) as (o & E1 & F1).
  destruct (has (f_type f) FTHostAnchored).
  - destruct (Hh eq_refl) as (h & Eh & Lh). rewrite Eh. unfold hkey. rewrite Eh.
    change (d ++ [NUL]) with (cstr d). rewrite skipn_cstr by auto.
    destruct (getFingerprintStr_spec (e_bads E) (skipn (length h) d)) as (o2 & E2 & F2).
    { now apply nonul_skipn. }
    rewrite E2. cbn [bind]. destruct o2 as [w|].
    + exists (Some w). split; auto. left. eauto.
    + rewrite E1. exists o. split; auto.
  - cbn [bind]. change (d ++ [NUL]) with (cstr d). rewrite E1. eauto.
Qed.

Lemma fp_in_data E f d fp :
  has (f_type f) FTRegex = false -> f_data f = Some (d, [NUL]) -> nonul d ->
  (has (f_type f) FTHostAnchored = true ->
     exists h, f_host f = Some h /\ length h <= length d) ->
  getFingerprint E f = Ok (Some fp) -> substring fp d /\ good_fp (e_bads E) fp.
Proof.
  intros R Hd Nd Hh H.
  destruct (getFingerprint_spec E f d R Hd Nd Hh) as (o & E1 & K).
  rewrite H in E1. injection E1 as <-.
  assert (forall s, first_fp (e_bads E) s fp ->
            substring fp s /\ good_fp (e_bads E) fp) as F.
  { intros s (G & i & (a & b & Ea & _) & _). split; auto. exists a, b. auto. }
  destruct (has (f_type f) FTHostAnchored).
  - destruct K as [(w & [= <-] & K)|[_ K]].
    + apply F in K as [(a & b & Ea) G]. split; auto.
      exists (firstn (length (hkey f)) d ++ a), b. rewrite <- app_assoc, <- Ea.
      now rewrite firstn_skipn.
    + apply F. exact K.
  - apply F. exact K.
Qed.

(** ** C04: a matching rule's fingerprint occurs in the URL *)
Lemma piece_substring piece url i fp :
  piece_at piece url i -> substring fp piece ->
  (forall c, In c fp -> c <> "^"%char) -> substring fp url.
Proof.
  intros [L H] (a & b & ->) Nc.
  assert (fp = [] \/ firstn (length fp) (skipn (i + length a) url) = fp) as K.
  { destruct fp as [|c0 fp0] eqn:Efp; [auto|]. rewrite <- Efp in *. right.
    apply nth_ext with (d := NUL) (d' := NUL).
    - rewrite firstn_length, skipn_length.
      assert (i + length a + length fp <= length url); [|lia].
      assert (exists c, nth_error fp (length fp - 1) = Some c) as [c Hc].
      { destruct (nth_error fp (length fp - 1)) eqn:E; eauto.
        apply nth_error_None in E. rewrite Efp in E. cbn in E. lia. }
      specialize (H (length a + (length fp - 1)) c).
      rewrite nth_error_app2 in H by lia.
      replace (length a + (length fp - 1) - length a) with (length fp - 1) in H by lia.
      rewrite nth_error_app1 in H by (rewrite Efp; cbn; lia).
      specialize (H Hc). unfold char_fits in H.
      destruct (nth_error url (i + (length a + (length fp - 1)))) eqn:E.
      + assert (i + (length a + (length fp - 1)) < length url)
          by (apply nth_error_Some; congruence).
        rewrite Efp in *. cbn [length] in *. lia.
      + exfalso. apply (Nc c); auto. eapply nth_error_In; eauto.
    - intros j Lj. rewrite firstn_length in Lj.
      assert (j < length fp) as Lj' by lia.
      destruct (nth_error fp j) as [c|] eqn:Ej.
      2:{ apply nth_error_None in Ej. lia. }
      rewrite (nth_error_nth fp j NUL Ej).
      specialize (H (length a + j) c).
      rewrite nth_error_app2 in H by lia.
      replace (length a + j - length a) with j in H by lia.
      rewrite nth_error_app1 in H by auto. specialize (H Ej).
      unfold char_fits in H.
      destruct (nth_error url (i + (length a + j))) as [c'|] eqn:E.
      + destruct H as [->|[H _]].
        * apply nth_error_nth. rewrite <- E.
          transitivity (nth_error (skipn (i + length a) url) j).
          -- rewrite <- (firstn_skipn (length fp) (skipn (i + length a) url)) at 2.
             rewrite nth_error_app1; auto. rewrite firstn_length. lia.
          -- rewrite nth_error_skipn. f_equal. lia.
        * exfalso. apply (Nc c); auto. eapply nth_error_In; eauto.
      + exfalso. apply (Nc c); auto. eapply nth_error_In; eauto. }
  destruct K as [->|K].
  - exists [], url. reflexivity.
  - exists (firstn (i + length a) url), (skipn (length fp) (skipn (i + length a) url)).
    rewrite <- K at 1. now rewrite firstn_skipn, firstn_skipn.
Qed.

Lemma pieces_found_in url from ps p :
  pieces_found url from ps -> In p ps -> p <> [] -> exists i, piece_at p url i.
Proof.
  induction 1 as [from|from|from piece i more F _ IH]; intros I N.
  - easy.
  - destruct I as [<-|[]]. easy.
  - destruct I as [<-|I]; auto. destruct F as (_ & _ & F & _). eauto.
Qed.

(** A window without stars lies inside one piece. *)
Lemma window_in_piece d fp :
  substring fp d -> ~ In "*"%char fp -> fp <> [] ->
  exists p, In p (split_on "*" d) /\ substring fp p.
Proof.
  intros (a & b & ->) N NE. revert fp N NE.
  induction a as [|c a IH]; intros fp N NE.
  - cbn [app].
    assert (exists w ws, split_on "*" (fp ++ b) = (fp ++ w) :: ws) as (w & ws & E).
    { clear NE. induction fp as [|x fp IH].
      - cbn. destruct (split_on "*" b) as [|w ws] eqn:E.
        + now apply split_on_nonempty in E.
        + exists w, ws. auto.
      - cbn. destruct (ceq_spec x "*") as [->|]; [exfalso; apply N; cbn; auto|].
        destruct IH as (w & ws & ->). { intros I. apply N. cbn; auto. }
        exists w, ws. auto. }
    exists (fp ++ w). rewrite E. split; [cbn; auto|]. exists [], w. auto.
  - cbn [app split_on]. destruct (IH fp N NE) as (p & I & S).
    destruct (ceq c "*").
    + exists p. cbn; auto.
    + destruct (split_on "*" (a ++ fp ++ b)) as [|w ws]; [easy|].
      destruct I as [<-|I].
      * exists (c :: w). split; [cbn; auto|]. destruct S as (x & y & ->).
        exists (c :: x), y. auto.
      * exists p. cbn; auto.
Qed.

Lemma prefix_substring fp d url :
  substring fp d -> prefixb d url = true -> substring fp url.
Proof.
  intros (a & b & ->) H. apply prefixb_spec in H as [r ->].
  exists a, (b ++ r). now rewrite <- !app_assoc.
Qed.

Lemma patb_fp E f d url fp :
  has (f_type f) FTRegex = false ->
  substring fp d -> good_fp (e_bads E) fp -> patb E f d url = true ->
  substring fp url.
Proof.
  intros R S G. unfold patb. rewrite R.
  destruct (_ && _).
  { intros H. apply beq_eq in H as <-. auto. }
  destruct (has (f_type f) FTRightAnchored).
  { intros H. apply endsWith_skipn in H as [L H].
    destruct S as (a & b & ->). exists (firstn (length url - length (a ++ fp ++ b)) url ++ a), b.
    rewrite <- app_assoc. rewrite <- H at 2. now rewrite firstn_skipn. }
  destruct (has (f_type f) FTLeftAnchored).
  { now apply prefix_substring. }
  intros H. apply andb_true_iff in H as [_ H]. apply wildb_spec in H.
  destruct G as (G1 & G2 & _).
  assert (fp <> []) as NE by (intros ->; discriminate).
  destruct (window_in_piece d fp S) as (p & I & Sp); auto.
  { intros J. apply (G2 _ J). cbn; auto. }
  destruct (pieces_found_in _ _ _ p H I) as [i Hi].
  { intros ->. destruct Sp as (a & b & Ea). destruct a, fp; easy. }
  eapply piece_substring; eauto. intros c J ->. apply (G2 _ J). cbn; auto.
Qed.
