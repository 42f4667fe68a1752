From Verif Require Import Base Flags Url Sets FilterM Spec P_Base P_Url.

(** ** One piece at one position *)
Definition cfits (pc c : ascii) : bool :=
  ceq pc c || (ceq pc "^" && isSeparatorChar c).

Fixpoint fitsb (piece s : bytes) : bool :=
  match piece with
  | [] => true
  | pc :: piece' =>
      match s with
      | c :: s' => cfits pc c && fitsb piece' s'
      | [] => ceq pc "^" && match piece' with [] => true | _ => false end
      end
  end.

Lemma cfits_spec pc c : cfits pc c = true <-> char_fits pc (Some c).
Proof.
  unfold cfits, char_fits.
  rewrite orb_true_iff, andb_true_iff, !ceq_eq, isSeparatorChar_spec. tauto.
Qed.

Lemma nth_error_skipn {A} n (s : list A) j :
  nth_error (skipn n s) j = nth_error s (n + j).
Proof.
  revert s; induction n; intros s; auto. destruct s; cbn; auto.
  now destruct j.
Qed.

Lemma fitsb_spec piece s :
  fitsb piece s = true <->
  length piece <= length s + 1 /\
  forall j pc, nth_error piece j = Some pc -> char_fits pc (nth_error s j).
Proof.
  revert s; induction piece as [|pc piece IH]; intros s.
  - cbn. split; auto. intros _. split; [lia|]. intros [|j] pc [=].
  - cbn [fitsb]. destruct s as [|c s].
    + rewrite andb_true_iff, ceq_eq. split.
      * intros [-> H]. destruct piece; [|easy]. split; [cbn; lia|].
        intros [|j] pc' E; cbn in E; [injection E as <-; reflexivity|].
        now destruct j.
      * intros [H1 H2]. split.
        -- apply (H2 0 pc eq_refl).
        -- destruct piece; auto. cbn in H1. lia.
    + rewrite andb_true_iff, cfits_spec, IH. cbn [length]. split.
      * intros [H1 [H2 H3]]. split; [lia|].
        intros [|j] pc' E; cbn in E |- *; [injection E as <-|]; auto.
      * intros [H1 H2]. split; [apply (H2 0 pc eq_refl)|]. split; [lia|].
        intros j pc' E. apply (H2 (S j) pc' E).
Qed.

Lemma fitsb_piece_at piece url i :
  i <= length url ->
  fitsb piece (skipn i url) = true <-> piece_at piece url i.
Proof.
  intros H. rewrite fitsb_spec. unfold piece_at. rewrite skipn_length.
  split; intros [H1 H2]; (split; [lia|]); intros j pc E; specialize (H2 j pc E);
    now rewrite nth_error_skipn in *.
Qed.

Lemma fitsb_long piece s : length s + 1 < length piece -> fitsb piece s = false.
Proof.
  intros H. destruct (fitsb piece s) eqn:E; auto.
  apply fitsb_spec in E as [E _]. lia.
Qed.

(** ** The inner loop *)
Fixpoint caret_safe (piece : bytes) : bool :=
  match piece with
  | [] => true
  | pc :: piece' => match piece' with
                    | [] => true
                    | _ => negb (ceq pc "^") && caret_safe piece'
                    end
  end.

Lemma caret_safe_spec piece :
  caret_safe piece = true <-> ~ interior_caret piece.
Proof.
  unfold interior_caret. cbn [B list_ascii_of_string app].
  induction piece as [|pc piece IH].
  - cbn. split; auto. intros _ (a & b & E & _). now destruct a.
  - cbn [caret_safe]. destruct piece as [|pc' piece].
    + split; auto. intros _ (a & b & E & N). destruct a as [|x a].
      * injection E as -> <-. easy.
      * injection E as -> E. now destruct a.
    + rewrite andb_true_iff, negb_true_iff, ceq_neq, IH. split.
      * intros [H1 H2] (a & b & E & N). destruct a as [|x a].
        -- injection E as -> E. easy.
        -- injection E as -> E. apply H2. exists a, b. auto.
      * intros H. split.
        -- intros ->. apply H. exists [], (pc' :: piece). split; easy.
        -- intros (a & b & E & N). apply H. exists (pc :: a), b. cbn.
           rewrite E. auto.
Qed.

Lemma ij_spec piece s :
  nonul s -> nonul piece ->
  match ij piece (cstr s) with
  | Ok MYes => fitsb piece s = true
  | Ok MNo => fitsb piece s = false
  | Ok MAbort => fitsb piece s = false /\ length s < length piece
  | UB => fitsb piece s = false /\ caret_safe piece = false
  end.
Proof.
  revert s; induction piece as [|pc piece IH]; intros s Hs Hp.
  { cbn. auto. }
  apply nonul_cons in Hp as [Hp1 Hp2].
  destruct s as [|c s].
  - cbn [cstr app ij fitsb length]. destruct (ceq_spec pc NUL); [easy|].
    rewrite ceq_refl, orb_true_r, andb_true_r.
    destruct (ceq_spec pc "^") as [->|N].
    + destruct piece as [|pc' piece]; cbn; auto.
    + split; auto. lia.
  - change (cstr (c :: s)) with (c :: cstr s).
    apply nonul_cons in Hs as [Hs1 Hs2]. cbn [ij fitsb]. unfold cfits.
    specialize (IH s Hs2 Hp2).
    assert (match ij piece (cstr s) with
      | Ok MYes => fitsb piece s = true
      | Ok MNo => fitsb piece s = false
      | Ok MAbort => fitsb piece s = false /\ length (c :: s) < length (pc :: piece)
      | UB => fitsb piece s = false /\ caret_safe (pc :: piece) = false
      end) as K.
    { destruct (ij piece _) as [[]|]; auto.
      - cbn [length]. intuition lia.
      - destruct IH as [I1 I2]. split; auto. cbn [caret_safe].
        destruct piece; [easy|]. rewrite I2. apply andb_false_r. }
    destruct (ceq pc c) eqn:E1; cbn [orb andb]; auto.
    destruct (ceq_spec c NUL); [easy|]. rewrite orb_false_r.
    destruct (ceq pc "^" && isSeparatorChar c) eqn:E2; auto.
Qed.

(** ** The outer loop *)
Fixpoint first_fit (piece s : bytes) : option nat :=
  match s with
  | [] => None
  | _ :: s' => if fitsb piece s then Some 0 else option_map S (first_fit piece s')
  end.

Lemma first_fit_long piece s : length s + 1 < length piece -> first_fit piece s = None.
Proof.
  induction s as [|c s IH]; intros H; cbn [first_fit]; auto.
  rewrite fitsb_long by auto. cbn [length] in H. rewrite IH by lia. auto.
Qed.

Lemma io_spec piece s :
  nonul s -> nonul piece ->
  match io (length s) piece (cstr s) with
  | Ok r => r = first_fit piece s
  | UB => caret_safe piece = false
  end.
Proof.
  intros Hs Hp. induction s as [|c s IH]; [reflexivity|].
  pose proof (ij_spec piece (c :: s) Hs Hp) as J.
  apply nonul_cons in Hs as [Hs1 Hs2]. specialize (IH Hs2).
  cbn [length io first_fit].
  destruct (ij piece (cstr (c :: s))) as [[]|]; cbn [bind].
  - now rewrite J.
  - rewrite J. change (cstr (c :: s)) with (c :: cstr s). cbn [tl].
    destruct (io (length s) piece (cstr s)); cbn [rmap]; now subst.
  - destruct J as [J1 J2]. rewrite J1, first_fit_long; auto.
    cbn [length] in J2. lia.
  - tauto.
Qed.

(** [indexOfFilter] without the memory side. *)
Definition findp (url : bytes) (index : nat) (part : bytes) : option nat :=
  if beq part (B "^") then None
  else if length url <? index + length part then None
  else first_fit part (skipn index url).

Lemma indexOfFilter_spec url index part :
  nonul url -> nonul part ->
  match indexOfFilter (cstr url) (length url) index part with
  | Ok r => r = findp url index part
  | UB => caret_safe part = false
  end.
Proof.
  intros Hu Hp. unfold indexOfFilter, findp.
  assert ((length part =? 1) && beq part (B "^") = beq part (B "^")) as ->.
  { destruct (beq_spec part (B "^")) as [->|N]; auto. apply andb_false_r. }
  destruct (beq part (B "^")); auto.
  assert ((length url <? index) || (length url - index <? length part)
          = (length url <? index + length part)
            || ((length part =? 0) && (length url <? index))) as E.
  { apply eq_true_iff_eq.
    rewrite !orb_true_iff, andb_true_iff, !Nat.ltb_lt, Nat.eqb_eq. lia. }
  destruct (Nat.ltb_spec (length url) (index + length part)) as [H|H].
  - cbn [orb] in E. now rewrite E.
  - cbn [orb] in E. rewrite E.
    destruct (Nat.ltb_spec (length url) index); [lia|]. rewrite andb_false_r.
    rewrite skipn_cstr by lia. rewrite <- skipn_length.
    apply io_spec; auto. now apply nonul_skipn.
Qed.

Lemma first_fit_some piece s k :
  first_fit piece s = Some k <->
  k < length s /\ fitsb piece (skipn k s) = true /\ forall j, j < k -> fitsb piece (skipn j s) = false.
Proof.
  revert k; induction s as [|c s IH]; intros k; cbn [first_fit].
  - split; [easy|]. cbn. lia.
  - destruct (fitsb piece (c :: s)) eqn:E.
    + split.
      * intros [= <-]. cbn [length skipn]. repeat split; auto; lia.
      * intros (H1 & H2 & H3). destruct k; auto.
        specialize (H3 0 ltac:(lia)). cbn [skipn] in H3. congruence.
    + destruct k as [|k].
      * split; [now destruct (first_fit piece s)|].
        intros (_ & H & _). cbn [skipn] in H. congruence.
      * assert (option_map S (first_fit piece s) = Some (S k) <->
                first_fit piece s = Some k) as ->.
        { destruct (first_fit piece s); cbn; split; congruence. }
        rewrite IH. cbn [length skipn]. split.
        -- intros (H1 & H2 & H3). repeat split; auto; [lia|].
           intros [|j] Hj; auto. apply H3. lia.
        -- intros (H1 & H2 & H3). repeat split; auto; [lia|].
           intros j Hj. apply (H3 (S j)). lia.
Qed.

Lemma first_fit_none piece s :
  first_fit piece s = None <->
  forall k, k < length s -> fitsb piece (skipn k s) = false.
Proof.
  induction s as [|c s IH]; cbn [first_fit].
  - split; auto. cbn. lia.
  - destruct (fitsb piece (c :: s)) eqn:E.
    + split; [easy|]. intros H. specialize (H 0 ltac:(cbn; lia)).
      cbn [skipn] in H. congruence.
    + assert (option_map S (first_fit piece s) = None <->
              first_fit piece s = None) as ->.
      { destruct (first_fit piece s); cbn; split; congruence. }
      rewrite IH. split.
      * intros H [|k] Hk; auto. apply H. cbn in Hk. lia.
      * intros H k Hk. apply (H (S k)). cbn. lia.
Qed.

(** ** The loop over the pieces *)
Fixpoint wildb (url : bytes) (parts : list bytes) (index : nat) : bool :=
  match parts with
  | [] => true
  | part :: more =>
      match part, more with
      | [], [] => true
      | _, _ => match findp url index part with
                | None => false
                | Some k => match more with
                            | [] => true
                            | _ => wildb url more (k + index + length part)
                            end
                end
      end
  end.

Lemma findp_lt url index part k :
  findp url index part = Some k -> k + index < length url.
Proof.
  unfold findp. destruct (beq part (B "^")); [easy|].
  destruct (Nat.ltb_spec (length url) (index + length part)); [easy|].
  intros E. apply first_fit_some in E as (E & _). rewrite skipn_length in E. lia.
Qed.

Lemma rd_url url i :
  nonul url -> i < length url -> exists c, rd (cstr url) i = Ok c /\ c <> NUL.
Proof.
  intros H L. destruct (rd_some url i L) as [c E]. exists c.
  unfold cstr. rewrite rd_app1 by auto. split; auto.
  eapply nonul_in; eauto. eapply rd_in; eauto.
Qed.

Definition tail_ok (tail : bytes) : Prop := exists t, tail = NUL :: t.

Definition ends_star (parts : list bytes) : Prop :=
  exists pre, parts = pre ++ [[]].

Definition tailed (parts : list bytes) (tail : bytes) : Prop :=
  ends_star parts -> tail_ok tail.

Lemma ends_star_cons p parts : ends_star parts -> ends_star (p :: parts).
Proof. intros [pre ->]. now exists (p :: pre). Qed.

Lemma tailed_cons p parts tail : tailed (p :: parts) tail -> tailed parts tail.
Proof. intros H I. apply H, ends_star_cons, I. Qed.

(** [wild] without a Bloom filter. *)
Lemma wild_spec hs url parts tail index :
  nonul url -> (forall p, In p parts -> nonul p) ->
  match wild hs None parts tail (cstr url) (length url) index with
  | Ok b => tailed parts tail -> b = wildb url parts index
  | UB => (ends_star parts /\ tail = []) \/
          exists p, In p parts /\ caret_safe p = false
  end.
Proof.
  intros Hu. revert index.
  induction parts as [|part more IH]; intros index Hp.
  { cbn. auto. }
  assert (nonul part) as Hpart by (apply Hp; cbn; auto).
  assert (forall index,
   match wild hs None more tail (cstr url) (length url) index with
   | Ok b => tailed (part :: more) tail -> b = wildb url more index
   | UB => (ends_star (part :: more) /\ tail = []) \/
          exists p, In p (part :: more) /\ caret_safe p = false
   end) as IH'.
  { intros idx. specialize (IH idx). destruct (wild _ _ more _ _ _ _).
    - intros T. apply IH; [|now apply tailed_cons in T].
      intros; apply Hp; cbn; auto.
    - destruct IH as [[? ?]|(p & P1 & P2)].
      + intros; apply Hp; cbn; auto.
      + left. split; auto. now apply ends_star_cons.
      + right. exists p. cbn. auto. }
  clear IH. cbn [wild].
  assert (match part, more with
          | [], [] => c <- deref tail;; Ok (ceq c "*")
          | _, _ => Ok true end = Ok true ->
    match
      (if negb true then Ok true
       else if negb (part_pairs_ok hs None part) then Ok false
       else r <- indexOfFilter (cstr url) (length url) index part ;;
        match r with
        | None => Ok false
        | Some k =>
            let newIndex := k + index in
            match more with
            | [] => Ok true
            | _ =>
                c <- rd (cstr url) newIndex ;;
                if ceq c NUL then Ok true
                else wild hs None more tail (cstr url) (length url)
                          (newIndex + length part)
            end
        end) with
    | Ok b => (part = [] -> more = [] -> False) ->
              tailed (part :: more) tail -> b = wildb url (part :: more) index
    | UB => (ends_star (part :: more) /\ tail = []) \/
           exists p, In p (part :: more) /\ caret_safe p = false
    end) as K.
  { intros _. cbn [negb part_pairs_ok].
    assert ((part = [] -> more = [] -> False) ->
      wildb url (part :: more) index =
      match findp url index part with
      | None => false
      | Some k => match more with
                  | [] => true
                  | _ => wildb url more (k + index + length part)
                  end
      end) as W.
    { intros N. cbn [wildb]. destruct part; auto. destruct more; auto.
      exfalso; auto. }
    pose proof (indexOfFilter_spec url index part Hu Hpart) as I.
    destruct (indexOfFilter _ _ _ part) as [[k|]|]; cbn [bind].
    - cbv zeta. destruct more as [|m more0] eqn:Em.
      + intros N T. now rewrite W, <- I.
      + rewrite <- Em in *. symmetry in I. pose proof (findp_lt _ _ _ _ I) as L.
        destruct (rd_url url (k + index) Hu L) as (c & -> & N). cbn [bind].
        destruct (ceq_spec c NUL); [easy|].
        specialize (IH' (k + index + length part)).
        destruct (wild _ _ more _ _ _ _); auto.
        intros Nn T. rewrite W by auto. rewrite I. now apply IH'.
    - intros N T. now rewrite W, <- I.
    - right. exists part. cbn. auto. }
  destruct part as [|pc part0] eqn:Epart; [destruct more as [|m more0] eqn:Em|].
  - clear K. destruct tail as [|t tail]; cbn [deref bind].
    { left. split; auto. now exists []. }
    destruct (ceq_spec t "*") as [->|N].
    + cbn [negb part_pairs_ok].
      pose proof (indexOfFilter_spec url index [] Hu Hpart) as I.
      destruct (indexOfFilter _ _ _ []) as [[k|]|]; cbn [bind].
      1,2: intros T; destruct T as [t' [=]]; now exists [].
      now cbn in I.
    + cbn. auto.
  - cbn [bind]. specialize (K eq_refl).
    destruct (if negb true then _ else _); auto. intros T; apply K; auto; easy.
  - cbn [bind]. specialize (K eq_refl).
    destruct (if negb true then _ else _); auto. intros T; apply K; auto; easy.
Qed.

(** ** Greedy search finds a placement iff there is one *)
Lemma findp_some url from part k :
  findp url from part = Some k ->
  piece_found url from part (k + from) /\
  forall i, piece_found url from part i -> k + from <= i.
Proof.
  unfold findp. destruct (beq_spec part (B "^")); [easy|].
  destruct (Nat.ltb_spec (length url) (from + length part)) as [|L]; [easy|].
  intros E. apply first_fit_some in E as (H1 & H2 & H3).
  rewrite skipn_length in H1. rewrite skipn_skipn in H2.
  split.
  - repeat split; auto; try lia.
    + apply fitsb_piece_at in H2; [|lia]. apply H2.
    + apply fitsb_piece_at in H2; [|lia]. apply H2.
  - intros i (I1 & I2 & I3 & I4 & I5).
    destruct (Nat.le_gt_cases (k + from) i); auto.
    specialize (H3 (i - from) ltac:(lia)). rewrite skipn_skipn in H3.
    replace (i - from + from) with i in H3 by lia.
    apply fitsb_piece_at in I3; [congruence|lia].
Qed.

Lemma findp_none url from part i :
  findp url from part = None -> ~ piece_found url from part i.
Proof.
  unfold findp. intros E (I1 & I2 & I3 & I4 & I5).
  destruct (beq_spec part (B "^")); [easy|].
  destruct (Nat.ltb_spec (length url) (from + length part)) as [L|L].
  - destruct I3 as [I3 _]. lia.
  - rewrite first_fit_none in E. specialize (E (i - from)).
    rewrite skipn_length, skipn_skipn in E.
    replace (i - from + from) with i in E by lia.
    rewrite (proj2 (fitsb_piece_at part url i ltac:(lia)) I3) in E.
    discriminate E. lia.
Qed.

Lemma pieces_found_mono url from from' parts :
  from <= from' -> pieces_found url from' parts -> pieces_found url from parts.
Proof.
  intros L H. destruct H as [| |from' piece i more (I1 & I2 & I3 & I4 & I5) H].
  - constructor.
  - constructor.
  - apply pf_cons with (i := i); auto. repeat split; auto; try lia; apply I3.
Qed.

Lemma wildb_spec url parts from :
  wildb url parts from = true <-> pieces_found url from parts.
Proof.
  revert from; induction parts as [|part more IH]; intros from.
  { split; [constructor|auto]. }
  assert (match findp url from part with
          | None => false
          | Some k => match more with
                      | [] => true
                      | _ => wildb url more (k + from + length part)
                      end
          end = true <->
          exists i, piece_found url from part i /\
                    pieces_found url (i + length part) more) as K.
  { destruct (findp url from part) as [k|] eqn:F.
    - apply findp_some in F as [F1 F2].
      assert (match more with
              | [] => true
              | _ => wildb url more (k + from + length part)
              end = wildb url more (k + from + length part)) as ->
          by now destruct more.
      rewrite IH. split; [eauto|].
      intros (i & I1 & I2). eapply pieces_found_mono; [|apply I2].
      specialize (F2 i I1). lia.
    - split; [easy|]. intros (i & I & _).
      now apply findp_none with (i := i) in F. }
  assert (pieces_found url from (part :: more) <->
          (part = [] /\ more = []) \/
          exists i, piece_found url from part i /\
                    pieces_found url (i + length part) more) as ->.
  { split.
    - intros H. inversion H; subst; eauto.
    - intros [[-> ->]|(i & I1 & I2)]; [constructor|econstructor; eauto]. }
  cbn [wildb]. destruct part as [|pc part]; [destruct more as [|m more]|].
  - split; auto.
  - rewrite K. split; auto. intros [[_ [=]]|]; auto.
  - rewrite K. split; auto. intros [[[=] _]|]; auto.
Qed.

(** ** Bloom filters have no false negatives *)
Lemma bl_add_size hs b s : bl_size (bl_add hs b s) = bl_size b.
Proof. reflexivity. Qed.

Lemma fold_setbit_mono (g : (bytes -> N) -> N) hs acc n :
  N.testbit acc n = true ->
  N.testbit (fold_left (fun a h => N.setbit a (g h)) hs acc) n = true.
Proof.
  revert acc; induction hs as [|h hs IH]; intros acc H; cbn [fold_left]; auto.
  apply IH. rewrite N.setbit_eqb, H. apply orb_true_r.
Qed.

Lemma fold_setbit_in (g : (bytes -> N) -> N) hs acc h :
  In h hs ->
  N.testbit (fold_left (fun a h => N.setbit a (g h)) hs acc) (g h) = true.
Proof.
  revert acc; induction hs as [|h' hs IH]; intros acc I; [easy|].
  cbn [fold_left]. destruct I as [->|I]; auto.
  apply fold_setbit_mono. rewrite N.setbit_eqb, N.eqb_refl. auto.
Qed.

Lemma bl_add_same hs b s : bl_exists hs (bl_add hs b s) s = true.
Proof.
  unfold bl_exists. apply forallb_forall. intros h I. unfold bl_add at 1.
  cbn [bl_bits]. unfold bl_pos. cbn [bl_size bl_add].
  apply (fold_setbit_in (fun h => (h s mod (8 * bl_size b))%N)). auto.
Qed.

Lemma bl_add_mono hs b s t :
  bl_exists hs b t = true -> bl_exists hs (bl_add hs b s) t = true.
Proof.
  unfold bl_exists. rewrite !forallb_forall. intros H h I.
  unfold bl_add at 1, bl_pos. cbn [bl_bits bl_size bl_add].
  apply (fold_setbit_mono (fun h => (h s mod (8 * bl_size b))%N)).
  apply (H h I).
Qed.

Lemma bl_fold_mono hs l b t :
  bl_exists hs b t = true ->
  bl_exists hs (fold_left (bl_add hs) l b) t = true.
Proof.
  revert b; induction l; cbn [fold_left]; auto using bl_add_mono.
Qed.

Lemma bl_fold_in hs l b t :
  In t l -> bl_exists hs (fold_left (bl_add hs) l b) t = true.
Proof.
  revert b; induction l as [|x l IH]; intros b I; [easy|]. cbn [fold_left].
  destruct I as [->|I]; auto. apply bl_fold_mono, bl_add_same.
Qed.

(** ** Adjacent pairs *)
Lemma pairs_spec s p :
  In p (pairs s) <-> exists j a b, p = [a; b] /\ nth_error s j = Some a /\
                                   nth_error s (S j) = Some b.
Proof.
  induction s as [|x s IH].
  - cbn. split; [easy|]. intros (j & a & b & _ & E & _). now destruct j.
  - destruct s as [|y s].
    + cbn [pairs]. split; [easy|]. intros (j & a & b & _ & _ & E).
      cbn in E. now destruct j.
    + change (pairs (x :: y :: s)) with ([x; y] :: pairs (y :: s)).
      cbn [In]. rewrite IH. split.
      * intros [<-|(j & a & b & E1 & E2 & E3)].
        -- exists 0, x, y. auto.
        -- exists (S j), a, b. auto.
      * intros ([|j] & a & b & E1 & E2 & E3).
        -- cbn in E2, E3. injection E2 as <-. injection E3 as <-. auto.
        -- right. exists j, a, b. auto.
Qed.

Lemma nth_error_mid {A} (a s b : list A) j x :
  nth_error s j = Some x -> nth_error (a ++ s ++ b) (length a + j) = Some x.
Proof.
  intros H. rewrite nth_error_app2 by lia.
  replace (length a + j - length a) with j by lia.
  rewrite nth_error_app1; auto. apply nth_error_Some. congruence.
Qed.

Lemma pairs_app_mid a s b p : In p (pairs s) -> In p (pairs (a ++ s ++ b)).
Proof.
  rewrite !pairs_spec. intros (j & x & y & E1 & E2 & E3).
  exists (length a + j), x, y. split; auto. split.
  - now apply nth_error_mid.
  - rewrite plus_n_Sm. now apply nth_error_mid.
Qed.

Definition covers hs (b : bloom) (url : bytes) : Prop :=
  forall p, In p (pairs url) -> bl_exists hs b p = true.

Lemma nth_error_removelast {A} (s : list A) j x :
  nth_error (removelast s) j = Some x -> nth_error s j = Some x.
Proof.
  intros H. destruct s as [|y s] using rev_ind; auto.
  rewrite removelast_last in H.
  rewrite nth_error_app1; auto. apply nth_error_Some. congruence.
Qed.

Lemma part_pairs_found hs b url from part i :
  covers hs b url -> piece_found url from part i ->
  part_pairs_ok hs (Some b) part = true.
Proof.
  intros C (I1 & I2 & [I3 I3'] & I4 & I5). cbn [part_pairs_ok].
  apply forallb_forall. intros pr I.
  apply pairs_spec in I as (j & x & y & -> & E1 & E2).
  apply nth_error_removelast in E1, E2.
  destruct (existsb isSeparatorChar [x; y]) eqn:S; auto. cbn [orb].
  rewrite existsb_false in S.
  assert (isSeparatorChar x = false /\ isSeparatorChar y = false) as [Sx Sy].
  { split; apply S; cbn; auto. }
  apply C. apply pairs_spec. exists (i + j), x, y. split; auto.
  assert (forall c oc, isSeparatorChar c = false -> char_fits c oc ->
                       oc = Some c) as K.
  { intros c oc N F. assert (c <> "^"%char) by (intros ->; discriminate N).
    destruct oc as [d|]; cbn in F; [|easy].
    destruct F as [<-|[? _]]; easy. }
  split; [apply K|rewrite plus_n_Sm; apply K]; auto.
Qed.

(** ** The loop over the pieces with a covering Bloom filter *)
Lemma wild_bloom hs b url parts tail from r :
  nonul url -> (forall p, In p parts -> nonul p) -> covers hs b url ->
  wild hs None parts tail (cstr url) (length url) from = Ok r ->
  wild hs (Some b) parts tail (cstr url) (length url) from = Ok r.
Proof.
  intros Hu Hp C. revert from r Hp.
  induction parts as [|part more IH]; intros from r Hp H; auto.
  assert (nonul part) as Hpart by (apply Hp; cbn; auto).
  cbn [wild] in H |- *. apply bind_ok in H as (en & E1 & H). rewrite E1.
  cbn [bind]. destruct en; cbn [negb] in H |- *; auto.
  cbn [part_pairs_ok negb] in H.
  apply bind_ok in H as (o & E2 & H).
  pose proof (indexOfFilter_spec url from part Hu Hpart) as I.
  rewrite E2 in I |- *. cbn [bind].
  destruct o as [k|].
  - symmetry in I. pose proof (findp_some _ _ _ _ I) as [F _].
    rewrite (part_pairs_found hs b url from part (k + from)) by auto.
    cbn [negb].
    destruct more as [|m more0] eqn:Em; auto. rewrite <- Em in *.
    apply bind_ok in H as (c & E3 & H). rewrite E3. cbn [bind].
    destruct (ceq c NUL); auto. apply IH; auto.
    intros; apply Hp; cbn; auto.
  - injection H as <-. now destruct (part_pairs_ok hs (Some b) part).
Qed.

Lemma wild_bloom_true hs b parts tail input n from :
  wild hs (Some b) parts tail input n from = Ok true ->
  wild hs None parts tail input n from = Ok true.
Proof.
  revert from. induction parts as [|part more IH]; intros from H; auto.
  cbn [wild] in H |- *. apply bind_ok in H as (en & E1 & H). rewrite E1.
  cbn [bind]. destruct en; cbn [negb] in H |- *; auto.
  destruct (part_pairs_ok hs (Some b) part); [|easy]. cbn [part_pairs_ok negb] in H |- *.
  apply bind_ok in H as (o & E2 & H). rewrite E2. cbn [bind].
  destruct o as [k|]; auto. destruct more as [|m more0] eqn:Em; auto.
  rewrite <- Em in *.
  apply bind_ok in H as (c & E3 & H). rewrite E3. cbn [bind].
  destruct (ceq c NUL); auto.
Qed.
