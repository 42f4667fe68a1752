(** Proofs for the stylesheet writer. *)
From Coq Require Import Permutation.
From Verif Require Import Base Sets CosmeticM Spec SpecK P_Base P_Set.

Lemma put_ok (a x y s : bytes) :
  length x = length s -> put (a ++ x ++ y) (length a) s = Ok (a ++ s ++ y).
Proof.
  intros L. unfold put. rewrite !app_length.
  destruct (Nat.leb_spec (length a + length s) (length a + (length x + length y))); [|lia].
  f_equal. rewrite firstn_app, firstn_all, Nat.sub_diag, firstn_O, app_nil_r. f_equal. f_equal.
  rewrite <- L, app_assoc, <- app_length. rewrite skipn_app, skipn_all, Nat.sub_diag. reflexivity.
Qed.

Lemma put_ub buf i s : length buf < i + length s -> put buf i s = UB.
Proof. intros H. unfold put. now destruct (Nat.leb_spec (i + length s) (length buf)); [lia|]. Qed.

Lemma bucket_null items len : fillBucket items None len = Ok (None, len + length (comma_list items)).
Proof.
  revert len. induction items as [|s items IH]; intros len; [cbn; now rewrite Nat.add_0_r|].
  destruct items as [|t items].
  - reflexivity.
  - change (comma_list (s :: t :: items)) with (s ++ B ", " ++ comma_list (t :: items)).
    rewrite !app_length. change (length (B ", ")) with 2.
    cbn [fillBucket bind]. cbn [fillBucket bind] in IH. rewrite IH. f_equal. f_equal. lia.
Qed.

Lemma split_at {A} n (l : list A) : n <= length l -> exists x y, l = x ++ y /\ length x = n.
Proof.
  intros H. exists (firstn n l), (skipn n l). rewrite firstn_skipn. split; auto.
  apply firstn_length_le; auto.
Qed.

Lemma bucket_buf items : forall (a x y : bytes),
  length x = length (comma_list items) ->
  fillBucket items (Some (a ++ x ++ y)) (length a) =
  Ok (Some (a ++ comma_list items ++ y), length a + length (comma_list items)).
Proof.
  induction items as [|s items IH]; intros a x y L.
  - destruct x; [|discriminate]. cbn. now rewrite Nat.add_0_r.
  - destruct items as [|t items].
    + cbn [comma_list] in *. cbn [fillBucket]. rewrite put_ok by auto. reflexivity.
    + change (comma_list (s :: t :: items)) with (s ++ B ", " ++ comma_list (t :: items)) in *.
      rewrite !app_length in L.
      destruct (split_at (length s) x) as (x1 & x' & -> & L1); [lia|].
      rewrite app_length in L.
      destruct (split_at (length (B ", ")) x') as (x2 & x3 & -> & L2); [lia|].
      rewrite app_length in L.
      remember (t :: items) as more eqn:Em.
      assert (fillBucket (s :: more) (Some (a ++ (x1 ++ x2 ++ x3) ++ y)) (length a) =
        (b1 <- put (a ++ (x1 ++ x2 ++ x3) ++ y) (length a) s ;;
         b2 <- put b1 (length a + length s) (B ", ") ;;
         fillBucket more (Some b2) (length a + length s + 2))) as ->.
      { subst more. cbn [fillBucket bind]. destruct (put (a ++ _) _ s); [|reflexivity]. cbn [bind].
        destruct (put _ _ (B ", ")); reflexivity. }
      rewrite <- (app_assoc x1). rewrite put_ok by auto. cbn [bind].
      rewrite app_assoc, <- app_length, <- (app_assoc x2), put_ok by auto. cbn [bind].
      rewrite app_assoc. change 2 with (length (B ", ")). rewrite <- app_length.
      rewrite IH by lia. rewrite !app_length, <- !app_assoc. f_equal. f_equal. lia.
Qed.

Lemma bucket_ub items : forall buf i,
  length buf < i + length (comma_list items) -> i <= length buf ->
  fillBucket items (Some buf) i = UB.
Proof.
  induction items as [|s items IH]; intros buf i L I.
  - cbn in L. lia.
  - destruct items as [|t items].
    + cbn [comma_list] in L. cbn [fillBucket]. rewrite put_ub by auto. reflexivity.
    + change (comma_list (s :: t :: items)) with (s ++ B ", " ++ comma_list (t :: items)) in *.
      rewrite !app_length in L.
      remember (t :: items) as more eqn:Em.
      assert (fillBucket (s :: more) (Some buf) i =
        (b1 <- put buf i s ;;
         b2 <- put b1 (i + length s) (B ", ") ;;
         fillBucket more (Some b2) (i + length s + 2))) as ->.
      { subst more. cbn [fillBucket bind]. destruct (put buf _ s); [|reflexivity]. cbn [bind].
        destruct (put _ _ (B ", ")); reflexivity. }
      assert (forall b j w b', put b j w = Ok b' -> length b' = length b /\ j + length w <= length b) as P.
      { intros b j w b'. unfold put. destruct (Nat.leb_spec (j + length w) (length b)) as [X|]; [|discriminate].
        intros [= <-]. split; auto. rewrite !app_length, firstn_length, skipn_length. lia. }
      destruct (put buf i s) as [b1|] eqn:P1; [|reflexivity]. cbn [bind].
      destruct (put b1 (i + length s) (B ", ")) as [b2|] eqn:P2; [|reflexivity]. cbn [bind].
      apply P in P1 as [Q1 _]. apply P in P2 as [Q2 Q3]. change (length (B ", ")) with 2 in *.
      apply IH; lia.
Qed.

Definition longest (s : hset bytes) (n : nat) : Prop :=
  forall b, In b s -> length (comma_list b) <= n.

Lemma fill_null s l len :
  fillStylesheet (s ++ [l]) None len = Ok (None, length (comma_list l)).
Proof.
  revert len. induction s as [|b s IH]; intros len; cbn [fillStylesheet app].
  - rewrite bucket_null. reflexivity.
  - rewrite bucket_null. cbn [bind fst snd]. apply IH.
Qed.

Lemma fill_ok s l : forall buf len,
  length buf = length (comma_list l) -> longest s (length buf) ->
  fillStylesheet (s ++ [l]) (Some buf) len = Ok (Some (comma_list l), length (comma_list l)).
Proof.
  induction s as [|b s IH]; intros buf len L H; cbn [fillStylesheet app].
  - pose proof (bucket_buf l [] buf [] L) as K. cbn [app length] in K. rewrite !app_nil_r in K.
    rewrite K. reflexivity.
  - destruct (split_at (length (comma_list b)) buf) as (x & y & -> & Lx); [apply H; cbn; auto|].
    pose proof (bucket_buf b [] x y Lx) as K. cbn [app length] in K. rewrite K. cbn [bind fst snd].
    assert (length (comma_list b ++ y) = length (x ++ y)) as LL by (rewrite !app_length; lia).
    apply IH; [lia|]. intros c I. rewrite LL. apply H. cbn; auto.
Qed.

Lemma fill_ub s : forall buf len b,
  In b s -> length buf < length (comma_list b) -> fillStylesheet s (Some buf) len = UB.
Proof.
  induction s as [|c s IH]; intros buf len b I L; [easy|]. cbn [fillStylesheet].
  destruct (Nat.lt_ge_cases (length buf) (length (comma_list c))) as [X|X].
  - rewrite bucket_ub by (cbn; lia). reflexivity.
  - destruct I as [->|I]; [lia|].
    destruct (split_at (length (comma_list c)) buf) as (x & y & -> & Lx); [auto|].
    pose proof (bucket_buf c [] x y Lx) as K. cbn [app length] in K. rewrite K. cbn [bind fst snd].
    apply (IH _ _ b I). rewrite app_length in *. lia.
Qed.

(** The exact outcome. *)
Lemma stylesheet_exact s l :
  toStylesheet (s ++ [l]) =
  if forallb (fun b => length (comma_list b) <=? length (comma_list l)) s
  then Ok (comma_list l) else UB.
Proof.
  unfold toStylesheet. rewrite fill_null. cbn [bind fst snd].
  destruct (forallb _ s) eqn:F.
  - rewrite fill_ok; [reflexivity|apply repeat_length|].
    intros b I. rewrite repeat_length. rewrite forallb_forall in F. apply Nat.leb_le. now apply F.
  - assert (exists b, In b s /\ length (comma_list l) < length (comma_list b)) as (b & I & L).
    { clear -F. induction s as [|b s IH]; [discriminate|]. cbn in F.
      apply Bool.andb_false_iff in F as [F|F].
      - apply Nat.leb_gt in F. exists b. cbn; auto.
      - destruct (IH F) as (c & I & L). exists c. cbn; auto. }
    rewrite (fill_ub (s ++ [l]) _ 0 b); [reflexivity|apply in_or_app; auto|].
    rewrite repeat_length. auto.
Qed.

(** The buckets of a set of selectors. *)
Definition tidy (hash : bytes -> N) (s : hset bytes) (xs : list bytes) : Prop :=
  0 < length s /\
  forall i, NoDup (nth i s []) /\
    forall y, In y (nth i s []) <-> In y xs /\ hs_index hash s y = i.

Lemma nodup_snoc (b : list bytes) x : NoDup b -> ~ In x b -> NoDup (b ++ [x]).
Proof.
  induction 1 as [|y b N1 N IH]; intros I; cbn; [constructor; [easy|constructor]|].
  constructor.
  - intros J. apply in_app_or in J as [J|[J|[]]]; auto. subst. apply I. cbn; auto.
  - apply IH. intros J. apply I. cbn; auto.
Qed.

Lemma tidy_add hash s xs x :
  tidy hash s xs -> tidy hash (hs_add (fun s => s) hash s x) (xs ++ [x]).
Proof.
  intros (L & H). split; [now rewrite hs_add_length|]. intros i.
  assert (forall y, hs_index hash (hs_add (fun s => s) hash s x) y = hs_index hash s y) as HI.
  { intros y. unfold hs_index. now rewrite hs_add_length. }
  unfold hs_add. rewrite nth_upd by now apply hs_index_lt.
  fold (hs_add (fun s : bytes => s) hash s x).
  destruct (H i) as [N K].
  destruct (Nat.eq_dec (hs_index hash s x) i) as [e|ne].
  - rewrite e. set (b := nth i s []) in *.
    destruct (existsb (fun y => beq y x) b) eqn:X.
    + assert (In x b) as J.
      { apply existsb_exists in X as (y & J & Y). apply beq_eq in Y. now subst. }
      split; auto. intros y. rewrite HI, in_app_iff, K. cbn. split; [tauto|].
      intros [[I|[<-|[]]] Y]; [tauto|]. split; auto. now apply K.
    + assert (~ In x b) as J.
      { intros J. apply Bool.not_true_iff_false in X. apply X. apply existsb_exists. exists x.
        split; auto. now apply beq_eq. }
      split; [now apply nodup_snoc|]. intros y. rewrite HI, !in_app_iff, K. cbn. intuition (subst; auto).
  - split; auto. intros y. rewrite HI, in_app_iff, K. cbn. intuition congruence.
Qed.

Lemma selectorSet_tidy hash sels : tidy hash (selectorSet hash sels) sels.
Proof.
  unfold selectorSet.
  assert (forall s xs, tidy hash s xs ->
    tidy hash (fold_left (hs_add (fun s => s) hash) sels s) (xs ++ sels)) as K.
  { induction sels as [|x l IH]; intros s xs H; cbn [fold_left]; [now rewrite app_nil_r|].
    rewrite (app_assoc xs [x] l : xs ++ x :: l = _). apply IH. now apply tidy_add. }
  apply (K (hs_new 1000) []). split.
  - unfold hs_new. rewrite repeat_length. lia.
  - intros i. unfold hs_new. rewrite nth_repeat. split; [constructor|]. intros y. cbn. tauto.
Qed.

Lemma selectorSet_length hash sels : length (selectorSet hash sels) = N.to_nat 1000.
Proof.
  unfold selectorSet. assert (forall s, length (fold_left (hs_add (fun s => s) hash) sels s) = length s) as K.
  { induction sels as [|x l IH]; intros s; cbn [fold_left]; auto. rewrite IH. apply hs_add_length. }
  rewrite K. apply repeat_length.
Qed.

Lemma last_bucket_index hash sels s :
  in_last_bucket hash s <->
  hs_index hash (selectorSet hash sels) s = length (selectorSet hash sels) - 1.
Proof.
  unfold in_last_bucket, hs_index. rewrite selectorSet_length. rewrite Nnat.N2Nat.id. lia.
Qed.

Lemma last_split {A} (l : list (list A)) :
  0 < length l -> exists a, l = a ++ [nth (length l - 1) l []] /\ length a = length l - 1.
Proof.
  destruct l as [|x l] using rev_ind; [cbn; lia|]. intros _. exists l.
  rewrite app_length. cbn [length]. replace (length l + 1 - 1) with (length l) by lia.
  rewrite app_nth2, Nat.sub_diag by lia. auto.
Qed.

(** Whatever is returned lists the selectors of the last bucket only. *)
Lemma stylesheet_last hash sels out :
  toStylesheet (selectorSet hash sels) = Ok out ->
  exists once, NoDup once /\ (forall s, In s once <-> In s sels /\ in_last_bucket hash s) /\
    out = comma_list once.
Proof.
  destruct (selectorSet_tidy hash sels) as (L & H).
  set (S0 := selectorSet hash sels) in *.
  destruct (last_split S0 L) as (a & Ea & La).
  set (l := nth (length S0 - 1) S0 []) in *. rewrite Ea, stylesheet_exact.
  destruct (forallb _ a); [|discriminate]. intros [= <-].
  exists l. destruct (H (length S0 - 1)) as [N K]. split; auto. split; auto.
  intros s. change (nth (length S0 - 1) S0 []) with l in K. rewrite K, (last_bucket_index hash sels). reflexivity.
Qed.

Lemma stylesheet_all_last hash sels :
  (forall s, In s sels -> in_last_bucket hash s) ->
  exists out, toStylesheet (selectorSet hash sels) = Ok out /\ stylesheet sels out.
Proof.
  intros HL. destruct (toStylesheet (selectorSet hash sels)) as [out|] eqn:T.
  - exists out. split; auto. destruct (stylesheet_last hash sels out T) as (once & N & I & ->).
    exists once. split; auto. split; auto. intros s. rewrite I. split; [tauto|auto].
  - exfalso. revert T.
    destruct (selectorSet_tidy hash sels) as (L & H).
    pose proof (last_bucket_index hash sels) as LB.
    set (S0 := selectorSet hash sels) in *.
    destruct (last_split S0 L) as (a & Ea & La).
    assert (forall b, In b a -> b = []) as Z.
    { intros b I. destruct (In_nth a b [] I) as (i & Li & <-).
      assert (nth i a [] = nth i S0 []) as Q by (rewrite Ea, app_nth1; auto).
      rewrite Q. destruct (nth i S0 []) as [|y r] eqn:Y; auto. exfalso.
      destruct (H i) as [_ K]. rewrite Y in K. destruct (proj1 (K y)) as [K1 K2]; [cbn; auto|].
      apply HL in K1. apply LB in K1. lia. }
    set (l := nth (length S0 - 1) S0 []) in *. rewrite Ea, stylesheet_exact.
    assert (forallb (fun b => length (comma_list b) <=? length (comma_list l)) a = true) as ->; [|discriminate].
    apply forallb_forall. intros b I. rewrite (Z b I). reflexivity.
Qed.

Lemma stylesheet_overflow hash sels s :
  In s sels -> s <> [] -> (forall s', In s' sels -> ~ in_last_bucket hash s') ->
  toStylesheet (selectorSet hash sels) = UB.
Proof.
  intros I N HL. 
  destruct (selectorSet_tidy hash sels) as (L & H).
  pose proof (last_bucket_index hash sels) as LB.
  set (S0 := selectorSet hash sels) in *.
  destruct (last_split S0 L) as (a & Ea & La).
  assert (nth (length S0 - 1) S0 [] = []) as Zl.
  { destruct (nth (length S0 - 1) S0 []) as [|y r] eqn:Y; auto. exfalso.
    destruct (H (length S0 - 1)) as [_ K]. rewrite Y in K. destruct (proj1 (K y)) as [K1 K2]; [cbn; auto|].
    apply (HL y K1). now apply LB. }
  rewrite Zl in Ea. rewrite Ea, stylesheet_exact.
  destruct (H (hs_index hash S0 s)) as [_ K]. pose proof (proj2 (K s) (conj I eq_refl)) as J.
  assert (In (nth (hs_index hash S0 s) S0 []) a) as Ia.
  { destruct (Nat.lt_ge_cases (hs_index hash S0 s) (length a)) as [X|X].
    - set (i := hs_index hash S0 s) in *. rewrite Ea, app_nth1 by auto. now apply nth_In.
    - exfalso. pose proof (hs_index_lt hash S0 s L) as Y. apply (HL s I). apply LB. lia. }
  destruct (forallb _ a) eqn:F; auto. exfalso. rewrite forallb_forall in F. apply F in Ia.
  apply Nat.leb_le in Ia. cbn [comma_list length] in Ia.
  destruct (nth (hs_index hash S0 s) S0 []) as [|t [|u r]]; [easy| |].
  - destruct J as [->|[]]. destruct s; [easy|cbn in Ia; lia].
  - change (comma_list (t :: u :: r)) with (t ++ B ", " ++ comma_list (u :: r)) in Ia.
    rewrite !app_length in Ia. change (length (B ", ")) with 2 in Ia. lia.
Qed.
