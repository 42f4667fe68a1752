(** Facts about the hash sets and Bloom filters of a client. *)
From Verif Require Import Base Flags Url Sets FilterM ParseM ClientM Spec SpecM
  P_Base P_Url P_Match P_Rule P_Parse P_List P_Opt P_Opt2.

Section HS.
  Context {A : Type} (key : A -> bytes) (hash : bytes -> N).
  Notation hs_add := (hs_add key hash).
  Notation hs_find := (hs_find key hash).
  Notation hs_index := (hs_index hash).

  Lemma upd_length (s : hset A) i f : length (upd s i f) = length s.
  Proof. revert i; induction s as [|b s IH]; intros [|i]; cbn; auto. Qed.

  Lemma nth_upd (s : hset A) i j f : i < length s ->
    nth j (upd s i f) [] = if Nat.eq_dec i j then f (nth i s []) else nth j s [].
  Proof.
    revert i j; induction s as [|b s IH]; intros i j L; cbn in L; [lia|].
    destruct i as [|i], j as [|j]; cbn [upd nth]; auto.
    rewrite IH by lia. destruct (Nat.eq_dec i j), (Nat.eq_dec (S i) (S j)); auto; lia.
  Qed.

  Lemma hs_index_lt (s : hset A) k : 0 < length s -> hs_index s k < length s.
  Proof.
    intros L. unfold Sets.hs_index.
    assert (hash k mod N.of_nat (length s) < N.of_nat (length s))%N
      by (apply N.mod_lt; lia). lia.
  Qed.

  Lemma find_app' (P : A -> bool) a b :
    find P (a ++ b) = match find P a with Some x => Some x | None => find P b end.
  Proof. induction a as [|x a IH]; cbn; auto. now destruct (P x). Qed.

  Lemma hs_add_length (s : hset A) x : length (hs_add s x) = length s.
  Proof. apply upd_length. Qed.

  Lemma hs_find_add (s : hset A) x k : 0 < length s ->
    hs_find (hs_add s x) k =
    match hs_find s k with
    | Some y => Some y
    | None => if beq (key x) k then Some x else None
    end.
  Proof.
    intros L. unfold Sets.hs_find, Sets.hs_add.
    assert (hs_index (upd s (hs_index s (key x))
        (fun b => if existsb (fun y => beq (key y) (key x)) b then b else b ++ [x])) k
        = hs_index s k) as -> by (unfold Sets.hs_index; now rewrite upd_length).
    rewrite nth_upd by now apply hs_index_lt.
    destruct (Nat.eq_dec (hs_index s (key x)) (hs_index s k)) as [e|ne].
    - rewrite e. set (b := nth _ s []). destruct (existsb _ b) eqn:X.
      + destruct (find _ b) eqn:F; auto. destruct (beq_spec (key x) k) as [<-|]; auto.
        apply existsb_exists in X as (y & I & X).
        pose proof (find_none _ _ F y I) as Y. cbn in Y. congruence.
      + rewrite find_app'. cbn [find]. destruct (find _ b); auto.
    - destruct (find _ _); auto. destruct (beq_spec (key x) k) as [<-|]; auto. easy.
  Qed.

  (** The set holds the items [xs]; of equal items the first one is kept. *)
  Definition hs_rep (s : hset A) (xs : list A) : Prop :=
    0 < length s /\ (forall k, hs_find s k = find (fun y => beq (key y) k) xs) /\
    (forall i y, In y (nth i s []) -> hs_index s (key y) = i).

  Lemma hs_rep_new n : (0 < n)%N -> hs_rep (hs_new n) [].
  Proof.
    intros L. unfold hs_rep, hs_new. rewrite repeat_length.
    assert (forall i, nth i (repeat (@nil A) (N.to_nat n)) [] = []) as N0.
    { intros i. apply nth_repeat. }
    split; [lia|]. split.
    - intros k. unfold Sets.hs_find. now rewrite N0.
    - intros i y. now rewrite N0.
  Qed.

  Lemma hs_rep_add s xs x : hs_rep s xs -> hs_rep (hs_add s x) (xs ++ [x]).
  Proof.
    intros (L & F & I). split; [now rewrite hs_add_length|]. split.
    - intros k. rewrite hs_find_add by auto. rewrite F, find_app'. cbn [find].
      destruct (find _ xs); auto.
    - intros i y. intros J. unfold Sets.hs_index. rewrite hs_add_length.
      fold (hs_index s (key y)). unfold Sets.hs_add in J.
      rewrite nth_upd in J by now apply hs_index_lt.
      destruct (Nat.eq_dec _ i) as [e|ne]; [|auto].
      destruct (existsb _ _); [rewrite e in J; auto|].
      apply in_app_or in J as [J|[<-|[]]]; auto. rewrite e in J. auto.
  Qed.

  Lemma hs_rep_fold l s xs : hs_rep s xs -> hs_rep (fold_left hs_add l s) (xs ++ l).
  Proof.
    revert s xs; induction l as [|x l IH]; intros s xs H; cbn [fold_left].
    - now rewrite app_nil_r.
    - rewrite (app_assoc xs [x] l : xs ++ x :: l = _). apply IH. now apply hs_rep_add.
  Qed.
End HS.

(** ** Page-domain sets *)
Lemma in_gate_rep E s xs d :
  hs_rep (fun x => x) (e_hash E) s xs -> in_gate E s d = true <-> In d xs.
Proof.
  intros (_ & F & _). unfold in_gate. rewrite F.
  destruct (find _ xs) eqn:X.
  - apply find_some in X as [I X]. apply beq_eq in X as ->. easy.
  - split; [easy|]. intros I. pose proof (find_none _ _ X d I) as Y. cbn in Y.
    now rewrite beq_refl in Y.
Qed.

Lemma null_gate_rep E s xs :
  hs_rep (fun x => x) (e_hash E) s xs ->
  existsb (fun y => beq y []) (nth 0 s []) = true <->
  In [] xs /\ hs_index (e_hash E) s [] = 0.
Proof.
  intros H. pose proof (in_gate_rep E s xs [] H) as G. destruct H as (L & F & I).
  rewrite existsb_exists. split.
  - intros (y & J & Y). apply beq_eq in Y as ->. pose proof (I 0 [] J) as Z. split; auto.
    apply G. unfold in_gate, hs_find. rewrite Z. destruct (find _ _) eqn:X; auto.
    pose proof (find_none _ _ X [] J) as Y. discriminate Y.
  - intros [J Z]. apply G in J. unfold in_gate, hs_find in J. rewrite Z in J.
    destruct (find _ _) eqn:X; [|easy]. apply find_some in X as [X1 X2]. eauto.
Qed.

(** The names looked up for a host: the host itself and those of its label
    suffixes that still contain a dot. *)
Definition probed (h s : bytes) : Prop := s = h \/ wide_suffix h s.

Lemma skip_tld_spec h k : k <= length h ->
  (skip_tld h k < k /\ nth_error h (skip_tld h k) = Some "."%char /\
   forall j, skip_tld h k < j < k -> nth_error h j <> Some "."%char) \/
  (skip_tld h k = 0 /\ forall j, j < k -> nth_error h j <> Some "."%char).
Proof.
  induction k as [|k IH]; intros L; cbn [skip_tld].
  - right. split; auto. lia.
  - destruct (nth_error h k) as [c|] eqn:N.
    2:{ apply nth_error_None in N. lia. }
    rewrite (nth_error_nth h k NUL N). destruct (ceq_spec c "."%char) as [->|ne].
    + left. split; [lia|]. split; auto. lia.
    + destruct IH as [(I1 & I2 & I3)|(I1 & I2)]; [lia| |].
      * left. split; [lia|]. split; auto. intros j J.
        destruct (Nat.eq_dec j k) as [->|]; [congruence|]. apply I3. lia.
      * right. split; auto. intros j J.
        destruct (Nat.eq_dec j k) as [->|]; [congruence|]. apply I2. lia.
Qed.

Definition walked (h : bytes) (k : nat) (s : bytes) : Prop :=
  s = h \/ exists j, j < k /\ nth_error h j = Some "."%char /\ s = skipn (S j) h.

Lemma walked_probed h s : walked h (skip_tld h (length h)) s <-> probed h s.
Proof.
  unfold walked, probed, wide_suffix.
  destruct (skip_tld_spec h (length h) (Nat.le_refl _)) as
    [(K1 & K2 & K3)|(K1 & K2)].
  - set (k := skip_tld h (length h)) in *. split.
    + intros [->|(j & J1 & J2 & ->)]; auto. right. split.
      * right. exists (firstn j h). rewrite <- (firstn_skipn j h) at 1. f_equal.
        destruct (nth_error_split h j J2) as (a & b & -> & <-).
        rewrite skipn_app, (skipn_all2 a) by lia. rewrite Nat.sub_diag.
        rewrite skipn_app, (skipn_all2 a) by lia.
        now replace (S (length a) - length a) with 1 by lia.
      * apply (nth_error_In _ (k - S j)).
        rewrite <- K2. rewrite <- (firstn_skipn (S j) h) at 2.
        rewrite nth_error_app2; rewrite firstn_length_le by lia; auto.
    + intros [->|[[->|[p ->]] I]]; auto. right. exists (length p).
      split; [|split].
      * apply In_nth_error in I as [i I].
        assert (nth_error (p ++ B "." ++ s) (length p + S i) = Some "."%char) as J.
        { rewrite nth_error_app2 by lia. cbn.
          replace (length p + S i - length p) with (S i) by lia. exact I. }
        assert (i < length s) by (apply nth_error_Some; congruence).
        destruct (le_lt_dec k (length p)) as [C|C]; [|lia]. exfalso.
        apply (K3 (length p + S i)); auto.
        rewrite !app_length. cbn. lia.
      * rewrite nth_error_app2, Nat.sub_diag by lia. reflexivity.
      * rewrite skipn_app, skipn_all2 by lia.
        now replace (S (length p) - length p) with 1 by lia.
  - rewrite K1. split.
    + intros [->|(j & J & _)]; auto. lia.
    + intros [->|[[->|[p ->]] I]]; auto. exfalso.
      apply (K2 (length p)).
      * rewrite !app_length. cbn. lia.
      * rewrite nth_error_app2, Nat.sub_diag by lia. reflexivity.
Qed.

Lemma gate_walk_spec E s xs h k :
  hs_rep (fun x => x) (e_hash E) s xs -> k <= length h ->
  gate_walk E s h k = true <-> exists d, walked h k d /\ In d xs.
Proof.
  intros H. induction k as [|k IH]; intros L; cbn [gate_walk].
  - rewrite (in_gate_rep E s xs h H). split.
    + intros I. exists h. split; auto. now left.
    + intros (d & [->|(j & J & _)] & I); auto. lia.
  - rewrite orb_true_iff, andb_true_iff, IH, (in_gate_rep E s xs _ H) by lia.
    destruct (nth_error h k) as [c|] eqn:N.
    2:{ apply nth_error_None in N. lia. }
    rewrite (nth_error_nth h k NUL N). split.
    + intros [[C I]|(d & [->|(j & J1 & J2)] & I)].
      * apply ceq_eq in C as ->. exists (skipn (S k) h). split; auto. right. eauto.
      * exists h. split; auto. now left.
      * exists d. split; auto. right. exists j. split; [lia|auto].
    + intros (d & [->|(j & J1 & J2 & J3)] & I).
      * right. exists h. split; auto. now left.
      * destruct (Nat.eq_dec j k) as [->|].
        -- left. assert (c = "."%char) as -> by congruence. subst d. auto.
        -- right. exists d. split; auto. right. exists j. split; [lia|auto].
Qed.

(** The page domain (or a suffix of it) is an item of the set. *)
Definition gate_hit (E : env) (n : N) (xs : list bytes) (dom : option bytes) : Prop :=
  match dom with
  | Some d => exists s, probed d s /\ In s xs
  | None => In [] xs /\ (e_hash E [] mod n = 0)%N
  end.

Lemma nfMiss_spec E s xs n dom :
  hs_rep (fun x => x) (e_hash E) s xs -> length s = N.to_nat n ->
  nfMiss E (Some s) dom = false <-> gate_hit E n xs dom.
Proof.
  intros H L. unfold nfMiss, gate_hit. destruct dom as [d|]; rewrite negb_false_iff.
  - rewrite (gate_walk_spec E s xs d _ H).
    + split; intros (x & X & I); exists x; (split; auto); now apply walked_probed.
    + destruct (skip_tld_spec d (length d) (Nat.le_refl _)) as [K|K]; lia.
  - rewrite (null_gate_rep E s xs H). unfold hs_index. rewrite L, N2Nat.id.
    split; intros [A1 A2]; split; auto; lia.
Qed.
