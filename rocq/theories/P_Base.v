(** Lemmas about bytes, C strings and the result monad. *)
From Verif Require Import Base.

Lemma ceq_eq a b : ceq a b = true <-> a = b.
Proof. unfold ceq. apply Ascii.eqb_eq. Qed.

Lemma ceq_neq a b : ceq a b = false <-> a <> b.
Proof. unfold ceq. apply Ascii.eqb_neq. Qed.

Lemma ceq_refl a : ceq a a = true.
Proof. apply ceq_eq; auto. Qed.

Lemma ceq_sym a b : ceq a b = ceq b a.
Proof. unfold ceq. apply Ascii.eqb_sym. Qed.

Lemma ceq_spec a b : reflect (a = b) (ceq a b).
Proof. unfold ceq. apply Ascii.eqb_spec. Qed.

Lemma beq_eq a b : beq a b = true <-> a = b.
Proof.
  revert b; induction a as [|x a IH]; intros [|y b]; cbn; try easy.
  rewrite andb_true_iff, ceq_eq, IH. split; [intros [-> ->]|intros [=]]; auto.
Qed.

Lemma beq_refl a : beq a a = true.
Proof. apply beq_eq; auto. Qed.

Lemma beq_neq a b : beq a b = false <-> a <> b.
Proof.
  split.
  - intros H ->. rewrite beq_refl in H. easy.
  - intros H. destruct (beq a b) eqn:E; auto. apply beq_eq in E. easy.
Qed.

Lemma beq_spec a b : reflect (a = b) (beq a b).
Proof.
  destruct (beq a b) eqn:E; constructor; [apply beq_eq | apply beq_neq]; auto.
Qed.

Lemma beq_sym a b : beq a b = beq b a.
Proof.
  destruct (beq_spec a b), (beq_spec b a); auto; congruence.
Qed.

Lemma bytes_eq_dec (a b : bytes) : {a = b} + {a <> b}.
Proof. apply list_eq_dec, ascii_dec. Qed.

(** ** Result monad *)
Lemma bind_ok {A C} (r : res A) (k : A -> res C) c :
  bind r k = Ok c <-> exists a, r = Ok a /\ k a = Ok c.
Proof.
  destruct r; cbn; split; intros H; try easy.
  - eauto.
  - destruct H as (a' & [= <-] & H); auto.
  - now destruct H as (? & ? & ?).
Qed.

Lemma rmap_ok {A C} (f : A -> C) (r : res A) c :
  rmap f r = Ok c <-> exists a, r = Ok a /\ c = f a.
Proof.
  destruct r; cbn; split; intros H; try easy.
  - inversion H; eauto.
  - destruct H as (a' & [= <-] & ->); auto.
  - now destruct H as (? & ? & ?).
Qed.

Lemma bind_assoc {A C D} (r : res A) (k : A -> res C) (h : C -> res D) :
  bind (bind r k) h = bind r (fun a => bind (k a) h).
Proof. destruct r; auto. Qed.

Lemma bind_ext {A C} (r : res A) (k h : A -> res C) :
  (forall a, r = Ok a -> k a = h a) -> bind r k = bind r h.
Proof. destruct r; cbn; auto. Qed.

Ltac inv_ok :=
  repeat match goal with
  | H : bind ?r ?k = Ok _ |- _ =>
      apply bind_ok in H; destruct H as (? & ? & H)
  | H : rmap ?f ?r = Ok _ |- _ =>
      apply rmap_ok in H; destruct H as (? & ? & H)
  | H : Ok _ = Ok _ |- _ => injection H as H
  | H : UB = Ok _ |- _ => discriminate H
  | H : Ok _ = UB |- _ => discriminate H
  end.

(** ** Reads *)
Lemma rd_ok p i c : rd p i = Ok c <-> nth_error p i = Some c.
Proof.
  unfold rd. destruct (nth_error p i); split; intros [=]; subst; auto.
Qed.

Lemma rd_app1 p q i : i < length p -> rd (p ++ q) i = rd p i.
Proof. intros H. unfold rd. now rewrite nth_error_app1. Qed.

Lemma rd_app2 p q i : rd (p ++ q) (length p + i) = rd q i.
Proof.
  unfold rd. rewrite nth_error_app2 by lia.
  now replace (length p + i - length p) with i by lia.
Qed.

Lemma rd_in p i c : rd p i = Ok c -> In c p.
Proof. rewrite rd_ok. apply nth_error_In. Qed.

Lemma rd_some p i : i < length p -> exists c, rd p i = Ok c.
Proof.
  intros H. unfold rd. destruct (nth_error p i) eqn:E; eauto.
  apply nth_error_None in E. lia.
Qed.

(** ** C strings *)
Lemma nonul_nil : nonul [].
Proof. intros []. Qed.

Lemma nonul_cons c s : nonul (c :: s) <-> c <> NUL /\ nonul s.
Proof.
  unfold nonul; cbn. split.
  - intros H; split; intros E; apply H; auto.
  - intros [H1 H2] [E|E]; auto.
Qed.

Lemma nonul_app a b : nonul (a ++ b) <-> nonul a /\ nonul b.
Proof. unfold nonul. rewrite in_app_iff. tauto. Qed.

Lemma nonul_in s c : nonul s -> In c s -> c <> NUL.
Proof. intros H I ->. auto. Qed.


Lemma In_firstn {A} n (s : list A) x : In x (firstn n s) -> In x s.
Proof.
  intros H. rewrite <- (firstn_skipn n s). apply in_or_app; auto.
Qed.

Lemma In_skipn {A} n (s : list A) x : In x (skipn n s) -> In x s.
Proof.
  intros H. rewrite <- (firstn_skipn n s). apply in_or_app; auto.
Qed.

Lemma nonul_firstn n s : nonul s -> nonul (firstn n s).
Proof. intros H I. eapply H, In_firstn; eauto. Qed.

Lemma nonul_skipn n s : nonul s -> nonul (skipn n s).
Proof. intros H I. eapply H, In_skipn; eauto. Qed.

Lemma strlen_app s r : nonul s -> strlen (s ++ NUL :: r) = Ok (length s).
Proof.
  induction s as [|c s IH]; intros H; cbn; auto.
  apply nonul_cons in H as [H1 H2].
  destruct (ceq_spec c NUL); [easy|]. now rewrite (IH H2).
Qed.

Lemma strlen_cstr s : nonul s -> strlen (cstr s) = Ok (length s).
Proof. apply strlen_app. Qed.

Lemma strlen_inv p n :
  strlen p = Ok n ->
  exists s r, p = s ++ NUL :: r /\ nonul s /\ n = length s.
Proof.
  revert n; induction p as [|c p IH]; cbn; intros n H; [easy|].
  destruct (ceq_spec c NUL) as [->|N].
  - inv_ok. subst. exists [], p. repeat split; auto. apply nonul_nil.
  - inv_ok. destruct (IH _ H0) as (s & r & -> & Hs & ->).
    exists (c :: s), r. repeat split; auto. now apply nonul_cons.
Qed.

Lemma firstn_app_exact {A} (s r : list A) : firstn (length s) (s ++ r) = s.
Proof. rewrite firstn_app, Nat.sub_diag, firstn_O, app_nil_r. apply firstn_all. Qed.

Lemma skipn_app_exact {A} (s r : list A) : skipn (length s) (s ++ r) = r.
Proof. rewrite skipn_app, Nat.sub_diag, skipn_all. auto. Qed.

Lemma firstn_cstr s : firstn (length s) (cstr s) = s.
Proof. apply firstn_app_exact. Qed.

Lemma cstr_length s : length (cstr s) = S (length s).
Proof. unfold cstr. rewrite app_length. cbn. lia. Qed.

Lemma skipn_cstr n s : n <= length s -> skipn n (cstr s) = cstr (skipn n s).
Proof.
  intros H. unfold cstr. rewrite skipn_app.
  replace (n - length s) with 0 by lia. auto.
Qed.

Lemma app_split_nul a b r1 r2 :
  nonul a -> nonul b -> a ++ NUL :: r1 = b ++ NUL :: r2 -> a = b /\ r1 = r2.
Proof.
  revert b; induction a as [|x a IH]; intros [|y b] Ha Hb E; cbn in E.
  - now injection E.
  - injection E as E1 E2. apply nonul_cons in Hb. subst. easy.
  - injection E as E1 E2. apply nonul_cons in Ha. subst. easy.
  - injection E as -> E. apply nonul_cons in Ha, Hb.
    destruct (IH b) as [-> ->]; tauto.
Qed.

Lemma strcmp_eq_app a b r1 r2 :
  nonul a -> nonul b ->
  strcmp_eq (a ++ NUL :: r1) (b ++ NUL :: r2) = Ok (beq a b).
Proof.
  revert b; induction a as [|x a IH]; intros [|y b] Ha Hb; cbn [strcmp_eq app beq].
  - now rewrite ceq_refl.
  - apply nonul_cons in Hb as [Hb _]. destruct (ceq_spec NUL y); auto. now subst.
  - apply nonul_cons in Ha as [Ha _]. destruct (ceq_spec x NUL); auto. easy.
  - apply nonul_cons in Ha as [Ha1 Ha2]. apply nonul_cons in Hb as [Hb1 Hb2].
    destruct (ceq_spec x y) as [->|N]; cbn [andb]; auto.
    destruct (ceq_spec y NUL); [easy|]. auto.
Qed.

Lemma prefixb_spec p s : prefixb p s = true <-> exists r, s = p ++ r.
Proof.
  revert s; induction p as [|x p IH]; intros s; cbn.
  - split; eauto.
  - destruct s as [|y s]; cbn.
    + split; [easy|]. now intros [r [=]].
    + rewrite andb_true_iff, ceq_eq, IH. split.
      * intros [-> [r ->]]. eauto.
      * intros [r [= -> ->]]. eauto.
Qed.

Lemma prefixb_firstn p s :
  prefixb p s = true <-> firstn (length p) s = p.
Proof.
  rewrite prefixb_spec. split.
  - intros [r ->]. apply firstn_app_exact.
  - intros H. exists (skipn (length p) s). rewrite <- H at 1.
    symmetry. apply firstn_skipn.
Qed.

Lemma strncmp_eq_app a r1 b r2 :
  nonul a ->
  strncmp_eq (a ++ r1) (b ++ NUL :: r2) (length a) = Ok (prefixb a b).
Proof.
  revert b; induction a as [|x a IH]; intros [|y b] Ha;
    cbn [strncmp_eq app length prefixb]; try (now destruct r1).
  - apply nonul_cons in Ha as [Ha _]. destruct (ceq_spec x NUL); auto. easy.
  - apply nonul_cons in Ha as [Ha1 Ha2].
    destruct (ceq_spec x y) as [->|N]; cbn [andb]; auto.
    destruct (ceq_spec y NUL); [easy|]. auto.
Qed.

Lemma existsb_false {A} (f : A -> bool) l :
  existsb f l = false <-> forall x, In x l -> f x = false.
Proof.
  split.
  - intros H x I. destruct (f x) eqn:E; auto.
    rewrite <- H. symmetry. apply existsb_exists. eauto.
  - intros H. destruct (existsb f l) eqn:E; auto.
    apply existsb_exists in E as (x & I & E). rewrite H in E; easy.
Qed.

Lemma forallb_false {A} (f : A -> bool) l :
  forallb f l = false <-> exists x, In x l /\ f x = false.
Proof.
  induction l; cbn; split; intros H; try easy.
  - now destruct H as (? & ? & ?).
  - apply andb_false_iff in H as [H|H]; eauto.
    apply IHl in H as (x & I & E). eauto.
  - apply andb_false_iff. destruct H as (x & [->|I] & E); eauto.
    right. apply IHl. eauto.
Qed.

Lemma isEndOfLine_spec c : isEndOfLine c = true <-> c = CR \/ c = LF.
Proof. unfold isEndOfLine. rewrite orb_true_iff, !ceq_eq. tauto. Qed.

(** Deciding [nonul] on literals. *)
Definition nonulb (s : bytes) : bool := forallb (fun c => negb (ceq c NUL)) s.

Lemma nonulb_ok s : nonulb s = true -> nonul s.
Proof.
  unfold nonulb. rewrite forallb_forall. intros H I. specialize (H _ I).
  now rewrite ceq_refl in H.
Qed.

Definition notin (c : ascii) (s : bytes) : bool := forallb (fun x => negb (ceq x c)) s.

Lemma notin_ok c s : notin c s = true -> ~ In c s.
Proof.
  unfold notin. rewrite forallb_forall. intros H I. specialize (H _ I).
  now rewrite ceq_refl in H.
Qed.

Lemma notin_ok' c s : notin c s = true <-> ~ In c s.
Proof.
  split; [apply notin_ok|]. intros H. apply forallb_forall. intros x I.
  apply negb_true_iff, ceq_neq. now intros ->.
Qed.

Lemma skipn_skipn {A} a b (s : list A) : skipn a (skipn b s) = skipn (a + b) s.
Proof.
  revert s; induction b as [|b IH]; intros s.
  - now rewrite Nat.add_0_r.
  - rewrite <- plus_n_Sm. destruct s; cbn [skipn]; auto. now rewrite skipn_nil.
Qed.
