From Verif Require Import Base Flags Url Spec P_Base.

Lemma isSeparatorChar_spec c : isSeparatorChar c = true <-> In c separators.
Proof.
  assert (isSeparatorChar c = existsb (ceq c) separators) as ->.
  { destruct c as [b0 b1 b2 b3 b4 b5 b6 b7].
    destruct b0, b1, b2, b3, b4, b5, b6, b7; vm_compute; reflexivity. }
  rewrite existsb_exists. split.
  - intros (x & I & E). apply ceq_eq in E. now subst.
  - intros I. exists c. split; auto. apply ceq_refl.
Qed.

Lemma isSeparatorChar_NUL : isSeparatorChar NUL = false.
Proof. reflexivity. Qed.

Lemma sep_false c : ~ In c separators <-> isSeparatorChar c = false.
Proof.
  rewrite <- isSeparatorChar_spec. destruct (isSeparatorChar c); split; easy.
Qed.

(** ** findFirstSeparatorChar *)

(** Longest prefix without separators. *)
Fixpoint host_prefix (s : bytes) : bytes :=
  match s with
  | [] => []
  | c :: s' => if isSeparatorChar c then [] else c :: host_prefix s'
  end.

Lemma findFirst_pure s r n :
  n = length s ->
  findFirstSeparatorChar (s ++ r) n = Ok (length (host_prefix s)).
Proof.
  intros ->. induction s as [|c s IH]; cbn; [now destruct r|].
  destruct (isSeparatorChar c); auto. now rewrite IH.
Qed.

Lemma host_prefix_app h rest :
  (forall c, In c h -> ~ In c separators) ->
  (rest = [] \/ exists c r, rest = c :: r /\ In c separators) ->
  host_prefix (h ++ rest) = h.
Proof.
  intros H R. induction h as [|c h IH]; cbn.
  - destruct R as [->|(c & r & -> & I)]; auto. cbn.
    apply isSeparatorChar_spec in I. now rewrite I.
  - rewrite (proj1 (sep_false c)) by (apply H; cbn; auto).
    rewrite IH; auto. intros; apply H; cbn; auto.
Qed.

Lemma host_prefix_split s :
  exists rest, s = host_prefix s ++ rest /\
    (forall c, In c (host_prefix s) -> ~ In c separators) /\
    (rest = [] \/ exists c r, rest = c :: r /\ In c separators).
Proof.
  induction s as [|c s IH]; cbn.
  - exists []. auto.
  - destruct (isSeparatorChar c) eqn:E.
    + exists (c :: s). split; auto. split; [easy|]. right.
      apply isSeparatorChar_spec in E. eauto.
    + destruct IH as (rest & E1 & H & R). exists rest. cbn. rewrite <- E1.
      repeat split; auto. intros x [<-|I]; [now apply sep_false|exact (H x I)].
Qed.

Lemma host_prefix_length s : length (host_prefix s) <= length s.
Proof.
  destruct (host_prefix_split s) as (rest & E & _).
  rewrite E at 2. rewrite app_length. lia.
Qed.

Lemma firstn_host_prefix s r :
  firstn (length (host_prefix s)) (s ++ r) = host_prefix s.
Proof.
  destruct (host_prefix_split s) as (rest & E & _).
  rewrite E at 2. rewrite <- app_assoc. apply firstn_app_exact.
Qed.

Lemma host_prefix_In s c : In c (host_prefix s) -> In c s.
Proof.
  destruct (host_prefix_split s) as (rest & E & _). rewrite E at 2.
  rewrite in_app_iff. auto.
Qed.

(** ** getUrlHost *)
Fixpoint after_colon (s : bytes) : bytes :=
  match s with
  | [] => []
  | c :: s' => if ceq c ":" then s' else after_colon s'
  end.

Fixpoint drop_slashes (s : bytes) : bytes :=
  match s with
  | [] => []
  | c :: s' => if ceq c "/" then drop_slashes s' else s
  end.

Definition hostOf (url : bytes) : bytes :=
  host_prefix (drop_slashes (after_colon url)).

Fixpoint at_colon (s : bytes) : bytes :=
  match s with
  | [] => []
  | c :: s' => if ceq c ":" then s else at_colon s'
  end.

Lemma skip_scheme_pure s r :
  nonul s -> skip_scheme (s ++ NUL :: r) = Ok (at_colon s ++ NUL :: r).
Proof.
  induction s as [|c s IH]; intros H; cbn; auto.
  apply nonul_cons in H as [H1 H2].
  destruct (ceq_spec c NUL); [easy|]. cbn [orb].
  destruct (ceq c ":"); auto.
Qed.

Lemma skip_slashes_pure s r :
  nonul s -> skip_slashes (s ++ NUL :: r) = Ok (drop_slashes s ++ NUL :: r).
Proof.
  induction s as [|c s IH]; intros H; cbn; auto.
  apply nonul_cons in H as [H1 H2].
  destruct (ceq_spec c NUL); [easy|]. cbn [negb andb].
  destruct (ceq c "/"); auto.
Qed.

Lemma at_colon_cases s :
  (at_colon s = [] /\ after_colon s = []) \/
  at_colon s = ":"%char :: after_colon s.
Proof.
  induction s as [|c s IH]; cbn; auto.
  destruct (ceq_spec c ":") as [->|N]; auto.
Qed.

Lemma after_colon_In s c : In c (after_colon s) -> In c s.
Proof.
  induction s as [|x s IH]; cbn; auto. destruct (ceq x ":"); cbn; auto.
Qed.

Lemma drop_slashes_In s c : In c (drop_slashes s) -> In c s.
Proof.
  induction s as [|x s IH]; cbn; auto. destruct (ceq x "/"); cbn; auto.
Qed.

Lemma getUrlHost_pure url r :
  nonul url -> getUrlHost (url ++ NUL :: r) = Ok (hostOf url).
Proof.
  intros H. unfold getUrlHost, hostOf. rewrite skip_scheme_pure by auto.
  cbn [bind].
  assert (nonul (drop_slashes (after_colon url))) as Hn.
  { intros I. apply drop_slashes_In, after_colon_In in I. auto. }
  destruct (at_colon_cases url) as [[-> E]| ->]; cbn [deref bind app].
  - rewrite E. reflexivity.
  - change (ceq ":" NUL) with false. cbn [skipn].
    rewrite skip_slashes_pure; cbn [bind].
    + rewrite strlen_app by auto. cbn [bind].
      rewrite findFirst_pure by auto. cbn [bind].
      f_equal. apply firstn_host_prefix.
    + intros I. apply after_colon_In in I. auto.
Qed.

Lemma after_colon_app s t :
  ~ In ":"%char s -> after_colon (s ++ ":"%char :: t) = t.
Proof.
  induction s as [|c s IH]; intros H; cbn; auto.
  destruct (ceq_spec c ":") as [->|N].
  - exfalso. apply H. cbn. auto.
  - apply IH. intros I. apply H. cbn. auto.
Qed.

Lemma drop_slashes_app s t :
  (forall c, In c s -> c = "/"%char) -> hd_error t <> Some "/"%char ->
  drop_slashes (s ++ t) = t.
Proof.
  intros H Ht. induction s as [|c s IH]; cbn.
  - destruct t as [|x t]; auto. cbn in *.
    destruct (ceq_spec x "/") as [->|N]; congruence.
  - rewrite (H c) by (cbn; auto). cbn.
    apply IH. intros; apply H; cbn; auto.
Qed.

Lemma slash_sep : In "/"%char separators.
Proof. cbn. auto. Qed.

Lemma hostOf_spec url host : url_has_host url host -> hostOf url = host.
Proof.
  intros (scheme & slashes & rest & -> & H1 & H2 & H3 & H4 & H5).
  unfold hostOf. cbn [B list_ascii_of_string app].
  rewrite after_colon_app by auto.
  rewrite drop_slashes_app; auto.
  - apply host_prefix_app; auto.
  - destruct host as [|c h]; cbn [app]; auto. cbn. intros [= ->].
    apply (H3 "/"%char); cbn; auto.
Qed.

Lemma drop_slashes_split s :
  exists sl, s = sl ++ drop_slashes s /\
    (forall c, In c sl -> c = "/"%char) /\
    hd_error (drop_slashes s) <> Some "/"%char.
Proof.
  induction s as [|c s IH]; cbn.
  - exists []. repeat split; easy.
  - destruct (ceq_spec c "/") as [->|N].
    + destruct IH as (sl & E & H & D). exists ("/"%char :: sl). cbn.
      rewrite <- E. repeat split; auto. intros x [<-|I]; auto.
    + exists []. cbn. repeat split; try easy. congruence.
Qed.

(** Every URL with a colon has a host in the sense of the specification. *)
Lemma hostOf_exists url :
  In ":"%char url -> url_has_host url (hostOf url).
Proof.
  intros I.
  assert (exists s, url = s ++ ":"%char :: after_colon url /\ ~ In ":"%char s)
    as (s & E & N).
  { clear -I. induction url as [|c u IH]; [easy|]. cbn.
    destruct (ceq_spec c ":") as [->|N].
    - exists []. auto.
    - destruct I as [->|I]; [easy|]. destruct (IH I) as (s & E & Ns).
      exists (c :: s). cbn. rewrite <- E. split; auto. intros [->|J]; auto. }
  destruct (drop_slashes_split (after_colon url)) as (sl & E2 & H2 & D).
  destruct (host_prefix_split (drop_slashes (after_colon url)))
    as (rest & E3 & H3 & R).
  exists s, sl, rest. unfold hostOf. cbn [B list_ascii_of_string app].
  repeat split; auto.
  - rewrite <- E3, <- E2. auto.
  - intros Z. rewrite Z in E3. cbn in E3. rewrite <- E3. auto.
Qed.

(** ** First party *)
Lemma endsWith_spec s sub :
  endsWith s sub = true <-> exists a, s = a ++ sub.
Proof.
  unfold endsWith. destruct (Nat.ltb_spec (length s) (length sub)).
  - split; [easy|]. intros (a & ->). rewrite app_length in H. lia.
  - rewrite beq_eq. split.
    + intros E. exists (firstn (length s - length sub) s).
      rewrite <- E at 2. symmetry. apply firstn_skipn.
    + intros (a & ->). rewrite app_length.
      replace (length a + length sub - length sub) with (length a) by lia.
      apply skipn_app_exact.
Qed.

Lemma isThirdPartyHost_spec base host :
  isThirdPartyHost base host = false <-> first_party base host.
Proof.
  unfold isThirdPartyHost, first_party.
  destruct (endsWith host base) eqn:E; cbn [negb].
  - apply endsWith_spec in E as (a & ->).
    rewrite app_length.
    destruct (Nat.eqb_spec (length a + length base) (length base)) as [L|L].
    + split; auto. intros _. left. destruct a; cbn in *; auto. lia.
    + destruct a as [|c a] using rev_ind; [cbn in *; lia|]. clear IHa.
      rewrite app_length. cbn [length].
      replace (length a + 1 + length base - length base - 1) with (length a)
        by lia.
      rewrite <- app_assoc, nth_error_app2 by lia.
      rewrite Nat.sub_diag. cbn [app nth_error].
      cbn [negb]. rewrite andb_true_r, negb_false_iff, ceq_eq. split.
      * intros ->. right. exists a. auto.
      * intros [H|(sub & H)].
        -- exfalso. apply (f_equal (@length _)) in H.
           rewrite app_length in H. cbn in H. lia.
        -- cbn [B list_ascii_of_string app] in H.
           change (c :: base) with ([c] ++ base) in H.
           change ("."%char :: base) with ([("."%char)] ++ base) in H.
           rewrite !app_assoc in H. apply app_inv_tail in H.
           apply app_inj_tail in H. tauto.
  - split; [easy|]. intros H. exfalso.
    assert (endsWith host base = true); [|congruence].
    apply endsWith_spec. destruct H as [->|(s & ->)].
    + exists []. auto.
    + exists (s ++ B "."). now rewrite <- app_assoc.
Qed.

Lemma isThirdPartyHost_true base host :
  isThirdPartyHost base host = true <-> ~ first_party base host.
Proof.
  rewrite <- isThirdPartyHost_spec.
  destruct (isThirdPartyHost base host); split; easy.
Qed.
