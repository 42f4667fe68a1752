From Verif Require Import Base Flags Protocol Spec P_Base.

Fixpoint lits (ls p : bytes) : res bool :=
  match ls with
  | [] => Ok true
  | l :: ls' => match p with
                | [] => UB
                | c :: p' => if ceq (tolower c) l then lits ls' p' else Ok false
                end
  end.

Fixpoint litb (ls s : bytes) : option bytes :=
  match ls with
  | [] => Some s
  | l :: ls' => match s with
                | [] => None
                | c :: s' => if ceq (tolower c) l then litb ls' s' else None
                end
  end.

Definition is_some {A} (o : option A) : bool :=
  match o with Some _ => true | None => false end.

Lemma lits_litb ls s r :
  nonul ls ->
  lits ls (s ++ NUL :: r) = Ok (is_some (litb ls s)).
Proof.
  revert s; induction ls as [|l ls IH]; intros s H; cbn; auto.
  apply nonul_cons in H as [H1 H2].
  destruct s as [|c s]; cbn [app litb].
  - change (tolower NUL) with NUL. destruct (ceq_spec NUL l); [congruence|auto].
  - destruct (ceq (tolower c) l); auto.
Qed.

Lemma litb_split ls s t :
  litb ls s = Some t -> exists a, s = a ++ t /\ length a = length ls.
Proof.
  revert s; induction ls as [|l ls IH]; intros s H; cbn in H.
  - injection H as ->. exists []. auto.
  - destruct s as [|c s]; [easy|]. destruct (ceq (tolower c) l); [|easy].
    apply IH in H as (a & -> & E). exists (c :: a). cbn. auto.
Qed.

Lemma tolower_ci l c :
  (N_of_ascii l < 65 \/ 90 < N_of_ascii l)%N ->
  tolower c = l <-> ci_char l c.
Proof.
  intros Hl. unfold tolower, ci_char.
  destruct ((65 <=? N_of_ascii c)%N && (N_of_ascii c <=? 90)%N)%bool eqn:E.
  - apply andb_true_iff in E as [E1 E2].
    apply N.leb_le in E1, E2. split.
    + intros <-. right. split; [lia|]. rewrite N_ascii_embedding; lia.
    + intros [->|[_ H]]; [lia|]. rewrite <- H. apply ascii_N_embedding.
  - split; [auto|]. intros [->|[H _]]; auto.
    apply andb_false_iff in E as [E|E]; apply N.leb_gt in E; lia.
Qed.

Lemma F2cons {A C} (R : A -> C -> Prop) l ls a :
  Forall2 R (l :: ls) a -> exists c t, a = c :: t /\ R l c /\ Forall2 R ls t.
Proof. intros F. inversion F; subst. eauto. Qed.

Lemma F2nil {A C} (R : A -> C -> Prop) a : Forall2 R [] a -> a = [].
Proof. intros F. now inversion F. Qed.

Definition lowlit (ls : bytes) : Prop :=
  Forall (fun l => (N_of_ascii l < 65 \/ 90 < N_of_ascii l)%N) ls.

Lemma litb_ci ls s t :
  lowlit ls ->
  litb ls s = Some t <-> exists a, s = a ++ t /\ ci_text ls a.
Proof.
  intros Hl. unfold ci_text.
  revert s; induction ls as [|l ls IH]; intros s; cbn.
  - split.
    + intros [= ->]. exists []. auto.
    + intros (a & -> & F). inversion F. auto.
  - inversion Hl as [|? ? Hl1 Hl2]; subst. specialize (IH Hl2).
    destruct s as [|c s].
    + split; [easy|]. intros (a & E & F). inversion F; subst. easy.
    + destruct (ceq_spec (tolower c) l) as [E|N].
      * rewrite IH. apply tolower_ci in E; auto. split.
        -- intros (a & -> & F). exists (c :: a). auto.
        -- intros (a & E' & F). apply F2cons in F as (x & y & -> & F1 & F2).
           injection E' as <- ->. eauto.
      * split; [easy|]. intros (a & E' & F).
        apply F2cons in F as (x & y & -> & F1 & F2).
        injection E' as <- ->. apply tolower_ci in F1; easy.
Qed.

(** The state functions in terms of [lits]. *)
Ltac lits_tac p :=
  do 6 (try (destruct p as [|? p]; cbn;
             repeat match goal with
             | |- context [if ceq ?a ?b then _ else _] => destruct (ceq a b); cbn
             end; auto; try easy)).

Lemma lower_is_nil p i c : nth_error p i = None -> lower_is p i c = UB.
Proof. unfold lower_is, rd. now intros ->. Qed.

Lemma all_http p :
  all_of [fun _ => lower_is p 0 "h"; fun _ => lower_is p 1 "t";
          fun _ => lower_is p 2 "t"; fun _ => lower_is p 3 "p"]
  = lits (B "http") p.
Proof.
  unfold lower_is, rd.
  destruct p as [|c0 [|c1 [|c2 [|c3 p]]]]; cbn;
    repeat match goal with
    | |- context [ceq ?a ?b] => destruct (ceq a b); cbn
    end; auto.
Qed.

Lemma all_ws p :
  all_of [fun _ => lower_is p 0 "w"; fun _ => lower_is p 1 "s"]
  = lits (B "ws") p.
Proof.
  unfold lower_is, rd.
  destruct p as [|c0 [|c1 p]]; cbn;
    repeat match goal with
    | |- context [ceq ?a ?b] => destruct (ceq a b); cbn
    end; auto.
Qed.

Lemma all_blob p :
  all_of [fun _ => lower_is p 0 "b"; fun _ => lower_is p 1 "l";
          fun _ => lower_is p 2 "o"; fun _ => lower_is p 3 "b";
          fun _ => lower_is p 4 ":"]
  = lits (B "blob:") p.
Proof.
  unfold lower_is, rd.
  destruct p as [|c0 [|c1 [|c2 [|c3 [|c4 p]]]]]; cbn;
    repeat match goal with
    | |- context [ceq ?a ?b] => destruct (ceq a b); cbn
    end; auto.
Qed.

Lemma tolower_nonletter c l :
  ~ (97 <= N_of_ascii l <= 122)%N ->
  (N_of_ascii l < 65 \/ 90 < N_of_ascii l)%N ->
  ceq (tolower c) l = ceq c l.
Proof.
  intros H1 H2. destruct (ceq_spec (tolower c) l) as [E|N];
  destruct (ceq_spec c l) as [E'|N']; auto.
  - apply tolower_ci in E; auto. destruct E as [E|[E1 E2]]; [easy|lia].
  - exfalso. apply N. apply tolower_ci; auto. left; auto.
Qed.

Lemma sep_lits p : st_separator p = lits (B "://") p.
Proof.
  unfold st_separator, is_at, rd.
  destruct p as [|c0 [|c1 [|c2 p]]]; cbn;
    rewrite ?tolower_nonletter by (cbn; lia);
    repeat match goal with
    | |- context [ceq ?a ?b] => destruct (ceq a b); cbn
    end; auto.
Qed.

(** Pure version of the whole recognizer. *)
Definition b_sep (s : bytes) : bool := is_some (litb (B "://") s).
Definition b_post (s : bytes) : bool :=
  match litb (B "s") s with Some t => b_sep t | None => b_sep s end.
Definition b_http s :=
  match litb (B "http") s with Some t => b_post t | None => false end.
Definition b_ws s :=
  match litb (B "ws") s with Some t => b_post t | None => false end.
Definition b_proto s := b_ws s || b_http s.
Definition b_all s :=
  match litb (B "blob:") s with Some t => b_proto t | None => b_proto s end.

Ltac nn := repeat (apply nonul_cons; split; [discriminate|]); apply nonul_nil.

Lemma sep_pure s r : st_separator (s ++ NUL :: r) = Ok (b_sep s).
Proof. rewrite sep_lits. apply lits_litb. nn. Qed.

Lemma b_sep_nil : b_sep [] = false. Proof. reflexivity. Qed.
Lemma b_post_nil : b_post [] = false. Proof. reflexivity. Qed.
Lemma b_proto_nil : b_proto [] = false. Proof. reflexivity. Qed.

Lemma skipn_lit ls s r t :
  litb ls s = Some t ->
  skipn (length ls) (s ++ NUL :: r) = t ++ NUL :: r /\
  length s = length ls + length t.
Proof.
  intros H. apply litb_split in H as (a & -> & <-).
  rewrite <- app_assoc, skipn_app_exact, app_length. auto.
Qed.

Lemma advance_pure (ls s t : bytes) r total urlLen k kb :
  litb ls s = Some t -> urlLen = total + length s ->
  (forall total', urlLen = total' + length t ->
     k (t ++ NUL :: r) total' = Ok (kb t)) ->
  kb [] = false ->
  advance (s ++ NUL :: r) total (length ls) urlLen k = Ok (kb t).
Proof.
  intros H E K Z. destruct (skipn_lit _ _ r _ H) as [S L]. unfold advance.
  rewrite S. destruct (Nat.leb_spec urlLen (total + length ls)).
  - destruct t; [|cbn in L; lia]. now rewrite Z.
  - apply K. lia.
Qed.

Lemma post_pure s r total urlLen :
  urlLen = total + length s ->
  st_post_proto urlLen (s ++ NUL :: r) total = Ok (b_post s).
Proof.
  intros E. unfold st_post_proto, b_post.
  replace (lower_is (s ++ NUL :: r) 0 "s") with (lits (B "s") (s ++ NUL :: r)).
  2:{ unfold lower_is, rd; destruct s as [|c s]; [reflexivity|].
      cbn. destruct (ceq _ _); auto. }
  rewrite lits_litb by nn. cbn [bind].
  destruct (litb (B "s") s) as [t|] eqn:L; cbn [is_some].
  - change 1 with (length (B "s")).
    eapply advance_pure; eauto.
    + intros. apply sep_pure.
  - apply sep_pure.
Qed.

Lemma http_pure s r total urlLen :
  urlLen = total + length s ->
  st_http urlLen (s ++ NUL :: r) total = Ok (b_http s).
Proof.
  intros E. unfold st_http, b_http. rewrite all_http, lits_litb by nn.
  cbn [bind]. destruct (litb (B "http") s) as [t|] eqn:L; cbn [is_some]; auto.
  change 4 with (length (B "http")). eapply advance_pure; eauto.
  intros. now apply post_pure.
Qed.

Lemma ws_pure s r total urlLen :
  urlLen = total + length s ->
  st_ws urlLen (s ++ NUL :: r) total = Ok (b_ws s).
Proof.
  intros E. unfold st_ws, b_ws. rewrite all_ws, lits_litb by nn.
  cbn [bind]. destruct (litb (B "ws") s) as [t|] eqn:L; cbn [is_some]; auto.
  change 2 with (length (B "ws")). eapply advance_pure; eauto.
  intros. now apply post_pure.
Qed.

Lemma lower_is_head s r l :
  l <> NUL ->
  lower_is (s ++ NUL :: r) 0 l =
  Ok (match s with c :: _ => ceq (tolower c) l | [] => false end).
Proof.
  intros H. unfold lower_is, rd. destruct s; cbn [app nth_error bind]; auto.
  change (tolower NUL) with NUL. destruct (ceq_spec NUL l); congruence.
Qed.

Lemma post_blob_pure s r total urlLen :
  urlLen = total + length s ->
  st_post_blob urlLen (s ++ NUL :: r) total = Ok (b_proto s).
Proof.
  intros E. unfold st_post_blob, b_proto.
  rewrite !lower_is_head by discriminate. cbn [bind].
  destruct s as [|c s]; [reflexivity|].
  destruct (ceq_spec (tolower c) "w") as [W|W].
  - rewrite ws_pure by auto.
    replace (b_http (c :: s)) with false; [now rewrite orb_false_r|].
    unfold b_http. cbn. rewrite W. reflexivity.
  - destruct (ceq_spec (tolower c) "h") as [H|H].
    + rewrite http_pure by auto. replace (b_ws (c :: s)) with false; auto.
      unfold b_ws. cbn. rewrite H. reflexivity.
    + f_equal. unfold b_ws, b_http. cbn.
      apply ceq_neq in W, H. now rewrite W, H.
Qed.

Lemma isBlockableProtocol_pure s r :
  isBlockableProtocol (s ++ NUL :: r) (length s)
  = Ok ((5 <? length s) && b_all s).
Proof.
  unfold isBlockableProtocol.
  destruct (Nat.leb_spec (length s) 5); destruct (Nat.ltb_spec 5 (length s));
    try lia; cbn [andb]; auto.
  rewrite lower_is_head by discriminate. cbn [bind].
  destruct s as [|c s]; [cbn in *; lia|].
  destruct (ceq_spec (tolower c) "b") as [W|W].
  - unfold st_blob. rewrite all_blob, lits_litb by nn. cbn [bind].
    unfold b_all. destruct (litb (B "blob:") (c :: s)) as [t|] eqn:L;
      cbn [is_some].
    + change 5 with (length (B "blob:")). eapply advance_pure; eauto.
      * intros. now apply post_blob_pure.
    + unfold b_proto, b_ws, b_http. cbn. rewrite W. reflexivity.
  - rewrite post_blob_pure by auto. unfold b_all.
    replace (litb (B "blob:") (c :: s)) with (@None bytes); auto.
    cbn. apply ceq_neq in W. now rewrite W.
Qed.

(** ** Equivalence with the specification *)
Ltac ll := repeat constructor; cbn; lia.

Lemma litb_sep s : b_sep s = true <-> exists r, s = B "://" ++ r.
Proof.
  unfold b_sep. destruct (litb (B "://") s) as [t|] eqn:E; cbn [is_some].
  - split; auto. intros _. apply litb_ci in E as (a & -> & F); [|ll].
    exists t. f_equal. unfold ci_text in F.
    assert (forall l c, ~ (97 <= N_of_ascii l <= 122)%N -> ci_char l c -> c = l)
      as K.
    { intros l c H1 [H|[H2 H3]]; auto. lia. }
    apply F2cons in F as (? & ? & -> & A1 & F).
    apply F2cons in F as (? & ? & -> & A2 & F).
    apply F2cons in F as (? & ? & -> & A3 & F). apply F2nil in F. subst.
    apply K in A1, A2, A3; subst; cbn; auto; try lia.
  - split; [easy|]. intros (r & ->). cbn in E. easy.
Qed.

Lemma ci_app_inv l1 l2 a :
  ci_text (l1 ++ l2) a -> exists a1 a2, a = a1 ++ a2 /\ ci_text l1 a1 /\ ci_text l2 a2.
Proof. intros F. apply Forall2_app_inv_l in F as (a1 & a2 & F1 & F2 & ->). eauto. Qed.

Lemma b_post_spec s :
  b_post s = true <->
  exists r, s = B "://" ++ r \/ exists a, ci_text (B "s") a /\ s = a ++ B "://" ++ r.
Proof.
  unfold b_post. destruct (litb (B "s") s) as [t|] eqn:E.
  - rewrite litb_sep. apply litb_ci in E as (a & -> & F); [|ll]. split.
    + intros (r & ->). exists r. right. exists a. auto.
    + intros (r & [H|(a' & F' & H)]).
      * apply F2cons in F as (x & y & -> & A1 & F). apply F2nil in F. subst.
        injection H as -> H. destruct A1 as [A|[A ?]]; [easy|]. cbn in A. lia.
      * apply F2cons in F as (x & y & -> & A1 & F). apply F2nil in F. subst.
        apply F2cons in F' as (x' & y' & -> & A1' & F'). apply F2nil in F'. subst.
        injection H as -> H. exists r. exact H.
  - rewrite litb_sep. split.
    + intros (r & ->). eauto.
    + intros (r & [H|(a' & F' & H)]); eauto.
      exfalso. assert (litb (B "s") s = Some (B "://" ++ r)) as X.
      { apply litb_ci; [ll|]. eauto. }
      congruence.
Qed.

Lemma scheme_spec base s :
  lowlit base ->
  match litb base s with Some t => b_post t | None => false end = true <->
  exists sch r, s = sch ++ B "://" ++ r /\
                (ci_text base sch \/ ci_text (base ++ B "s") sch).
Proof.
  intros Hl. destruct (litb base s) as [t|] eqn:E.
  - pose proof E as E0. apply litb_ci in E as (a & -> & F); auto.
    rewrite b_post_spec. split.
    + intros (r & [->|(a' & F' & ->)]).
      * exists a, r. auto.
      * exists (a ++ a'), r. rewrite <- !app_assoc. split; auto.
        right. apply Forall2_app; auto.
    + assert (forall x t', ci_text base x -> a ++ t = x ++ t' -> t = t') as K.
      { intros x t' Fx Ex.
        assert (litb base (a ++ t) = Some t') by (apply litb_ci; eauto).
        congruence. }
      intros (sch & r & Es & [F'|F']).
      * exists r. left. eauto.
      * apply ci_app_inv in F' as (a1 & a2 & -> & F1 & F2).
        exists r. right. exists a2. split; auto.
        rewrite <- !app_assoc in Es. eauto.
  - split; [easy|]. intros (sch & r & -> & [F'|F']).
    + assert (litb base (sch ++ B "://" ++ r) = Some (B "://" ++ r))
        by (apply litb_ci; eauto). congruence.
    + apply ci_app_inv in F' as (a1 & a2 & -> & F1 & F2).
      rewrite <- app_assoc in E.
      assert (litb base (a1 ++ a2 ++ B "://" ++ r) = Some (a2 ++ B "://" ++ r))
        by (apply litb_ci; eauto). congruence.
Qed.

Lemma b_proto_spec s :
  b_proto s = true <->
  exists sch r, s = sch ++ B "://" ++ r /\
    (ci_text (B "http") sch \/ ci_text (B "https") sch \/
     ci_text (B "ws") sch \/ ci_text (B "wss") sch).
Proof.
  unfold b_proto, b_ws, b_http. rewrite orb_true_iff, !scheme_spec by ll.
  cbn [B list_ascii_of_string app]. split.
  - intros [(sch & r & E & H)|(sch & r & E & H)]; exists sch, r; tauto.
  - intros (sch & r & E & H).
    destruct H as [H|[H|[H|H]]]; [right|right|left|left]; exists sch, r; auto.
Qed.

Lemma ci_head_b sch :
  (ci_text (B "http") sch \/ ci_text (B "https") sch \/
     ci_text (B "ws") sch \/ ci_text (B "wss") sch) ->
  exists c t, sch = c :: t /\ tolower c <> "b"%char.
Proof.
  intros H. assert (exists l c t, (l = "h"%char \/ l = "w"%char) /\ sch = c :: t /\
    ci_char l c) as (l & c & t & Hl & -> & HH).
  { destruct H as [H|[H|[H|H]]]; inversion H; subst; eauto 8. }
  exists c, t. split; auto. apply tolower_ci in HH.
  - intros E. destruct Hl; subst; congruence.
  - destruct Hl; subst; cbn; lia.
Qed.

Lemma b_all_spec s :
  b_all s = true <->
  exists pre sch r, s = pre ++ sch ++ B "://" ++ r /\
    (pre = [] \/ ci_text (B "blob:") pre) /\
    (ci_text (B "http") sch \/ ci_text (B "https") sch \/
     ci_text (B "ws") sch \/ ci_text (B "wss") sch).
Proof.
  unfold b_all. destruct (litb (B "blob:") s) as [t|] eqn:E.
  - pose proof E as E0. apply litb_ci in E as (a & -> & F); [|ll].
    rewrite b_proto_spec. split.
    + intros (sch & r & -> & H). exists a, sch, r. auto.
    + intros (pre & sch & r & Es & [->|Fp] & H).
      * exfalso. apply ci_head_b in H as (c & t' & -> & N). apply N.
        apply F2cons in F as (x & y & -> & C1 & F). injection Es as -> Es.
        apply tolower_ci; auto. cbn; lia.
      * exists sch, r. split; auto.
        assert (litb (B "blob:") (a ++ t) = Some (sch ++ B "://" ++ r)).
        { apply litb_ci; [ll|]. eauto. }
        congruence.
  - rewrite b_proto_spec. split.
    + intros (sch & r & -> & H). exists [], sch, r. auto.
    + intros (pre & sch & r & -> & [->|Fp] & H); [now exists sch, r|].
      exfalso.
      assert (litb (B "blob:") (pre ++ sch ++ B "://" ++ r)
              = Some (sch ++ B "://" ++ r)).
      { apply litb_ci; [ll|]. eauto. }
      congruence.
Qed.

Theorem isBlockableProtocol_spec url :
  nonul url ->
  exists b, isBlockableProtocol (cstr url) (length url) = Ok b /\
            (b = true <-> web_url url).
Proof.
  intros _. eexists. split; [apply isBlockableProtocol_pure|].
  unfold web_url. rewrite andb_true_iff, Nat.ltb_lt, b_all_spec. tauto.
Qed.

Lemma isBlockableProtocol_nonweb url b :
  isBlockableProtocol (cstr url) (length url) = Ok b -> ~ web_url url ->
  b = false.
Proof.
  unfold cstr. rewrite isBlockableProtocol_pure. intros [= <-] H.
  destruct ((5 <? length url) && b_all url) eqn:E; auto. exfalso. apply H.
  unfold web_url. apply andb_true_iff in E as [E1 E2].
  apply Nat.ltb_lt in E1. apply b_all_spec in E2. auto.
Qed.
