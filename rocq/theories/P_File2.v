(** Rules and sets of data files: C101. *)
From Verif Require Import Base Flags Sets FilterM ParseM ClientM SerialM Spec SpecM SpecS SpecFile
  P_Base P_Rule P_List P_Ser1 P_File.

(** ** Texts *)

Lemma cstring_inv p s : cstring p = Ok s -> exists r, p = cstr s ++ r /\ nonul s.
Proof.
  intros H. unfold cstring in H. inv_ok. apply strlen_inv in H0 as (u & r & -> & N & ->).
  rewrite firstn_app_exact in H. subst u. exists r. split; auto. now rewrite cstr_app.
Qed.

Lemma take_str_inv p o q : take_str p = Ok (o, q) ->
  exists s, p = cstr s ++ q /\ nonul s /\ o = optional s.
Proof.
  intros H. unfold take_str in H. apply bind_ok in H as (x & H0 & H). apply cstring_inv in H0 as (r & -> & N).
  rewrite skipn_cstr_app in H. injection H as <- <-. now exists x.
Qed.

Lemma take_data_inv p o q : take_data p = Ok (o, q) ->
  exists s, p = cstr s ++ q /\ nonul s /\ option_map fst o = optional s.
Proof.
  intros H. unfold take_data in H. apply bind_ok in H as (x & H0 & H). apply cstring_inv in H0 as (r & -> & N).
  rewrite skipn_cstr_app in H. injection H as <- <-. exists x. now destruct x.
Qed.

Lemma first_of (c : ascii) s : ~ In c s \/ exists t m, s = t ++ c :: m /\ ~ In c t.
Proof.
  induction s as [|x s [N|(t & m & -> & N)]].
  - now left.
  - destruct (ceq_spec x c) as [->|D]; [right; now exists [], s|left].
    intros [E|I]; auto.
  - destruct (ceq_spec x c) as [->|D]; [right; now exists [], (t ++ c :: m)|right].
    exists (x :: t), m. split; auto. intros [E|I]; auto.
Qed.

Lemma split_some c s : exists w ws, split_on c s = w :: ws.
Proof.
  induction s as [|x s (w & ws & E)]; cbn [split_on]; [eauto|].
  destruct (ceq x c); eauto. rewrite E. eauto.
Qed.

Lemma tag_inv p t p1 m q : take_tag p = Ok (t, p1) -> take_str p1 = Ok (m, q) ->
  exists x, p = cstr x ++ q /\ nonul x /\ tag_and_domains x t m.
Proof.
  intros T S.
  assert ((forall r, p <> B "~#" ++ r) -> t = [] -> p1 = p ->
    exists x, p = cstr x ++ q /\ nonul x /\ tag_and_domains x t m) as Plain.
  { intros X -> ->. apply take_str_inv in S as (x & -> & N & ->). exists x. split; auto. split; auto.
    apply tag_none. intros r ->. apply (X (r ++ NUL :: q)). rewrite cstr_app. now rewrite app_assoc. }
  unfold take_tag in T. apply bind_ok in T as (c0 & R0 & T). apply rd_ok in R0.
  destruct p as [|a p]; [discriminate R0|]. injection R0 as ->.
  destruct (ceq c0 "~") eqn:C0.
  2: { injection T as <- <-. apply Plain; auto. intros r [= -> _]. now rewrite ceq_refl in C0. }
  apply ceq_eq in C0 as ->. apply bind_ok in T as (c1 & R1 & T). apply rd_ok in R1.
  destruct p as [|b p]; [discriminate R1|]. injection R1 as ->.
  destruct (ceq c1 "#") eqn:C1.
  2: { injection T as <- <-. apply Plain; auto. intros r [= -> _]. now rewrite ceq_refl in C1. }
  apply ceq_eq in C1 as ->. change (skipn 2 ("~"%char :: "#"%char :: p)) with p in T. apply bind_ok in T as (s & Cs & T).
  apply cstring_inv in Cs as (r & -> & N). clear Plain.
  destruct (first_of "," s) as [I|(u & v & -> & I)].
  - rewrite split_on_none in T by auto. injection T as <- <-. rewrite take_str_ok in S by auto.
    injection S as <- <-. exists (B "~#" ++ s). split; [reflexivity|]. split.
    + apply nonul_app. split; auto. intros X. cbn in X. destruct X as [X|[X|[]]]; discriminate X.
    + now apply tag_both.
  - rewrite split_on_app in T by auto. destruct (split_some "," v) as (w & ws & E). rewrite E in T.
    injection T as <- <-.
    replace (skipn (length u + 1) (cstr (u ++ ","%char :: v) ++ r))
      with (cstr v ++ r) in S.
    + apply nonul_app in N as [N1 N2]. apply nonul_cons in N2 as [_ N2].
       rewrite take_str_ok in S by auto. injection S as <- <-.
      exists (B "~#" ++ u ++ "," :: v)%char. split; [reflexivity|]. split.
      * apply nonul_app. split; [intros X; cbn in X; destruct X as [X|[X|[]]]; discriminate X|].
        apply nonul_app. split; auto. apply nonul_cons. split; [discriminate|auto].
      * now apply tag_given.
    + rewrite !cstr_app. rewrite <- app_assoc. cbn [Nat.add skipn app]. 
      replace (length u + 1) with (length (u ++ ","%char :: nil)) by (rewrite app_length; reflexivity).
      change (u ++ ","%char :: v ++ NUL :: r) with (u ++ [","%char] ++ (v ++ NUL :: r)).
      rewrite app_assoc. now rewrite skipn_app_exact.
Qed.

Lemma tag_ok x t m q : nonul x -> tag_and_domains x t m ->
  exists p1, take_tag (cstr x ++ q) = Ok (t, p1) /\ take_str p1 = Ok (m, q).
Proof.
  intros N T. destruct T as [m X|t m I|m I].
  - exists (cstr m ++ q). split; [|now apply take_str_ok].
    unfold take_tag. destruct m as [|a m]; [reflexivity|]. cbn [cstr app rd nth_error bind].
    destruct (ceq a "~") eqn:A; [|reflexivity]. apply ceq_eq in A as ->.
    destruct m as [|b m]; [reflexivity|]. cbn [app nth_error bind rd].
    destruct (ceq b "#") eqn:Bb; [|reflexivity]. apply ceq_eq in Bb as ->. now destruct (X m).
  - exists (cstr m ++ q). apply nonul_app in N as [_ N]. pose proof N as N'.
    apply nonul_app in N' as [_ N2]. apply nonul_cons in N2 as [_ N2].
    split; [|now apply take_str_ok].
    unfold take_tag. cbn [B list_ascii_of_string app cstr rd nth_error bind].
    replace (ceq "~" "~") with true by reflexivity. replace (ceq "#" "#") with true by reflexivity.
    cbn [skipn]. fold (cstr (t ++ ","%char :: m)). rewrite cstr_app, cstring_app by auto. cbn [bind].
    rewrite split_on_app by auto. destruct (split_some "," m) as (w & ws & ->). f_equal. f_equal.
    rewrite cstr_app. rewrite <- app_assoc. cbn [Nat.add skipn app].
    replace (length t + 1) with (length (t ++ ","%char :: nil)) by (rewrite app_length; reflexivity).
    change (t ++ ","%char :: m ++ NUL :: q) with (t ++ [","%char] ++ (m ++ NUL :: q)).
    rewrite app_assoc. now rewrite skipn_app_exact.
  - exists (cstr m ++ q). apply nonul_app in N as [_ N].
    split; [|now apply take_str_ok].
    unfold take_tag. cbn [B list_ascii_of_string app cstr rd nth_error bind].
    replace (ceq "~" "~") with true by reflexivity. replace (ceq "#" "#") with true by reflexivity.
    cbn [skipn]. fold (cstr m). rewrite cstr_app, cstring_app by auto. cbn [bind].
    now rewrite split_on_none.
Qed.

(** ** Rules of arrays *)

Lemma fields_cstr k h t : scan_fields k (cstr h ++ t) = scan_fields k h.
Proof. rewrite cstr_app. apply fields_stop. Qed.

Lemma numbers_of k h : numbers_text k h (scan_fields k h).
Proof. now apply numbers_spec. Qed.

Lemma rule_inv p f q : df_read1 p = Ok (f, q) -> exists a, p = a ++ q /\ array_rule a f.
Proof.
  intros H. unfold df_read1 in H. apply bind_ok in H as (h & Ch & H).
  apply cstring_inv in Ch as (p1 & -> & Nh). rewrite fields_cstr, skipn_cstr_app in H.
  apply bind_ok in H as ([d p2] & Td & H). apply take_data_inv in Td as (sd & -> & Nd & Ed).
  apply bind_ok in H as ([t p3] & Tt & H). apply bind_ok in H as ([m p4] & Tm & H).
  destruct (tag_inv _ _ _ _ _ Tt Tm) as (x & -> & Nx & T).
  apply bind_ok in H as ([o p5] & To & H). apply take_str_inv in To as (s & -> & Ns & ->).
  injection H as <- <-. exists (cstr h ++ cstr sd ++ cstr x ++ cstr s). split; [now rewrite <- !app_assoc|].
  econstructor; eauto using numbers_of.
Qed.

Lemma optional_eq s : match s with [] => None | _ => Some s end = optional s.
Proof. now destruct s. Qed.

Lemma rule_ok a f q : array_rule a f -> exists g, df_read1 (a ++ q) = Ok (g, q) /\ same_fields f g.
Proof.
  intros H. destruct H as [h vs d x t m host f Nh V Nd Nx T Ns F1 F2 F3 F4 F5 F6 F7].
  rewrite <- !app_assoc. destruct (tag_ok x t m (cstr host ++ q) Nx T) as (p1 & T1 & T2).
  apply numbers_spec in V. eexists. split.
  - unfold df_read1. rewrite (cstr_app h), cstring_app by auto. cbn [bind]. rewrite <- cstr_app.
    rewrite fields_cstr, skipn_cstr_app, take_data_ok by auto. cbn [bind]. rewrite T1. cbn [bind].
    rewrite T2. cbn [bind]. rewrite take_str_ok by auto. cbn [bind]. reflexivity.
  - subst vs. unfold same_fields, nthN. unfold field in *. unfold pattern in *.
    cbn [f_type f_opt f_anti f_data f_dom f_tag f_host]. rewrite F1, F2, F3, F4, F5, F6, F7.
    repeat split; auto. now destruct d.
Qed.

Lemma rules_inv n : forall p fs q, df_read n p = Ok (fs, q) ->
  length fs = n /\ exists a, p = a ++ q /\ array_text a fs.
Proof.
  induction n as [|n IH]; intros p fs q H; cbn [df_read] in H.
  - injection H as <- <-. split; auto. exists []. split; [auto|constructor].
  - apply bind_ok in H as ([f p1] & R & H). apply bind_ok in H as ([gs p2] & Rs & H).
    injection H as <- <-. apply rule_inv in R as (a & -> & A). apply IH in Rs as (<- & b & -> & T).
    split; auto. exists (a ++ b). split; [now rewrite app_assoc|]. now constructor.
Qed.

Lemma rules_ok a fs : array_text a fs -> forall q,
  exists gs, df_read (length fs) (a ++ q) = Ok (gs, q) /\ Forall2 same_fields fs gs.
Proof.
  intros H. induction H as [|a f s fs A T IH]; intros q.
  - exists []. split; [reflexivity|constructor].
  - destruct (IH q) as (gs & E & F). destruct (rule_ok a f (s ++ q) A) as (g & Eg & Sg).
    exists (g :: gs). split; [|now constructor]. cbn [length df_read]. rewrite <- app_assoc, Eg. cbn [bind].
    now rewrite E.
Qed.

(** ** Items of sets *)

Definition reads {A} (iread : bytes -> nat -> res (option (A * nat))) (item : bytes -> A -> Prop)
    (R : A -> A -> Prop) : Prop :=
  (forall p size x n, iread p size = Ok (Some (x, n)) -> skipn n p <> [] ->
     exists i, p = i ++ skipn n p /\ length i = n /\ item i x) /\
  (forall i x s size, item i x -> length i < size ->
     exists y, iread (i ++ s) size = Ok (Some (y, length i)) /\ R x y) /\
  (forall i x, item i x -> 0 < length i).

Lemma nul_before h : forall s n, nonul h -> length h < n -> nulBefore (cstr h ++ s) n = Ok true.
Proof.
  induction h as [|c h IH]; intros s n N L; (destruct n as [|n]; [cbn in L; lia|]); [reflexivity|].
  apply nonul_cons in N as [N1 N2]. cbn [cstr app nulBefore].
  destruct (ceq c NUL) eqn:E; [apply ceq_eq in E; easy|]. apply IH; auto. cbn in L. lia.
Qed.

Lemma host_reads : reads fi_read host_item same_fields.
Proof.
  split; [|split].
  - intros p size f n H _. unfold fi_read in H. apply bind_ok in H as (b & _ & H).
    destruct (negb b); [discriminate H|]. apply bind_ok in H as (h & Ch & H).
    apply cstring_inv in Ch as (p1 & -> & Nh). rewrite fields_cstr, skipn_cstr_app in H.
    set (v := scan_fields 4 h) in *. remember (N.to_nat (nthN v 0 0)) as dl eqn:Dl.
    destruct (size <=? length h + 1 + dl); [destruct (wraps _ _); discriminate H|].
    destruct (length p1 <? dl) eqn:L; [discriminate H|]. apply Nat.ltb_ge in L.
    apply bind_ok in H as ([o p3] & To & H). apply take_str_inv in To as (s & E2 & Ns & ->).
    apply bind_ok in H as ([t p4] & Tt & H). apply bind_ok in H as ([m p5] & Tm & H).
    destruct (tag_inv _ _ _ _ _ Tt Tm) as (x & -> & Nx & T). injection H as <- <-.
    set (d := firstn dl p1) in *.
    assert (cstr h ++ p1 = (cstr h ++ d ++ cstr s ++ cstr x) ++ p5) as E.
    { rewrite <- !app_assoc. f_equal. rewrite <- (firstn_skipn dl p1). fold d. now rewrite E2. }
    exists (cstr h ++ d ++ cstr s ++ cstr x). rewrite E.
    assert (length ((cstr h ++ d ++ cstr s ++ cstr x) ++ p5) - length p5 =
      length (cstr h ++ d ++ cstr s ++ cstr x)) as -> by (rewrite app_length; lia).
    rewrite skipn_app_exact. split; auto. split; auto.
    apply (host_item_of h v d s x t m); auto; try reflexivity; [apply numbers_of|].
    unfold d. rewrite firstn_length_le by auto. rewrite Dl, N2Nat.id. reflexivity.
  - intros i f s size H L. destruct H as [h vs d host x t m f Nh V Ld Ns Nx T F1 F2 F3 F4 F5 F6 F7].
    apply numbers_spec in V. rewrite !app_length, !cstr_len in L.
    rewrite <- !app_assoc. destruct (tag_ok x t m s Nx T) as (p1 & T1 & T2).
    eexists. split.
    + unfold fi_read. rewrite nul_before by (auto; lia). cbn [bind negb].
      rewrite (cstr_app h), cstring_app by auto. cbn [bind]. rewrite <- cstr_app.
      rewrite fields_cstr, V, skipn_cstr_app. unfold nthN, field in *. rewrite <- Ld, Nat2N.id.
      assert (size <=? length h + 1 + length d = false) as -> by (apply Nat.leb_gt; lia).
      assert (length (d ++ cstr host ++ cstr x ++ s) <? length d = false) as ->
        by (apply Nat.ltb_ge; rewrite app_length; lia).
      rewrite firstn_app_exact, skipn_app_exact, take_str_ok by auto. cbn [bind].
      rewrite T1. cbn [bind]. rewrite T2. cbn [bind]. f_equal. f_equal. f_equal.
      rewrite !app_length. lia.
    + unfold same_fields, pattern, field in *.
      cbn [f_type f_opt f_anti f_data f_dom f_tag f_host]. rewrite F1, F2, F3, F4, F5, F6, F7.
      repeat split; auto.
  - intros i f H. destruct H. rewrite app_length, cstr_len. lia.
Qed.

Lemma first_number h : match scan_hex h with Some (n, _) => n | None => 0%N end = field (scan_fields 1 h) 0.
Proof. unfold field. cbn [scan_fields]. destruct (scan_hex h) as [[n r]|]; reflexivity. Qed.

Lemma hex_cstr h t : match scan_hex (cstr h ++ t) with Some (n, _) => n | None => 0%N end =
  field (scan_fields 1 h) 0.
Proof. rewrite cstr_app, hex_stop, <- first_number. now destruct (scan_hex h) as [[n r]|]. Qed.

Lemma domain_reads : reads nd_read domain_item eq.
Proof.
  split; [|split].
  - intros p size d n H X. unfold nd_read in H. apply bind_ok in H as (h & Ch & H).
    apply cstring_inv in Ch as (p1 & -> & Nh). rewrite hex_cstr, skipn_cstr_app in H.
    set (v := scan_fields 1 h) in *. cbv zeta in H. remember (N.to_nat (field v 0)) as dl eqn:Dl.
    destruct (size <=? length h + 1 + dl); [destruct (wraps _ _); discriminate H|].
    destruct (length p1 <? dl) eqn:L; [discriminate H|]. apply Nat.ltb_ge in L.
    injection H as <- <-.
    assert (length p1 > dl) as G.
    { destruct (Nat.eq_dec (length p1) dl) as [E|E]; [|lia]. destruct X. apply skipn_all2.
      rewrite app_length, cstr_len. lia. }
    assert (exists last q, skipn dl p1 = last :: q) as (last & q & Q).
    { destruct (skipn dl p1) as [|a q] eqn:Q; [|eauto].
      apply (f_equal (@length _)) in Q. rewrite skipn_length in Q. cbn in Q. lia. }
    set (d := firstn dl p1).
    assert (length d = dl) as Hd by (unfold d; now rewrite firstn_length_le).
    assert (cstr h ++ p1 = (cstr h ++ d ++ [last]) ++ q) as E.
    { rewrite <- !app_assoc. f_equal. rewrite <- (firstn_skipn dl p1) at 1. fold d. now rewrite Q. }
    exists (cstr h ++ d ++ [last]). rewrite E.
    assert (length h + 1 + dl + 1 = length (cstr h ++ d ++ [last])) as ->.
    { rewrite !app_length, cstr_len, Hd. cbn [length]. lia. }
    rewrite skipn_app_exact. split; auto. split; auto.
    apply (domain_item_of h v d last); auto; [apply numbers_of|]. rewrite Hd, Dl. apply N2Nat.id.
  - intros i d s size H L. destruct H as [h vs d last Nh V Ld].
    apply numbers_spec in V. rewrite !app_length, cstr_len in L. cbn [length] in L.
    rewrite <- !app_assoc. exists d. split; [|reflexivity].
    unfold nd_read. rewrite (cstr_app h), cstring_app by auto. cbn [bind]. rewrite <- cstr_app.
    rewrite hex_cstr, V, <- Ld, Nat2N.id, skipn_cstr_app. cbv zeta.
    assert (size <=? length h + 1 + length d = false) as -> by (apply Nat.leb_gt; lia).
    assert (length (d ++ [last] ++ s) <? length d = false) as ->
      by (apply Nat.ltb_ge; rewrite app_length; lia).
    rewrite firstn_app_exact. f_equal. f_equal. f_equal. rewrite !app_length, cstr_len. cbn [length]. lia.
  - intros i d H. destruct H. rewrite app_length, cstr_len. lia.
Qed.

(** ** Sets *)
Section Sets.
  Context {A : Type} (iread : bytes -> nat -> res (option (A * nat))) (item : bytes -> A -> Prop)
    (R : A -> A -> Prop) (Rd : reads iread item R).

  Lemma items_inv fuel : forall p pos size xs p' pos',
    items_read iread fuel p pos size = Ok (xs, Some (p', pos')) ->
    exists s', p' = NUL :: s' /\ bucket_text item size pos p xs (S pos') s'.
  Proof.
    induction fuel as [|fuel IH]; intros p pos size xs p' pos' H; cbn [items_read] in H;
      apply bind_ok in H as (c & D & H); (destruct p as [|c' p]; [discriminate D|]); injection D as ->;
      (destruct (ceq c NUL) eqn:C; [apply ceq_eq in C as ->; injection H as <- <- <-|]).
    - exists p. split; auto. constructor.
    - discriminate H.
    - exists p. split; auto. constructor.
    - destruct (size <=? pos); [discriminate H|]. apply bind_ok in H as ([[x n]|] & Ir & H); [|discriminate H].
      destruct ((size <=? pos + n) || (n =? 0)) eqn:B; [discriminate H|].
      apply orb_false_iff in B as [B1 B2]. apply Nat.leb_gt in B1. apply Nat.eqb_neq in B2.
      apply bind_ok in H as ([l k] & Rs & H). injection H as <- ->.
      assert (skipn n (c :: p) <> []) as X.
      { intros E. rewrite E in Rs. destruct fuel; discriminate Rs. }
      destruct Rd as (Rd1 & _ & _). destruct (Rd1 _ _ _ _ Ir X) as (i & E & L & I).
      apply IH in Rs as (s' & -> & T). exists s'. split; auto. rewrite E.
      constructor; auto.
      + destruct i as [|a i]; [cbn in L; congruence|]. injection E as -> _. cbn [hd].
        intros ->. now rewrite ceq_refl in C.
      + now rewrite L.
      + now rewrite L.
  Qed.

  Lemma items_ok size pos s xs pos' s' : bucket_text item size pos s xs pos' s' ->
    forall fuel, size - pos <= fuel ->
    exists ys, items_read iread fuel s pos size = Ok (ys, Some (NUL :: s', pred pos')) /\ 0 < pos' /\
      Forall2 R xs ys.
  Proof.
    intros H. induction H as [pos s|pos i x s xs pos' s' I Hd L T IH]; intros fuel F.
    - exists []. split; [|split; [lia|constructor]]. destruct fuel; reflexivity.
    - destruct Rd as (_ & Rd2 & Rd3). pose proof (Rd3 i x I) as Pos.
      destruct fuel as [|fuel]; [lia|]. destruct (IH fuel) as (ys & E & P & FR); [lia|].
      destruct (Rd2 i x s (size - pos) I) as (y & Ey & Ry); [lia|].
      exists (y :: ys). split; [|split; [auto|now constructor]].
      cbn [items_read]. destruct i as [|c i]; [cbn in Pos; lia|]. cbn [app deref bind].
      cbn [hd] in Hd. destruct (ceq c NUL) eqn:C; [apply ceq_eq in C; easy|].
      assert (size <=? pos = false) as -> by (apply Nat.leb_gt; lia).
      cbn [app] in Ey. rewrite Ey. cbn [bind].
      assert ((size <=? pos + length (c :: i)) || (length (c :: i) =? 0) = false) as ->.
      { apply orb_false_iff. split; [apply Nat.leb_gt; lia|reflexivity]. }
      change (c :: i ++ s) with ((c :: i) ++ s). rewrite skipn_app_exact, E. reflexivity.
  Qed.

  Lemma buckets_inv size nb : forall p pos bs, buckets_read iread nb p pos size = Ok (bs, true) ->
    buckets_text item size nb pos p bs.
  Proof.
    induction nb as [|nb IH]; intros p pos bs H; cbn [buckets_read] in H.
    - injection H as <-. constructor.
    - apply bind_ok in H as ([l [[p' pos']|]] & I & H); [|discriminate H].
      apply bind_ok in H as ([s ok] & Bs & H). injection H as <- ->.
      apply items_inv in I as (s' & -> & T). econstructor; [exact T|]. now apply IH.
  Qed.

  Lemma buckets_ok size nb pos s bs : buckets_text item size nb pos s bs ->
    exists cs, buckets_read iread nb s pos size = Ok (cs, true) /\ Forall2 (Forall2 R) bs cs.
  Proof.
    intros H. induction H as [pos s|n pos s b pos' s' bs T H (cs & E & F)].
    - exists []. split; [reflexivity|constructor].
    - destruct (items_ok _ _ _ _ _ _ T size) as (ys & Ei & P & Fy); [lia|].
      exists (ys :: cs). split; [|now constructor]. cbn [buckets_read]. rewrite Ei. cbn [bind skipn].
      replace (S (pred pos')) with pos' by lia. now rewrite E.
  Qed.

  Lemma number_nat (p : bytes) : match scan_hex p with Some (n, _) => N.to_nat n | None => 0 end =
    N.to_nat match scan_hex p with Some (n, _) => n | None => 0%N end.
  Proof. now destruct (scan_hex p) as [[n r]|]. Qed.

  Lemma set_inv n p o : initHash iread p n = Ok (o, true) -> set_text item n p o.
  Proof.
    intros H. destruct n as [|n].
    - injection H as <-. constructor.
    - unfold initHash in H. apply bind_ok in H as ([bs ok] & H & E). cbn [fst snd] in E. injection E as <- ->.
      unfold hs_deserialize in H. apply bind_ok in H as (b & _ & H). destruct (negb b); [discriminate H|].
      apply bind_ok in H as (h & Ch & H). apply cstring_inv in Ch as (s & -> & Nh).
      rewrite number_nat, hex_cstr, skipn_cstr_app in H. cbv zeta in H.
      destruct (S n <=? length h + 1) eqn:L; [discriminate H|]. apply Nat.leb_gt in L.
      apply buckets_inv in H. replace (length h + 1) with (S (length h)) in * by lia.
      apply (set_some item (S n) h (scan_fields 1 h)); auto using numbers_of.
  Qed.

  Lemma set_ok n p o : set_text item n p o -> exists o', initHash iread p n = Ok (o', true) /\
    match o, o' with
    | None, None => True | Some x, Some y => Forall2 (Forall2 R) x y | _, _ => False
    end.
  Proof.
    intros H. destruct H as [s|size h vs s bs Nh V L T].
    - exists None. now split.
    - apply buckets_ok in T as (cs & E & F). exists (Some cs). split; auto.
      destruct size as [|size]; [lia|]. unfold initHash, hs_deserialize.
      rewrite nul_before by (auto; lia). cbn [bind negb]. rewrite (cstr_app h), cstring_app by auto.
      cbn [bind]. rewrite <- cstr_app, number_nat, hex_cstr, skipn_cstr_app. apply numbers_spec in V as ->.
      assert (S size <=? length h + 1 = false) as -> by (apply Nat.leb_gt; lia).
      replace (length h + 1) with (S (length h)) by lia. rewrite E. reflexivity.
  Qed.
End Sets.
