(** Reading data that was cut short: every reader that consumes exactly a given
    text runs past the end of each proper prefix of it. *)
From Verif Require Import Base Flags Url Sets FilterM ParseM ClientM SerialM Spec SpecM SpecC SpecS
  P_Base P_Url P_Match P_Rule P_Parse P_List P_Line P_Line2 P_Ser1 P_Ser2 P_Ser3 P_Ser4 P_Ser6 P_Ser7.

(** More memory behind the pointer does not change what is read. *)
Definition grows {A} (R : bytes -> res (A * bytes)) : Prop :=
  forall p r x q, R p = Ok (x, q) -> exists x', R (p ++ r) = Ok (x', q ++ r).

Lemma cut_ub {A} (R : bytes -> res (A * bytes)) s p t :
  grows R -> (exists x, R s = Ok (x, [])) -> p ++ t = s -> t <> [] -> R p = UB.
Proof.
  intros G (x & E) <- N1. destruct (R p) as [[x' q]|] eqn:P; auto.
  destruct (G p t x' q P) as (x'' & Q). rewrite Q in E. injection E as _ E.
  apply app_eq_nil in E. now destruct E.
Qed.

Lemma strlen_grows p : forall r n, strlen p = Ok n -> strlen (p ++ r) = Ok n /\ n < length p.
Proof.
  induction p as [|c p IH]; intros r n H; [discriminate|]. cbn [strlen app length] in *.
  destruct (ceq c NUL).
  - injection H as <-. split; [reflexivity|lia].
  - destruct (strlen p) as [m|]; [|discriminate]. cbn [rmap] in H. injection H as <-.
    destruct (IH r m eq_refl) as [-> L]. split; [reflexivity|lia].
Qed.

Lemma cstring_grows p r s : cstring p = Ok s -> cstring (p ++ r) = Ok s /\ length s < length p.
Proof.
  unfold cstring. destruct (strlen p) as [n|] eqn:E; [|discriminate]. cbn [bind].
  intros H. injection H as <-. destruct (strlen_grows p r n E) as [-> L]. cbn [bind]. split.
  - rewrite firstn_app. replace (n - length p) with 0 by lia. cbn [firstn]. now rewrite app_nil_r.
  - rewrite firstn_length. lia.
Qed.

Lemma cstring_cut s : nonul s -> cstring s = UB.
Proof.
  intros H. unfold cstring. assert (strlen s = UB) as ->; auto.
  induction s as [|c s IH]; auto. apply nonul_cons in H as [Hc H]. cbn [strlen].
  apply ceq_neq in Hc. rewrite Hc, IH; auto.
Qed.

Lemma nulBefore_cut s n : nonul s -> length s < n -> nulBefore s n = UB.
Proof.
  revert n; induction s as [|c s IH]; intros [|n] H L; cbn in L; try lia; auto.
  apply nonul_cons in H as [Hc H]. cbn [nulBefore]. apply ceq_neq in Hc. rewrite Hc.
  apply IH; auto. lia.
Qed.

Lemma skipn_grows {A} n (p r : list A) : n <= length p -> skipn n (p ++ r) = skipn n p ++ r.
Proof. intros L. rewrite skipn_app. replace (n - length p) with 0 by lia. reflexivity. Qed.

Lemma take_str_grows : grows take_str.
Proof.
  intros p r x q H. unfold take_str in *. destruct (cstring p) as [s|] eqn:E; [|discriminate].
  cbn [bind] in *. injection H as <- <-. destruct (cstring_grows p r s E) as [-> L].
  cbn [bind]. rewrite skipn_grows by lia. eauto.
Qed.

Lemma take_data_grows : grows take_data.
Proof.
  intros p r x q H. unfold take_data in *. destruct (cstring p) as [s|] eqn:E; [|discriminate].
  cbn [bind] in *. injection H as <- <-. destruct (cstring_grows p r s E) as [-> L].
  cbn [bind]. rewrite (skipn_grows (length s + 1)) by lia. eauto.
Qed.

Lemma rd_grows p r i c : rd p i = Ok c -> rd (p ++ r) i = Ok c /\ i < length p.
Proof.
  unfold rd. destruct (nth_error p i) eqn:E; [|discriminate]. intros H.
  assert (i < length p) as L by (apply nth_error_Some; congruence).
  rewrite nth_error_app1, E by auto. auto.
Qed.

Lemma split_on_len c s t ws : split_on c s = t :: ws -> ws <> [] -> length t < length s.
Proof.
  revert t ws; induction s as [|x s IH]; intros t ws H N1; cbn [split_on] in H.
  - injection H as <- <-. easy.
  - destruct (ceq x c).
    + injection H as <- <-. cbn. lia.
    + destruct (split_on c s) as [|w vs] eqn:E.
      * injection H as <- <-. easy.
      * injection H as <- <-. cbn [length]. specialize (IH w vs eq_refl N1). lia.
Qed.

Lemma take_tag_grows : grows take_tag.
Proof.
  intros p r x q H. unfold take_tag in *. destruct (rd p 0) as [c0|] eqn:E0; [|discriminate].
  destruct (rd_grows p r 0 c0 E0) as [-> _]. cbn [bind] in *.
  destruct (ceq c0 "~").
  2:{ injection H as <- <-. eauto. }
  destruct (rd p 1) as [c1|] eqn:E1; [|discriminate].
  destruct (rd_grows p r 1 c1 E1) as [-> L1]. cbn [bind] in *.
  destruct (ceq c1 "#").
  2:{ injection H as <- <-. eauto. }
  destruct (cstring (skipn 2 p)) as [s|] eqn:E2; [|discriminate].
  rewrite skipn_grows by lia. destruct (cstring_grows (skipn 2 p) r s E2) as [-> L2].
  cbn [bind] in *. rewrite skipn_length in L2.
  destruct (split_on "," s) as [|t [|u us]] eqn:Es.
  - injection H as <- <-. eauto.
  - injection H as <- <-. eauto.
  - injection H as <- <-. apply split_on_len in Es; [|discriminate].
    rewrite skipn_grows by lia. eauto.
Qed.

Lemma bind_grows {A C} (R : bytes -> res (A * bytes)) (Q : A -> bytes -> res (C * bytes)) :
  grows R -> (forall a a' p r x q, Q a p = Ok (x, q) -> exists x', Q a' (p ++ r) = Ok (x', q ++ r)) ->
  grows (fun p => y <- R p ;; let '(a, p1) := y in Q a p1).
Proof.
  intros G H p r x q E. destruct (R p) as [[a p1]|] eqn:P; [|discriminate]. cbn [bind] in E.
  destruct (G p r a p1 P) as (a' & ->). cbn [bind]. eauto.
Qed.

Lemma df_read1_grows : grows df_read1.
Proof.
  intros p r x q H. unfold df_read1 in *.
  destruct (cstring p) as [h|] eqn:E; [|discriminate]. destruct (cstring_grows p r h E) as [-> L].
  cbn [bind] in *. rewrite skipn_grows by lia.
  destruct (take_data (skipn (length h + 1) p)) as [[d p1]|] eqn:E1; [|discriminate].
  destruct (take_data_grows _ r _ _ E1) as (d' & ->). cbn [bind] in *.
  destruct (take_tag p1) as [[t p2]|] eqn:E2; [|discriminate].
  destruct (take_tag_grows _ r _ _ E2) as (t' & ->). cbn [bind] in *.
  destruct (take_str p2) as [[m p3]|] eqn:E3; [|discriminate].
  destruct (take_str_grows _ r _ _ E3) as (m' & ->). cbn [bind] in *.
  destruct (take_str p3) as [[ho p4]|] eqn:E4; [|discriminate].
  destruct (take_str_grows _ r _ _ E4) as (ho' & ->). cbn [bind] in *.
  injection H as <- <-. eauto.
Qed.

Lemma df_read_grows n : grows (df_read n).
Proof.
  induction n as [|n IH]; intros p r x q H; cbn [df_read] in *.
  - injection H as <- <-. eauto.
  - destruct (df_read1 p) as [[f p1]|] eqn:E1; [|discriminate].
    destruct (df_read1_grows _ r _ _ E1) as (f' & ->). cbn [bind] in *.
    destruct (df_read n p1) as [[fs p2]|] eqn:E2; [|discriminate].
    destruct (IH _ r _ _ E2) as (fs' & ->). cbn [bind] in *.
    injection H as <- <-. eauto.
Qed.

Lemma lists_read_grows ks : forall v t t' p r x q,
  lists_read v ks p t = Ok (x, q) -> exists x', lists_read v ks (p ++ r) t' = Ok (x', q ++ r).
Proof.
  induction ks as [|k ks IH]; intros v t t' p r x q H; cbn [lists_read] in *.
  - injection H as <- <-. eauto.
  - destruct (df_read (N.to_nat (hd 0%N v)) p) as [[fs p1]|] eqn:E1; [|discriminate].
    destruct (df_read_grows _ _ r _ _ E1) as (fs' & ->). cbn [bind] in *. eauto.
Qed.

(** ** Prefixes of a concatenation *)
Lemma prefix_split (p t a b : bytes) : p ++ t = a ++ b ->
  (exists u, p ++ u = a /\ u <> []) \/ exists q, p = a ++ q /\ q ++ t = b.
Proof.
  revert a; induction p as [|c p IH]; intros a H.
  - destruct a as [|x a].
    + right. exists []. auto.
    + left. exists (x :: a). split; [reflexivity|discriminate].
  - destruct a as [|x a].
    + right. exists (c :: p). auto.
    + cbn [app] in H. injection H as -> H. destruct (IH a H) as [(u & E & N1)|(q & E & F)].
      * left. exists u. split; [now rewrite <- E|auto].
      * right. exists q. split; [now rewrite E|auto].
Qed.

Lemma prefix_cstr p t s : p ++ t = cstr s -> t <> [] -> exists u, p ++ u = s.
Proof.
  unfold cstr. intros H N1. destruct (prefix_split p t s [NUL] H) as [(u & E & _)|(q & -> & E)].
  - eauto.
  - destruct q as [|c q].
    + exists []. now rewrite !app_nil_r.
    + cbn [app] in E. injection E as _ E. apply app_eq_nil in E. now destruct E.
Qed.

Lemma nonul_prefix p u s : p ++ u = s -> nonul s -> nonul p.
Proof. intros <- H. apply nonul_app in H. apply H. Qed.

(** ** Hash sets *)
Section Frame.
  Context {A : Type} (iread : bytes -> nat -> res (option (A * nat)))
          (enc : A -> bytes) (ok : A -> Prop)
          (H_first : forall x, ok x -> exists c r, enc x = c :: r /\ c <> NUL)
          (H_read : forall x r size, ok x -> length (enc x) <= size ->
             exists y, iread (enc x ++ r) size = Ok (Some (y, length (enc x))))
          (H_cut : forall x p t size, ok x -> length (enc x) <= size -> p ++ t = enc x ->
             t <> [] -> p <> [] ->
             iread p size = UB \/ exists y, iread p size = Ok (Some (y, length (enc x)))).

  Lemma items_cut size b : forall fuel pos p t,
    Forall ok b -> length b <= fuel -> pos + length (flat_map enc b) < size ->
    p ++ t = flat_map enc b ++ [NUL] -> t <> [] ->
    items_read iread fuel p pos size = UB.
  Proof using H_first H_read H_cut.
    induction b as [|x b IH]; intros fuel pos p t F L1 L2 E N1.
    - cbn [flat_map app] in E. destruct p as [|c p].
      + destruct fuel; reflexivity.
      + cbn [app] in E. injection E as _ E. apply app_eq_nil in E. now destruct E.
    - inversion F as [|? ? Hx Fb]; subst. destruct fuel as [|fuel]; [cbn in L1; lia|].
      cbn [flat_map] in *. rewrite app_length in *. rewrite <- app_assoc in E.
      destruct p as [|c p].
      { reflexivity. }
      destruct (H_first x Hx) as (c' & q & Ex & Nc).
      assert (c' = c) as -> by (rewrite Ex in E; cbn [app] in E; now injection E).
      assert (0 < length (enc x)) as LP by (rewrite Ex; cbn; lia).
      assert (forall r, items_read iread (S fuel) (c :: r) pos size =
        r0 <- iread (c :: r) (size - pos) ;;
          match r0 with
          | None => Ok ([], None)
          | Some (x0, n) =>
              if (size <=? pos + n) || (n =? 0) then Ok ([], None)
              else
                r1 <- items_read iread fuel (skipn n (c :: r)) (pos + n) size ;;
                let '(l, k) := r1 in Ok (x0 :: l, k)
          end) as U.
      { intros r. cbn [items_read deref bind]. apply ceq_neq in Nc. rewrite Nc.
        destruct (Nat.leb_spec size pos); [lia|]. reflexivity. }
      rewrite U. clear U.
      destruct (prefix_split (c :: p) t (enc x) _ E) as [(u & Eu & Nu)|(q' & Eq & Eq')].
      + assert (length (enc x) <= size - pos) as Ls by lia.
        destruct (H_cut x (c :: p) u (size - pos) Hx Ls Eu Nu) as [->|(y & ->)];
          [discriminate|reflexivity|].
        cbn [bind]. destruct (Nat.leb_spec size (pos + length (enc x))); [lia|].
        destruct (Nat.eqb_spec (length (enc x)) 0); [lia|]. cbn [orb].
        rewrite skipn_all2.
        * destruct fuel; reflexivity.
        * rewrite <- Eu, app_length. lia.
      + rewrite Eq. destruct (H_read x q' (size - pos) Hx) as (y & ->); [lia|].
        cbn [bind]. destruct (Nat.leb_spec size (pos + length (enc x))); [lia|].
        destruct (Nat.eqb_spec (length (enc x)) 0); [lia|]. cbn [orb].
        rewrite skipn_app_exact. rewrite (IH fuel _ q' t); auto; cbn [length] in L1; lia.
  Qed.

  Lemma items_full size b r : forall fuel pos,
    Forall ok b -> length b <= fuel -> pos + length (flat_map enc b) < size ->
    exists l, items_read iread fuel (flat_map enc b ++ NUL :: r) pos size =
      Ok (l, Some (NUL :: r, pos + length (flat_map enc b))).
  Proof using H_first H_read.
    intros fuel pos F L1 L2.
    destruct (items_read_ok iread enc ok (fun _ _ => True)) with (size := size) (b := b) (r := r)
      (fuel := fuel) (pos := pos) as (l & -> & _); eauto.
    intros x q n Hx L. destruct (H_read x q n Hx L) as (y & E). eauto.
  Qed.

  Lemma buckets_cut size s : forall pos p t,
    Forall (Forall ok) s -> pos + length (flat_map (bucket_bytes enc) s) <= size ->
    p ++ t = flat_map (bucket_bytes enc) s -> t <> [] ->
    buckets_read iread (length s) p pos size = UB.
  Proof using H_first H_read H_cut.
    induction s as [|b s IH]; intros pos p t F L E N1.
    - cbn [flat_map] in E. apply app_eq_nil in E. now destruct E.
    - inversion F as [|? ? Hb Fs]; subst. cbn [flat_map length] in *. rewrite app_length in L.
      assert (length (bucket_bytes enc b) = length (flat_map enc b) + 1) as LB
        by (unfold bucket_bytes; now rewrite app_length).
      pose proof (items_count enc ok H_first b Hb) as LC.
      cbn [buckets_read].
      destruct (prefix_split p t _ _ E) as [(u & Eu & Nu)|(q & Eq & Eq')].
      + rewrite (items_cut size b size pos p u); auto; lia.
      + assert (p = flat_map enc b ++ NUL :: q) as Ep.
        { rewrite Eq. unfold bucket_bytes. now rewrite <- app_assoc. }
        rewrite Ep. destruct (items_full size b q size pos Hb) as (l & ->); [lia|lia|].
        cbn [bind skipn]. rewrite (IH _ q t); auto. lia.
  Qed.

  Lemma set_cut s p t : s <> [] -> Forall (Forall ok) s -> p ++ t = set_bytes enc s -> t <> [] ->
    hs_deserialize iread p (length (set_bytes enc s)) = UB.
  Proof using H_first H_read H_cut.
    intros N1 F E Nt. unfold hs_deserialize.
    assert (length (set_bytes enc s) =
            length (hexn (length s)) + 1 + length (flat_map (bucket_bytes enc) s)) as L.
    { unfold set_bytes. now rewrite app_length, cstr_len. }
    assert (0 < length (flat_map (bucket_bytes enc) s)) as L0.
    { destruct s as [|b s]; [easy|]. cbn [flat_map]. unfold bucket_bytes at 1.
      rewrite !app_length. cbn [length]. lia. }
    assert (nonul (hexn (length s))) as Nh by apply digits_nonul, hex_digits.
    unfold set_bytes in E. destruct (prefix_split p t _ _ E) as [(u & Eu & Nu)|(q & Eq & Eq')].
    - destruct (prefix_cstr p u _ Eu Nu) as (w & Ew).
      pose proof (nonul_prefix p w _ Ew Nh) as Np.
      rewrite nulBefore_cut; auto. rewrite L, <- Ew, app_length. lia.
    - rewrite Eq, cstr_app. rewrite nulBefore_ok by (auto; lia). cbn [bind negb].
      rewrite cstring_app by auto. cbn [bind].
      rewrite (scan_hex_hex (N.of_nat (length s)) (NUL :: _) eq_refl :
        scan_hex (hexn (length s) ++ NUL :: _) = _), Nat2N.id.
      destruct (Nat.leb_spec (length (set_bytes enc s)) (length (hexn (length s)) + 1)); [lia|].
      rewrite <- cstr_app, skipn_cstr_app. apply (buckets_cut _ s _ q t); auto. lia.
  Qed.
End Frame.

(** ** Items *)
Lemma str_tail_grows : grows (fun p =>
  hp <- take_str p ;; let '(ho, p3) := hp in
  tp <- take_tag p3 ;; let '(t, p4) := tp in
  mp <- take_str p4 ;; let '(m, p5) := mp in Ok ((ho, t, m), p5)).
Proof.
  apply bind_grows; [apply take_str_grows|]. intros a a' p r x q H.
  destruct (take_tag p) as [[t p2]|] eqn:E2; [|discriminate].
  destruct (take_tag_grows _ r _ _ E2) as (t' & ->). cbn [bind] in *.
  destruct (take_str p2) as [[m p3]|] eqn:E3; [|discriminate].
  destruct (take_str_grows _ r _ _ E3) as (m' & ->). cbn [bind] in *.
  injection H as <- <-. eauto.
Qed.

Lemma fi_cut f p t size : item_ok f -> length (item_record f) <= size ->
  p ++ t = item_record f -> t <> [] -> fi_read p size = UB.
Proof.
  intros (A1 & A2 & A3 & A4 & A5) L E Nt. unfold fi_read.
  assert (exists d, pattern f = Some d) as [d Ed].
  { unfold pattern. destruct (f_data f) as [[d u]|]; [|easy]. exists d. reflexivity. }
  set (z := cstr (str (f_host f)) ++ tag_block (f_tag f) ++ cstr (str (f_dom f))).
  assert (item_record f = cstr (item_head f d) ++ d ++ z) as EQ.
  { unfold item_record. rewrite Ed. cbn [str]. reflexivity. }
  assert (0 < length z) as Lz by (unfold z; rewrite !app_length, !cstr_len; lia).
  assert (nonul (item_head f d)) as Nh by apply fields_nonul.
  rewrite EQ in E, L. rewrite !app_length, cstr_len in L.
  destruct (prefix_split p t _ _ E) as [(u & Eu & Nu)|(q & Eq & Eq')].
  { destruct (prefix_cstr p u _ Eu Nu) as (w & Ew).
    pose proof (nonul_prefix p w _ Ew Nh) as Np.
    rewrite nulBefore_cut; auto. apply (f_equal (@length ascii)) in Ew. rewrite app_length in Ew. lia. }
  rewrite Eq, cstr_app. rewrite nulBefore_ok by (auto; lia). cbn [bind negb].
  rewrite cstring_app by auto. cbn [bind].
  assert (scan_fields 4 (item_head f d ++ NUL :: q) =
          [N.of_nat (length d); f_type f; f_opt f; f_anti f]) as ->.
  { apply (scan_fields_spec [N.of_nat (length d); f_type f; f_opt f; f_anti f]).
    - discriminate.
    - reflexivity. }
  cbn [nthN nth]. rewrite Nat2N.id.
  destruct (Nat.leb_spec size (length (item_head f d) + 1 + length d)); [lia|].
  rewrite <- cstr_app, skipn_cstr_app.
  destruct (Nat.ltb_spec (length q) (length d)) as [X|X]; auto.
  destruct (prefix_split q t _ _ Eq') as [(u & Eu & Nu)|(q2 & Eq2 & Ez)].
  { exfalso. rewrite <- Eu, app_length in X. destruct u; [easy|]. cbn [length] in X. lia. }
  rewrite Eq2. rewrite skipn_app_exact.
  assert (take_str q2 = UB \/ exists ho p3, take_str q2 = Ok (ho, p3) /\
    (take_tag p3 = UB \/ exists tg p4, take_tag p3 = Ok (tg, p4) /\ take_str p4 = UB)) as H1.
  { pose proof (cut_ub _ z q2 t str_tail_grows) as C.
    assert (exists x, (hp <- take_str z ;; let '(ho, p3) := hp in
      tp <- take_tag p3 ;; let '(t, p4) := tp in
      mp <- take_str p4 ;; let '(m, p5) := mp in Ok ((ho, t, m), p5)) = Ok (x, [])) as X1.
    { unfold z. rewrite take_str_ok by auto. cbn [bind].
      rewrite <- (app_nil_r (cstr (str (f_dom f)))).
      rewrite take_tag_all by auto.
      destruct (tl_nonul (f_tag f) (str (f_dom f)) A3 A2) as [_ N3].
      cbn [bind]. rewrite take_str_ok by auto. cbn [bind]. eauto. }
    specialize (C X1 Ez Nt). clear X1. cbv beta in C.
    destruct (take_str q2) as [[ho p3]|] eqn:Q1; [|now left]. right. exists ho, p3. split; [auto|].
    rewrite ?Q1 in C. cbn [bind] in C.
    destruct (take_tag p3) as [[tg p4]|] eqn:Q2; [|now left]. right. exists tg, p4. split; [auto|].
    rewrite ?Q2 in C. cbn [bind] in C.
    destruct (take_str p4) as [[m p5]|] eqn:Q3; [|auto]. rewrite ?Q3 in C. discriminate C. }
  destruct H1 as [->|(ho & p3 & -> & [H1|(tg & p4 & H1 & H2)])]; cbn [bind]; auto.
  - rewrite H1. reflexivity.
  - rewrite H1. cbn [bind]. rewrite H2. reflexivity.
Qed.

Lemma nd_cut d p t size : length (dom_record d) <= size -> p ++ t = dom_record d -> t <> [] ->
  nd_read p size = UB \/ exists y, nd_read p size = Ok (Some (y, length (dom_record d))).
Proof.
  intros L E Nt. unfold dom_record, nd_read in *. rewrite app_length, !cstr_len in *.
  assert (nonul (nd_head d)) as Nh.
  { unfold nd_head. apply nonul_app. split; [apply digits_nonul, hex_digits|].
    now apply nonulb_ok. }
  destruct (prefix_split p t _ _ E) as [(u & Eu & Nu)|(q & Eq & Eq')].
  { destruct (prefix_cstr p u _ Eu Nu) as (w & Ew).
    pose proof (nonul_prefix p w _ Ew Nh) as Np. rewrite cstring_cut by auto. now left. }
  rewrite Eq, cstr_app, cstring_app by auto. cbn [bind].
  assert (exists z, scan_hex (nd_head d ++ NUL :: q) = Some (N.of_nat (length d), z)) as [z ->].
  { unfold nd_head, hexn. rewrite <- app_assoc. apply (scan_hex_x _ (NUL :: q)). reflexivity. }
  rewrite Nat2N.id.
  destruct (Nat.leb_spec size (length (nd_head d) + 1 + length d)); [lia|].
  rewrite <- cstr_app, skipn_cstr_app.
  destruct (Nat.ltb_spec (length q) (length d)) as [X|_]; [now left|].
  right. eexists. do 3 f_equal. lia.
Qed.

Lemma hostset_cut s p t : s <> [] -> Forall (Forall item_ok) s ->
  p ++ t = set_bytes item_record s -> t <> [] ->
  hs_deserialize fi_read p (length (set_bytes item_record s)) = UB.
Proof.
  intros N1 F. apply (set_cut fi_read item_record item_ok); auto.
  - intros x _. apply item_first.
  - intros x q size H1 L. destruct (fi_read_all x q size H1 L) as (g & E & _). eauto.
  - intros x q u size H1 L E Nu _. left. now apply (fi_cut x q u).
Qed.

Lemma domset_cut s p t : s <> [] -> p ++ t = set_bytes dom_record s -> t <> [] ->
  hs_deserialize nd_read p (length (set_bytes dom_record s)) = UB.
Proof.
  intros N1. apply (set_cut nd_read dom_record (fun _ => True)); auto.
  - intros x _. apply nd_first.
  - intros x q size _ L. exists x. now apply nd_read_ok.
  - intros x q u size _ L E Nu _. now apply (nd_cut x q u).
  - apply Forall_forall. intros b _. apply Forall_forall. auto.
Qed.

(** ** The blobs *)
Lemma initBloom_cut o p t : p ++ t = ob bloom_bytes o -> t <> [] ->
  initBloom p (length (ob bloom_bytes o)) = UB.
Proof.
  intros E Nt. unfold initBloom. apply (f_equal (@length ascii)) in E. rewrite app_length in E.
  destruct t as [|c t]; [easy|]. cbn [length] in E.
  destruct (length (ob bloom_bytes o)) as [|n]; [lia|].
  destruct (Nat.ltb_spec (length p) (S n)); [reflexivity|lia].
Qed.

Lemma initHash_dom_cut o p t : oall (fun s => s <> []) o ->
  p ++ t = ob (set_bytes dom_record) o -> t <> [] ->
  initHash nd_read p (length (ob (set_bytes dom_record) o)) = UB.
Proof.
  intros H E Nt. destruct o as [s|]; cbn [ob] in *.
  2:{ apply app_eq_nil in E. now destruct E. }
  unfold initHash. pose proof (set_bytes_pos dom_record s) as L.
  pose proof (domset_cut s p t (H s eq_refl) E Nt) as U.
  destruct (length (set_bytes dom_record s)); [lia|]. now rewrite U.
Qed.

Lemma initHash_host_cut (P : filter -> Prop) o p t :
  (forall f, P f -> arr_rule f) ->
  oall (fun s => Forall (Forall (hostP P)) s /\ s <> []) o ->
  p ++ t = ob (set_bytes item_record) o -> t <> [] ->
  initHash fi_read p (length (ob (set_bytes item_record) o)) = UB.
Proof.
  intros H O E Nt. destruct o as [s|]; cbn [ob] in *.
  2:{ apply app_eq_nil in E. now destruct E. }
  unfold initHash. pose proof (set_bytes_pos item_record s) as L.
  destruct (O s eq_refl) as [F N1].
  assert (hs_deserialize fi_read p (length (set_bytes item_record s)) = UB) as U.
  { apply (hostset_cut s p t); auto. now apply (host_items_ok P). }
  destruct (length (set_bytes item_record s)); [lia|]. now rewrite U.
Qed.

(** ** The client *)
Lemma deserialize_cut (P : filter -> Prop) c t d p u :
  (forall k, Forall arr_rule (tget t k)) ->
  (forall k f, In f (tget t k) -> ends_nul f) ->
  cfine P c -> (forall f, P f -> arr_rule f) ->
  p ++ u = buffer c t -> u <> [] -> deserialize p d = UB.
Proof.
  intros H1 H3 (C1 & C2 & C3 & C4 & C5 & C6 & C7 & C8) HP E Nu.
  unfold deserialize. unfold buffer in E.
  set (hd := header_of c t (blobs_of c)) in *.
  assert (nonul hd) as Nh by apply fields_nonul.
  destruct (prefix_split p u _ _ E) as [(w & Ew & Nw)|(q & Eq & Eq')].
  { destruct (prefix_cstr p w _ Ew Nw) as (x & Ex).
    rewrite cstring_cut by (apply (nonul_prefix p x hd); auto). reflexivity. }
  rewrite Eq.
  assert (cstring (cstr hd ++ q) = Ok hd) as ->.
  { rewrite cstr_app. apply cstring_app, Nh. }
  cbn [bind]. rewrite skipn_cstr_app.
  set (l12 := [N.of_nat (c_numHA c); N.of_nat (c_numHAE c)]).
  set (lb := map (fun b => N.of_nat (length b)) (blobs_of c)).
  set (v := map (fun k => N.of_nat (length (tget t k))) ser_order ++ l12 ++ lb).
  assert (scan_fields 20 (cstr hd ++ q) = v) as ->.
  { rewrite cstr_app. unfold hd, header_of. fold l12 lb v.
    apply (scan_fields_spec v); [discriminate|reflexivity]. }
  assert (forall r, exists t', lists_read v ser_order (body t ser_order ++ r) (tall []) = Ok (t', r)) as LR.
  { intros r. destruct (lists_read_all t ser_order (l12 ++ lb) r (tall [])
      ser_order_nodup H1 H3) as (t' & R & _). eauto. }
  destruct (prefix_split q u _ _ Eq') as [(w & Ew & Nw)|(q1 & Eq1 & F1)].
  { rewrite (cut_ub (fun p => lists_read v ser_order p (tall [])) (body t ser_order) q w); auto.
    - intros p1 r x y. apply lists_read_grows.
    - destruct (LR []) as (t' & R). rewrite app_nil_r in R. eauto. }
  rewrite Eq1. destruct (LR q1) as (t' & ->). cbn [bind].
  assert (N.to_nat (nthN v 12 0) = length (ob bloom_bytes (c_bloom c))) as -> by apply Nat2N.id.
  assert (N.to_nat (nthN v 13 0) = length (ob bloom_bytes (c_ebloom c))) as -> by apply Nat2N.id.
  assert (N.to_nat (nthN v 14 0) = length (ob (set_bytes item_record) (c_host c))) as -> by apply Nat2N.id.
  assert (N.to_nat (nthN v 15 0) = length (ob (set_bytes item_record) (c_ehost c))) as -> by apply Nat2N.id.
  assert (N.to_nat (nthN v 16 0) = length (ob (set_bytes dom_record) (c_nfd c))) as -> by apply Nat2N.id.
  assert (N.to_nat (nthN v 17 0) = length (ob (set_bytes dom_record) (c_nfa c))) as -> by apply Nat2N.id.
  assert (N.to_nat (nthN v 18 0) = length (ob (set_bytes dom_record) (c_nfdexc c))) as -> by apply Nat2N.id.
  assert (N.to_nat (nthN v 19 0) = length (ob (set_bytes dom_record) (c_nfaexc c))) as -> by apply Nat2N.id.
  clear E Eq Eq1 Eq'. unfold blobs_of in F1. cbn [concat] in F1.
  destruct (prefix_split q1 u _ _ F1) as [(w & Ew & Nw)|(q2 & -> & F2)].
  { rewrite (initBloom_cut _ q1 w) by auto. reflexivity. }
  rewrite initBloom_opt by auto. cbn [bind]. rewrite skipn_app_exact.
  destruct (prefix_split q2 u _ _ F2) as [(w & Ew & Nw)|(q3 & -> & F3)].
  { rewrite (initBloom_cut _ q2 w) by auto. reflexivity. }
  rewrite initBloom_opt by auto. cbn [bind]. rewrite skipn_app_exact.
  destruct (prefix_split q3 u _ _ F3) as [(w & Ew & Nw)|(q4 & -> & F4)].
  { rewrite (initHash_host_cut P _ q3 w) by auto. reflexivity. }
  destruct (initHash_all P (c_host c) q4 HP C3) as (h1 & -> & _).
  cbn [bind negb]. rewrite skipn_app_exact.
  destruct (prefix_split q4 u _ _ F4) as [(w & Ew & Nw)|(q5 & -> & F5)].
  { rewrite (initHash_host_cut P _ q4 w) by auto. reflexivity. }
  destruct (initHash_all P (c_ehost c) q5 HP C4) as (h2 & -> & _).
  cbn [bind negb]. rewrite skipn_app_exact.
  destruct (prefix_split q5 u _ _ F5) as [(w & Ew & Nw)|(q6 & -> & F6)].
  { rewrite (initHash_dom_cut _ q5 w) by auto. reflexivity. }
  rewrite initHash_dom by auto. cbn [bind negb]. rewrite skipn_app_exact.
  destruct (prefix_split q6 u _ _ F6) as [(w & Ew & Nw)|(q7 & -> & F7)].
  { rewrite (initHash_dom_cut _ q6 w) by auto. reflexivity. }
  rewrite initHash_dom by auto. cbn [bind negb]. rewrite skipn_app_exact.
  destruct (prefix_split q7 u _ _ F7) as [(w & Ew & Nw)|(q8 & -> & F8)].
  { rewrite (initHash_dom_cut _ q7 w) by auto. reflexivity. }
  rewrite initHash_dom by auto. cbn [bind negb]. rewrite skipn_app_exact.
  rewrite app_nil_r in F8.
  rewrite (initHash_dom_cut _ q8 u) by auto. reflexivity.
Qed.

Lemma truncated E calls c nc nh buf p u d :
  history calls -> after E calls = Ok c -> serialize c nc nh = Ok buf ->
  buf = p ++ u -> u <> [] -> deserialize p d = UB.
Proof.
  intros Hc A S1 Eb Nu.
  pose proof (hist_shaped E calls c Hc A) as Sh.
  rewrite (serialize_ok _ _ nc nh Sh) in S1. injection S1 as <-.
  apply (deserialize_cut (of_line calls) c (ser_lists c nc nh) d p u); auto.
  - apply (ser_lists_arr (of_line calls)), Sh.
  - intros k f I. apply (ser_lists_in c) in I. apply (hist_lists E calls c Hc A k f I).
  - apply Sh.
  - intros f [_ AR]. exact AR.
Qed.
