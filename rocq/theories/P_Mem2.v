(** From the steps of a client to the blocks in use. *)
From Coq Require Import Lia Permutation.
From Verif Require Import P_Client.
From Verif Require Import Base Flags Sets FilterM ParseM ClientM SerialM OwnM OwnT
  Spec SpecM SpecC SpecE SpecO SpecU P_Base P_Parse P_List P_Set P_OwnT P_Own P_Own2
  P_Own3 P_Own4 P_Own5 P_OwnT2 P_Mem SpecMem.

(** ** The state of the client and of the heap *)

Definition tied_oset (r : bool) (s : option (hset filter)) (a : arr fobj) : Prop :=
  match s, a with
  | Some s, Some (_, l) => exists fs, Permutation fs (concat s) /\ Forall2 stored fs l /\
      Forall (fun o => o_borrowed o = r) l
  | None, None => True
  | _, _ => False
  end.

Definition tied_ogate (s : option (hset bytes)) (a : arr gobj) : Prop :=
  match s, a with
  | Some s, Some (_, l) => length l = length (concat s)
  | None, None => True
  | _, _ => False
  end.

Definition some_sets (c : client) : Prop :=
  c_host c <> Some [] /\ c_ehost c <> Some [] /\ forall k, set_of c k <> Some [].

Record tied (a r : bool) (c : client) (o : own) : Prop := mkTied {
  td_arrs : forall k, Forall2 stored (tget (c_lists c) k) (items (tget (w_arrs o) k)) /\
      Forall (fun x => o_borrowed x = r) (items (tget (w_arrs o) k)) /\
      isSome (tget (w_arrs o) k) = a;
  td_host : tied_oset r (c_host c) (w_host o);
  td_ehost : tied_oset r (c_ehost c) (w_ehost o);
  td_blooms : isSome (c_bloom c) = isSome (w_bloom o) /\ isSome (c_ebloom c) = isSome (w_ebloom o) /\
      isSome (c_badfp c) = isSome (w_bad o);
  td_gates : forall k, tied_ogate (set_of c k) (tget (w_gates o) k);
  td_some : r = false -> some_sets c
}.

Lemma tall_empty k : tget (tall (@nil filter)) k = [].
Proof. now destruct k. Qed.

Lemma tied_empty c h : c_lists c = tall [] -> c_host c = None -> c_ehost c = None ->
  c_bloom c = None -> c_ebloom c = None -> c_badfp c = None -> (forall k, set_of c k = None) ->
  tied false false c (own0 h).
Proof.
  intros E1 E2 E3 E4 E5 E6 E7. constructor; cbn [own0 w_arrs w_host w_ehost w_bloom w_ebloom w_bad w_gates].
  - intros k. rewrite E1, !tget_tall. cbn. repeat split; constructor.
  - now rewrite E2.
  - now rewrite E3.
  - now rewrite E4, E5, E6.
  - intros k. now rewrite E7, tget_tall.
  - intros _. unfold some_sets. rewrite E2, E3. repeat split; try discriminate. intros k. now rewrite E7.
Qed.

(** ** parse() *)

Lemma new_gates_tied ks : forall h t t' h', NoDup ks -> new_gates h ks t = (t', h') ->
  (forall k, In k ks -> exists b, tget t' k = Some (b, items (tget t k))) /\
  (forall k, ~ In k ks -> tget t' k = tget t k).
Proof.
  induction ks as [|k ks IH]; cbn [new_gates]; intros h t t' h' D E.
  - injection E as <- _. split; [easy|auto].
  - apply NoDup_cons_iff in D. destruct D as [N D].
    destruct (new_opt (tget t k) h) as [[b l] h1] eqn:E1.
    assert (l = items (tget t k)) as ->.
    { unfold new_opt in E1. destruct (tget t k) as [[b0 l0]|].
      - now injection E1 as _ <- _.
      - destruct (alloc h). now injection E1 as _ <- _. }
    destruct (IH _ _ _ _ D E) as [K1 K2]. split.
    + intros k' [<-|I].
      * exists b. now rewrite (K2 k N), tget_tset_same.
      * destruct (K1 k' I) as (b' & ->). rewrite tget_tset.
        destruct (kind_eq_dec k k') as [<-|]; [contradiction|]. eauto.
    + intros k' I. rewrite K2 by (intros ?; apply I; now right).
      apply tget_tset_other. intros ->. apply I. now left.
Qed.

Lemma pass2_keeps o x o' : pass2 o x = Ok o' ->
  w_bloom o' = w_bloom o /\ w_ebloom o' = w_ebloom o /\ w_bad o' = w_bad o.
Proof.
  unfold pass2. intros H.
  destruct (read_line (w_heap o) x) as [ob h1].
  destruct (insert_host h1 ob (l_insert x) (w_host o) (w_ehost o)) as [[hx hy] h2].
  destruct (ask_if (l_asks x) h2 ob) as [ob2 h3].
  destruct (l_dest x) as [k|].
  - match type of H with (let '(_, _) := ?g in _) = _ => destruct g as [gates h4] end.
    destruct (swapData obj0 ob2) as [slot o4].
    apply bind_ok in H as (h5 & _ & H). injection H as <-. auto.
  - apply bind_ok in H as (h5 & _ & H). injection H as <-. auto.
Qed.

Lemma pass2_all_keep xs : forall o o', foldM pass2 o xs = Ok o' ->
  w_bloom o' = w_bloom o /\ w_ebloom o' = w_ebloom o /\ w_bad o' = w_bad o.
Proof.
  induction xs as [|x xs IH]; cbn [foldM]; intros o o' H; [injection H as <-; auto|].
  apply bind_ok in H as (o1 & H1 & H). apply pass2_keeps in H1 as (A & B & C).
  apply IH in H as (A' & B' & C'). repeat split; congruence.
Qed.

Lemma parse_lines E pres t c c' : nonul t -> parse E pres (cstr t) c = Ok c' ->
  exists L cap s w, lines_of (cstr t) = Ok L /\ Forall2 is_line L (text_lines t) /\
    foldM (line2 E pres cap) (initSets c, c_lists c) L = Ok (s, w) /\ c_lists c' = w /\
    c_bloom c' = Some (x_bloom s) /\ c_ebloom c' = Some (x_ebloom s) /\
    c_host c' = Some (x_host s) /\ c_ehost c' = Some (x_ehost s) /\
    (forall k, set_of c' k = if is_gated k then Some (gate k s) else None) /\
    c_badfp c' = c_badfp c.
Proof.
  intros Ht H. rewrite parse_normal in H by exact Ht.
  apply rmap_ok in H as (rs & M & ->).
  destruct (lines_of_spec t Ht) as (L & E1 & F).
  pose proof (proj1 (mapM_ok _ _ _) M) as M1.
  set (cap := tmap2 (fun l m => length l + length m) (c_lists c)
                (mkTab (rules_in KFilters rs) (rules_in KCosmetic rs) (rules_in KHtml rs) (rules_in KException rs)
                   (rules_in KNoFp rs) (rules_in KNoFpExc rs) (rules_in KNoFpDom rs) (rules_in KNoFpAnti rs)
                   (rules_in KNoFpDomExc rs) (rules_in KNoFpAntiExc rs))).
  assert (C : forall k, length (tget (c_lists c) k) + length (rules_in k rs) <= tget cap k).
  { intros k. unfold cap. rewrite tget_tmap2. destruct k; apply le_n. }
  pose proof (P_List.pass2_ok E pres cap L _ rs (initSets c) (c_lists c) (c_numHA c) (c_numHAE c) F M1 C) as P.
  unfold install, st_of in *.
  destruct (fold_left (store E) rs (initSets c, c_lists c, c_numHA c, c_numHAE c)) as [[[s w] ha] hae].
  cbn [fst] in P. exists L, cap, s, w. unfold with_st.
  cbn [c_lists c_bloom c_ebloom c_host c_ehost c_badfp].
  repeat (split; [first [assumption|reflexivity]|]). split; [|reflexivity].
  intros k. now destruct k.
Qed.

Lemma concat_new {A} n : concat (@hs_new A n) = [].
Proof. unfold hs_new. induction (N.to_nat n) as [|m IH]; [reflexivity|exact IH]. Qed.

Lemma new_some {A} n : (0 < n)%N -> @hs_new A n <> [].
Proof.
  intros L. unfold hs_new. destruct (N.to_nat n) as [|m] eqn:Q; [lia|discriminate].
Qed.

Lemma opt_tied o n a h b l h' : (0 < n)%N -> o <> Some [] -> tied_oset false o a ->
  new_opt a h = (b, l, h') -> tied_set (odef o (hs_new n)) (Some (b, l)) /\ odef o (hs_new n) <> [].
Proof.
  intros L N T H. destruct o as [s|], a as [[b0 l0]|]; cbn [tied_oset] in T; try contradiction;
    cbn [new_opt odef] in *.
  - injection H as <- <- _. destruct T as (fs & P & F & Bo). split; [exists b0, l0, fs; auto|congruence].
  - destruct (alloc h). injection H as <- <- _. split; [|now apply new_some].
    exists n0, [], []. rewrite concat_new. repeat split; constructor.
Qed.

Lemma gate_init c k : is_gated k = true -> exists n, (0 < n)%N /\ gate k (initSets c) = odef (set_of c k) (hs_new n).
Proof.
  intros Q. destruct k; try discriminate Q; [exists 1000%N|exists 100%N|exists 1000%N|exists 100%N]; split;
    reflexivity.
Qed.

Lemma ogate_tied o n a b : (0 < n)%N -> tied_ogate o a ->
  tied_gate (odef o (hs_new n)) (Some (b, items a)).
Proof.
  intros L T. exists b, (items a). split; [reflexivity|].
  destruct o as [s|], a as [[b0 l0]|]; cbn [tied_ogate] in T; try contradiction; cbn [odef items].
  - exact T.
  - now rewrite concat_new.
Qed.

Lemma parse_tied E pres t c c' o ls o' a : nonul t ->
  tied a false c o -> parse E pres (cstr t) c = Ok c' -> text_shapes E pres (cstr t) c = Ok ls ->
  oparse o ls = Ok o' -> tied true false c' o'.
Proof.
  intros Ht [TA TX TY (TB1 & TB2 & TB3) TG TS] H X P.
  destruct (parse_lines E pres t c c' Ht H) as (L & cap & s & w & EL & FL & F2 & E1 & E2 & E3 & E4 & E5 & E6 & E7).
  unfold text_shapes in X. rewrite EL in X. cbn [bind] in X.
  destruct (TS eq_refl) as (N1 & N2 & N3).
  unfold oparse in P.
  destruct (new_blk (w_bloom o) (w_heap o)) as [b1 h1].
  destruct (new_blk (w_ebloom o) h1) as [b2 h2].
  destruct (new_opt (w_host o) h2) as [[n1 l1] h3] eqn:EO1.
  destruct (new_opt (w_ehost o) h3) as [[n2 l2] h4] eqn:EO2.
  destruct (new_gates h4 gated (w_gates o)) as [gs h5] eqn:EG.
  apply bind_ok in P as (h6 & _ & P).
  destruct (regrow_all h6 kinds (w_arrs o) (tall None) (tall None)) as [[news olds] h7] eqn:ER.
  apply bind_ok in P as (h8 & _ & P).
  destruct (regrow_all_moved kinds _ _ _ _ _ _ _ kinds_nodup ER) as [_ KN].
  destruct (new_gates_tied gated _ _ _ _ gated_nodup EG) as [KG1 KG2].
  destruct (opt_tied (c_host c) 18000 _ _ _ _ _ eq_refl N1 TX EO1) as [T1 S1].
  destruct (opt_tied (c_ehost c) 2000 _ _ _ _ _ eq_refl N2 TY EO2) as [T2 S2].
  assert (T : tied2 (initSets c) (c_lists c)
    (mkW h8 news (Some b1) (Some b2) (Some (n1, l1)) (Some (n2, l2)) gs (w_bad o))).
  { constructor; cbn [w_arrs w_host w_ehost w_gates]; auto.
    - split; [exact S1|]. split; [exact S2|]. intros k Q.
      destruct (gate_init c k Q) as (n & Ln & ->). pose proof (N3 k) as N. revert N. clear -Ln.
      destruct (set_of c k) as [z|]; cbn [odef]; intros N; [intros ->; now apply N|now apply new_some].
    - intros k. destruct (KN k (kinds_all k)) as (b & ->). destruct (TA k) as (F & Bo & _).
      exists b, (map taken (items (tget (w_arrs o) k))). split; [reflexivity|]. split.
      + clear -F. induction F as [|f x fs xs S F IH]; cbn [map]; constructor; auto using stored_taken.
      + apply Forall_forall. intros y I. apply in_map_iff in I as (z & <- & _). reflexivity.
    - intros k Q. destruct (KG1 k (proj2 (gated_is k) Q)) as (b & ->).
      destruct (gate_init c k Q) as (n & Ln & ->). now apply ogate_tied.
    - intros k Q. rewrite KG2 by (intros I; apply gated_is in I; congruence).
      specialize (TG k). destruct k; try discriminate Q; cbn [set_of] in TG;
        now destruct (tget (w_gates o) _). }
  pose proof (pass2_all_tied E pres cap L _ FL _ _ _ _ _ _ _ T F2 X P) as [TF' TA' TX' TY' TG' TO'].
  apply pass2_all_keep in P as (K1 & K2 & K3). cbn [w_bloom w_ebloom w_bad] in K1, K2, K3.
  constructor.
  - intros k. rewrite E1. destruct (TA' k) as (b & os & -> & F & Bo). auto.
  - rewrite E4. destruct TX' as (b & l & fs & -> & Pm & F & Bo). cbn. eauto.
  - rewrite E5. destruct TY' as (b & l & fs & -> & Pm & F & Bo). cbn. eauto.
  - rewrite E2, E3, E7, K1, K2, K3. auto.
  - intros k. rewrite E6. destruct (is_gated k) eqn:Q.
    + destruct (TG' k Q) as (b & l & -> & Len). exact Len.
    + now rewrite (TO' k Q).
  - intros _. destruct TF' as (G1 & G2 & G3). split; [rewrite E4; congruence|].
    split; [rewrite E5; congruence|]. intros k. rewrite E6. destruct (is_gated k) eqn:Q; [|discriminate].
    specialize (G3 k Q). congruence.
Qed.

(** ** Queries *)

Lemma touch_tied r l : forall h t l' h' fs, touch h l t = (l', h') ->
  Forall2 stored fs l -> Forall (fun o => o_borrowed o = r) l ->
  Forall2 stored fs l' /\ Forall (fun o => o_borrowed o = r) l'.
Proof.
  induction l as [|o l IH]; cbn [touch]; intros h t l' h' fs E F Bo.
  - injection E as <- _. auto.
  - destruct (ask_if (t 0) h o) as [o1 h1] eqn:E1.
    destruct (touch h1 l (fun i => t (S i))) as [l1 h2] eqn:E2.
    injection E as <- _. inversion F as [|f o0 fs' l0 F1 F2]; subst.
    apply Forall_cons_iff in Bo as [B1 Bo].
    destruct (stored_ask _ _ _ _ _ _ F1 E1) as [S1 Q1].
    destruct (IH _ _ _ _ _ E2 F2 Bo) as [F' B']. split; constructor; auto. congruence.
Qed.

Lemma touch_arr_tied r a h t a' h' fs : touch_arr h a t = (a', h') ->
  Forall2 stored fs (items a) -> Forall (fun o => o_borrowed o = r) (items a) ->
  Forall2 stored fs (items a') /\ Forall (fun o => o_borrowed o = r) (items a') /\
  isSome a' = isSome a.
Proof.
  destruct a as [[b l]|]; cbn [touch_arr items]; intros E F Bo.
  - destruct (touch h l t) as [l1 h1] eqn:E1. injection E as <- _. cbn [items isSome].
    destruct (touch_tied _ _ _ _ _ _ _ E1 F Bo). auto.
  - injection E as <- _. auto.
Qed.

Lemma touch_tab_tied r ks : forall h a t a' h', NoDup ks -> touch_tab h ks a t = (a', h') ->
  (forall k, Forall (fun o => o_borrowed o = r) (items (tget a k))) ->
  (forall k fs, Forall2 stored fs (items (tget a k)) -> Forall2 stored fs (items (tget a' k))) /\
  (forall k, Forall (fun o => o_borrowed o = r) (items (tget a' k))) /\
  (forall k, isSome (tget a' k) = isSome (tget a k)).
Proof.
  induction ks as [|k ks IH]; cbn [touch_tab]; intros h a t a' h' D E Bo.
  - injection E as <- _. auto.
  - apply NoDup_cons_iff in D. destruct D as [N D].
    destruct (touch_arr h (tget a k) (t k)) as [x h1] eqn:E1.
    assert (Bx : Forall (fun o => o_borrowed o = r) (items x) /\ isSome x = isSome (tget a k)).
    { destruct (tget a k) as [[b l]|] eqn:Q.
      - cbn [touch_arr] in E1. destruct (touch h l (t k)) as [l1 h2] eqn:E2. injection E1 as <- _.
        split; [|reflexivity]. cbn [items]. specialize (Bo k). rewrite Q in Bo. cbn [items] in Bo.
        clear -Bo E2. revert h l1 h2 E2. generalize (t k) as u.
        induction Bo as [|o l B1 Bo IH]; intros u h l1 h2 E; cbn [touch] in E.
        + injection E as <- _. constructor.
        + destruct (ask_if (u 0) h o) as [o1 h3] eqn:E1.
          destruct (touch h3 l (fun i => u (S i))) as [l2 h4] eqn:E2. injection E as <- _.
          constructor; [|eapply IH; eauto]. destruct (ask_if_alike _ _ _ _ _ E1). congruence.
      - injection E1 as <- _. split; [constructor|reflexivity]. }
    destruct Bx as [Bx Sx].
    destruct (IH _ _ _ _ _ D E) as (A1 & A2 & A3).
    { intros k'. rewrite tget_tset. destruct (kind_eq_dec k k'); auto. }
    split; [|split; [exact A2|]].
    + intros k' fs F. apply A1. rewrite tget_tset. destruct (kind_eq_dec k k') as [<-|]; [|exact F].
      apply (touch_arr_tied r _ _ _ _ _ fs E1 F (Bo k)).
    + intros k'. rewrite A3, tget_tset. destruct (kind_eq_dec k k') as [<-|]; auto.
Qed.

Lemma oset_touch r s a h t a' h' : tied_oset r s a -> touch_arr h a t = (a', h') -> tied_oset r s a'.
Proof.
  intros T E. destruct s as [s|], a as [[b l]|]; cbn [tied_oset] in *; try contradiction.
  - destruct T as (fs & P & F & Bo).
    destruct (touch_arr_tied r _ _ _ _ _ fs E F Bo) as (F' & B' & S').
    destruct a' as [[b' l']|]; [|discriminate S']. eauto.
  - cbn in E. injection E as <- _. exact I.
Qed.

Lemma ask_tied a r c o t o' : tied a r c o -> oask o t = Ok o' -> tied a r c o'.
Proof.
  intros [TA TX TY TB TG TS] E. unfold oask in E.
  apply bind_ok in E as (u1 & _ & E). apply bind_ok in E as (u2 & _ & E).
  apply bind_ok in E as (u3 & _ & E). apply bind_ok in E as (u4 & _ & E).
  destruct (touch_tab (w_heap o) kinds (w_arrs o) (t_arrs t)) as [b h1] eqn:E1.
  destruct (touch_arr h1 (w_host o) (t_host t)) as [x h2] eqn:E2.
  destruct (touch_arr h2 (w_ehost o) (t_ehost t)) as [y h3] eqn:E3.
  injection E as <-.
  destruct (touch_tab_tied r kinds _ _ _ _ _ kinds_nodup E1) as (A1 & A2 & A3).
  { intros k. apply (TA k). }
  constructor; cbn [w_arrs w_host w_ehost w_bloom w_ebloom w_bad w_gates]; auto.
  - intros k. destruct (TA k) as (F & Bo & S0). rewrite A3. auto.
  - eapply oset_touch; eauto.
  - eapply oset_touch; eauto.
Qed.

(** ** Restoring *)

Section Items.
  Context {A : Type} (iread : bytes -> nat -> res (option (A * nat))) (P : A -> Prop).
  Context (R : forall p n x m, iread p n = Ok (Some (x, m)) -> P x).

  Lemma items_all fuel : forall p pos size l k, items_read iread fuel p pos size = Ok (l, k) -> Forall P l.
  Proof.
    induction fuel as [|fuel IH]; intros p pos size l k H; cbn [items_read] in H;
      apply bind_ok in H as (c & _ & H); destruct (ceq c NUL);
      try (assert (l = []) as -> by congruence; constructor).
    - destruct (_ <=? _); [assert (l = []) as -> by congruence; constructor|].
      apply bind_ok in H as (r & H1 & H). destruct r as [[x n]|];
        [|assert (l = []) as -> by congruence; constructor].
      destruct (_ || _); [assert (l = []) as -> by congruence; constructor|].
      apply bind_ok in H as ([l1 k1] & H2 & H). assert (l = x :: l1) as -> by congruence.
      constructor; eauto.
  Qed.

  Lemma empties n : Forall P (concat (repeat [] n)).
  Proof. induction n; cbn; [constructor|assumption]. Qed.

  Lemma buckets_all nb : forall p pos size s ok, buckets_read iread nb p pos size = Ok (s, ok) -> Forall P (concat s).
  Proof.
    induction nb as [|nb IH]; intros p pos size s ok H; cbn [buckets_read] in H.
    - assert (s = []) as -> by congruence. constructor.
    - apply bind_ok in H as ([l k] & H1 & H). apply items_all in H1.
      destruct k as [[p' pos']|].
      + apply bind_ok in H as ([s1 ok1] & H2 & H). assert (s = l :: s1) as -> by congruence.
        cbn [concat]. apply Forall_app. eauto.
      + assert (s = l :: repeat [] nb) as -> by congruence. cbn [concat]. apply Forall_app.
        split; [exact H1|apply empties].
  Qed.

  Lemma initHash_all p n o ok : initHash iread p n = Ok (o, ok) -> Forall P (in_set o).
  Proof.
    unfold initHash. destruct n as [|n]; [intros [= <- _]; constructor|].
    intros H. apply bind_ok in H as ([s ok'] & H & [= <- _]). cbn [in_set fst].
    unfold hs_deserialize in H. apply bind_ok in H as (b & _ & H).
    destruct (negb b); [assert (s = []) as -> by congruence; constructor|].
    apply bind_ok in H as (h & _ & H). cbv zeta in H.
    destruct (_ <=? _); [|eapply buckets_all; eauto].
    match type of H with Ok (repeat [] ?k, _) = _ => assert (s = repeat [] k) as -> by congruence end.
    apply empties.
  Qed.
End Items.

Definition no_text (f : filter) : Prop := f_rule f = None.

Lemma df_read_text n : forall p fs p', df_read n p = Ok (fs, p') -> Forall no_text fs.
Proof.
  induction n as [|n IH]; intros p fs p' H; cbn [df_read] in H.
  - injection H as <- _. constructor.
  - apply bind_ok in H as ([f p1] & H1 & H). apply bind_ok in H as ([gs p2] & H2 & H).
    injection H as <- _. constructor; [|eauto].
    unfold df_read1 in H1. apply bind_ok in H1 as (h & _ & H1). cbv zeta in H1.
    apply bind_ok in H1 as ([d q1] & _ & H1). apply bind_ok in H1 as ([t q2] & _ & H1).
    apply bind_ok in H1 as ([m q3] & _ & H1). apply bind_ok in H1 as ([g q4] & _ & H1).
    injection H1 as <- _. reflexivity.
Qed.

Lemma lists_read_text ks : forall v p t t' p', lists_read v ks p t = Ok (t', p') ->
  (forall k, Forall no_text (tget t k)) -> forall k, Forall no_text (tget t' k).
Proof.
  induction ks as [|k ks IH]; intros v p t t' p' H F k'; cbn [lists_read] in H.
  - injection H as <- _. apply F.
  - apply bind_ok in H as ([fs p1] & H1 & H). apply df_read_text in H1.
    eapply IH; [exact H|]. intros k2. rewrite tget_tset. destruct (kind_eq_dec k k2); auto.
Qed.

Lemma fi_read_text p n f m : fi_read p n = Ok (Some (f, m)) -> no_text f.
Proof.
  unfold fi_read. intros H. apply bind_ok in H as (b & _ & H). destruct (negb b); [discriminate H|].
  apply bind_ok in H as (h & _ & H). cbv zeta in H. destruct (_ <=? _).
  { destruct (wraps _ _); discriminate H. }
  destruct (_ <? _); [discriminate H|].
  apply bind_ok in H as ([ho p3] & _ & H). apply bind_ok in H as ([t p4] & _ & H).
  apply bind_ok in H as ([g p5] & _ & H). injection H as <- _. reflexivity.
Qed.

Lemma restored_text buf c c1 ok : deserialize buf c = Ok (c1, ok) ->
  (forall k, Forall no_text (tget (c_lists c1) k)) /\ Forall no_text (in_set (c_host c1)) /\
  Forall no_text (in_set (c_ehost c1)) /\ c_badfp c1 = None.
Proof.
  unfold deserialize. cbv zeta. intros H. apply bind_ok in H as (h & _ & H).
  apply bind_ok in H as ([t p] & HL & H). apply bind_ok in H as (b1 & _ & H).
  apply bind_ok in H as (b2 & _ & H). apply bind_ok in H as ([hs1 ok1] & H1 & H).
  apply (initHash_all fi_read no_text fi_read_text) in H1.
  assert (FL : forall k, Forall no_text (tget t k)).
  { eapply lists_read_text; [exact HL|]. intros k. rewrite tall_empty. constructor. }
  destruct (negb ok1); [injection H as <- _; cbn [c_lists c_host c_ehost c_badfp in_set clear]; auto|].
  apply bind_ok in H as ([hs2 ok2] & H2 & H).
  apply (initHash_all fi_read no_text fi_read_text) in H2.
  assert (Z : forall d1 d2 d3 d4 b n m,
    Ok (mkC t n m b1 b2 hs1 hs2 d1 d2 d3 d4 (c_badfp (clear c)) (c_stats (clear c)) (c_tags (clear c)), b)
     = Ok (c1, ok) -> (forall k, Forall no_text (tget (c_lists c1) k)) /\ Forall no_text (in_set (c_host c1)) /\
     Forall no_text (in_set (c_ehost c1)) /\ c_badfp c1 = None).
  { intros. injection H0 as <- _. cbn [c_lists c_host c_ehost c_badfp clear]. auto. }
  destruct (negb ok2); [eapply Z; exact H|].
  apply bind_ok in H as ([d1 ok3] & _ & H). destruct (negb ok3); [eapply Z; exact H|].
  apply bind_ok in H as ([d2 ok4] & _ & H). destruct (negb ok4); [eapply Z; exact H|].
  apply bind_ok in H as ([d3 ok5] & _ & H). destruct (negb ok5); [eapply Z; exact H|].
  apply bind_ok in H as ([d4 ok6] & _ & H). eapply Z; exact H.
Qed.

Lemma in_all b fs l : Forall2 fits fs l -> Forall no_text fs ->
  Forall2 stored fs (map (obj_in b) l) /\ Forall (fun o => o_borrowed o = true) (map (obj_in b) l).
Proof.
  intros F T. split.
  - induction F as [|f s fs l H F IH]; cbn [map]; constructor.
    + apply stored_in; [exact H|]. now apply Forall_cons_iff in T as [T _].
    + apply IH. now apply Forall_cons_iff in T as [_ T].
  - apply Forall_forall. intros o I. apply in_map_iff in I as (s & <- & _). reflexivity.
Qed.

Lemma new_arrs_tied b f ks : forall h t t' h', NoDup ks -> new_arrs h ks b f t = (t', h') ->
  (forall k, ~ In k ks -> tget t' k = tget t k) /\
  (forall k, In k ks -> exists n, tget t' k = Some (n, map (obj_in b) (f k))).
Proof.
  induction ks as [|k ks IH]; cbn [new_arrs]; intros h t t' h' D E.
  - injection E as <- _. split; [auto|easy].
  - apply NoDup_cons_iff in D. destruct D as [N D]. destruct (alloc h) as [n h1].
    destruct (IH _ _ _ _ D E) as [K1 K2]. split.
    + intros k' I. rewrite K1 by (intros ?; apply I; now right).
      apply tget_tset_other. intros ->. apply I. now left.
    + intros k' [<-|I]; [|now apply K2]. exists n. now rewrite (K1 k N), tget_tset_same.
Qed.

Lemma new_sets_tied b f ks : forall h t t' h', NoDup ks -> new_sets h ks b f t = (t', h') ->
  (forall k, ~ In k ks -> tget t' k = tget t k) /\
  (forall k, In k ks -> match f k, tget t' k with
     | Some n, Some (_, l) => length l = n | None, None => True | _, _ => False end).
Proof.
  induction ks as [|k ks IH]; cbn [new_sets]; intros h t t' h' D E.
  - injection E as <- _. split; [auto|easy].
  - apply NoDup_cons_iff in D. destruct D as [N D].
    destruct (new_set h (option_map (repeat (mkG true (Inside b))) (f k))) as [x h1] eqn:E1.
    destruct (IH _ _ _ _ D E) as [K1 K2]. split.
    + intros k' I. rewrite K1 by (intros ?; apply I; now right).
      apply tget_tset_other. intros ->. apply I. now left.
    + intros k' [<-|I]; [|now apply K2]. rewrite (K1 k N), tget_tset_same.
      destruct (f k) as [n|]; cbn [option_map new_set] in E1.
      * destruct (alloc h). injection E1 as <- _. apply repeat_length.
      * injection E1 as <- _. exact I.
Qed.

Lemma new_set_tied b s d h x h' :
  match s, d with Some s, Some l => Forall2 fits (concat s) l | None, None => True | _, _ => False end ->
  Forall no_text (in_set s) -> new_set h (option_map (map (obj_in b)) d) = (x, h') ->
  tied_oset true s x.
Proof.
  intros M T E. destruct s as [s|], d as [l|]; try contradiction; cbn [option_map new_set] in E.
  - destruct (alloc h). injection E as <- _. cbn [tied_oset in_set] in *.
    destruct (in_all b _ _ M T) as [F Bo]. exists (concat s). auto.
  - injection E as <- _. exact I.
Qed.

Lemma load_tied buf c c1 ok d o b o' :
  deserialize buf c = Ok (c1, ok) -> built c1 d -> odeserialize o b d = Ok o' -> tied true true c1 o'.
Proof.
  intros D (B1 & B2 & B3 & B4 & B5 & B6) E. destruct (restored_text _ _ _ _ D) as (R1 & R2 & R3 & R4).
  unfold odeserialize in E. apply bind_ok in E as (w & _ & E). apply bind_ok in E as (u & _ & E).
  destruct (new_arrs (w_heap w) kinds b (d_arrs d) (tall None)) as [a h1] eqn:E1.
  destruct (new_oblk (d_bloom d) h1) as [b1 h2] eqn:E2.
  destruct (new_oblk (d_ebloom d) h2) as [b2 h3] eqn:E3.
  destruct (new_set h3 (option_map (map (obj_in b)) (d_host d))) as [x h4] eqn:E4.
  destruct (new_set h4 (option_map (map (obj_in b)) (d_ehost d))) as [y h5] eqn:E5.
  destruct (new_sets h5 gated b (d_gates d) (tall None)) as [g h6] eqn:E6.
  injection E as <-.
  destruct (new_arrs_tied _ _ _ _ _ _ _ kinds_nodup E1) as [_ KA].
  destruct (new_sets_tied _ _ _ _ _ _ _ gated_nodup E6) as [KG1 KG2].
  assert (O : forall q h v h', new_oblk q h = (v, h') -> isSome v = q).
  { intros q h v h' Q. destruct q; cbn [new_oblk] in Q; [destruct (alloc h)|]; now injection Q as <- _. }
  constructor; cbn [w_arrs w_host w_ehost w_bloom w_ebloom w_bad w_gates].
  - intros k. destruct (KA k (kinds_all k)) as (n & ->). cbn [items isSome].
    destruct (in_all b _ _ (B1 k) (R1 k)). auto.
  - eapply new_set_tied; eauto.
  - eapply new_set_tied; eauto.
  - rewrite R4, (O _ _ _ _ E2), (O _ _ _ _ E3). auto.
  - intros k. destruct (is_gated k) eqn:Q.
    + specialize (KG2 k (proj2 (gated_is k) Q)). rewrite B6 in KG2.
      destruct (set_of c1 k) as [s|]; cbn [option_map] in KG2; destruct (tget g k) as [[n l]|]; auto.
    + rewrite KG1 by (intros I; apply gated_is in I; congruence). rewrite tget_tall.
      now destruct k.
  - discriminate.
Qed.

(** ** A story *)

Lemma tied_heap a r c o h : tied a r c o -> tied a r c (set_heap o h).
Proof. intros [TA TX TY TB TG TS]. constructor; auto. Qed.

Lemma tied_same a r c c' o : same_rules c c' -> isSome (c_badfp c) = isSome (c_badfp c') ->
  tied a r c o -> tied a r c' o.
Proof.
  intros (S1 & S2 & S3 & S4 & S5 & S6 & S7 & S8 & S9 & S10 & S11) Sb [TA TX TY TB TG TS].
  assert (G : forall k, set_of c' k = set_of c k) by (intros k; destruct k; cbn [set_of]; congruence).
  constructor.
  - intros k. rewrite <- S1. apply TA.
  - now rewrite <- S6.
  - now rewrite <- S7.
  - rewrite <- S4, <- S5, <- Sb. exact TB.
  - intros k. rewrite G. apply TG.
  - intros Q. destruct (TS Q) as (A & B & C). unfold some_sets. rewrite <- S6, <- S7.
    repeat split; auto. intros k. now rewrite G.
Qed.

Lemma same_refl c : same_rules c c.
Proof. repeat split. Qed.

Definition still (c c' : client) : Prop := same_rules c c' /\ isSome (c_badfp c) = isSome (c_badfp c').

Lemma still_refl c : still c c.
Proof. split; [apply same_refl|reflexivity]. Qed.

Lemma discover_some E bad url b bad' : discover E bad url b = Ok bad' -> isSome bad = isSome bad'.
Proof.
  unfold discover. destruct bad as [l|]; [|intros [= <-]; reflexivity].
  destruct b as [bl|]; [intros [= <-]; reflexivity|].
  destruct (_ <? _); [intros [= <-]; reflexivity|discriminate].
Qed.

Lemma block_still E c q bf hit mf c1 : block_phase E c q bf = Ok (hit, mf, c1) -> still c c1.
Proof.
  unfold block_phase. intros H. apply bind_ok in H as (m & _ & H).
  destruct m as [f|]; [assert (c1 = c) as -> by congruence; apply still_refl|].
  cbv zeta in H. apply bind_ok in H as (h & _ & H).
  destruct h as [| |f]; try (assert (c1 = c) as -> by congruence; apply still_refl).
  destruct (bloomMiss _ _ _); [injection H as _ _ <-; split; [repeat split|reflexivity]|].
  apply bind_ok in H as (r & _ & H).
  destruct r as [f|]; [assert (c1 = c) as -> by congruence; apply still_refl|].
  apply bind_ok in H as (bad & D & H). apply discover_some in D.
  injection H as _ _ <-. split; [repeat split|exact D].
Qed.

Lemma exc_still E c q bf hit mf c1 : exc_phase E c q bf = Ok (hit, mf, c1) -> still c c1.
Proof.
  unfold exc_phase. intros H. apply bind_ok in H as (m & _ & H).
  destruct m as [f|]; [assert (c1 = c) as -> by congruence; apply still_refl|].
  cbv zeta in H. apply bind_ok in H as (h & _ & H).
  destruct h as [| |f]; try (injection H as _ _ <-; split; [repeat split|reflexivity]).
  destruct (bloomMiss _ _ _); [injection H as _ _ <-; split; [repeat split|reflexivity]|].
  apply bind_ok in H as (r & _ & H).
  destruct r as [f|]; [assert (c1 = c) as -> by congruence; apply still_refl|].
  apply bind_ok in H as (bad & D & H). apply discover_some in D.
  injection H as _ _ <-. split; [repeat split|exact D].
Qed.

Lemma still_trans a b c : still a b -> still b c -> still a c.
Proof. unfold still, same_rules. intuition congruence. Qed.

Lemma matches_still E c url context dom v c1 : matches E c url context dom = Ok (v, c1) -> still c c1.
Proof.
  unfold matches. intros H. apply bind_ok in H as (n & _ & H). apply bind_ok in H as (web & _ & H).
  destruct (negb web); [assert (c1 = c) as -> by congruence; apply still_refl|].
  apply bind_ok in H as (q & _ & H). cbv zeta in H.
  apply bind_ok in H as ([[hit mf] c2] & H1 & H). apply block_still in H1.
  destruct (negb hit); [assert (c1 = c2) as -> by congruence; exact H1|].
  apply bind_ok in H as ([[b me] c3] & H2 & H). apply exc_still in H2.
  assert (c1 = c3) as -> by congruence. eapply still_trans; eauto.
Qed.

Lemma quiet_still E c x c1 : loads_nothing x -> act E c x = Ok c1 -> still c c1.
Proof.
  destruct x as [[pres t| |t|t|url context dom|]|nc nh|buf]; cbn [loads_nothing act perform]; intros Q H;
    try contradiction.
  - injection H as <-. unfold addTag. destruct (tagExists c t); [apply still_refl|split; [repeat split|reflexivity]].
  - injection H as <-. unfold removeTag. try destruct (tagExists c t); repeat split.
  - apply rmap_ok in H as ([v c2] & H & ->). eapply matches_still; exact H.
  - apply bind_ok in H as (z & _ & H). assert (c1 = c) as -> by congruence. apply still_refl.
Qed.

Lemma step_tied E c x e c1 a r s s1 : ncall_ok x -> act E c x = Ok c1 -> heap_step E c x e ->
  (match x with Call (Parse _ _) => r = false | _ => True end) ->
  tied a r c (wr_own s) -> foldM wstep s e = Ok s1 ->
  tied (arrays_after a x) (restored_by r x) c1 (wr_own s1) /\
  isSome (wr_buf s1) = loads x || isSome (wr_buf s).
Proof.
  intros O A H Hr T W.
  destruct H as [pres t ls TS| |t|t|url context dom tr| |nc nh|buf c2 ok d D Bu];
    cbn [foldM] in W; try (assert (s1 = s) as -> by congruence);
    try (apply bind_ok in W as (s2 & W & W0); assert (s1 = s2) as -> by congruence; clear W0);
    cbn [wstep arrays_after restored_by loads orb act perform] in *.
  - subst r. apply rmap_ok in W as (o' & W & ->). cbn [wr_own wr_buf]. split; [|reflexivity].
    eapply parse_tied; eauto.
  - apply rmap_ok in W as (o' & W & ->). cbn [wr_own wr_buf]. split; [|reflexivity].
    assert (Q : exists h, o' = own0 h).
    { unfold oclear in W. do 7 (apply bind_ok in W as (? & _ & W)). injection W as <-. eauto. }
    destruct Q as (h & ->). injection A as <-. apply tied_empty; auto. now intros [].
  - split; [|reflexivity]. destruct (quiet_still E c (Call (AddTag t)) c1 I A) as [S1 S2].
    eapply tied_same; eauto.
  - split; [|reflexivity]. destruct (quiet_still E c (Call (RemoveTag t)) c1 I A) as [S1 S2].
    eapply tied_same; eauto.
  - apply rmap_ok in W as (o' & W & ->). cbn [wr_own wr_buf]. split; [|reflexivity].
    destruct (quiet_still E c (Call (Ask url context dom)) c1 I A) as [S1 S2].
    eapply tied_same; eauto. eapply ask_tied; eauto.
  - injection W as <-. cbn [wr_own wr_buf]. split; [|reflexivity]. injection A as <-.
    destruct T as [TA TX TY (TB1 & TB2 & TB3) TG TS]. unfold oenable, enableBadFp.
    destruct (c_badfp c) as [l|] eqn:Eb, (w_bad (wr_own s)) as [n|] eqn:Ew; try discriminate TB3.
    + constructor; auto. rewrite Eb, Ew. auto.
    + destruct (alloc (w_heap (wr_own s))) as [b h].
      constructor; cbn [w_arrs w_host w_ehost w_bloom w_ebloom w_bad w_gates set_stats c_lists c_host c_ehost
        c_bloom c_ebloom c_badfp]; auto.
  - apply bind_ok in W as ([o1 n] & W1 & W). apply bind_ok in W as (h & _ & W). injection W as <-.
    cbn [wr_own wr_buf fst snd]. split; [|reflexivity].
    destruct (quiet_still E c (Save nc nh) c1 I A) as [S1 S2].
    eapply tied_same; eauto. apply tied_heap.
    unfold oserialize in W1. apply bind_ok in W1 as (u & _ & W1).
    destruct (alloc (w_heap (wr_own s))) as [b h0]. injection W1 as <- _.
    destruct T as [TA TX TY TB TG TS]. constructor; auto.
  - apply bind_ok in W as (h & _ & W). destruct (alloc h) as [b h0].
    apply rmap_ok in W as (o' & W & ->). cbn [wr_own wr_buf]. split; [|reflexivity].
    rewrite D in A. cbn [rmap fst] in A. injection A as <-. eapply load_tied; eauto.
Qed.

Lemma foldM_app {A C} (f : C -> A -> res C) l m s :
  foldM f s (l ++ m) = (s1 <- foldM f s l ;; foldM f s1 m).
Proof.
  revert s. induction l as [|x l IH]; intros s; cbn [app foldM bind]; [reflexivity|].
  destruct (f s x) as [s1|]; cbn [bind]; [apply IH|reflexivity].
Qed.

Lemma story_tied E c xs es c' : story E c xs es c' -> forall a r s s', apart r xs ->
  tied a r c (wr_own s) -> foldM wstep s es = Ok s' ->
  tied (fold_left arrays_after xs a) (fold_left restored_by xs r) c' (wr_own s') /\
  isSome (wr_buf s') = existsb loads xs || isSome (wr_buf s).
Proof.
  induction 1 as [c|c x xs e es c1 c2 O A H S IH]; intros a r s s' Ap T W.
  - injection W as <-. split; [exact T|reflexivity].
  - rewrite foldM_app in W. apply bind_ok in W as (s1 & W1 & W).
    assert (Ap' : (match x with Call (Parse _ _) => r = false | _ => True end) /\ apart (restored_by r x) xs).
    { destruct x as [[]| |]; cbn [apart restored_by] in *; tauto. }
    destruct Ap' as [Ap1 Ap2].
    destruct (step_tied E c x e c1 a r s s1 O A H Ap1 T W1) as [T1 B1].
    destruct (IH _ _ _ _ Ap2 T1 W) as [T2 B2]. split; [exact T2|].
    rewrite B2, B1. cbn [existsb]. destruct (loads x), (existsb loads xs); reflexivity.
Qed.
