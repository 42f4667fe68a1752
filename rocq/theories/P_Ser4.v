(** Serialization: whole clients. *)
From Verif Require Import Base Flags Protocol Url Sets FilterM ParseM ClientM SerialM Spec SpecM
  SpecC SpecS P_Base P_Protocol P_Url P_Match P_Rule P_Parse P_List P_Shape P_Fp P_Line P_Line2
  P_Fp2 P_Props1 P_Props2 P_Props3 P_Opt P_Opt2 P_Set P_Client P_Decide P_Hist P_Ser1 P_Ser2 P_Ser3.

(** ** Writing *)
Definition recs (t : tab (list filter)) (k : kind) : bytes := flat_map rule_record (tget t k).
Definition body (t : tab (list filter)) (ks : list kind) : bytes := flat_map (recs t) ks.

Definition ob {A} (f : A -> bytes) (o : option A) : bytes :=
  match o with Some x => f x | None => [] end.

Definition blobs_of (c : client) : list bytes :=
  [ob bloom_bytes (c_bloom c); ob bloom_bytes (c_ebloom c);
   ob (set_bytes item_record) (c_host c); ob (set_bytes item_record) (c_ehost c);
   ob (set_bytes dom_record) (c_nfd c); ob (set_bytes dom_record) (c_nfa c);
   ob (set_bytes dom_record) (c_nfdexc c); ob (set_bytes dom_record) (c_nfaexc c)].

Definition buffer (c : client) (t : tab (list filter)) : bytes :=
  cstr (header_of c t (blobs_of c)) ++ body t ser_order ++ concat (blobs_of c).

Lemma sizes_sum_ok t ks : (forall k, Forall arr_rule (tget t k)) ->
  sizes_sum t ks = Ok (length (body t ks)).
Proof.
  intros H. induction ks as [|k ks IH]; [reflexivity|]. cbn [sizes_sum body flat_map].
  rewrite sf_size_ok by auto. cbn [bind]. rewrite IH. cbn [bind].
  unfold body. now rewrite app_length.
Qed.

Lemma lists_write_ok t ks : forall pre n, (forall k, Forall arr_rule (tget t k)) ->
  length (body t ks) <= n ->
  lists_write (pre ++ zeros n) (length pre + n) (length pre) t ks =
  Ok ((pre ++ body t ks) ++ zeros (n - length (body t ks)), length pre + length (body t ks)).
Proof.
  induction ks as [|k ks IH]; intros pre n H L; cbn [lists_write body flat_map] in *.
  - cbn [length]. now rewrite app_nil_r, Nat.sub_0_r, Nat.add_0_r.
  - rewrite app_length in *. unfold body in IH.
    change (recs t k) with (flat_map rule_record (tget t k)) in *.
    pose proof (sf_write_ok (tget t k) pre n (length pre + n - length pre) (H k)) as W.
    set (u := flat_map rule_record (tget t k)) in *.
    rewrite W by lia. cbn [bind]. clear W.
    replace (length pre + n) with (length (pre ++ u) + (n - length u)) by (rewrite app_length; lia).
    replace (length pre + length u) with (length (pre ++ u)) by apply app_length.
    rewrite IH by (auto; lia). f_equal. f_equal.
    + rewrite <- !app_assoc. do 4 f_equal. lia.
    + rewrite app_length. lia.
Qed.

Lemma blobs_write_ok bs : forall pre n, length (concat bs) <= n ->
  blobs_write (pre ++ zeros n) (length pre) bs =
  Ok ((pre ++ concat bs) ++ zeros (n - length (concat bs)), length pre + length (concat bs)).
Proof.
  induction bs as [|b bs IH]; intros pre n L; cbn [blobs_write concat] in *.
  - cbn [length]. now rewrite app_nil_r, Nat.sub_0_r, Nat.add_0_r.
  - rewrite app_length in *. rewrite wr_zeros by lia. cbn [bind].
    rewrite <- app_length. rewrite IH by lia. f_equal. f_equal.
    + rewrite <- !app_assoc. do 4 f_equal. lia.
    + rewrite app_length. lia.
Qed.

(** Everything in the client has the expected shape. *)
Definition shaped (P : filter -> Prop) (c : client) : Prop :=
  (forall k, Forall arr_rule (tget (c_lists c) k)) /\ cfine P c /\ (forall f, P f -> arr_rule f).

Lemma host_items_ok (P : filter -> Prop) s :
  (forall f, P f -> arr_rule f) -> Forall (Forall (hostP P)) s -> Forall (Forall item_ok) s.
Proof.
  intros H. apply Forall_impl. intros b. apply Forall_impl.
  intros g (f & -> & D & K). destruct (H f K) as (_ & A2 & A3 & A4 & A5).
  split; [|auto]. cbn [copyFilter f_data]. destruct (f_data f) as [[d t]|]; [discriminate|easy].
Qed.

Lemma obytes_host (P : filter -> Prop) o :
  (forall f, P f -> arr_rule f) ->
  oall (fun s => Forall (Forall (hostP P)) s /\ s <> []) o ->
  obytes hostset_bytes o = Ok (ob (set_bytes item_record) o).
Proof.
  intros H O. destruct o as [s|]; [|reflexivity]. cbn [obytes ob].
  apply hostset_bytes_ok. destruct (O s eq_refl). eapply host_items_ok; eauto.
Qed.

Lemma obytes_dom o : obytes domset_bytes o = Ok (ob (set_bytes dom_record) o).
Proof. destruct o as [s|]; [|reflexivity]. apply domset_bytes_ok. Qed.

Lemma obytes_bloom o : obytes (fun b => Ok (bloom_bytes b)) o = Ok (ob bloom_bytes o).
Proof. now destruct o. Qed.

Lemma client_blobs_ok (P : filter -> Prop) c : shaped P c -> client_blobs c = Ok (blobs_of c).
Proof.
  intros (_ & (C1 & C2 & C3 & C4 & _) & H). unfold client_blobs.
  rewrite (obytes_host P (c_host c)), (obytes_host P (c_ehost c)) by auto.
  cbn [bind]. rewrite !obytes_dom. cbn [bind]. rewrite !obytes_bloom. reflexivity.
Qed.

Lemma tget_tset_same {A} (t : tab A) k x : tget (tset t k x) k = x.
Proof. rewrite tget_tset. now destruct (kind_eq_dec k k). Qed.

Lemma ser_lists_get c a b k :
  tget (ser_lists c a b) k = tget (c_lists c) k \/ tget (ser_lists c a b) k = [].
Proof.
  unfold ser_lists. destruct a, b; rewrite ?tget_tset;
    repeat destruct (kind_eq_dec _ _); auto.
Qed.

Lemma ser_lists_arr (P : filter -> Prop) c a b : shaped P c -> forall k, Forall arr_rule (tget (ser_lists c a b) k).
Proof. intros (H & _) k. destruct (ser_lists_get c a b k) as [->| ->]; auto. Qed.

Lemma list_sum_concat (bs : list bytes) : list_sum (map (@length _) bs) = length (concat bs).
Proof.
  induction bs as [|b bs IH]; [reflexivity|]. cbn [concat]. rewrite app_length, <- IH. reflexivity.
Qed.

Lemma serialize_size_ok (P : filter -> Prop) c a b : shaped P c ->
  serialize_size c a b = Ok (length (buffer c (ser_lists c a b))).
Proof.
  intros H. unfold serialize_size. rewrite (client_blobs_ok P) by auto. cbn [bind].
  rewrite sizes_sum_ok by (eapply ser_lists_arr; eauto). cbn [bind].
  unfold buffer. rewrite !app_length, cstr_len, list_sum_concat. f_equal. lia.
Qed.

Lemma serialize_ok (P : filter -> Prop) c a b : shaped P c ->
  serialize c a b = Ok (buffer c (ser_lists c a b)).
Proof.
  intros H. unfold serialize. rewrite (client_blobs_ok P) by auto. cbn [bind].
  rewrite (serialize_size_ok P) by auto. cbn [bind].
  set (t := ser_lists c a b). set (hd := header_of c t (blobs_of c)).
  set (N := length (buffer c t)).
  assert (N = length (cstr hd) + (length (body t ser_order) + length (concat (blobs_of c)))) as LN.
  { unfold N, buffer. fold hd. now rewrite !app_length. }
  pose proof (snprintf_zeros [] N N hd) as W. cbn [app length] in W.
  rewrite cstr_len in LN.
  rewrite W by lia. clear W. cbn [bind].
  replace (length hd + 1) with (length (cstr hd)) by apply cstr_len.
  replace N with (length (cstr hd) + (N - length (cstr hd))) at 2 by (rewrite cstr_len; lia).
  rewrite lists_write_ok.
  2:{ eapply ser_lists_arr; eauto. }
  2:{ rewrite cstr_len. lia. }
  cbn [bind]. rewrite <- app_length. rewrite blobs_write_ok by (rewrite cstr_len; lia).
  cbn [bind fst]. f_equal.
  replace (N - length (cstr hd) - length (body t ser_order) - length (concat (blobs_of c)))
    with 0 by (rewrite cstr_len; lia).
  cbn [zeros repeat]. rewrite app_nil_r. unfold buffer. fold hd. now rewrite <- app_assoc.
Qed.

(** ** Reading *)
Lemma lists_read_ok t ks : forall w r t0,
  NoDup ks -> (forall k, Forall arr_rule (tget t k)) -> (forall k, Forall storable (tget t k)) ->
  (forall k f, In f (tget t k) -> ends_nul f) ->
  exists t', lists_read (map (fun k => N.of_nat (length (tget t k))) ks ++ w) ks (body t ks ++ r) t0
             = Ok (t', r) /\
    (forall k, In k ks -> Forall2 restored_as (tget t k) (tget t' k) /\ Forall arr_rule (tget t' k)) /\
    (forall k, ~ In k ks -> tget t' k = tget t0 k).
Proof.
  induction ks as [|k ks IH]; intros w r t0 ND H1 H2 H3.
  - exists t0. split; [reflexivity|]. split; [easy|auto].
  - inversion ND as [|? ? NI ND']; subst. cbn [map app lists_read hd tl body flat_map].
    rewrite <- app_assoc, Nat2N.id. fold (body t ks).
    destruct (df_read_ok (tget t k) (body t ks ++ r)) as (gs & R & F & A); auto.
    { intros f d u I. now apply (H3 k f I). }
    unfold recs. rewrite R. cbn [bind].
    destruct (IH w r (tset t0 k gs) ND' H1 H2 H3) as (t' & R' & K1 & K2).
    exists t'. split; [exact R'|]. split.
    + intros j [<-|I]; auto. rewrite K2 by auto. rewrite tget_tset_same. auto.
    + intros j I. rewrite K2 by (intros X; apply I; now right). rewrite tget_tset.
      destruct (kind_eq_dec k j) as [->|]; auto. exfalso. apply I. now left.
Qed.

Lemma ser_order_all k : In k ser_order.
Proof. destruct k; cbn; tauto. Qed.

Lemma ser_order_nodup : NoDup ser_order.
Proof. unfold ser_order. repeat constructor; cbn; intuition discriminate. Qed.

Definition orel {A} (R : A -> A -> Prop) (x y : option A) : Prop :=
  match x, y with Some a, Some b => R a b | None, None => True | _, _ => False end.

Lemma initBloom_opt o r : oall fits o ->
  initBloom (ob bloom_bytes o ++ r) (length (ob bloom_bytes o)) = Ok o.
Proof. intros H. destruct o as [b|]; [|reflexivity]. apply initBloom_ok. now apply H. Qed.

Lemma initHash_dom o r : oall (fun s => s <> []) o ->
  initHash nd_read (ob (set_bytes dom_record) o ++ r) (length (ob (set_bytes dom_record) o)) =
  Ok (o, true).
Proof.
  intros H. destruct o as [s|]; [|reflexivity]. cbn [ob]. unfold initHash.
  pose proof (set_bytes_pos dom_record s) as L.
  destruct (length (set_bytes dom_record s)) eqn:E; [lia|]. rewrite <- E.
  rewrite domset_read_ok by (now apply H). reflexivity.
Qed.

Lemma initHash_host (P : filter -> Prop) o r :
  (forall f, P f -> arr_rule f /\ storable f) ->
  oall (fun s => Forall (Forall (hostP P)) s /\ s <> []) o ->
  exists o', initHash fi_read (ob (set_bytes item_record) o ++ r)
               (length (ob (set_bytes item_record) o)) = Ok (o', true) /\
    orel (Forall2 (Forall2 host_restored)) o o'.
Proof.
  intros H O. destruct o as [s|].
  2:{ exists None. split; [reflexivity|exact I]. }
  destruct (O s eq_refl) as [F N1]. cbn [ob]. unfold initHash.
  pose proof (set_bytes_pos item_record s) as L.
  destruct (length (set_bytes item_record s)) eqn:E; [lia|]. rewrite <- E.
  destruct (hostset_read_ok s r N1) as (s' & -> & F').
  - eapply Forall_impl; [|exact F]. intros b. apply Forall_impl.
    intros g (f & -> & D & K). destruct (H f K) as [(_ & A2 & A3 & A4 & A5) (S1 & S2 & S3)].
    split; [split; [|auto]|split; auto].
    cbn [copyFilter f_data]. destruct (f_data f) as [[d t]|]; [discriminate|easy].
  - exists (Some s'). split; [reflexivity|exact F'].
Qed.

(** The client read back. *)
Definition restores (c : client) (t : tab (list filter)) (d c' : client) : Prop :=
  (forall k, Forall2 restored_as (tget t k) (tget (c_lists c') k) /\
             Forall arr_rule (tget (c_lists c') k)) /\
  c_numHA c' = c_numHA c /\ c_numHAE c' = c_numHAE c /\
  c_bloom c' = c_bloom c /\ c_ebloom c' = c_ebloom c /\
  orel (Forall2 (Forall2 host_restored)) (c_host c) (c_host c') /\
  orel (Forall2 (Forall2 host_restored)) (c_ehost c) (c_ehost c') /\
  c_nfd c' = c_nfd c /\ c_nfa c' = c_nfa c /\ c_nfdexc c' = c_nfdexc c /\
  c_nfaexc c' = c_nfaexc c /\
  c_badfp c' = None /\ c_stats c' = stats0 /\ c_tags c' = c_tags d.

Lemma deserialize_ok (P : filter -> Prop) c t d r :
  (forall k, Forall arr_rule (tget t k)) -> (forall k, Forall storable (tget t k)) ->
  (forall k f, In f (tget t k) -> ends_nul f) ->
  cfine P c -> (forall f, P f -> arr_rule f /\ storable f) ->
  exists c', deserialize (buffer c t ++ r) d = Ok (c', true) /\ restores c t d c'.
Proof.
  intros H1 H2 H3 (C1 & C2 & C3 & C4 & C5 & C6 & C7 & C8) HP.
  unfold deserialize, buffer. rewrite <- !app_assoc.
  set (hd := header_of c t (blobs_of c)). set (q := body t ser_order ++ _).
  assert (cstring (cstr hd ++ q) = Ok hd) as ->.
  { rewrite cstr_app. apply cstring_app, fields_nonul. }
  cbn [bind]. rewrite skipn_cstr_app.
  set (l12 := [N.of_nat (c_numHA c); N.of_nat (c_numHAE c)]).
  set (lb := map (fun b => N.of_nat (length b)) (blobs_of c)).
  set (v := map (fun k => N.of_nat (length (tget t k))) ser_order ++ l12 ++ lb).
  assert (scan_fields 20 (cstr hd ++ q) = v) as ->.
  { rewrite cstr_app. unfold hd, header_of. fold l12 lb v.
    apply (scan_fields_spec v); [discriminate|reflexivity]. }
  unfold q.
  destruct (lists_read_ok t ser_order (l12 ++ lb) (concat (blobs_of c) ++ r) (tall [])
    ser_order_nodup H1 H2 H3) as (t' & R & K1 & _).
  fold v in R. rewrite R. cbn [bind]. clear R.
  assert (N.to_nat (nthN v 12 0) = length (ob bloom_bytes (c_bloom c))) as -> by apply Nat2N.id.
  assert (N.to_nat (nthN v 13 0) = length (ob bloom_bytes (c_ebloom c))) as -> by apply Nat2N.id.
  assert (N.to_nat (nthN v 14 0) = length (ob (set_bytes item_record) (c_host c))) as -> by apply Nat2N.id.
  assert (N.to_nat (nthN v 15 0) = length (ob (set_bytes item_record) (c_ehost c))) as -> by apply Nat2N.id.
  assert (N.to_nat (nthN v 16 0) = length (ob (set_bytes dom_record) (c_nfd c))) as -> by apply Nat2N.id.
  assert (N.to_nat (nthN v 17 0) = length (ob (set_bytes dom_record) (c_nfa c))) as -> by apply Nat2N.id.
  assert (N.to_nat (nthN v 18 0) = length (ob (set_bytes dom_record) (c_nfdexc c))) as -> by apply Nat2N.id.
  assert (N.to_nat (nthN v 19 0) = length (ob (set_bytes dom_record) (c_nfaexc c))) as -> by apply Nat2N.id.
  assert (N.to_nat (nthN v 10 0) = c_numHA c) as -> by apply Nat2N.id.
  assert (N.to_nat (nthN v 11 0) = c_numHAE c) as -> by apply Nat2N.id.
  unfold blobs_of. cbn [concat]. rewrite <- !app_assoc.
  rewrite initBloom_opt by auto. cbn [bind]. rewrite skipn_app_exact.
  rewrite initBloom_opt by auto. cbn [bind]. rewrite skipn_app_exact.
  match goal with |- context [initHash fi_read (_ ++ ?x) (length (ob _ (c_host c)))] =>
    destruct (initHash_host P (c_host c) x HP C3) as (h1 & -> & R1) end.
  cbn [bind negb]. rewrite skipn_app_exact.
  match goal with |- context [initHash fi_read (_ ++ ?x) (length (ob _ (c_ehost c)))] =>
    destruct (initHash_host P (c_ehost c) x HP C4) as (h2 & -> & R2) end.
  cbn [bind negb]. rewrite skipn_app_exact.
  rewrite initHash_dom by auto. cbn [bind negb]. rewrite skipn_app_exact.
  rewrite initHash_dom by auto. cbn [bind negb]. rewrite skipn_app_exact.
  rewrite initHash_dom by auto. cbn [bind negb]. rewrite skipn_app_exact.
  rewrite initHash_dom by auto. cbn [bind negb].
  eexists. split; [reflexivity|]. unfold restores.
  cbn [c_lists c_numHA c_numHAE c_bloom c_ebloom c_host c_ehost c_nfd c_nfa c_nfdexc c_nfaexc
       c_badfp c_stats c_tags clear].
  split; [intros k; apply K1; apply ser_order_all|]. auto 20.
Qed.

(** ** The buffer of the restored client *)
Lemma restored_record f g : restored_as f g -> rule_record f = rule_record g.
Proof.
  intros (E1 & E2 & E3 & E4 & E5 & E6 & E7 & _). unfold rule_record, pattern.
  rewrite E1, E2, E3, E5, E6, E7.
  destruct (f_data f) as [[d t]|], (f_data g) as [[d' t']|]; try easy.
  now destruct E4 as [-> _].
Qed.

Lemma restored_records fs gs : Forall2 restored_as fs gs ->
  flat_map rule_record fs = flat_map rule_record gs.
Proof.
  induction 1 as [|f g fs gs H F IH]; auto. cbn [flat_map]. now rewrite IH, (restored_record f g).
Qed.

Lemma host_item f g : host_restored f g -> item_record f = item_record g.
Proof.
  intros (E1 & E2 & E3 & E4 & E5 & E6 & E7 & _). unfold item_record, item_head.
  now rewrite E1, E2, E3, E4, E5, E6, E7.
Qed.

Lemma F2_len {A C} (R : A -> C -> Prop) l m : Forall2 R l m -> length l = length m.
Proof. induction 1; cbn; auto. Qed.

Lemma host_set s s' : Forall2 (Forall2 host_restored) s s' ->
  set_bytes item_record s = set_bytes item_record s'.
Proof.
  intros F. unfold set_bytes. f_equal.
  - now rewrite (F2_len _ _ _ F).
  - induction F as [|b b' s s' H F IH]; auto. cbn [flat_map]. rewrite IH. f_equal.
    unfold bucket_bytes. f_equal. clear F IH.
    induction H as [|f g b b' H F IH]; auto. cbn [flat_map]. now rewrite IH, (host_item f g).
Qed.

Lemma host_set_opt o o' : orel (Forall2 (Forall2 host_restored)) o o' ->
  ob (set_bytes item_record) o = ob (set_bytes item_record) o'.
Proof. destruct o, o'; cbn; try easy. apply host_set. Qed.

Lemma host_restored_ok f g : host_restored f g -> item_ok f -> item_ok g.
Proof.
  intros (E1 & E2 & E3 & E4 & E5 & E6 & E7 & _) (A1 & A2 & A3 & A4 & A5).
  unfold item_ok. rewrite <- E5, <- E6, <- E7. split; [|auto].
  unfold pattern in E4. destruct (f_data f), (f_data g); try easy.
Qed.

Lemma blobs_restored c t d c' : restores c t d c' -> blobs_of c' = blobs_of c.
Proof.
  intros (_ & _ & _ & E3 & E4 & E5 & E6 & E7 & E8 & E9 & E10 & _). unfold blobs_of.
  rewrite E3, E4, E7, E8, E9, E10, (host_set_opt _ _ E5), (host_set_opt _ _ E6). reflexivity.
Qed.

Lemma restored_obytes (P : filter -> Prop) o o' :
  (forall f, P f -> arr_rule f) ->
  oall (fun s => Forall (Forall (hostP P)) s /\ s <> []) o ->
  orel (Forall2 (Forall2 host_restored)) o o' ->
  obytes hostset_bytes o' = Ok (ob (set_bytes item_record) o').
Proof.
  intros H O R. destruct o as [s|], o' as [s'|]; try easy. cbn [obytes ob].
  apply hostset_bytes_ok. destruct (O s eq_refl) as [F _].
  apply (host_items_ok P) in F; auto. cbn in R. clear -F R.
  revert F. induction R as [|b b' s s' H R IH]; intros F; auto.
  inversion F as [|? ? Fb Fs]; subst. constructor; auto. clear -H Fb.
  revert Fb. induction H as [|f g b b' H R IH]; intros F; auto.
  inversion F; subst. constructor; auto. eapply host_restored_ok; eauto.
Qed.

Lemma reserialize_ok (P : filter -> Prop) c t d c' :
  (forall f, P f -> arr_rule f) -> cfine P c ->
  restores c t d c' -> serialize c' false false = Ok (buffer c t).
Proof.
  intros HP (C1 & C2 & C3 & C4 & _) R. pose proof (blobs_restored _ _ _ _ R) as EB.
  pose proof R as (L & E1 & E2 & E3 & E4 & E5 & E6 & E7 & E8 & E9 & E10 & _).
  assert (client_blobs c' = Ok (blobs_of c')) as CB.
  { unfold client_blobs.
    rewrite (restored_obytes P (c_host c) (c_host c')), (restored_obytes P (c_ehost c) (c_ehost c')) by auto.
    cbn [bind]. rewrite !obytes_dom. cbn [bind]. rewrite !obytes_bloom. reflexivity. }
  assert (body (c_lists c') ser_order = body t ser_order) as Bd.
  { unfold body. apply flat_map_ext. intros k. unfold recs. symmetry. apply restored_records.
    apply L. }
  assert (header_of c' (c_lists c') (blobs_of c') = header_of c t (blobs_of c)) as Hd.
  { unfold header_of. rewrite EB, E1, E2. f_equal. f_equal. apply map_ext. intros k.
    f_equal. symmetry. apply (F2_len _ _ _ (proj1 (L k))). }
  assert (forall k, Forall arr_rule (tget (c_lists c') k)) as AR by (intros; apply L).
  assert (serialize_size c' false false = Ok (length (buffer c t))) as SS.
  { unfold serialize_size. rewrite CB. cbn [bind].
    change (ser_lists c' false false) with (c_lists c').
    rewrite sizes_sum_ok by auto. cbn [bind]. rewrite Hd, Bd, EB.
    unfold buffer. rewrite !app_length, cstr_len, list_sum_concat. f_equal. lia. }
  unfold serialize. rewrite CB, SS. cbn [bind].
  change (ser_lists c' false false) with (c_lists c'). rewrite Hd.
  set (hd := header_of c t (blobs_of c)). set (N := length (buffer c t)).
  assert (N = length (cstr hd) + (length (body t ser_order) + length (concat (blobs_of c)))) as LN.
  { unfold N, buffer. fold hd. now rewrite !app_length. }
  pose proof (snprintf_zeros [] N N hd) as W. cbn [app length] in W.
  rewrite cstr_len in LN.
  rewrite W by lia. clear W. cbn [bind].
  replace (length hd + 1) with (length (cstr hd)) by apply cstr_len.
  replace N with (length (cstr hd) + (N - length (cstr hd))) at 2 by (rewrite cstr_len; lia).
  rewrite lists_write_ok; auto.
  2:{ rewrite Bd, cstr_len. lia. }
  cbn [bind]. rewrite <- app_length, Bd, EB. rewrite blobs_write_ok by (rewrite cstr_len; lia).
  cbn [bind fst]. f_equal.
  replace (N - length (cstr hd) - length (body t ser_order) - length (concat (blobs_of c)))
    with 0 by (rewrite cstr_len; lia).
  cbn [zeros repeat]. rewrite app_nil_r. unfold buffer. fold hd. now rewrite <- app_assoc.
Qed.
