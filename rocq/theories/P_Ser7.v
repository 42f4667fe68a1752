(** Serialization of arbitrary rules, storable or not. *)
From Verif Require Import Base Flags Protocol Url Sets FilterM ParseM ClientM SerialM Spec SpecM
  SpecC SpecS SpecW P_Base P_Protocol P_Url P_Match P_Rule P_Parse P_List P_Shape P_Fp P_Line P_Line2
  P_Fp2 P_Props1 P_Props2 P_Props3 P_Opt P_Opt2 P_Set P_Client P_Decide P_Hist
  P_Ser1 P_Ser2 P_Ser3 P_Ser4 P_Ser5 P_Ser6.

Lemma tget_tab_map {A C} (g : A -> C) t k : tget (tab_map g t) k = g (tget t k).
Proof. now destruct k. Qed.

(** A split with two pieces is a first piece without the separator, the
    separator and the rest. *)
Lemma split_first c r t w ws : split_on c r = t :: w :: ws ->
  exists s, r = t ++ c :: s /\ ~ In c t.
Proof.
  revert t. induction r as [|x r IH]; intros t H; cbn [split_on] in H; [discriminate|].
  destruct (ceq_spec x c) as [->|N1].
  - injection H as <- H. exists r. split; auto.
  - destruct (split_on c r) as [|u us] eqn:E; [discriminate|]. injection H as <- ->.
    destruct (IH u eq_refl) as (s & -> & NI). exists s. split; auto.
    intros [<-|I]; auto.
Qed.

Definition tl_tag (t s : bytes) : bytes := fst (tag_and_list t s).
Definition tl_list (t s : bytes) : bytes := snd (tag_and_list t s).

Lemma tl_cases t s :
  (tag_and_list t s = (t, s) /\ (t = [] -> forall q, s <> B "~#" ++ q)) \/
  (t = [] /\ exists r, s = B "~#" ++ r /\
     ((tag_and_list t s = (r, r) /\ ~ In ","%char r) \/
      exists u v, r = u ++ ","%char :: v /\ ~ In ","%char u /\ tag_and_list t s = (u, v))).
Proof.
  destruct t as [|x t]; [|left; split; [reflexivity|discriminate]].
  destruct s as [|a [|b r]]; try (left; split; [reflexivity|]; intros _ q; discriminate).
  cbn [tag_and_list].
  destruct (ceq_spec a "~") as [->|N1].
  2:{ left. split; [reflexivity|]. intros _ q [= ? ?]. easy. }
  destruct (ceq_spec b "#") as [->|N2].
  2:{ left. split; [reflexivity|]. intros _ q [= ? ?]. easy. }
  cbn [andb]. right. split; auto. exists r. split; [reflexivity|].
  destruct (split_on "," r) as [|u [|w ws]] eqn:E.
  - now apply split_on_nonempty in E.
  - left. split; auto. intros I.
    apply in_split in I as (l1 & l2 & ->).
    assert (forall a b, exists x y z, split_on "," (a ++ ","%char :: b) = x :: y :: z) as K.
    { clear. induction a as [|c a IH]; intros b; cbn [app split_on].
      - rewrite ceq_refl. destruct (split_on "," b) eqn:E; [now apply split_on_nonempty in E|]. eauto.
      - destruct (ceq c ","); destruct (IH b) as (x & y & z & ->); eauto. }
    destruct (K l1 l2) as (x & y & z & K'). rewrite K' in E. discriminate.
  - right. destruct (split_first _ _ _ _ _ E) as (v & -> & NI). exists u, v.
    split; auto. split; auto. f_equal.
    replace (length u + 1) with (S (length u)) by lia.
    replace (u ++ ","%char :: v) with ((u ++ [","%char]) ++ v) by now rewrite <- app_assoc.
    replace (S (length u)) with (length (u ++ [","%char])) by (rewrite app_length; cbn; lia).
    apply skipn_app_exact.
Qed.

Lemma nonul_sub a b : nonul (a ++ b) -> nonul a /\ nonul b.
Proof. apply nonul_app. Qed.

Lemma tl_nonul t s : nonul t -> nonul s -> nonul (tl_tag t s) /\ nonul (tl_list t s).
Proof.
  intros Ht Hs. unfold tl_tag, tl_list.
  destruct (tl_cases t s) as [[-> _]|(-> & r & -> & [[-> _]|(u & v & -> & _ & ->)])]; cbn [fst snd].
  - auto.
  - apply nonul_app in Hs as [_ Hs]. auto.
  - apply nonul_app in Hs as [_ Hs]. apply nonul_app in Hs as [Hu Hv].
    apply nonul_cons in Hv as [_ Hv]. auto.
Qed.

Lemma tl_nocomma t s : ~ In ","%char t -> ~ In ","%char (tl_tag t s).
Proof.
  intros Ht. unfold tl_tag.
  destruct (tl_cases t s) as [[-> _]|(-> & r & -> & [[-> H]|(u & v & -> & H & ->)])]; auto.
Qed.

Lemma take_tag_all t s r :
  nonul t -> ~ In ","%char t -> nonul s ->
  take_tag (tag_block t ++ cstr s ++ r) = Ok (tl_tag t s, cstr (tl_list t s) ++ r).
Proof.
  intros H1 H2 H3. unfold tl_tag, tl_list.
  destruct (tl_cases t s) as [[-> H]|(-> & q & -> & [[-> H]|(u & v & -> & H & ->)])]; cbn [fst snd].
  - now apply take_tag_ok.
  - apply nonul_app in H3 as [_ H3]. cbn [tag_block app].
    assert (cstr (B "~#" ++ q) ++ r = "~"%char :: "#"%char :: q ++ NUL :: r) as ->.
    { rewrite cstr_app. reflexivity. }
    unfold take_tag, rd. cbn [nth_error bind].
    change (ceq "~" "~") with true. change (ceq "#" "#") with true. cbv iota. cbn [skipn].
    rewrite cstring_app by auto. cbn [bind]. rewrite split_on_none by auto.
    now rewrite cstr_app.
  - apply nonul_app in H3 as [_ H3].
    replace (tag_block [] ++ cstr (B "~#" ++ u ++ ","%char :: v) ++ r)
      with ("~"%char :: "#"%char :: (u ++ ","%char :: v) ++ NUL :: r)
      by (rewrite cstr_app; reflexivity).
    unfold take_tag, rd. cbn [nth_error bind].
    change (ceq "~" "~") with true. change (ceq "#" "#") with true. cbv iota. cbn [skipn].
    rewrite cstring_app by auto. cbn [bind].
    destruct (P_Ser1.split_on_first "," u v H) as (ws & -> & N1).
    destruct ws as [|w ws]; [easy|]. f_equal. f_equal.
    cbn [Nat.add skipn]. rewrite <- app_assoc. cbn [app].
    replace (u ++ ","%char :: v ++ NUL :: r) with ((u ++ [","%char]) ++ v ++ NUL :: r)
      by now rewrite <- app_assoc.
    replace (length u + 1) with (length (u ++ [","%char])) by (rewrite app_length; cbn; lia).
    rewrite skipn_app_exact. now rewrite cstr_app.
Qed.

Lemma if_any_str s : str (if_any s) = s.
Proof. now destruct s. Qed.

Lemma if_any_not_empty s : if_any s <> Some [].
Proof. now destruct s. Qed.

(** ** Arrays *)
Lemma df_read1_all f r :
  arr_rule f -> ends_nul f ->
  exists g, df_read1 (rule_record f ++ r) = Ok (g, r) /\ restored_as (as_read f) g /\ arr_rule g.
Proof.
  intros (A1 & A2 & A3 & A4 & A5) T. unfold df_read1, rule_record.
  rewrite <- !app_assoc.
  set (hd := fields [f_type f; f_opt f; f_anti f]).
  set (r1 := cstr (str (pattern f)) ++ _).
  assert (cstring (cstr hd ++ r1) = Ok hd) as ->.
  { rewrite cstr_app. apply cstring_app, fields_nonul. }
  cbn [bind]. rewrite skipn_cstr_app.
  assert (scan_fields 3 (cstr hd ++ r1) = [f_type f; f_opt f; f_anti f]) as ->.
  { rewrite cstr_app. unfold hd. apply (scan_fields_spec [f_type f; f_opt f; f_anti f]).
    - discriminate.
    - reflexivity. }
  assert (nonul (str (pattern f))) as Np.
  { destruct A1 as [A1|(d & t & A1 & N1)]; unfold pattern; rewrite A1; [easy|exact N1]. }
  unfold r1. rewrite take_data_ok by auto. cbn [bind].
  rewrite take_tag_all by auto. destruct (tl_nonul (f_tag f) (str (f_dom f)) A3 A2) as [N2 N3].
  pose proof (tl_nocomma (f_tag f) (str (f_dom f)) A4) as N4.
  cbn [bind]. rewrite take_str_ok by auto. cbn [bind].
  rewrite take_str_ok by auto. cbn [bind nthN nth].
  eexists. split; [reflexivity|]. split.
  - split; [reflexivity|]. split; [reflexivity|]. split; [reflexivity|]. split.
    { cbn [f_data as_read]. unfold pattern. destruct (f_data f) as [[d t]|] eqn:Ed; [|reflexivity].
      cbn [option_map fst str]. destruct d as [|c d]; [reflexivity|].
      split; auto. rewrite (T _ _ Ed). eexists. reflexivity. }
    split; [reflexivity|]. split; [reflexivity|]. split; reflexivity.
  - split; [|split; [|split; [|split]]]; cbn [f_data f_dom f_tag f_host]; auto.
    + destruct (str (pattern f)) as [|c d] eqn:Ep; [now left|]. right. eauto.
    + now destruct (tl_list (f_tag f) (str (f_dom f))).
    + destruct (str (f_host f)); auto.
Qed.

Lemma df_read_all fs r :
  Forall arr_rule fs -> (forall f, In f fs -> ends_nul f) ->
  exists gs, df_read (length fs) (flat_map rule_record fs ++ r) = Ok (gs, r) /\
    Forall2 restored_as (map as_read fs) gs /\ Forall arr_rule gs.
Proof.
  intros F1. induction F1 as [|f fs H1 F1 IH]; intros T.
  - exists []. cbn. auto.
  - cbn [length df_read flat_map map]. rewrite <- app_assoc.
    destruct (df_read1_all f (flat_map rule_record fs ++ r)) as (g & -> & R & A); auto.
    { apply T. now left. }
    cbn [bind]. destruct IH as (gs & -> & R' & A'); auto.
    { intros f' I. apply T. now right. }
    cbn [bind]. exists (g :: gs). auto.
Qed.

(** ** Host rules *)
Lemma fi_read_all f r size : item_ok f -> length (item_record f) <= size ->
  exists g, fi_read (item_record f ++ r) size = Ok (Some (g, length (item_record f))) /\
            host_restored (host_as_read f) g.
Proof.
  intros (A1 & A2 & A3 & A4 & A5) L. unfold fi_read.
  assert (exists d, pattern f = Some d) as [d Ed].
  { unfold pattern. destruct (f_data f) as [[d t]|]; [|easy]. exists d. reflexivity. }
  assert (item_record f ++ r = cstr (item_head f d) ++ d ++ cstr (str (f_host f)) ++
            tag_block (f_tag f) ++ cstr (str (f_dom f)) ++ r) as E.
  { unfold item_record. rewrite Ed. cbn [str]. now rewrite <- !app_assoc. }
  assert (length (item_record f) = length (item_head f d) + 1 + length d +
     (length (str (f_host f)) + 1) + length (tag_block (f_tag f)) + (length (str (f_dom f)) + 1)) as LR.
  { unfold item_record. rewrite Ed. cbn [str]. rewrite !app_length, !cstr_len. lia. }
  rewrite E. set (q := d ++ _).
  assert (nonul (item_head f d)) as Nh by apply fields_nonul.
  rewrite cstr_app. rewrite nulBefore_ok by (auto; lia). cbn [bind negb].
  rewrite cstring_app by auto. cbn [bind].
  assert (scan_fields 4 (item_head f d ++ NUL :: q) =
          [N.of_nat (length d); f_type f; f_opt f; f_anti f]) as ->.
  { apply (scan_fields_spec [N.of_nat (length d); f_type f; f_opt f; f_anti f]).
    - discriminate.
    - reflexivity. }
  cbn [nthN nth]. rewrite Nat2N.id.
  destruct (Nat.leb_spec size (length (item_head f d) + 1 + length d)); [lia|].
  rewrite <- cstr_app, skipn_cstr_app.
  destruct (Nat.ltb_spec (length q) (length d)) as [X|_].
  { unfold q in X. rewrite app_length in X. lia. }
  unfold q. rewrite skipn_app_exact, firstn_app_exact.
  rewrite take_str_ok by auto. cbn [bind].
  rewrite take_tag_all by auto. destruct (tl_nonul (f_tag f) (str (f_dom f)) A3 A2) as [N2 N3].
  cbn [bind]. rewrite take_str_ok by auto. cbn [bind].
  eexists. split.
  - f_equal. f_equal. f_equal. rewrite <- E, app_length. lia.
  - split; [reflexivity|]. split; [reflexivity|]. split; [reflexivity|]. split.
    { unfold pattern. cbn [host_as_read f_data]. exact Ed. }
    split; [reflexivity|]. split; [reflexivity|]. split; reflexivity.
Qed.

Lemma hostset_read_all s r : s <> [] -> Forall (Forall item_ok) s ->
  exists s', hs_deserialize fi_read (set_bytes item_record s ++ r) (length (set_bytes item_record s))
             = Ok (s', true) /\ Forall2 (Forall2 host_restored) (map (map host_as_read) s) s'.
Proof.
  intros N1 F.
  destruct (hs_deserialize_ok fi_read item_record item_ok
    (fun f g => host_restored (host_as_read f) g)) with (s := s) (r := r) as (s' & D & R); auto.
  - intros x _. apply item_first.
  - intros x q size H1 L. now apply fi_read_all.
  - exists s'. split; auto. clear -R. induction R as [|b b' s s' H R IH]; constructor; auto.
    clear -H. induction H; constructor; auto.
Qed.

(** ** Whole clients *)
Lemma lists_read_all t ks : forall w r t0,
  NoDup ks -> (forall k, Forall arr_rule (tget t k)) -> (forall k f, In f (tget t k) -> ends_nul f) ->
  exists t', lists_read (map (fun k => N.of_nat (length (tget t k))) ks ++ w) ks (body t ks ++ r) t0
             = Ok (t', r) /\
    (forall k, In k ks -> Forall2 restored_as (map as_read (tget t k)) (tget t' k) /\
                          Forall arr_rule (tget t' k)) /\
    (forall k, ~ In k ks -> tget t' k = tget t0 k).
Proof.
  induction ks as [|k ks IH]; intros w r t0 ND H1 H3.
  - exists t0. split; [reflexivity|]. split; [easy|auto].
  - inversion ND as [|? ? NI ND']; subst. cbn [map app lists_read hd tl body flat_map].
    rewrite <- app_assoc, Nat2N.id. fold (body t ks).
    destruct (df_read_all (tget t k) (body t ks ++ r)) as (gs & R & F & A); auto.
    { intros f I. now apply (H3 k). }
    unfold recs. rewrite R. cbn [bind].
    destruct (IH w r (tset t0 k gs) ND' H1 H3) as (t' & R' & K1 & K2).
    exists t'. split; [exact R'|]. split.
    + intros j [<-|I]; auto. rewrite K2 by auto. rewrite P_Ser4.tget_tset_same. auto.
    + intros j I. rewrite K2 by (intros X; apply I; now right). rewrite tget_tset.
      destruct (kind_eq_dec k j) as [->|]; auto. exfalso. apply I. now left.
Qed.

Lemma initHash_all (P : filter -> Prop) o r :
  (forall f, P f -> arr_rule f) ->
  oall (fun s => Forall (Forall (hostP P)) s /\ s <> []) o ->
  exists o', initHash fi_read (ob (set_bytes item_record) o ++ r)
               (length (ob (set_bytes item_record) o)) = Ok (o', true) /\
    orel (Forall2 (Forall2 host_restored)) (option_map (map (map host_as_read)) o) o'.
Proof.
  intros H O. destruct o as [s|].
  2:{ exists None. split; [reflexivity|exact I]. }
  destruct (O s eq_refl) as [F N1]. cbn [ob]. unfold initHash.
  pose proof (set_bytes_pos item_record s) as L.
  destruct (length (set_bytes item_record s)) eqn:E; [lia|]. rewrite <- E.
  destruct (hostset_read_all s r N1) as (s' & -> & F').
  - now apply (host_items_ok P).
  - exists (Some s'). split; [reflexivity|exact F'].
Qed.

Lemma deserialize_all (P : filter -> Prop) c t d r :
  (forall k, Forall arr_rule (tget t k)) -> (forall k f, In f (tget t k) -> ends_nul f) ->
  cfine P c -> (forall f, P f -> arr_rule f) ->
  exists c', deserialize (buffer c t ++ r) d = Ok (c', true) /\
             restores (client_as_read c) (tab_map (map as_read) t) d c'.
Proof.
  intros H1 H3 (C1 & C2 & C3 & C4 & C5 & C6 & C7 & C8) HP.
  unfold deserialize, buffer. rewrite <- !app_assoc.
  set (hd := header_of c t (blobs_of c)). set (q := body t ser_order ++ _).
  assert (cstring (cstr hd ++ q) = Ok hd) as ->.
  { rewrite cstr_app. apply cstring_app, fields_nonul. }
  cbn [bind]. rewrite skipn_cstr_app.
  set (l12 := [N.of_nat (c_numHA c); N.of_nat (c_numHAE c)]).
  set (lb := map (fun b => N.of_nat (length b)) (blobs_of c)).
  set (v := map (fun k => N.of_nat (length (tget t k))) ser_order ++ l12 ++ lb).
  assert (scan_fields 20 (cstr hd ++ q) = v) as ->.
  { rewrite cstr_app. unfold hd, header_of. fold l12 lb v.
    apply (scan_fields_spec v); [discriminate|reflexivity]. }
  unfold q.
  destruct (lists_read_all t ser_order (l12 ++ lb) (concat (blobs_of c) ++ r) (tall [])
    ser_order_nodup H1 H3) as (t' & R & K1 & _).
  fold v in R. rewrite R. cbn [bind]. clear R.
  assert (N.to_nat (nthN v 12 0) = length (ob bloom_bytes (c_bloom c))) as -> by apply Nat2N.id.
  assert (N.to_nat (nthN v 13 0) = length (ob bloom_bytes (c_ebloom c))) as -> by apply Nat2N.id.
  assert (N.to_nat (nthN v 14 0) = length (ob (set_bytes item_record) (c_host c))) as -> by apply Nat2N.id.
  assert (N.to_nat (nthN v 15 0) = length (ob (set_bytes item_record) (c_ehost c))) as -> by apply Nat2N.id.
  assert (N.to_nat (nthN v 16 0) = length (ob (set_bytes dom_record) (c_nfd c))) as -> by apply Nat2N.id.
  assert (N.to_nat (nthN v 17 0) = length (ob (set_bytes dom_record) (c_nfa c))) as -> by apply Nat2N.id.
  assert (N.to_nat (nthN v 18 0) = length (ob (set_bytes dom_record) (c_nfdexc c))) as -> by apply Nat2N.id.
  assert (N.to_nat (nthN v 19 0) = length (ob (set_bytes dom_record) (c_nfaexc c))) as -> by apply Nat2N.id.
  assert (N.to_nat (nthN v 10 0) = c_numHA c) as -> by apply Nat2N.id.
  assert (N.to_nat (nthN v 11 0) = c_numHAE c) as -> by apply Nat2N.id.
  unfold blobs_of. cbn [concat]. rewrite <- !app_assoc.
  rewrite initBloom_opt by auto. cbn [bind]. rewrite skipn_app_exact.
  rewrite initBloom_opt by auto. cbn [bind]. rewrite skipn_app_exact.
  match goal with |- context [initHash fi_read (_ ++ ?x) (length (ob _ (c_host c)))] =>
    destruct (initHash_all P (c_host c) x HP C3) as (h1 & -> & R1) end.
  cbn [bind negb]. rewrite skipn_app_exact.
  match goal with |- context [initHash fi_read (_ ++ ?x) (length (ob _ (c_ehost c)))] =>
    destruct (initHash_all P (c_ehost c) x HP C4) as (h2 & -> & R2) end.
  cbn [bind negb]. rewrite skipn_app_exact.
  rewrite initHash_dom by auto. cbn [bind negb]. rewrite skipn_app_exact.
  rewrite initHash_dom by auto. cbn [bind negb]. rewrite skipn_app_exact.
  rewrite initHash_dom by auto. cbn [bind negb]. rewrite skipn_app_exact.
  rewrite initHash_dom by auto. cbn [bind negb].
  eexists. split; [reflexivity|]. unfold restores.
  cbn [c_lists c_numHA c_numHAE c_bloom c_ebloom c_host c_ehost c_nfd c_nfa c_nfdexc c_nfaexc
       c_badfp c_stats c_tags clear client_as_read].
  split; [intros k; rewrite tget_tab_map; apply K1; apply ser_order_all|]. auto 20.
Qed.

Lemma host_copy f : host_as_read (copyFilter f) = copyFilter (host_as_read f).
Proof. reflexivity. Qed.

Lemma host_as_read_arr f : arr_rule f -> arr_rule (host_as_read f).
Proof.
  intros (A1 & A2 & A3 & A4 & A5). unfold arr_rule, host_as_read. cbn [f_data f_dom f_tag f_host].
  destruct (tl_nonul (f_tag f) (str (f_dom f)) A3 A2) as [N2 N3].
  rewrite !if_any_str. split; [exact A1|]. split; [exact N3|]. split; [exact N2|].
  split; [now apply tl_nocomma|exact A5].
Qed.

Lemma as_read_cfine (P : filter -> Prop) c : cfine P c -> (forall f, P f -> arr_rule f) ->
  cfine arr_rule (client_as_read c).
Proof.
  intros (C1 & C2 & C3 & C4 & C5 & C6 & C7 & C8) HP.
  assert (forall o, oall (fun s : hset filter => Forall (Forall (hostP P)) s /\ s <> []) o ->
    oall (fun s => Forall (Forall (hostP arr_rule)) s /\ s <> []) (option_map (map (map host_as_read)) o)) as K.
  { intros [s|] O; intros x; cbn [option_map]; [|discriminate]. intros [= <-].
    destruct (O s eq_refl) as [F N1]. split; [|now destruct s].
    rewrite Forall_map. eapply Forall_impl; [|exact F]. intros b Fb.
    rewrite Forall_map. eapply Forall_impl; [|exact Fb]. intros g (f & -> & D & Pf).
    exists (host_as_read f). split; [reflexivity|]. split; [exact D|].
    now apply host_as_read_arr, HP. }
  unfold cfine. cbn [client_as_read c_bloom c_ebloom c_host c_ehost c_nfd c_nfa c_nfdexc c_nfaexc].
  auto 10.
Qed.

Lemma ser_as_read c a b : ser_lists (client_as_read c) a b = tab_map (map as_read) (ser_lists c a b).
Proof. unfold ser_lists. destruct c as [t]. cbn [client_as_read c_lists]. destruct t, a, b; reflexivity. Qed.

(** ** Bytes *)
Lemma as_read_dom_bytes f : steady f -> 
  tag_block (tl_tag (f_tag f) (str (f_dom f))) ++ cstr (tl_list (f_tag f) (str (f_dom f))) =
  tag_block (f_tag f) ++ cstr (str (f_dom f)).
Proof.
  intros S. unfold tl_tag, tl_list.
  destruct (tl_cases (f_tag f) (str (f_dom f))) as [[-> _]|(Et & q & Es & K)]; [reflexivity|].
  assert (f_dom f = Some (B "~#" ++ q)) as Ed.
  { destruct (f_dom f) as [s|]; cbn [str] in Es; [now rewrite Es|discriminate]. }
  destruct (S Et q Ed) as (t & s & -> & Nt & NI).
  destruct K as [[_ K]|(u & v & Eq & Nu & ->)].
  { exfalso. apply K, in_or_app. right. now left. }
  assert (u = t /\ v = s) as [-> ->].
  { clear -Eq Nu NI. revert u Eq Nu. induction t as [|x t IH]; intros [|y u] Eq Nu; cbn [app] in Eq.
    - now injection Eq as ->.
    - injection Eq as <- _. exfalso. apply Nu. now left.
    - injection Eq as -> _. exfalso. apply NI. now left.
    - injection Eq as -> Eq. destruct (IH) with (u := u) as [-> ->]; auto.
      + intros I. apply NI. now right.
      + intros I. apply Nu. now right. }
  rewrite Et, Ed. cbn [str fst snd tag_block app].
  destruct t as [|x t]; [easy|]. cbn [tag_block].
  unfold cstr. cbn [B list_ascii_of_string app]. rewrite <- !app_assoc. reflexivity.
Qed.

Lemma as_read_record f : arr_rule f -> steady f -> rule_record (as_read f) = rule_record f.
Proof.
  intros _ S. unfold rule_record. cbn [as_read f_type f_opt f_anti f_tag f_dom f_host].
  rewrite !if_any_str. f_equal. f_equal.
  - unfold pattern. cbn [as_read f_data]. now destruct (f_data f) as [[[|c d] t]|].
  - rewrite !app_assoc. f_equal. now apply as_read_dom_bytes.
Qed.

Lemma as_read_item f : steady f -> item_record (host_as_read f) = item_record f.
Proof.
  intros S. unfold item_record, item_head.
  cbn [host_as_read f_type f_opt f_anti f_tag f_dom f_host]. rewrite if_any_str.
  change (pattern (host_as_read f)) with (pattern f).
  do 3 f_equal. rewrite if_any_str. now apply as_read_dom_bytes.
Qed.

Lemma as_read_set s : Forall (Forall steady) s ->
  set_bytes item_record (map (map host_as_read) s) = set_bytes item_record s.
Proof.
  intros F. unfold set_bytes. rewrite map_length. f_equal.
  induction F as [|b s H F IH]; auto. cbn [map flat_map]. rewrite IH. f_equal.
  unfold bucket_bytes. f_equal. clear F IH.
  induction H as [|f b H F IH]; auto. cbn [map flat_map]. now rewrite IH, as_read_item.
Qed.

Lemma as_read_buffer (P : filter -> Prop) c t :
  (forall k, Forall arr_rule (tget t k)) -> (forall k, Forall steady (tget t k)) ->
  cfine P c -> (forall f, P f -> steady f) ->
  buffer (client_as_read c) (tab_map (map as_read) t) = buffer c t.
Proof.
  intros H1 H2 (_ & _ & C3 & C4 & _) HP.
  assert (forall o, oall (fun s : hset filter => Forall (Forall (hostP P)) s /\ s <> []) o ->
    ob (set_bytes item_record) (option_map (map (map host_as_read)) o) = ob (set_bytes item_record) o) as K.
  { intros [s|] O; [|reflexivity]. cbn [option_map ob]. apply as_read_set.
    destruct (O s eq_refl) as [F _]. eapply Forall_impl; [|exact F]. intros b.
    apply Forall_impl. intros g (f & -> & _ & Pf). exact (HP f Pf). }
  assert (blobs_of (client_as_read c) = blobs_of c) as EB.
  { unfold blobs_of. cbn [client_as_read c_bloom c_ebloom c_host c_ehost c_nfd c_nfa c_nfdexc c_nfaexc].
    now rewrite !K. }
  unfold buffer. rewrite EB. f_equal.
  - f_equal. unfold header_of. f_equal. f_equal. apply map_ext. intros k.
    now rewrite tget_tab_map, map_length.
  - f_equal. unfold body. apply flat_map_ext. intros k. unfold recs. rewrite tget_tab_map.
    specialize (H1 k). specialize (H2 k). induction (tget t k) as [|f fs IH]; auto.
    inversion H1; inversion H2; subst. cbn [map flat_map]. now rewrite IH, as_read_record.
Qed.

(** ** After any history *)
Section Client.
  Context (E : env) (calls : list call) (c : client)
          (Hc : history calls) (A : after E calls = Ok c).

  Lemma restored_total nc nh buf d r :
    serialize c nc nh = Ok buf ->
    exists c', deserialize (buf ++ r) d = Ok (c', true) /\
               restores (client_as_read c) (ser_lists (client_as_read c) nc nh) d c'.
  Proof.
    intros S1. pose proof (hist_shaped E calls c Hc A) as Sh.
    rewrite (serialize_ok _ _ nc nh Sh) in S1. injection S1 as <-.
    rewrite ser_as_read. apply (deserialize_all (of_line calls)).
    - apply (ser_lists_arr (of_line calls)), Sh.
    - intros k f I. apply ser_lists_in in I. apply (hist_lists E calls c Hc A k f I).
    - apply Sh.
    - apply Sh.
  Qed.

  Lemma lists_as_read nc nh buf d r :
    serialize c nc nh = Ok buf ->
    exists c', deserialize (buf ++ r) d = Ok (c', true) /\
      (forall k, Forall2 same_fields (map as_read (tget (written (c_lists c) nc nh) k)) (tget (c_lists c') k)) /\
      c_numHA c' = c_numHA c /\ c_numHAE c' = c_numHAE c /\ c_tags c' = c_tags d.
  Proof.
    intros S1. destruct (restored_total nc nh buf d r S1) as (c' & D & R). exists c'. split; auto.
    destruct R as (R1 & R2 & R3 & _ & _ & _ & _ & _ & _ & _ & _ & _ & _ & R14).
    split; [|auto]. intros k. destruct (R1 k) as [F _].
    rewrite ser_as_read, tget_tab_map, written_ser in F. clear -F.
    induction F; constructor; auto using ext_fields, restored_ext.
  Qed.

  Lemma decides_as_read nc nh buf d r :
    serialize c nc nh = Ok buf -> (forall t, tagExists d t = tagExists c t) ->
    exists c', deserialize (buf ++ r) d = Ok (c', true) /\
      forall more c1, history more -> continue E (client_as_read c) more = Ok c1 ->
        exists c1', continue E c' more = Ok c1' /\
          (forall url context dom v c2, matches E c1 url context dom = Ok (v, c2) ->
             exists w c2', matches E c1' url context dom = Ok (w, c2') /\ same_verdict v w) /\
          (forall url context dom v, findMatchingFilters E c1 url context dom = Ok v ->
             exists w, findMatchingFilters E c1' url context dom = Ok w /\ same_verdict v w).
  Proof.
    intros S1 T. destruct (restored_total nc nh buf d r S1) as (c' & D & R). exists c'. split; auto.
    assert (mates (client_as_read c) c') as M.
    { apply (restores_mates arr_rule (client_as_read c) nc nh d c'); auto.
      apply (as_read_cfine (of_line calls)); [apply (hist_fine E); auto|].
      intros f [_ H]. exact H. }
    intros more c1 Hm C1.
    destruct (fold_perform_ref E more (client_as_read c) c' Hm M c1 C1) as (c1' & C1' & M1).
    exists c1'. split; [exact C1'|]. split.
    - intros url context dom v c2 Q.
      destruct (matches_ref E c1 c1' url context dom M1 (v, c2) Q) as ([w c2'] & Q' & V & _).
      exists w, c2'. split; auto. now apply vrel_same.
    - intros url context dom v Q.
      destruct (find_ref E c1 c1' url context dom M1 v Q) as (w & Q' & V).
      exists w. split; auto. now apply vrel_same.
  Qed.

  Lemma steady_bytes nc nh buf d r c' ok :
    all_steady calls -> serialize c nc nh = Ok buf ->
    deserialize (buf ++ r) d = Ok (c', ok) -> ok = true /\ serialize c' false false = Ok buf.
  Proof.
    intros St S1 D. destruct (restored_total nc nh buf d r S1) as (c0 & D' & R).
    rewrite D in D'. injection D' as <- ->. split; auto.
    pose proof (hist_shaped E calls c Hc A) as Sh.
    rewrite (serialize_ok _ _ nc nh Sh) in S1. injection S1 as <-.
    rewrite (reserialize_ok arr_rule (client_as_read c) (ser_lists (client_as_read c) nc nh) d c'); auto.
    - f_equal. rewrite ser_as_read. apply (as_read_buffer (of_line calls)).
      + apply (ser_lists_arr (of_line calls)), Sh.
      + intros k. apply Forall_forall. intros f I. apply ser_lists_in in I.
        destruct (hist_lists E calls c Hc A k f I) as [(p & l & J & PT) _]. now apply (St p l).
      + apply Sh.
      + intros f [(p & l & J & PT) _]. now apply (St p l).
    - apply (as_read_cfine (of_line calls)); [apply (hist_fine E); auto|].
      intros f [_ H]. exact H.
  Qed.
End Client.

(** ** Which rules come back unchanged *)
Lemma unchanged_iff f : same_fields f (as_read f) <-> storable f.
Proof.
  unfold same_fields, storable, as_read. cbn [f_type f_opt f_anti f_data f_dom f_tag f_host].
  rewrite if_any_str.
  assert (forall d : option bytes, if_any (str d) = d <-> d <> Some []) as PD.
  { intros [[|x s]|]; cbn; split; intros; easy. }
  assert (pattern f = option_map fst (match f_data f with Some ([], _) => None | o => o end) <->
          pattern f <> Some []) as PP.
  { unfold pattern. destruct (f_data f) as [[[|x d] t]|]; cbn; split; intros; easy. }
  destruct (tl_cases (f_tag f) (str (f_dom f))) as [[-> H]|(Et & q & Es & K)]; cbn [fst snd].
  - split.
    + intros (_ & _ & _ & H1 & H2 & _). split; [now apply PP|]. split; [apply PD; congruence|].
      intros Et r Ed. apply (H Et r). now rewrite Ed.
    + intros (H1 & H2 & H3). repeat split; auto; [now apply PP|]. symmetry. now apply PD.
  - assert (f_dom f = Some (B "~#" ++ q)) as Ed.
    { destruct (f_dom f) as [s|]; cbn [str] in Es; [now rewrite Es|discriminate]. }
    split.
    + intros (_ & _ & _ & _ & D & T & _). exfalso.
      destruct K as [[K _]|(u & v & Eq & _ & K)]; rewrite K in D, T; cbn [fst snd] in D, T;
        rewrite Et in T; subst; rewrite Ed in D; [discriminate|].
      destruct v as [|x v]; [discriminate|]. cbn [if_any] in D.
      apply (f_equal (fun o => length (str o))) in D. cbn in D. lia.
    + intros (_ & _ & H3). exfalso. now apply (H3 Et q).
Qed.

Lemma list_as_read fs :
  Forall some_rule fs ->
  exists buf, sf_size fs = Ok (length buf) /\
    sf_write (zeros (length buf)) 0 (length buf) fs = Ok (buf, length buf) /\
    forall r, exists gs, df_read (length fs) (buf ++ r) = Ok (gs, r) /\
      Forall2 same_fields (map as_read fs) gs.
Proof.
  intros F.
  assert (Forall arr_rule fs) as A by (eapply Forall_impl; [|exact F]; intros f H; now apply some_rule_arr).
  destruct (list_roundtrip fs F) as (buf & S1 & S2 & _).
  exists buf. split; auto. split; auto. intros r.
  assert (buf = flat_map rule_record fs) as ->.
  { rewrite (sf_size_ok fs A) in S1. injection S1 as L. rewrite <- L in S2.
    pose proof (sf_write_ok fs [] (length (flat_map rule_record fs)) (length (flat_map rule_record fs)) A
      (le_n _) (le_n _)) as W. change (length (@nil ascii)) with 0 in W. cbn [app] in W.
    rewrite S2 in W. injection W as ->. rewrite Nat.sub_diag. cbn [zeros repeat].
    now rewrite app_nil_r. }
  destruct (df_read_all fs r A) as (gs & D & R & _).
  - intros f I. rewrite Forall_forall in F. apply (some_rule_arr f); auto.
  - exists gs. split; auto. clear -R. induction R; constructor; auto using ext_fields, restored_ext.
Qed.

Lemma item_as_read f :
  some_rule f -> pattern f <> None ->
  exists buf, fi_size (copyFilter f) = Ok (length buf) /\
    fi_write (zeros (length buf)) 0 (copyFilter f) = Ok (buf, length buf) /\
    forall r size, length buf <= size ->
      exists g, fi_read (buf ++ r) size = Ok (Some (g, length buf)) /\
                same_fields (host_as_read f) g.
Proof.
  intros H D. destruct (some_rule_arr f H) as [(_ & A2 & A3 & A4 & A5) _].
  assert (item_ok (copyFilter f)) as IO.
  { split; [|auto]. cbn [copyFilter f_data]. unfold pattern in D.
    destruct (f_data f) as [[d t]|]; [discriminate|easy]. }
  exists (item_record (copyFilter f)). split; [now apply fi_size_ok|]. split.
  - pose proof (fi_write_ok [] _ (copyFilter f) IO (le_n _)) as W.
    change (length (@nil ascii)) with 0 in W. cbn [app] in W. rewrite W.
    rewrite Nat.sub_diag. cbn [zeros repeat app]. now rewrite app_nil_r.
  - intros r size L.
    destruct (fi_read_all (copyFilter f) r size IO L) as (g & Hg & (E1 & E2 & E3 & E4 & E5 & E6 & E7 & _)).
    exists g. split; auto. unfold same_fields.
    split; [exact E1|]. split; [exact E2|]. split; [exact E3|]. split.
    { rewrite <- E4. unfold pattern. cbn [copyFilter host_as_read f_data]. now destruct (f_data f) as [[]|]. }
    split; [exact E5|]. split; [exact E6|exact E7].
Qed.

Lemma host_unchanged_iff f :
  same_fields f (host_as_read f) <-> f_dom f <> Some [] /\ list_unlike_tag f.
Proof.
  assert (same_fields f (host_as_read f) <->
          (pattern f <> Some [] -> same_fields f (as_read f)) /\ same_fields f (host_as_read f)) as K.
  { split; [|tauto]. intros H. split; auto. intros P.
    destruct H as (H1 & H2 & H3 & H4 & H5 & H6 & H7). unfold same_fields. repeat split; auto.
    unfold pattern in *. cbn [as_read f_data]. now destruct (f_data f) as [[[|x d] t]|]. }
  unfold same_fields, host_as_read, list_unlike_tag.
  cbn [f_type f_opt f_anti f_data f_dom f_tag f_host]. clear K. rewrite if_any_str.
  assert (forall d : option bytes, if_any (str d) = d <-> d <> Some []) as PD.
  { intros [[|x s]|]; cbn; split; intros; easy. }
  destruct (tl_cases (f_tag f) (str (f_dom f))) as [[-> H]|(Et & q & Es & K)]; cbn [fst snd].
  - split.
    + intros (_ & _ & _ & _ & H2 & _). split; [apply PD; congruence|].
      intros Et r Ed. apply (H Et r). now rewrite Ed.
    + intros (H2 & H3). repeat split; auto. symmetry. now apply PD.
  - assert (f_dom f = Some (B "~#" ++ q)) as Ed.
    { destruct (f_dom f) as [s|]; cbn [str] in Es; [now rewrite Es|discriminate]. }
    split.
    + intros (_ & _ & _ & _ & D & T & _). exfalso.
      destruct K as [[K _]|(u & v & Eq & _ & K)]; rewrite K in D, T; cbn [fst snd] in D, T;
        rewrite Et in T; subst; rewrite Ed in D; [discriminate|].
      destruct v as [|x v]; [discriminate|]. cbn [if_any] in D.
      apply (f_equal (fun o => length (str o))) in D. cbn in D. lia.
    + intros (_ & H3). exfalso. now apply (H3 Et q).
Qed.

Lemma tag_block_len t : length (tag_block t) = match t with [] => 0 | _ => length t + 3 end.
Proof. destruct t; auto. unfold tag_block. rewrite !app_length. cbn. lia. Qed.

Lemma steady_iff f : rule_record (as_read f) = rule_record f <-> steady f.
Proof.
  split.
  - intros H Et r Ed.
    assert (length (tag_block (tl_tag (f_tag f) (str (f_dom f)))) +
            length (tl_list (f_tag f) (str (f_dom f))) = length (str (f_dom f))) as L.
    { apply (f_equal (@length _)) in H. unfold rule_record in H. rewrite !app_length in H.
      cbn [as_read f_type f_opt f_anti f_tag f_dom f_host] in H. rewrite !if_any_str in H.
      rewrite !cstr_len in H. rewrite Et in H at 3. cbn [tag_block length] in H.
      assert (length (str (pattern (as_read f))) = length (str (pattern f))) as P.
      { unfold pattern. cbn [as_read f_data]. now destruct (f_data f) as [[[|c d] t]|]. }
      rewrite P in H. unfold tl_tag, tl_list. lia. }
    unfold tl_tag, tl_list in L. rewrite Ed in *. cbn [str] in *.
    destruct (tl_cases (f_tag f) (B "~#" ++ r)) as [[_ K]|(_ & q & Eq & K)].
    { exfalso. now apply (K Et r). }
    apply app_inv_head in Eq. subst q.
    destruct K as [[K NI]|(u & v & -> & Nu & K)]; rewrite K, tag_block_len in L; cbn [fst snd] in L.
    + exfalso. rewrite app_length in L. cbn [B list_ascii_of_string length] in L.
      destruct r as [|x r]; cbn [length] in L; lia.
    + exists u, v. split; auto. split; auto. intros ->. rewrite !app_length in L.
      cbn [B list_ascii_of_string length] in L. lia.
  - intros S. unfold rule_record. cbn [as_read f_type f_opt f_anti f_tag f_dom f_host].
    rewrite !if_any_str. f_equal. f_equal.
    + unfold pattern. cbn [as_read f_data]. now destruct (f_data f) as [[[|c d] t]|].
    + rewrite !app_assoc. f_equal. now apply as_read_dom_bytes.
Qed.

(** Deciding steadiness, for examples. *)
Definition steadyb (f : filter) : bool :=
  negb (beq (f_tag f) []) || negb (prefixb (B "~#") (str (f_dom f))).

Lemma steadyb_ok f : steadyb f = true -> steady f.
Proof.
  unfold steadyb, steady. intros H Et r Ed. rewrite Et, Ed in H. cbn in H. discriminate.
Qed.
