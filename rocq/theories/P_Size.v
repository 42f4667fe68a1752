(** How big a serialized client can be. *)
From Verif Require Import Base Flags Protocol Url Sets FilterM ParseM ClientM SerialM Spec SpecM
  SpecC SpecS P_Base P_Protocol P_Url P_Match P_Rule P_Parse P_List P_Shape P_Fp P_Line P_Line2
  P_Fp2 P_Props1 P_Props2 P_Props3 P_Opt P_Opt2 P_Set P_Client P_Decide P_Hist P_Ser1 P_Ser2 P_Ser3
  P_Ser4 P_Ser6.

(** ** One line *)

Definition big : N := (2 ^ 30)%N.

Lemma option_bit_big seg : (option_bit seg < big)%N.
Proof.
  unfold option_bit.
  assert (forall t b, forallb (fun e => (snd e <? big)%N) t = true -> lookup_name seg t = Some b ->
            (b < big)%N) as K.
  { induction t as [|[n b'] t IH]; intros b F L; [discriminate|].
    cbn [forallb snd] in F. apply andb_true_iff in F as [F1 F2]. cbn [lookup_name] in L.
    destruct (prefixb seg n); [injection L as <-; now apply N.ltb_lt|auto]. }
  destruct (lookup_name seg option_names1) eqn:E1; [eapply K; [|eauto]; reflexivity|].
  destruct (prefixb _ _); [reflexivity|]. destruct (prefixb _ _); [reflexivity|].
  destruct (lookup_name seg option_names2) eqn:E2; [eapply K; [|eauto]; reflexivity|reflexivity].
Qed.

Lemma lor_big x y : (x < big -> y < big -> N.lor x y < big)%N.
Proof.
  intros X Y. destruct (N.eq_dec (N.lor x y) 0) as [->|NZ]; [reflexivity|].
  apply N.log2_lt_pow2; [lia|]. rewrite N.log2_lor.
  assert (forall z, (z < big)%N -> (N.log2 z < 30)%N) as K.
  { intros z Z. destruct (N.eq_dec z 0) as [->|]; [reflexivity|]. apply N.log2_lt_pow2; [lia|auto]. }
  apply N.max_lub_lt; auto.
Qed.

Definition dlen (f : filter) : nat := length (str (f_dom f)).
Definition tlen (f : filter) : nat := length (f_tag f).
Definition hlen (f : filter) : nat := length (str (f_host f)).
Definition plen (f : filter) : nat := length (str (pattern f)).
Definition bits_ok (f : filter) : Prop := (f_opt f < big)%N /\ (f_anti f < big)%N.

Lemma parseOption_len f seg :
  dlen (parseOption f seg) + tlen (parseOption f seg) <= dlen f + tlen f + length seg /\
  (bits_ok f -> bits_ok (parseOption f seg)).
Proof.
  unfold parseOption. set (w := match seg with [] => _ | _ => _ end).
  assert (length (snd w) <= length seg) as Hw.
  { unfold w. destruct seg as [|c s]; [auto|]. destruct (ceq c "~"); cbn; lia. }
  destruct w as [anti s]. cbn [snd] in Hw. unfold dlen, tlen, bits_ok.
  destruct (prefixb (B "domain=") s).
  { cbn [f_dom f_tag f_opt f_anti str]. rewrite skipn_length. split; [lia|auto]. }
  destruct (prefixb (B "tag=") s).
  { cbn [f_dom f_tag f_opt f_anti]. rewrite skipn_length. split; [lia|auto]. }
  pose proof (option_bit_big s).
  destruct anti; cbn [f_dom f_tag f_opt f_anti]; (split; [lia|]); intros [A1 A2]; split;
    auto using lor_big.
Qed.

Definition total (ls : list bytes) : nat := list_sum (map (@length ascii) ls).

Lemma options_len segs : forall f,
  dlen (fold_left parseOption segs f) + tlen (fold_left parseOption segs f)
    <= dlen f + tlen f + total segs /\
  (bits_ok f -> bits_ok (fold_left parseOption segs f)).
Proof.
  induction segs as [|x segs IH]; intros f; cbn [fold_left total map list_sum fold_right].
  - split; [unfold total; cbn; lia|auto].
  - destruct (IH (parseOption f x)) as [I1 I2]. destruct (parseOption_len f x) as [P1 P2].
    unfold total in *. cbn [map list_sum fold_right]. change (fold_right Nat.add 0) with list_sum.
    split; [lia|auto].
Qed.

Lemma split_total c s : total (split_on c s) <= length s.
Proof.
  unfold total. induction s as [|x s IH]; cbn [split_on]; [cbn; lia|].
  destruct (ceq x c).
  - cbn [map list_sum fold_right length]. change (fold_right Nat.add 0) with list_sum. lia.
  - destruct (split_on c s) as [|w ws]; cbn [map list_sum fold_right length] in *;
      change (fold_right Nat.add 0) with list_sum in *; lia.
Qed.

Definition sz_inv (l p : bytes) (s : ps) : Prop :=
  length (s_data s) + dlen (s_f s) + tlen (s_f s) + length p <= length l /\
  hlen (s_f s) <= length l /\ bits_ok (s_f s) /\ f_data (s_f s) = None /\
  (s_st s <> FPDataOnly -> dlen (s_f s) + tlen (s_f s) = 0) /\ tlen (s_f s) = 0.

Definition sz_out (l : bytes) (o : pout) : Prop :=
  match o with
  | PReturn f => plen f + dlen f + tlen f <= length l /\ hlen f <= length l /\ bits_ok f
  | PEnd s => length (s_data s) + dlen (s_f s) + tlen (s_f s) <= length l /\
              hlen (s_f s) <= length l /\ bits_ok (s_f s) /\ f_data (s_f s) = None
  end.

Lemma sz_step pres l a c b s act :
  l = a ++ c :: b -> sz_inv l (c :: b) s -> step_case pres l c b s act ->
  match act with
  | ANext1 s' => sz_inv l b s'
  | ANext2 s' => b <> [] -> sz_inv l (tl b) s'
  | AReturn f => sz_out l (PReturn f)
  | ABreak s' => sz_out l (PEnd s')
  end.
Proof.
  intros El (H1 & H2 & H3 & H4 & H5 & H6) SC. unfold sz_inv, sz_out.
  assert (length l = length a + S (length b)) as Ll by (rewrite El, app_length; cbn; lia).
  cbn [length] in H1. unfold dlen, tlen, hlen, plen, bits_ok, pattern in *.
  assert (f_dom (cur_f c s) = f_dom (s_f s) /\ f_tag (cur_f c s) = f_tag (s_f s) /\
          f_host (cur_f c s) = f_host (s_f s) /\ f_opt (cur_f c s) = f_opt (s_f s) /\
          f_anti (cur_f c s) = f_anti (s_f s) /\ f_data (cur_f c s) = f_data (s_f s)) as
    (C1 & C2 & C3 & C4 & C5 & C6).
  { unfold cur_f. destruct (_ && _); repeat split; reflexivity. }
  destruct SC as [E|E1 E2|E1 E2|E1 E2 E3 E4|E1 E2|E1 E2|E1 E2|E1 E2|E1 E2 E3 E4 E5
    |E1 E2 E3|E1 E2 E3|E1 E2 E3|st' E1 E2 E3 E4];
    cbn [put_ps skip_ps s_st s_f s_data add_type set_type f_dom f_tag f_host f_opt f_anti f_data];
    rewrite ?app_length; cbn [length].
  - repeat split; try lia; try apply H3; auto.
  - assert (s_st s <> FPDataOnly) as N by (intros E; now rewrite E in E2).
    specialize (H5 N). repeat split; try lia; try apply H3; auto.
  - assert (s_st s <> FPDataOnly) as N by congruence. specialize (H5 N). cbv zeta.
    destruct (line_host_prefix b) as [r Er].
    assert (length (line_host b) <= length b) as Lh by (rewrite Er at 2; rewrite app_length; lia).
    destruct (line_hostonly b); cbn [set_host add_type set_type f_dom f_tag f_host f_opt f_anti f_data str];
      repeat split; try lia; try apply H3; auto.
  - specialize (H5 E4). repeat split; try lia; try apply H3; auto.
  - assert (s_st s <> FPDataOnly) as N by (intros E; now rewrite E in E2).
    specialize (H5 N). repeat split; try lia; try apply H3; auto.
  - assert (s_st s <> FPDataOnly) as N by congruence. specialize (H5 N).
    repeat split; try lia; try apply H3; auto.
  - rewrite H4. cbn [option_map str length]. repeat split; try lia; apply H3.
  - assert (s_st s <> FPDataOnly) as N by congruence. specialize (H5 N).
    repeat split; try lia; try apply H3; auto.
  - assert (s_st s <> FPDataOnly) as N by (intros E; now rewrite E in E2). specialize (H5 N).
    cbv zeta. destruct pres;
      cbn [set_rule set_data set_type f_dom f_tag f_host f_opt f_anti f_data option_map fst str];
      (split; [|split; [lia|apply H3]]);
      rewrite firstn_length; lia.
  - intros Nb. destruct b as [|c2 b]; [easy|]. cbn [tl length] in *. specialize (H5 E3).
    unfold take_domains. destruct (s_data s) as [|x d] eqn:Ed;
      cbn [set_dom f_dom f_tag f_host f_opt f_anti f_data str length];
      rewrite ?C1, ?C2, ?C3, ?C4, ?C5, ?C6; cbn [length] in H1;
      repeat split; try lia; try apply H3; auto; congruence.
  - specialize (H5 E3). cbn [s_data].
    destruct (options_len (split_on "," b)
      (mkF (f_type (cur_f c s)) 0 0 (f_data (cur_f c s)) (f_dom (cur_f c s))
        (f_tag (cur_f c s)) (f_host (cur_f c s)) (f_rule (cur_f c s)))) as [O1 O2].
    destruct (options_frame (split_on "," b)
      (mkF (f_type (cur_f c s)) 0 0 (f_data (cur_f c s)) (f_dom (cur_f c s))
        (f_tag (cur_f c s)) (f_host (cur_f c s)) (f_rule (cur_f c s)))) as (_ & F2 & F3 & _).
    pose proof (split_total "," b) as ST.
    unfold dlen, tlen, bits_ok in *. rewrite F2, F3. cbn [f_dom f_tag f_host f_data f_opt f_anti] in *.
    rewrite C1, C2, C3, C6 in *. split; [lia|]. split; [lia|]. split; [|auto].
    apply O2. split; reflexivity.
  - intros Nb. destruct b as [|c2 b]; [easy|]. cbn [tl length] in *. specialize (H5 E3).
    unfold take_domains. destruct (s_data s) as [|x d] eqn:Ed;
      cbn [set_dom f_dom f_tag f_host f_opt f_anti f_data str length];
      rewrite ?C1, ?C2, ?C3, ?C4, ?C5, ?C6; cbn [length] in H1;
      repeat split; try lia; try apply H3; auto; congruence.
  - specialize (H5 E1). rewrite C1, C2, C3, C4, C5, C6.
    repeat split; try lia; try apply H3; auto.
Qed.

Lemma pline_len pres l : line_text l ->
  let f := fst (pline pres l) in
  plen f + dlen f + tlen f <= length l /\ hlen f <= length l /\ bits_ok f.
Proof.
  intros Hl. cbv zeta.
  destruct (pline_ind pres l (sz_inv l) (sz_out l) Hl) as
    [(f & E & K)|[(s & E1 & K & E2)|(s & r & E1 & K & E2)]].
  - intros p s (H1 & H2 & H3 & H4 & _) _ _. cbn [sz_out]. unfold plen, pattern. rewrite H4.
    cbn [option_map str length]. repeat split; try lia; apply H3.
  - intros s (H1 & H2 & H3 & H4 & _). cbn [sz_out]. cbn [length] in H1. repeat split; try lia; auto; apply H3.
  - intros a c b s act El _ _ _ HP SC. exact (sz_step pres l a c b s act El HP SC).
  - unfold sz_inv, dlen, tlen, hlen, bits_ok. cbn. repeat split; try lia; reflexivity.
  - rewrite E. cbn [fst]. apply K.
  - rewrite E2. cbn [fst sz_out] in *. destruct K as (K1 & K2 & K3 & K4).
    unfold plen, dlen, tlen, hlen, bits_ok, pattern in *. cbn [set_type f_data f_dom f_tag f_host f_opt f_anti].
    rewrite K4. cbn [option_map str length]. repeat split; try lia; apply K3.
  - rewrite E2. cbn [fst sz_out] in *. destruct K as (K1 & K2 & K3 & K4).
    unfold plen, dlen, tlen, hlen, bits_ok, pattern in *.
    destruct pres; cbn [set_rule set_data f_data f_dom f_tag f_host f_opt f_anti option_map fst str];
      repeat split; try lia; apply K3.
Qed.

(** ** Hexadecimal numbers *)

Lemma hex_aux_pow k : forall fuel n acc, (n < 16 ^ N.of_nat (S k))%N ->
  length (hex_aux fuel n acc) <= length acc + S k.
Proof.
  induction k as [|k IH]; intros fuel n acc H; (destruct fuel as [|fuel]; [cbn; lia|]);
    cbn [hex_aux]; cbv zeta; destruct (N.eqb_spec (n / 16) 0); cbn [length]; try lia.
  - exfalso. apply n0. apply N.div_small. exact H.
  - assert (n / 16 < 16 ^ N.of_nat (S k))%N as H'.
    { apply N.div_lt_upper_bound; [easy|].
      rewrite Nat2N.inj_succ, N.pow_succ_r' in H. exact H. }
    specialize (IH fuel (n / 16)%N (hexdigit (n mod 16) :: acc) H'). cbn [length] in IH. lia.
Qed.

Lemma hex_aux_short fuel : forall n acc,
  length (hex_aux fuel n acc) <= length acc + 1 + N.to_nat n.
Proof.
  induction fuel as [|fuel IH]; intros n acc; cbn [hex_aux]; [lia|]. cbv zeta.
  destruct (N.eqb_spec (n / 16) 0); cbn [length]; [lia|].
  specialize (IH (n / 16)%N (hexdigit (n mod 16) :: acc)). cbn [length] in IH.
  assert (n / 16 < n)%N by (apply N.div_lt; [destruct n; [easy|lia]|lia]). lia.
Qed.

Definition w16 : N := 65536.

Lemma hex_aux_long fuel : forall n acc,
  (w16 * N.of_nat (length (hex_aux fuel n acc)) <= w16 * N.of_nat (length acc + 4) + n)%N.
Proof.
  induction fuel as [|fuel IH]; intros n acc.
  { cbn [hex_aux]. unfold w16. lia. }
  destruct (N.lt_ge_cases n (16 ^ 4)) as [L|L].
  { pose proof (hex_aux_pow 3 (S fuel) n acc L). unfold w16. lia. }
  destruct (N.lt_ge_cases n (16 ^ 5)) as [L5|L5].
  { pose proof (hex_aux_pow 4 (S fuel) n acc L5). change (16 ^ 4)%N with w16 in L. unfold w16 in *. lia. }
  cbn [hex_aux]. cbv zeta. destruct (N.eqb_spec (n / 16) 0).
  { cbn [length]. unfold w16. lia. }
  specialize (IH (n / 16)%N (hexdigit (n mod 16) :: acc)). cbn [length] in IH.
  assert (16 * (n / 16) <= n)%N by (apply N.mul_div_le; easy).
  change (16 ^ 5)%N with (16 * w16)%N in L5. unfold w16 in *. lia.
Qed.

Lemma hex_big n : (n < big)%N -> length (hex n) <= 8.
Proof.
  intros H. apply (hex_aux_pow 7). eapply N.lt_trans; [exact H|reflexivity].
Qed.

Lemma hex_type n : (n < 4096)%N -> length (hex n) <= 3.
Proof. intros H. apply (hex_aux_pow 2). exact H. Qed.

Lemma hexn_short n : length (hexn n) <= 1 + n.
Proof. pose proof (hex_aux_short (S (N.size_nat (N.of_nat n))) (N.of_nat n) []) as H. rewrite Nat2N.id in H. exact H. Qed.

Lemma hex_long n : (w16 * N.of_nat (length (hex n)) <= w16 * 4 + n)%N.
Proof. apply (hex_aux_long _ n []). Qed.

Lemma join_length c (l : list bytes) : length (join c l) <= total l + length l.
Proof.
  unfold total. induction l as [|x l IH]; [cbn; lia|]. cbn [map list_sum fold_right length].
  change (fold_right Nat.add 0) with list_sum. destruct l as [|y l].
  - cbn [join map length]. lia.
  - change (join c (x :: y :: l)) with (x ++ c :: join c (y :: l)). rewrite app_length. change (length (c :: join c (y :: l))) with (S (length (join c (y :: l)))).
    lia.
Qed.

Lemma fields_long l :
  (w16 * N.of_nat (length (fields l)) <= w16 * 5 * N.of_nat (length l) + fold_right N.add 0 l)%N.
Proof.
  unfold fields. pose proof (join_length "," (map hex l)) as J. rewrite map_length in J.
  assert (w16 * N.of_nat (total (map hex l)) <=
          w16 * 4 * N.of_nat (length l) + fold_right N.add 0 l)%N as K.
  { clear J. unfold total. induction l as [|n l IH]; [reflexivity|]. cbn [map list_sum fold_right length].
    change (fold_right Nat.add 0) with list_sum. pose proof (hex_long n). unfold w16 in *. lia. }
  unfold w16 in *. lia.
Qed.

(** ** Records *)
Definition type_ok (f : filter) : Prop := (f_type f < 4096)%N.

Lemma rule_record_len f n : type_ok f -> bits_ok f -> plen f + dlen f + tlen f <= n -> hlen f <= n ->
  length (rule_record f) <= 28 + 2 * n.
Proof.
  intros T [B1 B2] H1 H2. unfold rule_record, fields, join, map, plen, dlen, tlen, hlen in *.
  rewrite !app_length, !cstr_len, tag_block_length, !app_length. cbn [length]. rewrite app_length.
  cbn [length].
  pose proof (hex_type _ T). pose proof (hex_big _ B1). pose proof (hex_big _ B2).
  destruct (f_tag f); cbn [length] in *; lia.
Qed.

Lemma copy_pattern f : pattern (copyFilter f) = pattern f.
Proof. unfold pattern, copyFilter. cbn [f_data]. now destruct (f_data f) as [[]|]. Qed.

Lemma item_record_len f n : type_ok f -> bits_ok f -> plen f + dlen f + tlen f <= n -> hlen f <= n ->
  length (item_record (copyFilter f)) <= 29 + 3 * n.
Proof.
  intros T [B1 B2] H1 H2. unfold item_record, item_head. rewrite copy_pattern.
  unfold fields, join, map, plen, dlen, tlen, hlen in *.
  cbn [copyFilter f_type f_opt f_anti f_host f_tag f_dom].
  rewrite !app_length, !cstr_len, tag_block_length, !app_length. cbn [length]. rewrite !app_length.
  cbn [length]. rewrite !app_length. cbn [length].
  pose proof (hex_type _ T). pose proof (hex_big _ B1). pose proof (hex_big _ B2).
  pose proof (hexn_short (length (str (pattern f)))). unfold hexn in *.
  destruct (f_tag f); cbn [length] in *; lia.
Qed.

Lemma dom_record_len d : length (dom_record d) <= 2 * length d + 4.
Proof.
  unfold dom_record, nd_head. rewrite app_length, !cstr_len, app_length. cbn [length B list_ascii_of_string].
  pose proof (hexn_short (length d)). lia.
Qed.

Lemma gate_len f : length (flat_map dom_record (gate_items f)) <= 6 * dlen f.
Proof.
  unfold gate_items, dlen. destruct (f_dom f) as [dl|]; [|cbn; lia]. cbn [str].
  pose proof (split_total "|" dl) as S1. unfold total in S1.
  enough (forall ds, length (flat_map dom_record (flat_map gate_item ds)) <=
                     6 * list_sum (map (@length ascii) ds)) as K.
  { specialize (K (split_on "|" dl)). lia. }
  induction ds as [|d ds IH]; [cbn; lia|]. cbn [flat_map map list_sum fold_right].
  change (fold_right Nat.add 0) with list_sum. rewrite flat_map_app, app_length.
  destruct d as [|c d]; cbn [gate_item flat_map length]; [lia|]. rewrite app_nil_r.
  destruct (ceq c "~").
  - pose proof (dom_record_len d). lia.
  - pose proof (dom_record_len (c :: d)) as DR. cbn [length] in DR. lia.
Qed.

(** ** Sets *)
Section Sets.
  Context {A : Type} (enc : A -> bytes) (key : A -> bytes) (hash : bytes -> N).
  Definition wset (s : hset A) : nat := length (flat_map (bucket_bytes enc) s).

  Lemma wset_upd s i g n : (forall b, length (bucket_bytes enc (g b)) <= length (bucket_bytes enc b) + n) ->
    wset (upd s i g) <= wset s + n.
  Proof.
    intros H. unfold wset. revert i; induction s as [|b s IH]; intros [|i]; cbn [upd flat_map];
      rewrite ?app_length; [cbn; lia|cbn; lia| |].
    - specialize (H b). lia.
    - specialize (IH i). lia.
  Qed.

  Lemma wset_add s x : wset (hs_add key hash s x) <= wset s + length (enc x).
  Proof.
    unfold hs_add. apply wset_upd. intros b. destruct (existsb _ b); [lia|].
    unfold bucket_bytes. rewrite flat_map_app, !app_length. cbn [flat_map]. rewrite app_nil_r. lia.
  Qed.

  Lemma wset_fold l : forall s, wset (fold_left (hs_add key hash) l s) <= wset s + length (flat_map enc l).
  Proof.
    induction l as [|x l IH]; intros s; cbn [fold_left flat_map]; [cbn; lia|].
    rewrite app_length. specialize (IH (hs_add key hash s x)). pose proof (wset_add s x). lia.
  Qed.

  Lemma wset_new n : wset (hs_new n) = N.to_nat n.
  Proof.
    unfold wset, hs_new. induction (N.to_nat n) as [|m IH]; [reflexivity|].
    cbn [repeat flat_map]. rewrite app_length, IH. reflexivity.
  Qed.

  Lemma set_bytes_len s : length (set_bytes enc s) = length (hexn (length s)) + 1 + wset s.
  Proof. unfold set_bytes. now rewrite app_length, cstr_len. Qed.
End Sets.

(** ** The state of a client *)
Definition wlists (w : tab (list filter)) : nat := length (body w ser_order).
Definition nlists (w : tab (list filter)) : nat :=
  list_sum (map (fun k => length (tget w k)) ser_order).
Definition wsets (s : sets) : nat :=
  wset item_record (x_host s) + wset item_record (x_ehost s) + wset dom_record (x_nfd s) +
  wset dom_record (x_nfa s) + wset dom_record (x_nfdexc s) + wset dom_record (x_nfaexc s).
Definition frame (s : sets) : list N :=
  [bl_size (x_bloom s); bl_size (x_ebloom s); N.of_nat (length (x_host s));
   N.of_nat (length (x_ehost s)); N.of_nat (length (x_nfd s)); N.of_nat (length (x_nfa s));
   N.of_nat (length (x_nfdexc s)); N.of_nat (length (x_nfaexc s))].

Lemma wlists_add w k f : wlists (tset w k (tget w k ++ [f])) = wlists w + length (rule_record f).
Proof.
  unfold wlists, body, recs, ser_order.
  destruct w as [w0 w1 w2 w3 w4 w5 w6 w7 w8 w9], k; cbn [tset tget flat_map t_filters t_cosmetic t_html t_exc t_nf t_nfexc t_nfd t_nfa t_nfdexc t_nfaexc];
    rewrite ?flat_map_app, !app_length; cbn [flat_map]; rewrite ?app_nil_r; lia.
Qed.

Lemma nlists_add w k f : nlists (tset w k (tget w k ++ [f])) = S (nlists w).
Proof.
  unfold nlists, ser_order.
  destruct w as [w0 w1 w2 w3 w4 w5 w6 w7 w8 w9], k; cbn [tset tget map list_sum fold_right t_filters t_cosmetic t_html t_exc t_nf t_nfexc t_nfd t_nfa t_nfdexc t_nfaexc];
    rewrite ?app_length; cbn [length]; lia.
Qed.

Lemma gate_size E f k s : wsets (gate E f k s) <= wsets s + 6 * dlen f.
Proof.
  pose proof (gate_len f) as G. unfold gate, wsets.
  destruct k; cbn [x_host x_ehost x_nfd x_nfa x_nfdexc x_nfaexc]; try lia.
  - pose proof (wset_fold dom_record (fun x => x) (e_hash E) (gate_items f) (x_nfd s)). change (gate_add E) with (hs_add (fun x : bytes => x) (e_hash E)). lia.
  - pose proof (wset_fold dom_record (fun x => x) (e_hash E) (gate_items f) (x_nfa s)). change (gate_add E) with (hs_add (fun x : bytes => x) (e_hash E)). lia.
  - pose proof (wset_fold dom_record (fun x => x) (e_hash E) (gate_items f) (x_nfdexc s)). change (gate_add E) with (hs_add (fun x : bytes => x) (e_hash E)). lia.
  - pose proof (wset_fold dom_record (fun x => x) (e_hash E) (gate_items f) (x_nfaexc s)). change (gate_add E) with (hs_add (fun x : bytes => x) (e_hash E)). lia.
Qed.

Lemma gate_fold_length E l : forall s, length (fold_left (gate_add E) l s) = length s.
Proof.
  induction l as [|x l IH]; intros s; cbn [fold_left]; auto. rewrite IH. apply hs_add_length.
Qed.

Lemma gate_frame E f k s : frame (gate E f k s) = frame s.
Proof.
  unfold frame, gate. destruct k; cbn [x_bloom x_ebloom x_host x_ehost x_nfd x_nfa x_nfdexc x_nfaexc];
    rewrite ?gate_fold_length; reflexivity.
Qed.

Lemma ins_size E f s :
  is_cosmetic f = true \/ (exists o, getFingerprint E f = Ok o) ->
  wsets (ins E f s) <= wsets s +
    (if has (f_type f) FTHostOnly then length (item_record (copyFilter f)) else 0) /\
  frame (ins E f s) = frame s.
Proof.
  intros H. rewrite ins_spec by auto. unfold wsets, frame.
  cbn [x_bloom x_ebloom x_host x_ehost x_nfd x_nfa x_nfdexc x_nfaexc].
  pose proof (wset_add item_record hkey (e_hash E) (x_host s) (copyFilter f)) as W1.
  pose proof (wset_add item_record hkey (e_hash E) (x_ehost s) (copyFilter f)) as W2.
  split.
  - unfold in_hosts. destruct (is_cosmetic f); cbn [negb andb]; [lia|].
    destruct (has (f_type f) FTHostOnly); cbn [andb]; [|lia].
    destruct (has (f_type f) FTException); cbn [Bool.eqb]; lia.
  - repeat match goal with |- context [if ?b then _ else _] => destruct b end;
      repeat match goal with |- context [match ?b with Some _ => _ | None => _ end] => destruct b end;
      rewrite ?hs_add_length; reflexivity.
Qed.

Definition wst (a : st) : nat := wlists (st_w a) + wsets (st_s a).
Definition nst (a : st) : nat := nlists (st_w a) + snd (fst a) + snd a.

Lemma rule_type f b : rule_ok f b -> type_ok f.
Proof.
  intros (_ & _ & _ & _ & H).
  assert (forall l, forallb (fun t => (t <? 4096)%N) l = true -> In (f_type f) l -> type_ok f) as K.
  { intros l F I. rewrite forallb_forall in F. apply N.ltb_lt, F, I. }
  destruct b.
  - destruct H as [_ H]. eapply K; [|exact H]. reflexivity.
  - destruct H as [[_ H]|(d & _ & _ & H)].
    + eapply K; [|exact H]. reflexivity.
    + unfold type_ok. now rewrite H.
Qed.

(** A rule is kept as a host rule or in an array, not both. *)
Lemma rule_one_place E f b k : rule_ok f b -> has (f_type f) FTHostOnly = true ->
  classify E f = Ok (CList k) -> False.
Proof.
  intros (_ & _ & _ & _ & H) HO C. unfold classify in C.
  destruct (hasUnsupportedOptions f); [discriminate|]. cbv zeta in C.
  unfold classify_tail in C. rewrite HO in C.
  assert (forall l, forallb (fun t => negb (has t FTHostOnly) ||
            ((N.land t FTListTypesMask =? FTException)%N ||
             (N.land t FTListTypesMask =? 0)%N)) l = true -> In (f_type f) l ->
            (N.land (f_type f) FTListTypesMask = FTException \/ N.land (f_type f) FTListTypesMask = 0)%N) as K.
  { intros l F I. rewrite forallb_forall in F. specialize (F _ I). rewrite HO in F. cbn [negb orb] in F.
    apply orb_true_iff in F as [F|F]; apply N.eqb_eq in F; auto. }
  assert ((N.land (f_type f) FTListTypesMask = FTException \/ N.land (f_type f) FTListTypesMask = 0)%N) as [X|X].
  { destruct b.
    - destruct H as [_ H]. eapply K; [|exact H]. reflexivity.
    - destruct H as [[_ H]|(d & _ & _ & H)].
      + eapply K; [|exact H]. reflexivity.
      + rewrite H in HO. discriminate. }
  - rewrite X in C. discriminate.
  - rewrite X in C. discriminate.
Qed.

Lemma empty_line E pres r : rule_of E pres [] = Ok r -> snd (fst r) = false /\ snd r = CSkip.
Proof. unfold rule_of. destruct pres; cbn; intros [= <-]; auto. Qed.

Lemma store_size E pl r a : line_rule E pl r ->
  wst (store E a r) <= wst a + 36 * length (snd pl) /\
  nst (store E a r) <= nst a + length (snd pl) /\
  frame (st_s (store E a r)) = frame (st_s a).
Proof.
  intros [L R]. destruct pl as [p l]. cbn [fst snd] in *.
  destruct (rule_of_ok E p l r L R) as [PO PF].
  assert (l = [] \/ 1 <= length l) as [-> |N1] by (destruct l; [left|right; cbn; lia]; auto).
  { destruct (empty_line E p r R) as [X Y]. destruct r as [[f b] k], a as [[[s w] ha] hae].
    cbn [fst snd] in X, Y. subst b k. cbn [store]. repeat split; lia. }
  pose proof (pline_len p l L) as PL. cbv zeta in PL.
  assert (fst (fst r) = fst (pline p l)) as Ef.
  { unfold rule_of in R. destruct (pline p l) as [f b]. apply bind_ok in R as (o & _ & R).
    apply bind_ok in R as (k & _ & R). destruct (_ && _); [discriminate|]. injection R as <-. reflexivity. }
  rewrite <- Ef in PL. clear Ef.
  destruct r as [[f b] k], a as [[[s w] ha] hae]. cbn [fst snd] in *.
  destruct PL as (P1 & P2 & P3). destruct PO as [RO CL]. pose proof (rule_type f b RO) as T.
  pose proof (rule_record_len f (length l) T P3 P1 P2) as RR.
  pose proof (item_record_len f (length l) T P3 P1 P2) as IR.
  assert (exists s1, (if b then ins E f s else s) = s1 /\ frame s1 = frame s /\
            wsets s1 <= wsets s + (if has (f_type f) FTHostOnly
                                   then length (item_record (copyFilter f)) else 0)) as (s1 & Es & F1 & W1).
  { eexists. split; [reflexivity|]. destruct b; [|split; [auto|lia]].
    destruct (ins_size E f s (PF eq_refl)). auto. }
  unfold store. rewrite Es. unfold wst, nst.
  destruct k as [|e|k]; [| destruct e|]; cbn [st_w st_s fst snd];
    try (split; [|split; [|exact F1]]; destruct (has (f_type f) FTHostOnly); lia).
  rewrite gate_frame, wlists_add, nlists_add. split; [|split; [lia|exact F1]].
  pose proof (gate_size E f k s1) as GS. unfold dlen in *.
  destruct (has (f_type f) FTHostOnly) eqn:HO; [|lia].
  destruct (rule_one_place E f b k RO HO CL).
Qed.

Definition bytes_of (L : list (bool * bytes)) : nat := list_sum (map (fun pl => length (snd pl)) L).

Lemma fold_size E L rs : Forall2 (line_rule E) L rs -> forall a,
  wst (fold_left (store E) rs a) <= wst a + 36 * bytes_of L /\
  nst (fold_left (store E) rs a) <= nst a + bytes_of L /\
  frame (st_s (fold_left (store E) rs a)) = frame (st_s a).
Proof.
  induction 1 as [|pl r L rs H F IH]; intros a; cbn [fold_left].
  - repeat split; lia.
  - change (bytes_of (pl :: L)) with (length (snd pl) + bytes_of L).
    destruct (store_size E pl r a H) as (S1 & S2 & S3).
    destruct (IH (store E a r)) as (I1 & I2 & I3). repeat split; [lia|lia|congruence].
Qed.

Definition sized (a : st) (n : nat) : Prop :=
  (N.of_nat (wst a) <= 22200 + 36 * N.of_nat n)%N /\ nst a <= n /\
  frame (st_s a) = [150001; 25001; 18000; 2000; 1000; 100; 1000; 100]%N.

Lemma sized0 : sized (st_of client0) 0.
Proof.
  unfold sized. split; [|split].
  - unfold wst, wsets, st_of, st_s, st_w. cbn [fst snd]. unfold initSets, client0.
    cbn [odef c_bloom c_ebloom c_host c_ehost c_nfd c_nfa c_nfdexc c_nfaexc c_lists
         x_host x_ehost x_nfd x_nfa x_nfdexc x_nfaexc].
    rewrite !wset_new. change (wlists (tall [])) with 0.
    rewrite !Nat2N.inj_add, !N2Nat.id. easy.
  - cbn. lia.
  - unfold st_s, st_of, initSets, client0, frame.
    cbn [fst snd odef c_bloom c_ebloom c_host c_ehost c_nfd c_nfa c_nfdexc c_nfaexc
         x_bloom x_ebloom x_host x_ehost x_nfd x_nfa x_nfdexc x_nfaexc].
    unfold hs_new. rewrite !repeat_length, !N2Nat.id. reflexivity.
Qed.

Lemma sized_mono a n m : sized a n -> n <= m -> sized a m.
Proof. intros (H1 & H2 & H3) L. repeat split; auto; lia. Qed.

Lemma same_st c c' : same_rules c c' -> st_of c' = st_of c.
Proof.
  intros (H1 & H2 & H3 & H4 & H5 & H6 & H7 & H8 & H9 & H10 & H11). unfold st_of, initSets.
  now rewrite H1, H2, H3, H4, H5, H6, H7, H8, H9, H10, H11.
Qed.

Lemma bytes_of_app a b : bytes_of (a ++ b) = bytes_of a + bytes_of b.
Proof. unfold bytes_of. rewrite map_app. apply list_sum_app. Qed.

Lemma hist_sized E calls c : history calls -> after E calls = Ok c ->
  sized (st_of c) (bytes_of (loaded_lines calls)).
Proof.
  revert c. induction calls as [|k calls IH] using rev_ind; intros c Hc H.
  - injection H as <-. apply sized0.
  - apply Forall_app in Hc as [Hc Hk]. inversion Hk as [|? ? Kk _]; subst.
    rewrite after_snoc in H. apply bind_ok in H as (c0 & H0 & H).
    specialize (IH c0 Hc H0).
    pose proof (loaded_from_snoc [] calls k) as LS. fold (loaded_lines (calls ++ [k])) in LS.
    fold (loaded_lines calls) in LS. rewrite LS. clear LS.
    destruct k as [pres t| |t|t|url context dom|]; cbn [perform call_ok] in *.
    + rewrite parse_normal in H by auto. apply rmap_ok in H as (rs & H & ->).
      assert (Forall2 (line_rule E) (map (pair pres) (text_lines t)) rs) as F.
      { apply mapM_ok in H.
        assert (forall l, In l (text_lines t) -> line_text l) as L
          by (intros l; now apply text_lines_line).
        clear -H L. induction H as [|l r ls rs H M IH]; constructor.
        - split; cbn; auto. apply L. now left.
        - apply IH. intros; apply L. now right. }
      unfold install. rewrite st_of_with_st, bytes_of_app.
      destruct (fold_size E _ _ F (st_of c0)) as (S1 & S2 & S3).
      destruct IH as (I1 & I2 & I3). repeat split; [lia|lia|congruence].
    + injection H as <-. rewrite (st_of_fresh (clear c0)) by (now repeat split). apply sized0.
    + injection H as <-. rewrite (same_st c0); auto.
      unfold addTag. destruct (tagExists c0 t); repeat split.
    + injection H as <-. rewrite (same_st c0); auto. repeat split.
    + apply rmap_ok in H as ([v c'] & H & ->). cbn [snd]. apply matches_quiet in H.
      rewrite (same_st c0); auto. apply H.
    + injection H as <-. rewrite (same_st c0); auto.
      unfold enableBadFp. destruct (c_badfp c0); repeat split.
Qed.

(** ** The buffer *)
Lemma ob_le {A} (f : A -> bytes) o d n : length (f (odef o d)) <= n -> length (ob f o) <= n.
Proof. destruct o; cbn; intros; lia. Qed.

Lemma ob_set {A} (enc : A -> bytes) (o : option (hset A)) d v k :
  N.of_nat (length (odef o d)) = v -> length (hex v) <= k ->
  length (ob (set_bytes enc) o) <= k + 1 + wset enc (odef o d).
Proof.
  intros E L. apply (ob_le (set_bytes enc) o d). rewrite set_bytes_len. unfold hexn. rewrite E. lia.
Qed.

Lemma blobs_total c n : sized (st_of c) n ->
  (N.of_nat (total (blobs_of c)) <= 175025 + N.of_nat (wsets (initSets c)))%N.
Proof.
  intros (_ & _ & F). unfold st_s, st_of in F. cbn [fst] in F. unfold frame in F.
  injection F as F1 F2 F3 F4 F5 F6 F7 F8.
  assert (N.of_nat (length (ob bloom_bytes (c_bloom c))) <= 150001)%N as B1.
  { rewrite <- F1. cbn [initSets x_bloom]. destruct (c_bloom c); cbn [ob odef length]; [|lia].
    rewrite bloom_bytes_length. lia. }
  assert (N.of_nat (length (ob bloom_bytes (c_ebloom c))) <= 25001)%N as B2.
  { rewrite <- F2. cbn [initSets x_ebloom]. destruct (c_ebloom c); cbn [ob odef length]; [|lia].
    rewrite bloom_bytes_length. lia. }
  assert (length (hex 18000) <= 4 /\ length (hex 2000) <= 3 /\ length (hex 1000) <= 3 /\
          length (hex 100) <= 2) as (X1 & X2 & X3 & X4) by (repeat split; apply Nat.leb_le; reflexivity).
  pose proof (ob_set item_record (c_host c) _ _ 4 F3 X1) as B3.
  pose proof (ob_set item_record (c_ehost c) _ _ 3 F4 X2) as B4.
  pose proof (ob_set dom_record (c_nfd c) _ _ 3 F5 X3) as B5.
  pose proof (ob_set dom_record (c_nfa c) _ _ 2 F6 X4) as B6.
  pose proof (ob_set dom_record (c_nfdexc c) _ _ 3 F7 X3) as B7.
  pose proof (ob_set dom_record (c_nfaexc c) _ _ 2 F8 X4) as B8.
  unfold total, blobs_of, wsets, initSets.
  cbn [x_host x_ehost x_nfd x_nfa x_nfdexc x_nfaexc map list_sum fold_right].
  unfold bytes in *. lia.
Qed.

Lemma written_le w nc nh :
  wlists (written w nc nh) <= wlists w /\ nlists (written w nc nh) <= nlists w.
Proof.
  unfold wlists, nlists, body, recs, ser_order, written.
  destruct w as [w0 w1 w2 w3 w4 w5 w6 w7 w8 w9], nc, nh;
  cbn [tget map list_sum fold_right flat_map length app t_filters t_cosmetic t_html t_exc t_nf t_nfexc t_nfd t_nfa t_nfdexc t_nfaexc];
  rewrite ?app_length; lia.
Qed.

Lemma sum_of_nat {A} (g : A -> nat) l :
  fold_right N.add 0%N (map (fun x => N.of_nat (g x)) l) = N.of_nat (list_sum (map g l)).
Proof.
  induction l as [|x l IH]; [reflexivity|]. cbn [map list_sum fold_right]. rewrite IH.
  change (fold_right Nat.add 0) with list_sum. lia.
Qed.

Lemma fold_add_app l m : fold_right N.add 0%N (l ++ m) = (fold_right N.add 0 l + fold_right N.add 0 m)%N.
Proof. induction l as [|x l IH]; [reflexivity|]. cbn [app fold_right]. rewrite IH. lia. Qed.

Lemma concat_total bs : length (concat bs) = total bs.
Proof. unfold total. now rewrite list_sum_concat. Qed.

Lemma saved_size E calls c nc nh buf :
  history calls -> after E calls = Ok c -> serialize c nc nh = Ok buf ->
  (N.of_nat (length buf) <= 37 * N.of_nat (bytes_of (loaded_lines calls)) + 200000)%N.
Proof.
  intros Hc A S1. pose proof (hist_sized E calls c Hc A) as SZ.
  set (n := bytes_of (loaded_lines calls)) in *. clearbody n.
  rewrite (P_Ser4.serialize_ok _ _ nc nh (hist_shaped E calls c Hc A)) in S1. injection S1 as <-.
  rewrite written_ser. pose proof (blobs_total c n SZ) as BT. destruct SZ as (W1 & W2 & _).
  unfold buffer. rewrite !app_length, cstr_len, concat_total. unfold header_of.
  set (t := written (c_lists c) nc nh). destruct (written_le (c_lists c) nc nh) as [L1 L2]. fold t in L1, L2.
  pose proof (fields_long (map (fun k => N.of_nat (length (tget t k))) ser_order
          ++ [N.of_nat (c_numHA c); N.of_nat (c_numHAE c)]
          ++ map (fun b => N.of_nat (length b)) (blobs_of c))) as FL.
  set (fl := length (fields _)) in *. clearbody fl.
  rewrite !fold_add_app in FL. cbn [fold_right] in FL. rewrite (sum_of_nat (fun k => length (tget t k))) in FL.
  rewrite (sum_of_nat (@length ascii)) in FL. rewrite !app_length, !map_length in FL.
  change (length ser_order) with 10 in FL. change (length (blobs_of c)) with 8 in FL. cbn [length] in FL.
  fold (total (blobs_of c)) in FL. fold (nlists t) in FL. fold (wlists t).
  unfold wst, nst, st_of, st_w, st_s in W1, W2. cbn [fst snd] in W1, W2.
  change (N.of_nat (10 + (2 + 8))) with 20%N in FL. unfold w16 in *. lia.
Qed.
