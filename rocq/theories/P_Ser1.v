(** Serialization: numbers, buffers, and the records of rule arrays. *)
From Verif Require Import Base Flags Url Sets FilterM ParseM ClientM SerialM Spec SpecM SpecC SpecS
  P_Base P_Url P_Match P_Rule P_Parse P_List P_Line P_Line2.

(** ** Hexadecimal numbers *)
Lemma hexdigit_cases (P : N -> Prop) :
  P 0%N -> P 1%N -> P 2%N -> P 3%N -> P 4%N -> P 5%N -> P 6%N -> P 7%N -> P 8%N -> P 9%N ->
  P 10%N -> P 11%N -> P 12%N -> P 13%N -> P 14%N -> P 15%N -> forall d, (d < 16)%N -> P d.
Proof.
  intros. destruct d as [|p]; auto.
  do 4 (destruct p as [p|p|]; auto; try lia).
Qed.

Lemma unhex_hex d : (d < 16)%N -> unhexdigit (hexdigit d) = Some d.
Proof. revert d. apply hexdigit_cases; reflexivity. Qed.

Definition digits (s : bytes) : Prop := forall c, In c s -> unhexdigit c <> None.

Lemma hex_aux_spec fuel n acc :
  (0 < fuel) -> (n < 16 ^ N.of_nat fuel)%N ->
  exists ds, hex_aux fuel n acc = ds ++ acc /\ ds <> [] /\ digits ds /\
    forall a r, scan_digits (ds ++ r) a = scan_digits r (a * 16 ^ N.of_nat (length ds) + n).
Proof.
  revert n acc; induction fuel as [|fuel IH]; intros n acc L H; [lia|]. cbn [hex_aux].
  assert (n mod 16 < 16)%N as M by (apply N.mod_lt; lia).
  pose proof (unhex_hex _ M) as U. pose proof (N.div_mod n 16) as DM.
  destruct (N.eqb_spec (n / 16) 0) as [e|ne].
  - exists [hexdigit (n mod 16)]. split; [reflexivity|]. split; [discriminate|]. split.
    + intros c [<-|[]]. rewrite U. discriminate.
    + intros a r. cbn [app scan_digits length]. rewrite U. f_equal.
      change (16 ^ N.of_nat 1)%N with 16%N. lia.
  - assert (0 < fuel) as L'.
    { destruct fuel; [|lia]. exfalso. change (16 ^ N.of_nat 1)%N with 16%N in H.
      apply ne. now apply N.div_small. }
    assert (n / 16 < 16 ^ N.of_nat fuel)%N as H'.
    { apply N.div_lt_upper_bound; [lia|].
      rewrite Nat2N.inj_succ, N.pow_succ_r' in H. lia. }
    destruct (IH (n / 16)%N (hexdigit (n mod 16) :: acc) L' H') as (ds & E1 & N1 & D1 & S1).
    exists (ds ++ [hexdigit (n mod 16)]). rewrite E1, <- app_assoc. split; [reflexivity|].
    split; [now destruct ds|]. split.
    + intros c I. apply in_app_or in I as [I|[<-|[]]]; auto. rewrite U. discriminate.
    + intros a r. rewrite <- app_assoc, S1. cbn [app scan_digits]. rewrite U. f_equal.
      rewrite app_length. cbn [length]. rewrite Nat.add_1_r, Nat2N.inj_succ, N.pow_succ_r'. lia.
Qed.

Lemma size_bound n : (n < 2 ^ N.of_nat (N.size_nat n))%N.
Proof.
  destruct n as [|p]; [reflexivity|]. cbn [N.size_nat].
  induction p as [p IH|p IH|]; cbn [Pos.size_nat]; [| |reflexivity];
    rewrite Nat2N.inj_succ, N.pow_succ_r'; lia.
Qed.

Lemma hex_spec n : exists ds, hex n = ds /\ ds <> [] /\ digits ds /\
  forall a r, scan_digits (ds ++ r) a = scan_digits r (a * 16 ^ N.of_nat (length ds) + n).
Proof.
  unfold hex. destruct (hex_aux_spec (S (N.size_nat n)) n []) as (ds & E & H).
  - lia.
  - eapply N.lt_le_trans; [apply size_bound|].
    transitivity (16 ^ N.of_nat (N.size_nat n))%N.
    + apply N.pow_le_mono_l. lia.
    + apply N.pow_le_mono_r; lia.
  - exists ds. rewrite E, app_nil_r. auto.
Qed.

Lemma hex_nonempty n : hex n <> [].
Proof. destruct (hex_spec n) as (ds & -> & H & _). exact H. Qed.

Lemma hex_digits n : digits (hex n).
Proof. destruct (hex_spec n) as (ds & -> & _ & H & _). exact H. Qed.

Definition stops (r : bytes) : Prop :=
  match r with [] => True | c :: _ => (unhexdigit c, ceq c "x" || ceq c "X") = (None, false) end.

Lemma stops_cons c r : stops (c :: r) -> unhexdigit c = None /\ c <> "x"%char /\ c <> "X"%char.
Proof.
  cbn [stops]. intros [= -> H]. split; auto. apply orb_false_iff in H as [H1 H2].
  split; now apply ceq_neq.
Qed.

Lemma digit_plain c d : unhexdigit c = Some d ->
  is_space c = false /\ ceq c "-" = false /\ ceq c "+" = false.
Proof.
  destruct c as [[] [] [] [] [] [] [] []]; cbn; intros H; try discriminate; repeat split; reflexivity.
Qed.

Lemma digits_x c d : unhexdigit c = Some d -> c <> "x"%char /\ c <> "X"%char.
Proof. intros H. split; intros ->; discriminate H. Qed.

Lemma scan_digits_stop r a : stops r -> scan_digits r a = (a, r).
Proof. destruct r as [|c r]; [reflexivity|]. intros H. apply stops_cons in H as (H & _). cbn [scan_digits]. now rewrite H. Qed.

Lemma scan_hex_hex n r : stops r -> scan_hex (hex n ++ r) = Some (n, r).
Proof.
  intros Hr. destruct (hex_spec n) as (ds & -> & H1 & H2 & H3).
  destruct ds as [|c ds]; [easy|]. unfold scan_hex. cbn [app].
  destruct (unhexdigit c) as [d|] eqn:U; [|exfalso; apply (H2 c); [now left|exact U]].
  destruct (digit_plain c d U) as (P1 & P2 & P3). cbn [skip_space]. rewrite P1, P2, P3.
  unfold scan_unsigned. rewrite U.
  assert (scan_digits (c :: ds ++ r) 0 = (n, r)) as K.
  { change (c :: ds ++ r) with ((c :: ds) ++ r). rewrite H3, scan_digits_stop by auto. f_equal. }
  destruct (ds ++ r) as [|x q] eqn:Eq; [now rewrite K|].
  assert (x <> "x"%char /\ x <> "X"%char) as [X1 X2].
  { destruct ds as [|y ds]; cbn [app] in Eq.
    - rewrite Eq in Hr. apply stops_cons in Hr. apply Hr.
    - injection Eq as -> _. destruct (unhexdigit x) as [e|] eqn:Ux; [now apply (digits_x x e)|].
      exfalso. apply (H2 x); [right; now left|exact Ux]. }
  apply ceq_neq in X1, X2. rewrite X1, X2. cbn [orb]. rewrite andb_false_r. now rewrite K.
Qed.

(** "5x" and "0x" read as 5 and 0. *)
Lemma scan_hex_x n r : stops r -> exists q, scan_hex (hex n ++ "x"%char :: r) = Some (n, q).
Proof.
  intros Hr. destruct (hex_spec n) as (ds & -> & H1 & H2 & H3).
  destruct ds as [|c ds]; [easy|]. unfold scan_hex. cbn [app].
  destruct (unhexdigit c) as [d|] eqn:U; [|exfalso; apply (H2 c); [now left|exact U]].
  destruct (digit_plain c d U) as (P1 & P2 & P3). cbn [skip_space]. rewrite P1, P2, P3.
  unfold scan_unsigned. rewrite U.
  assert (scan_digits (c :: ds ++ "x"%char :: r) 0 = (n, "x"%char :: r)) as K.
  { change (c :: ds ++ "x"%char :: r) with ((c :: ds) ++ "x"%char :: r). rewrite H3. reflexivity. }
  destruct ds as [|y ds]; cbn [app] in *.
  - destruct (ceq_spec c "0") as [-> |]; cbn [andb orb].
    + change (ceq "x" "x") with true. cbn [orb]. rewrite scan_digits_stop by auto.
      specialize (H3 0%N []). cbn in H3. injection H3 as H3. exists r. do 2 f_equal. lia.
    + rewrite K. eauto.
  - destruct (unhexdigit y) as [e|] eqn:Uy.
    2:{ exfalso. apply (H2 y); [right; now left|exact Uy]. }
    destruct (digits_x y e Uy) as [X1 X2]. apply ceq_neq in X1, X2. rewrite X1, X2. cbn [orb].
    rewrite andb_false_r, K. eauto.
Qed.

Lemma scan_fields_spec l r :
  l <> [] -> stops r -> scan_fields (length l) (fields l ++ r) = l.
Proof.
  intros N1 Hr. induction l as [|n l IH]; [easy|]. unfold fields in *. cbn [map length scan_fields].
  destruct l as [|m l].
  - cbn [map join]. rewrite scan_hex_hex by auto.
    destruct r as [|c r]; auto. destruct (ceq c ","); auto.
  - cbn [map join] in *. rewrite <- app_assoc. cbn [app].
    rewrite scan_hex_hex by reflexivity. cbn. f_equal.
    apply IH. discriminate.
Qed.

Lemma digits_nonul s : digits s -> nonul s.
Proof. intros H I. apply (H _ I). reflexivity. Qed.

Lemma fields_nonul l : nonul (fields l).
Proof.
  unfold fields. induction l as [|n l IH]; [easy|]. cbn [map join].
  destruct (map hex l) eqn:E.
  - apply digits_nonul, hex_digits.
  - apply nonul_app. split; [apply digits_nonul, hex_digits|].
    apply nonul_cons. split; [discriminate|exact IH].
Qed.

Lemma fields_first l : l <> [] -> exists c r, fields l = c :: r /\ unhexdigit c <> None.
Proof.
  destruct l as [|n l]; [easy|]. intros _. unfold fields. cbn [map join].
  pose proof (hex_nonempty n) as H1. pose proof (hex_digits n) as H2.
  destruct (hex n) as [|c h]; [easy|]. exists c.
  destruct (map hex l); [exists h|eexists]; cbn [app]; (split; [reflexivity|]); apply H2; now left.
Qed.

(** ** Buffers *)
Lemma zeros_length n : length (zeros n) = n.
Proof. apply repeat_length. Qed.

Lemma zeros_app a b : zeros (a + b) = zeros a ++ zeros b.
Proof. apply repeat_app. Qed.

Lemma skipn_zeros a b : skipn a (zeros b) = zeros (b - a).
Proof.
  unfold zeros. revert b; induction a as [|a IH]; intros [|b]; cbn [skipn repeat Nat.sub]; auto.
Qed.

(** Writing [s] where the rest of the buffer is still zero. *)
Lemma wr_zeros pre n s : length s <= n ->
  wr (pre ++ zeros n) (length pre) s = Ok ((pre ++ s) ++ zeros (n - length s)).
Proof.
  intros L. unfold wr. rewrite app_length, zeros_length.
  destruct (Nat.leb_spec (length pre + length s) (length pre + n)); [|lia].
  rewrite firstn_app_exact, <- !app_assoc. f_equal. f_equal. f_equal.
  rewrite Nat.add_comm, <- skipn_skipn, skipn_app_exact. apply skipn_zeros.
Qed.

Lemma snprintf_zeros pre n avail s : length s < n -> length s < avail ->
  snprintf_s (pre ++ zeros n) (length pre) avail s =
  Ok ((pre ++ cstr s) ++ zeros (n - length (cstr s))).
Proof.
  intros L1 L2. unfold snprintf_s. destruct avail as [|a]; [lia|].
  rewrite firstn_all2 by lia. apply wr_zeros. change (s ++ [NUL]) with (cstr s).
  unfold cstr. rewrite (app_length s [NUL]). cbn [length]. lia.
Qed.

Lemma cstring_app s r : nonul s -> cstring (s ++ NUL :: r) = Ok s.
Proof.
  intros H. unfold cstring. rewrite strlen_app by auto. cbn [bind]. now rewrite firstn_app_exact.
Qed.

Lemma cstr_app s r : cstr s ++ r = s ++ NUL :: r.
Proof. unfold cstr. now rewrite <- app_assoc. Qed.

Lemma cstr_len s : length (cstr s) = length s + 1.
Proof. unfold cstr. rewrite app_length. reflexivity. Qed.

(** ** One rule *)

(** What holds of the rules in the arrays. *)
Definition arr_rule (f : filter) : Prop :=
  (f_data f = None \/ exists d r, f_data f = Some (d, NUL :: r) /\ nonul d) /\
  nonul (str (f_dom f)) /\ nonul (f_tag f) /\ ~ In ","%char (f_tag f) /\
  nonul (str (f_host f)).

Lemma data_text_arr f : arr_rule f -> data_text f = Ok (pattern f).
Proof.
  intros ([H|(d & r & H & N1)] & _); unfold data_text, pattern; rewrite H; auto.
  cbn. now rewrite cstring_app.
Qed.

Lemma olen_str o : olen o = length (str o).
Proof. now destruct o. Qed.

Lemma tag_block_length t :
  length (tag_block t) = match t with [] => 0 | t => length t + 3 end.
Proof. destruct t; auto. unfold tag_block. rewrite !app_length. cbn. lia. Qed.

Lemma sf_size1_ok f : arr_rule f -> sf_size1 f = Ok (length (rule_record f)).
Proof.
  intros H. unfold sf_size1. rewrite data_text_arr by auto. cbn [bind].
  unfold rule_record, filter_head. rewrite !app_length, !cstr_len, tag_block_length, !olen_str.
  f_equal. destruct (f_tag f); lia.
Qed.

Lemma sf_size_ok fs : Forall arr_rule fs ->
  sf_size fs = Ok (length (flat_map rule_record fs)).
Proof.
  induction 1 as [|f fs H F IH]; [reflexivity|]. cbn [sf_size flat_map].
  rewrite sf_size1_ok by auto. cbn [bind]. rewrite IH. cbn [bind]. now rewrite app_length.
Qed.

Lemma sn_opt_zeros pre n avail o : length (str o) < n -> length (str o) < avail ->
  sn_opt (pre ++ zeros n) (length pre) avail o =
  Ok ((pre ++ cstr (str o)) ++ zeros (n - length (cstr (str o)))).
Proof.
  intros L1 L2. destruct o as [s|]; cbn [sn_opt str] in *.
  - now apply snprintf_zeros.
  - unfold cstr. cbn [app length]. f_equal. rewrite <- app_assoc. f_equal.
    destruct n; [lia|]. cbn. now rewrite Nat.sub_0_r.
Qed.

Lemma sf_write1_ok pre n avail f :
  arr_rule f -> length (rule_record f) <= n -> length (rule_record f) <= avail ->
  sf_write1 (pre ++ zeros n) (length pre) avail f =
  Ok ((pre ++ rule_record f) ++ zeros (n - length (rule_record f)),
      length pre + length (rule_record f)).
Proof.
  intros H L1 L2.
  assert (length (rule_record f) = length (filter_head f) + 1 + (length (str (pattern f)) + 1) +
    length (tag_block (f_tag f)) + (length (str (f_dom f)) + 1) + (length (str (f_host f)) + 1)) as LR.
  { unfold rule_record. rewrite !app_length, !cstr_len. unfold filter_head. lia. }
  unfold sf_write1. rewrite snprintf_zeros by lia. cbn [bind].
  rewrite data_text_arr by auto. cbn [bind].
  replace (length pre + length (filter_head f) + 1)
    with (length (pre ++ cstr (filter_head f))) by (rewrite app_length, cstr_len; lia).
  rewrite cstr_len in *.
  rewrite sn_opt_zeros by lia. cbn [bind]. rewrite olen_str.
  set (p2 := (pre ++ cstr (filter_head f)) ++ cstr (str (pattern f))).
  replace (length (pre ++ cstr (filter_head f)) + length (str (pattern f)) + 1)
    with (length p2) by (unfold p2; rewrite (app_length _ (cstr (str _))), cstr_len; lia).
  rewrite cstr_len.
  set (m := n - (length (filter_head f) + 1) - (length (str (pattern f)) + 1)).
  rewrite (bind_Ok_eq _ _
    ((p2 ++ tag_block (f_tag f)) ++ zeros (m - length (tag_block (f_tag f))),
     length (p2 ++ tag_block (f_tag f)))).
  2:{ pose proof (tag_block_length (f_tag f)) as TL. destruct (f_tag f) as [|c t] eqn:ET.
    - cbn [tag_block length]. now rewrite app_nil_r, Nat.sub_0_r.
    - change (B "~#" ++ (c :: t) ++ B ",") with (tag_block (c :: t)).
      rewrite wr_zeros by (unfold m; lia). cbn [bind]. f_equal. f_equal.
      rewrite app_length. lia. }
  set (p3 := p2 ++ tag_block (f_tag f)).
  rewrite sn_opt_zeros by (unfold m; lia). cbn [bind]. rewrite !olen_str.
  set (p4 := p3 ++ cstr (str (f_dom f))).
  replace (length p3 + length (str (f_dom f)) + 1) with (length p4)
    by (unfold p4; rewrite app_length, cstr_len; lia).
  rewrite cstr_len. rewrite sn_opt_zeros by (unfold m; lia). cbn [bind]. rewrite cstr_len.
  assert (p4 ++ cstr (str (f_host f)) = pre ++ rule_record f) as Ep.
  { unfold p4, p3, p2, rule_record, filter_head. now rewrite <- !app_assoc. }
  f_equal. f_equal.
  - rewrite Ep. f_equal. f_equal. unfold m. lia.
  - unfold p4, p3, p2. rewrite !app_length, !cstr_len. lia.
Qed.

Lemma sf_write_ok fs : forall pre n avail,
  Forall arr_rule fs -> length (flat_map rule_record fs) <= n ->
  length (flat_map rule_record fs) <= avail ->
  sf_write (pre ++ zeros n) (length pre) avail fs =
  Ok ((pre ++ flat_map rule_record fs) ++ zeros (n - length (flat_map rule_record fs)),
      length pre + length (flat_map rule_record fs)).
Proof.
  induction fs as [|f fs IH]; intros pre n avail F L1 L2.
  - cbn. now rewrite app_nil_r, Nat.sub_0_r, Nat.add_0_r.
  - inversion F; subst. cbn [sf_write flat_map] in *. rewrite app_length in *.
    rewrite sf_write1_ok by (auto; lia). cbn [bind].
    replace (length pre + length (rule_record f)) with (length (pre ++ rule_record f))
      by apply app_length.
    rewrite IH by (auto; lia). f_equal. f_equal.
    + rewrite <- !app_assoc. do 4 f_equal. lia.
    + rewrite app_length. lia.
Qed.

(** *** Reading *)
Lemma skipn_cstr_app s r : skipn (length s + 1) (cstr s ++ r) = r.
Proof. rewrite <- cstr_len. apply skipn_app_exact. Qed.

Lemma take_str_ok s r : nonul s ->
  take_str (cstr s ++ r) = Ok (match s with [] => None | _ => Some s end, r).
Proof.
  intros H. unfold take_str. rewrite cstr_app, cstring_app by auto. cbn [bind].
  rewrite <- cstr_app, skipn_cstr_app. reflexivity.
Qed.

Lemma take_data_ok s r : nonul s ->
  take_data (cstr s ++ r) =
  Ok (match s with [] => None | _ => Some (s, NUL :: r) end, r).
Proof.
  intros H. unfold take_data. rewrite cstr_app, cstring_app by auto. cbn [bind].
  rewrite skipn_app_exact, <- cstr_app, skipn_cstr_app. reflexivity.
Qed.

Lemma split_on_first c t r : ~ In c t -> exists ws, split_on c (t ++ c :: r) = t :: ws /\ ws <> [].
Proof.
  induction t as [|x t IH]; intros H; cbn [app split_on].
  - rewrite ceq_refl. exists (split_on c r). split; auto.
    destruct r as [|y r]; cbn; [discriminate|]. destruct (ceq y c); [discriminate|].
    now destruct (split_on c r).
  - destruct (ceq_spec x c) as [->|]; [exfalso; apply H; now left|].
    destruct IH as (ws & -> & N1). { intros I; apply H; now right. }
    exists ws. auto.
Qed.

Lemma take_tag_ok t s r :
  nonul t -> ~ In ","%char t -> nonul s -> (t = [] -> forall q, s <> B "~#" ++ q) ->
  take_tag (tag_block t ++ cstr s ++ r) = Ok (t, cstr s ++ r).
Proof.
  intros H1 H2 H3 H4. unfold take_tag. destruct t as [|x t].
  - cbn [tag_block app]. rewrite cstr_app. destruct s as [|c s]; [reflexivity|].
    cbn [app rd nth_error bind]. destruct (ceq_spec c "~") as [->|]; [|reflexivity].
    cbn [rd nth_error bind]. destruct s as [|c s]; [reflexivity|].
    unfold rd. cbn [app nth_error bind].
    destruct (ceq_spec c "#") as [->|]; [|reflexivity].
    exfalso. apply (H4 eq_refl s). reflexivity.
  - set (u := x :: t) in *.
    assert (tag_block u ++ cstr s ++ r = "~"%char :: "#"%char :: (u ++ ","%char :: s) ++ NUL :: r) as E.
    { unfold tag_block, u. cbn [B list_ascii_of_string app]. rewrite cstr_app.
      cbn [app]. do 3 f_equal. now rewrite <- !app_assoc. }
    rewrite E. unfold rd. cbn [nth_error bind]. cbn [ceq Ascii.eqb Bool.eqb].
    change (ceq "~" "~") with true. change (ceq "#" "#") with true. cbv iota.
    cbn [skipn]. rewrite cstring_app.
    2:{ apply nonul_app. split; auto. apply nonul_cons. split; [discriminate|auto]. }
    cbn [bind]. destruct (split_on_first "," u s H2) as (ws & -> & N1).
    destruct ws as [|w ws]; [easy|]. f_equal. f_equal.
    cbn [Nat.add skipn]. rewrite <- app_assoc. rewrite Nat.add_1_r.
    replace (u ++ (","%char :: s) ++ NUL :: r) with ((u ++ B ",") ++ cstr s ++ r)
      by (rewrite <- app_assoc, cstr_app; reflexivity).
    replace (S (length u)) with (length (u ++ B ",")) by (rewrite app_length; cbn; lia).
    now rewrite skipn_app_exact.
Qed.

(** What becomes of a stored rule. *)
Definition restored_as (f g : filter) : Prop :=
  f_type f = f_type g /\ f_opt f = f_opt g /\ f_anti f = f_anti g /\
  match f_data f, f_data g with
  | None, None => True
  | Some (d, t), Some (d', t') => d = d' /\ exists r, t' = t ++ r
  | _, _ => False
  end /\
  f_dom f = f_dom g /\ f_tag f = f_tag g /\ str (f_host f) = str (f_host g) /\
  (f_host f <> Some [] -> f_host f = f_host g).

(** The record of a rule is read back whatever follows it. *)
Lemma df_read1_ok f r :
  arr_rule f -> storable f ->
  (forall d t, f_data f = Some (d, t) -> t = [NUL]) ->
  exists g, df_read1 (rule_record f ++ r) = Ok (g, r) /\ restored_as f g /\ arr_rule g.
Proof.
  intros (A1 & A2 & A3 & A4 & A5) (S1 & S2 & S3) T. unfold df_read1, rule_record.
  rewrite <- !app_assoc.
  set (hd := fields [f_type f; f_opt f; f_anti f]).
  set (r1 := cstr (str (pattern f)) ++ _).
  assert (cstring (cstr hd ++ r1) = Ok hd) as ->.
  { rewrite cstr_app. apply cstring_app, fields_nonul. }
  cbn [bind]. rewrite skipn_cstr_app.
  assert (scan_fields 3 (cstr hd ++ r1) = [f_type f; f_opt f; f_anti f]) as ->.
  { rewrite cstr_app. unfold hd. apply (scan_fields_spec [f_type f; f_opt f; f_anti f]).
    - discriminate.
    - reflexivity. }
  assert (nonul (str (pattern f))) as Np.
  { destruct A1 as [A1|(d & t & A1 & N1)]; unfold pattern; rewrite A1; [easy|exact N1]. }
  unfold r1. rewrite take_data_ok by auto. cbn [bind].
  rewrite take_tag_ok; auto.
  2:{ intros E q X. destruct (f_dom f) as [s|] eqn:Ed; cbn [str] in X; [|discriminate].
      apply (S3 E q). exact (f_equal Some X). }
  cbn [bind]. rewrite take_str_ok by auto. cbn [bind].
  rewrite take_str_ok by auto. cbn [bind nthN nth].
  eexists. split; [reflexivity|]. split.
  - split; [reflexivity|]. split; [reflexivity|]. split; [reflexivity|]. split.
    { cbn [f_data]. unfold pattern in S1. destruct (f_data f) as [[d t]|] eqn:Ed; cbn [option_map] in S1.
      - unfold pattern. rewrite Ed. cbn [option_map fst str]. destruct d as [|c d]; [easy|].
        split; auto. rewrite (T _ _ eq_refl). eexists. reflexivity.
      - unfold pattern. rewrite Ed. reflexivity. }
    split.
    { cbn [f_dom]. destruct (f_dom f) as [[|c s]|]; try easy. }
    split; [reflexivity|]. split.
    { cbn [f_host]. destruct (f_host f) as [[|c s]|]; easy. }
    cbn [f_host]. destruct (f_host f) as [[|c s]|]; easy.
  - split; [|split; [|split; [|split]]]; cbn [f_data f_dom f_tag f_host]; auto.
    + destruct (str (pattern f)) as [|c d] eqn:Ep; [now left|]. right. eauto.
    + destruct (str (f_dom f)); auto.
    + destruct (str (f_host f)); auto.
Qed.

Lemma df_read_ok fs r :
  Forall arr_rule fs -> Forall storable fs ->
  (forall f d t, In f fs -> f_data f = Some (d, t) -> t = [NUL]) ->
  exists gs, df_read (length fs) (flat_map rule_record fs ++ r) = Ok (gs, r) /\
    Forall2 restored_as fs gs /\ Forall arr_rule gs.
Proof.
  intros F1. induction F1 as [|f fs H1 F1 IH]; intros F2 T.
  - exists []. cbn. auto.
  - inversion F2; subst. cbn [length df_read flat_map]. rewrite <- app_assoc.
    destruct (df_read1_ok f (flat_map rule_record fs ++ r)) as (g & -> & R & A); auto.
    { intros d t. apply T. now left. }
    cbn [bind]. destruct IH as (gs & -> & R' & A'); auto.
    { intros f' d t I. apply T. now right. }
    cbn [bind]. exists (g :: gs). auto.
Qed.
