(** Data files are accepted exactly if they have their format: C101. *)
From Verif Require Import Base Flags Sets FilterM ParseM ClientM SerialM Spec SpecM SpecS SpecFile
  P_Base P_Rule P_List P_Ser1 P_Ser2 SpecC SpecW P_File P_File2 P_Ser7 SpecFile.

(** ** Bloom filters *)

Lemma ascii_high c i : (8 <= i)%N -> N.testbit (N_of_ascii c) i = false.
Proof.
  intros H. destruct (N.eq_dec (N_of_ascii c) 0) as [->|N]; [apply N.bits_0|].
  apply N.bits_above_log2. pose proof (N_ascii_bounded c) as L.
  apply N.lt_le_trans with 8%N; auto. apply N.log2_lt_pow2; [lia|]. exact L.
Qed.

Lemma le_bits s : forall i, N.testbit (le_num s) i =
  (i <? 8 * N.of_nat (length s))%N && N.testbit (N_of_ascii (nth (N.to_nat (i / 8)) s NUL)) (i mod 8).
Proof.
  induction s as [|c s IH]; intros i.
  - cbn [le_num length]. rewrite N.bits_0. cbn [N.of_nat]. rewrite N.mul_0_r. symmetry.
    apply andb_false_iff. left. apply N.ltb_ge. lia.
  - cbn [le_num length]. rewrite N.lor_spec. destruct (N.lt_ge_cases i 8) as [L|L].
    + rewrite N.shiftl_spec_low by auto. rewrite orb_false_r, N.div_small, N.mod_small by auto.
      change (N.to_nat 0) with 0. cbn [nth].
      replace (i <? 8 * N.of_nat (S (length s)))%N with true by (symmetry; apply N.ltb_lt; lia). reflexivity.
    + rewrite ascii_high by auto. rewrite N.shiftl_spec_high' by auto. cbn [orb]. rewrite IH.
      assert (i = (i - 8) + 1 * 8)%N as E by lia.
      assert (i / 8 = N.succ ((i - 8) / 8))%N as -> by (rewrite E at 1; rewrite N.div_add by lia; lia).
      assert (i mod 8 = (i - 8) mod 8)%N as -> by (rewrite E at 1; apply N.mod_add; lia).
      rewrite N2Nat.inj_succ. cbn [nth]. f_equal.
      apply Bool.eq_iff_eq_true. rewrite !N.ltb_lt. lia.
Qed.

Lemma nth_firstn_lt {A} (d : A) n : forall s i, i < n -> nth i (firstn n s) d = nth i s d.
Proof.
  induction n as [|n IH]; intros s i L; [lia|]. destruct s as [|x s]; [reflexivity|].
  destruct i as [|i]; [reflexivity|]. cbn [firstn nth]. apply IH. lia.
Qed.

Lemma bits_firstn n s i : n <= length s -> N.testbit (le_num (firstn n s)) i =
  (i <? 8 * N.of_nat n)%N && N.testbit (N_of_ascii (nth (N.to_nat (i / 8)) s NUL)) (i mod 8).
Proof.
  intros L. rewrite le_bits, firstn_length_le by auto.
  destruct (i <? 8 * N.of_nat n)%N eqn:B; [|reflexivity]. cbn [andb]. rewrite nth_firstn_lt; auto.
  apply N.ltb_lt in B. assert (i / 8 < N.of_nat n)%N by (apply N.div_lt_upper_bound; lia). lia.
Qed.

Lemma bloom_inv n s o : initBloom s n = Ok o -> bloom_text n s o.
Proof.
  unfold initBloom. destruct n as [|n]; [intros [= <-]; exact I|].
  destruct (length s <? S n) eqn:L; [discriminate|]. apply Nat.ltb_ge in L. intros H.
  assert (o = Some (bloom_of (firstn (S n) s))) as -> by congruence.
  unfold bloom_text. split; auto. split; [unfold bloom_of, bl_size; now rewrite firstn_length_le|].
  intros i. now apply bits_firstn.
Qed.

Lemma bloom_ok n s o : bloom_text n s o -> initBloom s n = Ok o.
Proof.
  unfold bloom_text, initBloom. destruct n as [|n]; [now destruct o|]. destruct o as [b|]; [|easy].
  intros (L & Sz & Bits). assert (length s <? S n = false) as -> by (apply Nat.ltb_ge; auto).
  f_equal. f_equal. destruct b as [bits size]. unfold bloom_of. cbn [bl_bits bl_size] in *. f_equal.
  - apply N.bits_inj. intros i. rewrite bits_firstn, Bits; auto.
  - now rewrite firstn_length_le, Sz.
Qed.

(** ** Arrays *)

Lemma field_tl v i : field (tl v) i = field v (S i).
Proof. unfold field. destruct v as [|x v]; cbn; auto. now destruct i. Qed.

Lemma fields_seq v n : map (field v) (seq 0 (S n)) = field v 0 :: map (field (tl v)) (seq 0 n).
Proof.
  cbn [seq map]. f_equal. rewrite <- seq_shift, map_map. apply map_ext. intros i. symmetry. apply field_tl.
Qed.

Lemma hd_field v : hd 0%N v = field v 0.
Proof. now destruct v. Qed.

Lemma arrays_inv ks : forall v p t0 t q, NoDup ks -> lists_read v ks p t0 = Ok (t, q) ->
  (forall k, ~ In k ks -> tget t k = tget t0 k) /\
  exists a, p = a ++ q /\ forall c, (forall k, In k ks -> tget (c_lists c) k = tget t k) ->
    arrays_text c ks (map (field v) (seq 0 (length ks))) a.
Proof.
  induction ks as [|k ks IH]; intros v p t0 t q D H; cbn [lists_read] in H.
  - injection H as <- <-. split; auto. exists []. split; auto. intros c _. constructor.
  - inversion D as [|? ? N D']. subst. apply bind_ok in H as ([fs p1] & R & H).
    apply rules_inv in R as (L & a & -> & A). rewrite hd_field in L.
    destruct (IH _ _ _ _ _ D' H) as (O & b & -> & Bt). split.
    + intros j J. rewrite O by (intros I; apply J; now right). rewrite tget_tset.
      destruct (kind_eq_dec _ _) as [E|E]; auto. destruct J. left. now rewrite E.
    + exists (a ++ b). split; [now rewrite app_assoc|]. intros c C. cbn [length]. rewrite fields_seq.
      assert (tget (c_lists c) k = fs) as E.
      { rewrite C by now left. rewrite O by auto. apply tget_tset_same. }
      constructor; rewrite ?E; auto.
      * rewrite L. apply N2Nat.id.
      * apply Bt. intros j J. apply C. now right.
Qed.

Lemma arrays_ok c ks : forall ns v a, NoDup ks -> arrays_text c ks ns a ->
  ns = map (field v) (seq 0 (length ks)) -> forall q t0,
  exists t, lists_read v ks (a ++ q) t0 = Ok (t, q) /\ (forall k, ~ In k ks -> tget t k = tget t0 k) /\
    forall k, In k ks -> Forall2 same_fields (tget (c_lists c) k) (tget t k).
Proof.
  induction ks as [|k ks IH]; intros ns v a D H -> q t0.
  - inversion H. subst. exists t0. repeat split; auto. intros k [].
  - inversion D as [|? ? N D']. cbn [length] in H. rewrite fields_seq in H.
    inversion H as [|? ? n ns' a1 s A L T]. subst.
    destruct (rules_ok _ _ A (s ++ q)) as (gs & R & F).
    destruct (IH _ (tl v) s D' T eq_refl q (tset t0 k gs)) as (t & Rt & O & G).
    exists t. split; [|split].
    + cbn [lists_read]. rewrite hd_field, <- L, Nat2N.id, <- app_assoc, R. cbn [bind]. exact Rt.
    + intros j J. rewrite O by (intros I; apply J; now right). rewrite tget_tset.
      destruct (kind_eq_dec _ _) as [Ek|Ek]; auto. destruct J. left. now rewrite Ek.
    + intros j [<-|J]; [|auto]. rewrite O by auto. now rewrite tget_tset_same.
Qed.

Lemma order_nodup : NoDup ser_order.
Proof. repeat constructor; cbn; intuition discriminate. Qed.

Lemma order_all k : In k ser_order.
Proof. destruct k; cbn; tauto. Qed.

(** ** The file *)

Lemma skip_add {A} (s : list A) a b : skipn b (skipn a s) = skipn (a + b) s.
Proof.
  revert s. induction a as [|a IH]; intros s; [reflexivity|]. destruct s as [|x s]; [now rewrite !skipn_nil|].
  cbn [skipn Nat.add]. apply IH.
Qed.

Lemma eq_sets (a b : option (list (list bytes))) :
  match a, b with None, None => True | Some x, Some y => Forall2 (Forall2 eq) x y | _, _ => False end -> a = b.
Proof.
  destruct a as [x|], b as [y|]; try easy. intros H. f_equal.
  induction H as [|u v x y Uv F IH]; [reflexivity|]. f_equal; auto.
  clear - Uv. induction Uv; [reflexivity|]. congruence.
Qed.

Lemma from_12 size (s : bytes) : skipn (list_sum (map size (seq 12 (12 - 12)))) s = s.
Proof. reflexivity. Qed.

Lemma from_next size (s : bytes) i : 12 <= i -> skipn (list_sum (map size (seq 12 (S i - 12)))) s =
  skipn (size i) (skipn (list_sum (map size (seq 12 (i - 12)))) s).
Proof.
  intros L. rewrite skip_add. replace (S i - 12) with (S (i - 12)) by lia. rewrite seq_S, map_app, list_sum_app.
  cbn [map list_sum fold_right]. replace (12 + (i - 12)) with i by lia. now rewrite Nat.add_0_r.
Qed.

Lemma accepted p d c : deserialize p d = Ok (c, true) -> data_file p c /\ c_tags c = c_tags d.
Proof.
  intros H. unfold deserialize in H. apply bind_ok in H as (h & Ch & H).
  apply cstring_inv in Ch as (r & -> & Nh). rewrite fields_cstr, skipn_cstr_app in H.
  set (v := scan_fields 20 h) in *. cbv zeta in H.
  apply bind_ok in H as ([t s] & Rl & H).
  destruct (arrays_inv _ _ _ _ _ _ order_nodup Rl) as (_ & a & -> & A).
  apply bind_ok in H as (b1 & B1 & H). apply bind_ok in H as (b2 & B2 & H).
  apply bind_ok in H as ([s1 k1] & S1 & H). destruct k1; cbn [negb] in H; [|discriminate H].
  apply bind_ok in H as ([s2 k2] & S2 & H). destruct k2; cbn [negb] in H; [|discriminate H].
  apply bind_ok in H as ([s3 k3] & S3 & H). destruct k3; cbn [negb] in H; [|discriminate H].
  apply bind_ok in H as ([s4 k4] & S4 & H). destruct k4; cbn [negb] in H; [|discriminate H].
  apply bind_ok in H as ([s5 k5] & S5 & H). destruct k5; cbn [negb] in H; [|discriminate H].
  apply bind_ok in H as ([s6 k6] & S6 & H). injection H as <- ->. split; [|reflexivity].
  exists h, v, a, s. split; [reflexivity|]. split; [auto|]. split; [apply numbers_of|].
  split; [apply A; intros k _; reflexivity|].
  cbn [c_numHA c_numHAE c_bloom c_ebloom c_host c_ehost c_nfd c_nfa c_nfdexc c_nfaexc].
  split; [apply N2Nat.id|]. split; [apply N2Nat.id|]. cbv zeta.
  rewrite (from_next _ _ 18), (from_next _ _ 17), (from_next _ _ 16), (from_next _ _ 15), (from_next _ _ 14), (from_next _ _ 13), (from_next _ _ 12) by lia. rewrite from_12. fold (field v) in *. unfold nthN in *.
  split; [now apply bloom_inv|]. split; [now apply bloom_inv|].
  split; [now apply (set_inv fi_read host_item same_fields host_reads)|].
  split; [now apply (set_inv fi_read host_item same_fields host_reads)|].
  split; [now apply (set_inv nd_read domain_item eq domain_reads)|].
  split; [now apply (set_inv nd_read domain_item eq domain_reads)|].
  split; [now apply (set_inv nd_read domain_item eq domain_reads)|].
  now apply (set_inv nd_read domain_item eq domain_reads).
Qed.

Lemma of_format p c0 d : data_file p c0 -> exists c, deserialize p d = Ok (c, true) /\ same_contents c0 c.
Proof.
  intros (h & v & a & s & -> & Nh & V & A & H1 & H2 & H). cbv beta zeta in H.
  rewrite (from_next _ _ 18), (from_next _ _ 17), (from_next _ _ 16), (from_next _ _ 15), (from_next _ _ 14), (from_next _ _ 13), (from_next _ _ 12) in H by lia. rewrite from_12 in H.
  destruct H as (B1 & B2 & S1 & S2 & S3 & S4 & S5 & S6).
  apply numbers_spec in V.
  destruct (arrays_ok c0 ser_order _ v a order_nodup A eq_refl s (tall [])) as (t & Rl & _ & T).
  apply bloom_ok in B1. apply bloom_ok in B2.
  apply (set_ok fi_read host_item same_fields host_reads) in S1 as (o1 & S1 & E1).
  apply (set_ok fi_read host_item same_fields host_reads) in S2 as (o2 & S2 & E2).
  apply (set_ok nd_read domain_item eq domain_reads) in S3 as (o3 & S3 & E3).
  apply (set_ok nd_read domain_item eq domain_reads) in S4 as (o4 & S4 & E4).
  apply (set_ok nd_read domain_item eq domain_reads) in S5 as (o5 & S5 & E5).
  apply (set_ok nd_read domain_item eq domain_reads) in S6 as (o6 & S6 & E6).
  apply eq_sets in E3, E4, E5, E6. subst o3 o4 o5 o6.
  eexists. split.
  - unfold deserialize. rewrite (cstr_app h), cstring_app by auto. cbn [bind]. rewrite <- cstr_app.
    rewrite fields_cstr, skipn_cstr_app, V. cbv zeta. unfold nthN. fold (field v). rewrite Rl. cbn [bind].
    unfold field in *. rewrite B1. cbn [bind]. rewrite B2. cbn [bind].
    rewrite S1. cbn [bind negb]. rewrite S2. cbn [bind negb]. rewrite S3. cbn [bind negb].
    rewrite S4. cbn [bind negb]. rewrite S5. cbn [bind negb]. rewrite S6. cbn [bind negb]. reflexivity.
  - unfold same_contents, field in *.
    cbn [c_lists c_numHA c_numHAE c_bloom c_ebloom c_host c_ehost c_nfd c_nfa c_nfdexc c_nfaexc].
    split; [intros k; apply T, order_all|]. split; [rewrite <- H1; symmetry; apply Nat2N.id|].
    split; [rewrite <- H2; symmetry; apply Nat2N.id|]. repeat split; auto.
Qed.

Lemma accepted_iff p d : (exists c, deserialize p d = Ok (c, true)) <-> (exists c, data_file p c).
Proof.
  split; intros (c & H).
  - exists c. now apply (accepted p d).
  - destruct (of_format p c d H) as (c' & D & _). now exists c'.
Qed.

Lemma saved_format E calls c : history calls -> after E calls = Ok c ->
  forall noCosmetic noHtml buf r, serialize c noCosmetic noHtml = Ok buf ->
  exists c', data_file (buf ++ r) c' /\ c_numHA c' = c_numHA c /\ c_numHAE c' = c_numHAE c /\
    forall k, Forall2 same_fields (map as_read (tget (written (c_lists c) noCosmetic noHtml) k))
                                  (tget (c_lists c') k).
Proof.
  intros Hc A nc nh buf r Sz. destruct (lists_as_read E calls c Hc A nc nh buf client0 r Sz)
    as (c' & D & L & N1 & N2 & _).
  exists c'. repeat split; auto. now apply (accepted _ client0).
Qed.
