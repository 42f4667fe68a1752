(** Proofs about the arguments of JavaScript calls (C95). *)
From Verif Require Import Base Flags Sets FilterM ParseM ClientM SerialM JsM OwnM OwnT BindM
  Spec SpecM SpecC SpecU SpecV SpecB P_Base P_Bind.
From Coq Require Import ZArith DecimalFacts DecimalZ DecimalPos DecimalN.

Lemma to_bool_falsy v : to_bool v = false <-> falsy v.
Proof.
  split.
  - destruct v as [| |[|]|z|[|u s]|b s|s n [|]]; cbn [to_bool]; intros H; try discriminate H; try constructor.
    apply negb_false_iff, Z.eqb_eq in H as ->. constructor.
  - now destruct 1.
Qed.

Lemma mask_bits z : low_bits z (Z.to_N (z mod 4294967296)).
Proof.
  intros i. change 4294967296%Z with (2 ^ 32)%Z.
  assert (0 <= z mod 2 ^ 32)%Z as P by (apply Z.mod_pos_bound; reflexivity).
  assert (N.testbit (Z.to_N (z mod 2 ^ 32)) i = Z.testbit (z mod 2 ^ 32) (Z.of_N i)) as ->.
  { rewrite <- (Z2N.id _ P) at 2. now rewrite <- Z.testbit_of_N. }
  destruct (N.lt_ge_cases i 32) as [L|L].
  - rewrite Z.mod_pow2_bits_low by lia. intuition.
  - rewrite Z.mod_pow2_bits_high by lia. split; [discriminate|]. intros [H _]. lia.
Qed.

Lemma low_bits_unique z m m' : low_bits z m -> low_bits z m' -> m = m'.
Proof.
  intros H H'. apply N.bits_inj. intros i. specialize (H i). specialize (H' i).
  destruct (N.testbit m i), (N.testbit m' i); intuition congruence.
Qed.

Lemma low_bits_id n : (n < 4294967296)%N -> low_bits (Z.of_N n) n.
Proof.
  intros L. assert (n = Z.to_N (Z.of_N n mod 4294967296)) as E.
  { rewrite Z.mod_small by lia. now rewrite N2Z.id. }
  rewrite E at 2. apply mask_bits.
Qed.

Lemma type_mask J v m : type_given J v m -> to_mask J v = m.
Proof.
  unfold to_mask. intros [(z & -> & L)|[-> ->]]; [|reflexivity].
  eapply low_bits_unique; [apply mask_bits|exact L].
Qed.

Lemma page_given_arg J v p : page_given J v p -> page_arg J v = Ok p.
Proof.
  intros [(t & T & ->)|[E ->]]; [now apply page_text|].
  unfold page_arg, pointer. now rewrite E.
Qed.

Lemma throwing J args r : r <> RThrows ->
  let x := or_throw (throws (to_number J (arg args 1)) || throws (to_string (arg args 2))) r in
  (x = RThrows <-> query_throws J args) /\ (x <> RThrows -> x = r).
Proof.
  intros N. unfold or_throw, throws, query_throws.
  destruct (to_number J (arg args 1)), (to_string (arg args 2)); cbn [orb]; intuition congruence.
Qed.

Lemma query_matches J E c args u mask page :
  to_string (arg args 0) = Some u -> type_given J (arg args 1) mask -> page_given J (arg args 2) page ->
  match matches E c (cstr (utf8 (j_lone J) u)) mask page with
  | UB => invoke J E c MMatches args = UB
  | Ok (v, c') => exists r, invoke J E c MMatches args = Ok (c', r) /\
      (r = RThrows <-> query_throws J args) /\ (r <> RThrows -> r = RBool (v_block v))
  end.
Proof.
  intros U T P. unfold invoke. rewrite (given_text J _ _ U). cbn [bind].
  rewrite (page_given_arg _ _ _ P). cbn [bind]. rewrite (type_mask _ _ _ T).
  destruct (matches E c (cstr (utf8 (j_lone J) u)) mask page) as [[v c']|]; cbn [bind fst snd]; [|reflexivity].
  eexists. split; [reflexivity|]. apply throwing. discriminate.
Qed.

Lemma query_find J E c args u mask page :
  to_string (arg args 0) = Some u -> type_given J (arg args 1) mask -> page_given J (arg args 2) page ->
  match findMatchingFilters E c (cstr (utf8 (j_lone J) u)) mask page with
  | UB => invoke J E c MFind args = UB
  | Ok v => forall c' r, invoke J E c MFind args = Ok (c', r) ->
      c' = c /\ (r = RThrows <-> query_throws J args) /\
      (r <> RThrows -> exists fd, r = RFound fd /\ fd_matches fd = v_block v)
  end.
Proof.
  intros U T P. unfold invoke. rewrite (given_text J _ _ U). cbn [bind].
  rewrite (page_given_arg _ _ _ P). cbn [bind]. rewrite (type_mask _ _ _ T).
  destruct (findMatchingFilters E c (cstr (utf8 (j_lone J) u)) mask page) as [v|]; cbn [bind]; [|reflexivity].
  intros c' r H. apply bind_ok in H as (a & _ & H). apply bind_ok in H as (b & _ & H). injection H as <- <-.
  split; auto.
  destruct (throwing J args (RFound (mkFound (v_block v) (fst a) (snd a) (fst b) (snd b)))) as [X Y]; [discriminate|].
  split; [exact X|]. intros N. apply Y in N. eexists. split; [exact N|reflexivity].
Qed.

Lemma parse_keep J E c args s : to_string (arg args 0) = Some s ->
  exists keep, (keep = false <-> falsy (arg args 1)) /\
    invoke J E c MParse args =
    rmap (fun c' => (c', RUndef)) (parse E keep (cstr (before_nul (utf8 (j_lone J) s))) c).
Proof.
  intros U. exists (to_bool (arg args 1)). split; [apply to_bool_falsy|].
  unfold invoke. rewrite (given_text J _ _ U). cbn [bind]. rewrite parse_before.
  destruct (parse E _ _ c); reflexivity.
Qed.

(** ** Integers *)
Lemma value_acc d : forall a, fold_left (fun a u => 10 * a + (u - 48))%N (uint_units d) (Npos a) =
  Npos (Pos.of_uint_acc d a).
Proof.
  induction d; intros a; cbn [uint_units fold_left Pos.of_uint_acc]; auto;
  match goal with |- fold_left _ _ ?x = Npos (Pos.of_uint_acc _ ?p) =>
    replace x with (Npos p); [auto|]; rewrite ?N.sub_diag; lia end.
Qed.

Lemma value_uint d : value (uint_units d) = N.of_uint d.
Proof.
  unfold value, N.of_uint. induction d; cbn [uint_units fold_left Pos.of_uint]; auto;
  match goal with |- fold_left _ _ ?x = _ => let y := eval vm_compute in x in change x with y end;
  auto; apply value_acc.
Qed.

Lemma digits_uint d : d <> Decimal.Nil -> digit_units (uint_units d).
Proof.
  intros N. split; [destruct d; easy|]. clear N.
  induction d; cbn [uint_units]; constructor; auto; lia.
Qed.

Lemma nzhead_no_zero e : forall f, Decimal.nzhead e <> Decimal.D0 f.
Proof.
  induction e; intros f H; cbn [Decimal.nzhead] in H; try discriminate H. eapply IHe; eauto.
Qed.

Lemma no_zero d : Decimal.unorm d = d -> (hd 0 (uint_units d) = 48 -> uint_units d = [48])%N.
Proof.
  intros U. destruct d; cbn [uint_units hd]; intros H; try discriminate H; auto.
  unfold Decimal.unorm in U. cbn [Decimal.nzhead] in U.
  destruct (Decimal.nzhead d) eqn:Q; try discriminate U.
  - injection U as <-. reflexivity.
  - exfalso.
    eapply nzhead_no_zero; eauto.
Qed.

Lemma norm_int z : Decimal.norm (Z.to_int z) = Z.to_int z.
Proof. rewrite <- DecimalZ.to_of. now rewrite DecimalZ.of_to. Qed.

Lemma int_decimal z : decimal z (int_units z).
Proof.
  unfold int_units. pose proof (DecimalZ.of_to z) as O. pose proof (norm_int z) as N.
  destruct (Z.to_int z) as [d|d] eqn:Q; cbn [Z.of_int] in O; cbn [Decimal.norm] in N.
  - injection N as N. exists (uint_units d).
    assert (d <> Decimal.Nil) as Nn by (intros ->; discriminate N).
    split; [now apply digits_uint|]. split; [now apply no_zero|].
    split; [rewrite value_uint; unfold Z.of_uint in O; rewrite <- O; unfold N.of_uint; now destruct (Pos.of_uint d)|].
    assert (z <? 0 = false)%Z as -> by (apply Z.ltb_ge; rewrite <- O; unfold Z.of_uint; lia). reflexivity.
  - destruct (Decimal.nzhead d) as [|e|e|e|e|e|e|e|e|e|e] eqn:Z0; try discriminate N;
      try (exfalso; eapply nzhead_no_zero; eassumption); injection N as N;
    assert (Decimal.unorm d = d) as U by (unfold Decimal.unorm; now rewrite Z0);
    assert (d <> Decimal.Nil) as Nn by (intros ->; discriminate N);
    exists (uint_units d); (split; [now apply digits_uint|]); (split; [now apply no_zero|]);
    (split; [rewrite value_uint; unfold Z.of_uint in O; rewrite <- O; unfold N.of_uint; now destruct (Pos.of_uint d)|]);
    (assert (z <? 0 = true)%Z as ->; [|reflexivity]); apply Z.ltb_lt; rewrite <- O; unfold Z.of_uint;
    subst d; cbn [Pos.of_uint]; lia.
Qed.

(** ** C96 *)
From Verif Require Import DataM SpecT P_Client P_Dec6.

Definition retag (x : client * bool) (ts : list bytes) : client * bool :=
  let c := fst x in
  (mkC (c_lists c) (c_numHA c) (c_numHAE c) (c_bloom c) (c_ebloom c) (c_host c) (c_ehost c)
       (c_nfd c) (c_nfa c) (c_nfdexc c) (c_nfaexc c) (c_badfp c) (c_stats c) ts, snd x).

Lemma deserialize_retag p c d : deserialize p c = rmap (fun x => retag x (c_tags c)) (deserialize p d).
Proof.
  unfold deserialize. change (c_badfp (clear c)) with (c_badfp (clear d)).
  change (c_stats (clear c)) with (c_stats (clear d)).
  change (c_tags (clear c)) with (c_tags c). change (c_tags (clear d)) with (c_tags d).
  destruct (cstring p) as [h|]; cbn [bind rmap]; [|reflexivity].
  destruct (lists_read _ _ _ _) as [[t q]|]; cbn [bind rmap]; [|reflexivity].
  repeat match goal with
  | |- bind ?x _ = rmap _ (bind ?x _) => destruct x as [?|]; cbn [bind rmap]; [|reflexivity]
  | |- (let '(_, _) := ?x in _) = _ => destruct x as [? [|]]; cbn [negb]
  end; reflexivity.
Qed.

Lemma forgets p c d : (forall t, tagExists c t = tagExists d t) ->
  match deserialize p c, deserialize p d with
  | Ok (c', ok), Ok (d', ok') => ok = ok' /\ getParsingStats c' = getParsingStats d' /\
      c_stats c' = c_stats d' /\ forall E, same_answers E c' d'
  | UB, UB => True
  | _, _ => False
  end.
Proof.
  intros T. rewrite (deserialize_retag p c client0), (deserialize_retag p d client0).
  destruct (deserialize p client0) as [[e ok]|]; cbn [rmap]; [|exact I].
  unfold retag. cbn [fst snd]. split; [reflexivity|]. split; [reflexivity|]. split; [reflexivity|].
  intros E. set (c' := mkC _ _ _ _ _ _ _ _ _ _ _ _ _ (c_tags c)). set (d' := mkC _ _ _ _ _ _ _ _ _ _ _ _ _ (c_tags d)).
  assert (alike c' d') as A.
  { split; [unfold same_rules; repeat split|]. split; [intros t; exact (T t)|]. reflexivity. }
  split; intros url context dom; [intros v|]; destruct (answers_alike E c' d' url context dom A) as [M F]; auto.
  destruct (matches E c' url context dom) as [[v1 c1]|], (matches E d' url context dom) as [[v2 c2]|];
    cbn [rmap fst] in M; try discriminate M.
  - injection M as <-. split; intros (x & H); injection H as -> ->; eauto.
  - split; intros (x & H); discriminate H.
Qed.
