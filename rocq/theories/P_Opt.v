(** Proofs about options. *)
From Verif Require Import Base Flags Url Sets FilterM ParseM ClientM Spec SpecM
  P_Base P_Url P_Match P_Rule P_Parse P_List P_Shape P_Fp P_Line P_Props2 P_Props3
  P_Line2 P_Line3 P_Line4 P_Line5 P_Fp2 P_Match2.

(** ** Cutting *)
Lemma split_cut c t : cut_at c t (split_on c t).
Proof.
  split; [apply split_on_nonempty|]. split.
  - induction t as [|x s IH]; auto. cbn [split_on].
    destruct (ceq_spec x c) as [->|N].
    + destruct (split_on c s) as [|w ws] eqn:E; [now apply split_on_nonempty in E|].
      change (joined c ([] :: w :: ws)) with (c :: joined c (w :: ws)).
      now rewrite <- IH.
    + destruct (split_on c s) as [|w ws] eqn:E; [now apply split_on_nonempty in E|].
      rewrite IH. now destruct ws.
  - intros p I J. now apply (split_on_In c t p c I) in J.
Qed.

Lemma cut_unique c t parts : cut_at c t parts -> parts = split_on c t.
Proof.
  intros (N & -> & H). induction parts as [|p more IH]; [easy|].
  destruct more as [|q more].
  - cbn. now rewrite split_on_none by (apply H; cbn; auto).
  - change (joined c (p :: q :: more)) with (p ++ c :: joined c (q :: more)).
    rewrite split_on_app by (apply H; cbn; auto). f_equal. apply IH; [easy|].
    intros x I. apply H. cbn; auto.
Qed.

(** ** Bits *)
Lemma has_common a b : has a b = true <-> common a b.
Proof.
  unfold has, common. rewrite negb_true_iff, N.eqb_neq. split.
  - intros H. exists (N.log2 (N.land a b)).
    pose proof (N.bit_log2 _ H) as K. rewrite N.land_spec in K.
    now apply andb_true_iff.
  - intros (i & H1 & H2) E.
    assert (N.testbit (N.land a b) i = true) as K by (rewrite N.land_spec, H1, H2; auto).
    rewrite E in K. now rewrite N.bits_0 in K.
Qed.

Lemma has_false a b : has a b = false <-> ~ common a b.
Proof. rewrite <- has_common. destruct (has a b); intuition congruence. Qed.

(** ** One option *)
Definition seg_split (seg : bytes) : bool * bytes :=
  match seg with
  | c :: s' => if ceq c "~" then (true, s') else (false, seg)
  | [] => (false, seg)
  end.

Definition seg_bit (seg : bytes) : N :=
  let s := snd (seg_split seg) in
  if prefixb (B "domain=") s || prefixb (B "tag=") s then 0%N else option_bit s.

Definition pos_bit (seg : bytes) : N := if fst (seg_split seg) then 0%N else seg_bit seg.
Definition neg_bit (seg : bytes) : N := if fst (seg_split seg) then seg_bit seg else 0%N.

Definition seg_dom (seg : bytes) : option bytes :=
  let s := snd (seg_split seg) in
  if prefixb (B "domain=") s then Some (skipn 7 s) else None.
Definition seg_tag (seg : bytes) : option bytes :=
  let s := snd (seg_split seg) in
  if prefixb (B "domain=") s then None
  else if prefixb (B "tag=") s then Some (skipn 4 s) else None.

Lemma parseOption_fields f seg :
  f_opt (parseOption f seg) = N.lor (f_opt f) (pos_bit seg) /\
  f_anti (parseOption f seg) = N.lor (f_anti f) (neg_bit seg) /\
  f_dom (parseOption f seg) = match seg_dom seg with Some d => Some d | None => f_dom f end /\
  f_tag (parseOption f seg) = match seg_tag seg with Some t => t | None => f_tag f end.
Proof.
  unfold parseOption, pos_bit, neg_bit, seg_bit, seg_dom, seg_tag.
  change (match seg with
          | [] => (false, seg)
          | c :: s' => if ceq c "~" then (true, s') else (false, seg)
          end) with (seg_split seg).
  destruct (seg_split seg) as [anti s]. cbn [fst snd].
  destruct (prefixb (B "domain=") s).
  { cbn. destruct anti; rewrite ?N.lor_0_r; auto. }
  destruct (prefixb (B "tag=") s).
  { cbn. destruct anti; rewrite ?N.lor_0_r; auto. }
  destruct anti; cbn; rewrite ?N.lor_0_r; auto.
Qed.

Definition last_some {A} (g : bytes -> option A) (d : option A) (segs : list bytes) :=
  fold_left (fun acc s => match g s with Some x => Some x | None => acc end) segs d.

Lemma fold_options segs : forall f,
  (forall i, N.testbit (f_opt (fold_left parseOption segs f)) i =
             N.testbit (f_opt f) i || existsb (fun s => N.testbit (pos_bit s) i) segs) /\
  (forall i, N.testbit (f_anti (fold_left parseOption segs f)) i =
             N.testbit (f_anti f) i || existsb (fun s => N.testbit (neg_bit s) i) segs) /\
  f_dom (fold_left parseOption segs f) = last_some seg_dom (f_dom f) segs /\
  Some (f_tag (fold_left parseOption segs f)) = last_some seg_tag (Some (f_tag f)) segs.
Proof.
  induction segs as [|s segs IH]; intros f; cbn [fold_left existsb last_some].
  - repeat split; auto; intros i; now rewrite orb_false_r.
  - destruct (IH (parseOption f s)) as (H1 & H2 & H3 & H4).
    destruct (parseOption_fields f s) as (F1 & F2 & F3 & F4).
    rewrite F1 in H1. rewrite F2 in H2. rewrite F3 in H3. rewrite F4 in H4.
    split; [|split; [|split]].
    + intros i. rewrite H1, N.lor_spec. now rewrite orb_assoc.
    + intros i. rewrite H2, N.lor_spec. now rewrite orb_assoc.
    + rewrite H3. unfold last_some. cbn [fold_left]. now destruct (seg_dom s).
    + rewrite H4. unfold last_some. cbn [fold_left]. now destruct (seg_tag s).
Qed.

(** ** Names *)
Lemma option_table_names :
  forall n b, In (n, b) option_table <-> In (n, b) (option_names1 ++ option_names2).
Proof.
  intros n b. split; intros I.
  - assert (forallb (fun x => existsb (fun y => beq (fst x) (fst y) && (snd x =? snd y)%N)
             (option_names1 ++ option_names2)) option_table = true) as K
      by (vm_compute; reflexivity).
    rewrite forallb_forall in K. apply K in I. apply existsb_exists in I as ([m c] & J & Q).
    cbn [fst snd] in Q. apply andb_true_iff in Q as [Q1 Q2]. apply beq_eq in Q1.
    apply N.eqb_eq in Q2. now subst.
  - assert (forallb (fun x => existsb (fun y => beq (fst x) (fst y) && (snd x =? snd y)%N)
             option_table) (option_names1 ++ option_names2) = true) as K
      by (vm_compute; reflexivity).
    rewrite forallb_forall in K. apply K in I. apply existsb_exists in I as ([m c] & J & Q).
    cbn [fst snd] in Q. apply andb_true_iff in Q as [Q1 Q2]. apply beq_eq in Q1.
    apply N.eqb_eq in Q2. now subst.
Qed.

Lemma known_bit n b : In (n, b) option_table -> option_bit n = b.
Proof.
  intros I.
  assert (forallb (fun x => (option_bit (fst x) =? snd x)%N) option_table = true) as K
    by (vm_compute; reflexivity).
  rewrite forallb_forall in K. apply K in I. now apply N.eqb_eq in I.
Qed.

Lemma known_prefix n b : In (n, b) option_table ->
  prefixb (B "domain=") n = false /\ prefixb (B "tag=") n = false /\
  prefixb (B "csp=") n = false /\ prefixb (B "redirect=") n = false.
Proof.
  intros I.
  assert (forallb (fun x => negb (prefixb (B "domain=") (fst x)) &&
    negb (prefixb (B "tag=") (fst x)) && negb (prefixb (B "csp=") (fst x)) &&
    negb (prefixb (B "redirect=") (fst x))) option_table = true) as K
    by (vm_compute; reflexivity).
  rewrite forallb_forall in K. apply K in I. cbn [fst] in I.
  rewrite !andb_true_iff, !negb_true_iff in I. tauto.
Qed.

Lemma lookup_name_none seg tbl :
  lookup_name seg tbl = None <->
  forall n b, In (n, b) tbl -> prefixb seg n = false.
Proof.
  induction tbl as [|[m c] tbl IH]; cbn; [split; auto; easy|].
  destruct (prefixb seg m) eqn:P.
  - split; [easy|]. intros H. assert (prefixb seg m = false) by (eapply H; eauto). congruence.
  - rewrite IH. split.
    + intros H n b [[= <- <-]|I]; eauto.
    + intros H n b I. eauto.
Qed.

Lemma begins_prefixb p s : begins p s <-> prefixb p s = true.
Proof. rewrite prefixb_spec. reflexivity. Qed.

Lemma not_begins p s : ~ begins p s <-> prefixb p s = false.
Proof. rewrite begins_prefixb. destruct (prefixb p s); intuition congruence. Qed.

Definition name_known_dec n :
  {exists b, In (n, b) option_table} + {forall b, ~ In (n, b) option_table}.
Proof.
  destruct (existsb (fun x => beq (fst x) n) option_table) eqn:Ex.
  - left. apply existsb_exists in Ex as ([m b] & I & Q). cbn in Q.
    apply beq_eq in Q as ->. eauto.
  - right. intros b I.
    assert (existsb (fun x => beq (fst x) n) option_table = true) as K; [|congruence].
    apply existsb_exists. exists (n, b). split; auto. now apply beq_eq.
Qed.

Lemma not_known_prefix n m b :
  (forall c, ~ In (n, c) option_table) -> ~ abbreviation n ->
  In (m, b) option_table -> prefixb n m = false.
Proof.
  intros Nk Na I. destruct (prefixb n m) eqn:P; auto. exfalso. apply Na.
  apply prefixb_spec in P as (r & Er). exists m, b, r. auto.
Qed.

Lemma name_bit_spec n b :
  ~ abbreviation n -> ~ begins (B "domain=") n -> ~ begins (B "tag=") n ->
  (name_bit n b <-> option_bit n = b).
Proof.
  intros Na Nd Nt. split.
  - intros H. destruct H as [n b I|n Hb|n Hb|n Nk Nc Nr _ _].
    + now apply known_bit.
    + assert (forall b, ~ In (n, b) option_table) as Nk.
      { intros c I. apply known_prefix in I as (_ & _ & I & _).
        apply begins_prefixb in Hb. congruence. }
      unfold option_bit. replace (lookup_name n option_names1) with (@None N).
      * apply begins_prefixb in Hb. now rewrite Hb.
      * symmetry. apply lookup_name_none. intros m c I.
        apply not_known_prefix with (b := c); auto.
        apply option_table_names. apply in_or_app; auto.
    + assert (forall b, ~ In (n, b) option_table) as Nk.
      { intros c I. apply known_prefix in I as (_ & _ & _ & I).
        apply begins_prefixb in Hb. congruence. }
      unfold option_bit. replace (lookup_name n option_names1) with (@None N).
      * destruct (prefixb (B "csp=") n) eqn:C.
        { destruct Hb as (v & ->). discriminate C. }
        apply begins_prefixb in Hb. now rewrite Hb.
      * symmetry. apply lookup_name_none. intros m c I.
        apply not_known_prefix with (b := c); auto.
        apply option_table_names. apply in_or_app; auto.
    + unfold option_bit. replace (lookup_name n option_names1) with (@None N).
      * apply not_begins in Nc, Nr. rewrite Nc, Nr.
        replace (lookup_name n option_names2) with (@None N); auto.
        symmetry. apply lookup_name_none. intros m c I.
        apply not_known_prefix with (b := c); auto.
        apply option_table_names. apply in_or_app; auto.
      * symmetry. apply lookup_name_none. intros m c I.
        apply not_known_prefix with (b := c); auto.
        apply option_table_names. apply in_or_app; auto.
  - intros <-. destruct (name_known_dec n) as [[b I]|Nk].
    + rewrite (known_bit n b I). now constructor.
    + unfold option_bit. replace (lookup_name n option_names1) with (@None N).
      2:{ symmetry. apply lookup_name_none. intros m c I.
          apply not_known_prefix with (b := c); auto.
          apply option_table_names. apply in_or_app; auto. }
      destruct (prefixb (B "csp=") n) eqn:C.
      { apply nb_csp. now apply begins_prefixb. }
      destruct (prefixb (B "redirect=") n) eqn:R.
      { apply nb_redirect. now apply begins_prefixb. }
      replace (lookup_name n option_names2) with (@None N).
      2:{ symmetry. apply lookup_name_none. intros m c I.
          apply not_known_prefix with (b := c); auto.
          apply option_table_names. apply in_or_app; auto. }
      apply nb_unknown; auto; now apply not_begins.
Qed.

Lemma name_bit_no_value n b :
  name_bit n b -> ~ begins (B "domain=") n /\ ~ begins (B "tag=") n.
Proof.
  intros [m c I|m (v & ->)|m (v & ->)|m _ _ _ H1 H2]; auto.
  - apply known_prefix in I as (I1 & I2 & _). split; now apply not_begins.
  - split; apply not_begins; reflexivity.
  - split; apply not_begins; reflexivity.
Qed.

Lemma pos_bit_spec parts n b :
  written_out parts -> positive_option parts n ->
  (name_bit n b -> pos_bit n = b).
Proof.
  intros W P Hn. destruct (name_bit_no_value n b Hn) as [Nd Nt].
  assert (seg_split n = (false, n)) as Es.
  { destruct P as [_ P]. apply not_begins in P. destruct n as [|c n]; auto.
    cbn [seg_split]. destruct (ceq_spec c "~") as [->|]; [|reflexivity].
    cbn in P. discriminate. }
  unfold pos_bit, seg_bit. rewrite Es. cbn [fst snd].
  pose proof Nd as Nd'. pose proof Nt as Nt'.
  apply not_begins in Nd', Nt'. rewrite Nd', Nt'. cbn [orb].
  apply name_bit_spec; auto.
Qed.

Lemma option_bits pres r f b o parts :
  good_rule r -> x_options r = Some o -> cut_at "," o parts ->
  parse_filter pres (cstr (rule_line r)) (length (rule_line r)) = Ok (f, b) ->
  (forall i, N.testbit (f_opt f) i = true <->
             exists s, In s parts /\ N.testbit (pos_bit s) i = true) /\
  (forall i, N.testbit (f_anti f) i = true <->
             exists s, In s parts /\ N.testbit (neg_bit s) i = true) /\
  f_dom f = last_some seg_dom None parts /\
  Some (f_tag f) = last_some seg_tag (Some []) parts.
Proof.
  intros G O C HP. apply cut_unique in C as ->.
  rewrite (rule_shape pres r f b G HP).
  assert (forall g : filter, f_opt (set_data (if pres then set_rule g (Some (rule_line r)) else g) (x_body r)) = f_opt g /\
    f_anti (set_data (if pres then set_rule g (Some (rule_line r)) else g) (x_body r)) = f_anti g /\
    f_dom (set_data (if pres then set_rule g (Some (rule_line r)) else g) (x_body r)) = f_dom g /\
    f_tag (set_data (if pres then set_rule g (Some (rule_line r)) else g) (x_body r)) = f_tag g) as K
    by (intros g; now destruct pres).
  unfold shape. rewrite O. cbn [apply_options].
  destruct (K (fold_left parseOption (split_on "," o) (shape_base r))) as (K1 & K2 & K3 & K4).
  destruct (fold_options (split_on "," o) (shape_base r)) as (F1 & F2 & F3 & F4).
  rewrite K1, K2, K3, K4. split; [|split; [|split]]; auto.
  - intros i. rewrite F1. cbn [shape_base f_opt]. rewrite N.bits_0. cbn [orb].
    apply existsb_exists.
  - intros i. rewrite F2. cbn [shape_base f_anti]. rewrite N.bits_0. cbn [orb].
    apply existsb_exists.
Qed.

Lemma pos_bits_names parts i :
  written_out parts ->
  ((exists s, In s parts /\ N.testbit (pos_bit s) i = true) <->
   exists n b, positive_option parts n /\ name_bit n b /\ N.testbit b i = true).
Proof.
  intros W. split.
  - intros (s & I & T). unfold pos_bit, seg_bit in T.
    assert (fst (seg_split s) = false) as F.
    { destruct (fst (seg_split s)); auto; now rewrite N.bits_0 in T. }
    rewrite F in T.
    assert (snd (seg_split s) = s /\ ~ begins (B "~") s) as [E1 E2].
    { destruct s as [|c s]; [split; [reflexivity|apply not_begins; reflexivity]|].
      cbn [seg_split] in *. destruct (ceq_spec c "~"); [discriminate|].
      split; auto. intros (v & [= -> ->]). easy. }
    rewrite E1 in T. destruct (prefixb (B "domain=") s) eqn:D; [now rewrite N.bits_0 in T|].
    destruct (prefixb (B "tag=") s) eqn:Tg; [now rewrite N.bits_0 in T|]. cbn [orb] in T.
    exists s, (option_bit s). assert (positive_option parts s) as P by (split; auto).
    split; auto. split; auto. apply name_bit_spec; auto; now apply not_begins.
  - intros (n & b & P & Hn & T). exists n. split; [apply P|].
    now rewrite (pos_bit_spec parts n b W P Hn).
Qed.

Lemma neg_bits_names parts i :
  written_out parts ->
  ((exists s, In s parts /\ N.testbit (neg_bit s) i = true) <->
   exists n b, negative_option parts n /\ name_bit n b /\ N.testbit b i = true).
Proof.
  intros W. split.
  - intros (s & I & T). unfold neg_bit, seg_bit in T.
    assert (fst (seg_split s) = true) as F.
    { destruct (fst (seg_split s)); auto; now rewrite N.bits_0 in T. }
    rewrite F in T.
    destruct s as [|c n]; [easy|].
    cbn [seg_split] in *. destruct (ceq_spec c "~") as [->|]; [|discriminate].
    cbn [fst snd] in T.
    destruct (prefixb (B "domain=") n) eqn:D; [now rewrite N.bits_0 in T|].
    destruct (prefixb (B "tag=") n) eqn:Tg; [now rewrite N.bits_0 in T|]. cbn [orb] in T.
    exists n, (option_bit n).
    assert (negative_option parts n) as P by exact I.
    split; auto. split; auto. apply name_bit_spec; auto; now apply not_begins.
  - intros (n & b & P & Hn & T). exists (B "~" ++ n). split; [apply P|].
    unfold neg_bit, seg_bit. cbn [app B].
    change (seg_split (B "~" ++ n)) with (true, n). cbn [fst snd].
    destruct (name_bit_no_value n b Hn) as [Nd Nt].
    pose proof Nd as Nd'. pose proof Nt as Nt'.
    apply not_begins in Nd', Nt'. rewrite Nd', Nt'. cbn [orb].
    apply (name_bit_spec n b) in Hn; auto. now rewrite Hn.
Qed.
