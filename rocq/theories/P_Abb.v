(** Abbreviated option names. *)
From Verif Require Import Base Flags Url Sets FilterM ParseM ClientM Spec SpecM SpecG
  P_Base P_Url P_Match P_Rule P_Parse P_List P_Shape P_Fp P_Line P_Props2 P_Props3
  P_Line2 P_Line3 P_Line4 P_Line5 P_Fp2 P_Match2 P_Opt P_Opt2.

Lemma lookup_app seg a b :
  lookup_name seg (a ++ b) =
  match lookup_name seg a with Some c => Some c | None => lookup_name seg b end.
Proof.
  induction a as [|[m c] a IH]; [reflexivity|]. cbn [app lookup_name].
  destruct (prefixb seg m); auto.
Qed.

(** The order of the four names that stand differently in the table of the
    specification makes no difference. *)
Lemma lookup_table seg :
  lookup_name seg option_table = lookup_name seg (option_names1 ++ option_names2).
Proof.
  destruct seg as [|c seg]; [reflexivity|].
  set (x := c :: seg).
  change option_table with
    (firstn 8 option_table ++ [(B "other", FOOther)] ++
     [(B "xbl", FOXBL); (B "collapse", FOCollapse); (B "donottrack", FODoNotTrack)] ++
     skipn 12 option_table).
  change (option_names1 ++ option_names2) with
    (firstn 8 option_table ++
     [(B "xbl", FOXBL); (B "collapse", FOCollapse); (B "donottrack", FODoNotTrack)] ++
     [(B "other", FOOther)] ++ skipn 12 option_table).
  rewrite !lookup_app. destruct (lookup_name x (firstn 8 option_table)); [reflexivity|].
  generalize (lookup_name x (skipn 12 option_table)). intros r.
  unfold x. cbn [lookup_name B list_ascii_of_string prefixb].
  destruct (ceq_spec c "o") as [->|N]; cbn [andb].
  - change (ceq "o" "x") with false. change (ceq "o" "c") with false.
    change (ceq "o" "d") with false. cbn [andb]. now destruct (prefixb _ _).
  - repeat (destruct (_ && _); [reflexivity|]). reflexivity.
Qed.

Lemma lookup_first seg tbl c :
  lookup_name seg tbl = Some c <->
  exists before m after, tbl = before ++ (m, c) :: after /\ begins seg m /\
    forall e, In e before -> ~ begins seg (fst e).
Proof.
  induction tbl as [|[m d] tbl IH]; cbn [lookup_name].
  - split; [discriminate|]. intros (b & m & a & E & _). now destruct b.
  - destruct (prefixb seg m) eqn:P.
    + split.
      * intros [= <-]. exists [], m, tbl. split; [reflexivity|].
        split; [now apply begins_prefixb|]. intros e [].
      * intros (b & m' & a & E & Bm & Nb). destruct b as [|e b].
        { injection E as -> -> ->. reflexivity. }
        injection E as <- ->. exfalso. apply (Nb (m, d)); [cbn; auto|].
        now apply begins_prefixb.
    + rewrite IH. split.
      * intros (b & m' & a & -> & Bm & Nb). exists ((m, d) :: b), m', a.
        split; [reflexivity|]. split; [auto|]. intros e [<-|I]; auto.
        now apply not_begins.
      * intros (b & m' & a & E & Bm & Nb). destruct b as [|e b].
        { injection E as -> -> ->. apply begins_prefixb in Bm. congruence. }
        injection E as <- ->. exists b, m', a. split; [reflexivity|]. split; [auto|].
        intros e I. apply Nb. cbn; auto.
Qed.

Lemma lookup_valued v n : begins v n -> (forall m b, In (m, b) option_table -> prefixb v m = false) ->
  lookup_name n option_table = None.
Proof.
  intros (w & ->) H. apply lookup_name_none. intros m b I. specialize (H m b I).
  destruct (prefixb (v ++ w) m) eqn:P; auto.
  apply prefixb_spec in P as (r & ->).
  assert (prefixb v ((v ++ w) ++ r) = true); [|congruence].
  apply prefixb_spec. exists (w ++ r). now rewrite app_assoc.
Qed.

Lemma denotes_spec n c :
  ~ begins (B "domain=") n -> ~ begins (B "tag=") n ->
  (denotes n c <-> option_bit n = c).
Proof.
  intros Nd Nt.
  assert (begins (B "csp=") n -> lookup_name n option_table = None) as VC.
  { intros H. apply (lookup_valued (B "csp=")); auto. intros m b I. now apply known_prefix in I. }
  assert (begins (B "redirect=") n -> lookup_name n option_table = None) as VR.
  { intros H. apply (lookup_valued (B "redirect=")); auto. intros m b I. now apply known_prefix in I. }
  assert (option_bit n = match lookup_name n option_table with
          | Some b => b
          | None => if prefixb (B "csp=") n then FOCSP
                    else if prefixb (B "redirect=") n then FORedirect else FOUnknown end) as OB.
  { unfold option_bit. rewrite begins_prefixb in VC, VR.
    rewrite lookup_table, lookup_app in *.
    destruct (lookup_name n option_names1); [reflexivity|].
    destruct (prefixb (B "csp=") n). { now rewrite VC. }
    destruct (prefixb (B "redirect=") n). { now rewrite VR. }
    reflexivity. }
  rewrite OB. split.
  - intros D. destruct D as [n before m b after E Bm Nb|n H|n H|n H1 H2 H3 _ _].
    + assert (lookup_name n option_table = Some b) as -> by (apply lookup_first; eauto 6).
      reflexivity.
    + rewrite (VC H). apply begins_prefixb in H. now rewrite H.
    + rewrite (VR H). apply begins_prefixb in H. rewrite H.
      destruct (prefixb (B "csp=") n) eqn:C; auto.
      apply begins_prefixb in H as (v & ->). discriminate C.
    + assert (lookup_name n option_table = None) as ->.
      { apply lookup_name_none. intros m b I. apply not_begins. apply (H1 (m, b) I). }
      apply not_begins in H2, H3. now rewrite H2, H3.
  - intros <-. destruct (lookup_name n option_table) as [b|] eqn:L.
    { apply lookup_first in L as (before & m & after & E & Bm & Nb). eapply dn_first; eauto. }
    destruct (prefixb (B "csp=") n) eqn:C. { apply dn_csp. now apply begins_prefixb. }
    destruct (prefixb (B "redirect=") n) eqn:R. { apply dn_redirect. now apply begins_prefixb. }
    apply dn_unknown; auto; try now apply not_begins.
    intros [m b] I. apply not_begins. eapply lookup_name_none in L; eauto.
Qed.

Lemma denotes_no_value n b :
  denotes n b -> ~ begins (B "domain=") n /\ ~ begins (B "tag=") n.
Proof.
  intros [m before k c after E (v & Ev) _|m (v & ->)|m (v & ->)|m _ _ _ H1 H2]; auto.
  - assert (In (k, c) option_table) as I by (rewrite E; apply in_or_app; cbn; auto).
    apply known_prefix in I as (I1 & I2 & _). subst k.
    split; intros (w & ->).
    + assert (prefixb (B "domain=") ((B "domain=" ++ w) ++ v) = true) by reflexivity. congruence.
    + assert (prefixb (B "tag=") ((B "tag=" ++ w) ++ v) = true) by reflexivity. congruence.
  - split; apply not_begins; reflexivity.
  - split; apply not_begins; reflexivity.
Qed.

Lemma pos_bits_denote parts i :
  (exists s, In s parts /\ N.testbit (pos_bit s) i = true) <->
  exists n b, positive_option parts n /\ denotes n b /\ N.testbit b i = true.
Proof.
  split.
  - intros (s & I & T). unfold pos_bit, seg_bit in T.
    assert (fst (seg_split s) = false) as F.
    { destruct (fst (seg_split s)); auto; now rewrite N.bits_0 in T. }
    rewrite F in T.
    assert (snd (seg_split s) = s /\ ~ begins (B "~") s) as [E1 E2].
    { destruct s as [|c s]; [split; [reflexivity|apply not_begins; reflexivity]|].
      cbn [seg_split] in *. destruct (ceq_spec c "~"); [discriminate|].
      split; auto. intros (v & [= -> ->]). easy. }
    rewrite E1 in T. destruct (prefixb (B "domain=") s) eqn:D; [now rewrite N.bits_0 in T|].
    destruct (prefixb (B "tag=") s) eqn:Tg; [now rewrite N.bits_0 in T|]. cbn [orb] in T.
    exists s, (option_bit s). split; [split; auto|]. split; auto.
    apply denotes_spec; auto; now apply not_begins.
  - intros (n & b & P & Hn & T). exists n. split; [apply P|].
    destruct (denotes_no_value n b Hn) as [Nd Nt].
    assert (seg_split n = (false, n)) as Es.
    { destruct P as [_ P]. apply not_begins in P. destruct n as [|c n]; auto.
      cbn [seg_split]. destruct (ceq_spec c "~") as [->|]; [|reflexivity].
      cbn in P. discriminate. }
    unfold pos_bit, seg_bit. rewrite Es. cbn [fst snd].
    pose proof Nd as Nd'. pose proof Nt as Nt'.
    apply not_begins in Nd', Nt'. rewrite Nd', Nt'. cbn [orb].
    apply denotes_spec in Hn; auto. now rewrite Hn.
Qed.

Lemma neg_bits_denote parts i :
  (exists s, In s parts /\ N.testbit (neg_bit s) i = true) <->
  exists n b, negative_option parts n /\ denotes n b /\ N.testbit b i = true.
Proof.
  split.
  - intros (s & I & T). unfold neg_bit, seg_bit in T.
    assert (fst (seg_split s) = true) as F.
    { destruct (fst (seg_split s)); auto; now rewrite N.bits_0 in T. }
    rewrite F in T.
    destruct s as [|c n]; [easy|].
    cbn [seg_split] in *. destruct (ceq_spec c "~") as [->|]; [|discriminate].
    cbn [fst snd] in T.
    destruct (prefixb (B "domain=") n) eqn:D; [now rewrite N.bits_0 in T|].
    destruct (prefixb (B "tag=") n) eqn:Tg; [now rewrite N.bits_0 in T|]. cbn [orb] in T.
    exists n, (option_bit n). split; [exact I|]. split; auto.
    apply denotes_spec; auto; now apply not_begins.
  - intros (n & b & P & Hn & T). exists (B "~" ++ n). split; [apply P|].
    unfold neg_bit, seg_bit. cbn [app B].
    change (seg_split (B "~" ++ n)) with (true, n). cbn [fst snd].
    destruct (denotes_no_value n b Hn) as [Nd Nt].
    pose proof Nd as Nd'. pose proof Nt as Nt'.
    apply not_begins in Nd', Nt'. rewrite Nd', Nt'. cbn [orb].
    apply (denotes_spec n b) in Hn; auto. now rewrite Hn.
Qed.

Lemma options_denote pres r f b o parts :
  good_rule r -> x_options r = Some o -> cut_at "," o parts ->
  parse_filter pres (cstr (rule_line r)) (length (rule_line r)) = Ok (f, b) ->
  (forall i, N.testbit (f_opt f) i = true <->
     exists n c, positive_option parts n /\ denotes n c /\ N.testbit c i = true) /\
  (forall i, N.testbit (f_anti f) i = true <->
     exists n c, negative_option parts n /\ denotes n c /\ N.testbit c i = true).
Proof.
  intros G O C HP. destruct (option_bits pres r f b o parts G O C HP) as (H1 & H2 & _).
  split; intros i.
  - rewrite H1. apply pos_bits_denote.
  - rewrite H2. apply neg_bits_denote.
Qed.

(** Every name that carries no value denotes exactly one option. *)
Lemma denotes_total n : ~ begins (B "domain=") n -> ~ begins (B "tag=") n ->
  exists c, denotes n c /\ forall d, denotes n d -> d = c.
Proof.
  intros Nd Nt. exists (option_bit n). split; [now apply denotes_spec|].
  intros d H. apply denotes_spec in H; auto.
Qed.

(** A name that is not abbreviated denotes what it says. *)
Lemma denotes_name n c : ~ abbreviation n -> (denotes n c <-> name_bit n c).
Proof.
  intros Na. split; intros H.
  - destruct (denotes_no_value n c H) as [Nd Nt]. apply name_bit_spec; auto.
    now apply denotes_spec.
  - destruct (name_bit_no_value n c H) as [Nd Nt]. apply denotes_spec; auto.
    now apply name_bit_spec.
Qed.
