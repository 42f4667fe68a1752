(** Proofs about option matching. *)
From Coq Require Import Permutation Sorted.
From Verif Require Import Base Flags Url Sets FilterM ParseM ClientM Spec SpecM
  P_Base P_Url P_Match P_Rule P_Parse P_List P_Shape P_Fp P_Line P_Props2 P_Props3
  P_Line2 P_Line3 P_Line4 P_Line5 P_Fp2 P_Match2 P_Opt.

(** ** C24 *)
Lemma options_exact pres r f b o parts :
  good_rule r -> x_options r = Some o -> cut_at "," o parts -> written_out parts ->
  parse_filter pres (cstr (rule_line r)) (length (rule_line r)) = Ok (f, b) ->
  (forall i, N.testbit (f_opt f) i = true <->
     exists n c, positive_option parts n /\ name_bit n c /\ N.testbit c i = true) /\
  (forall i, N.testbit (f_anti f) i = true <->
     exists n c, negative_option parts n /\ name_bit n c /\ N.testbit c i = true).
Proof.
  intros G O C W HP.
  destruct (option_bits pres r f b o parts G O C HP) as (H1 & H2 & _).
  split; intros i.
  - rewrite H1. now apply pos_bits_names.
  - rewrite H2. now apply neg_bits_names.
Qed.

Lemma options_order pres r1 r2 f1 f2 b1 b2 o1 o2 p1 p2 :
  good_rule r1 -> good_rule r2 -> x_options r1 = Some o1 -> x_options r2 = Some o2 ->
  cut_at "," o1 p1 -> cut_at "," o2 p2 -> (forall s, In s p1 <-> In s p2) ->
  parse_filter pres (cstr (rule_line r1)) (length (rule_line r1)) = Ok (f1, b1) ->
  parse_filter pres (cstr (rule_line r2)) (length (rule_line r2)) = Ok (f2, b2) ->
  f_opt f1 = f_opt f2 /\ f_anti f1 = f_anti f2.
Proof.
  intros G1 G2 O1 O2 C1 C2 S HP1 HP2.
  destruct (option_bits pres r1 f1 b1 o1 p1 G1 O1 C1 HP1) as (A1 & A2 & _).
  destruct (option_bits pres r2 f2 b2 o2 p2 G2 O2 C2 HP2) as (B1 & B2 & _).
  split; apply N.bits_inj; intros i; apply eq_true_iff_eq.
  - rewrite A1, B1. split; intros (s & I & T); exists s; split; auto; now apply S.
  - rewrite A2, B2. split; intros (s & I & T); exists s; split; auto; now apply S.
Qed.

Lemma positive_bit pres r f b o parts n c :
  good_rule r -> x_options r = Some o -> cut_at "," o parts ->
  parse_filter pres (cstr (rule_line r)) (length (rule_line r)) = Ok (f, b) ->
  positive_option parts n -> ~ abbreviation n -> name_bit n c ->
  forall i, N.testbit c i = true -> N.testbit (f_opt f) i = true.
Proof.
  intros G O C HP P Na Hn i T.
  destruct (option_bits pres r f b o parts G O C HP) as (H1 & _).
  apply H1. exists n. split; [apply P|].
  rewrite (pos_bit_spec [n] n c); auto.
  - intros m [[[<-|[]] _]|[E|[]]]; auto. destruct P as [_ P]. exfalso. apply P.
    exists m. exact E.
  - split; [cbn; auto|apply P].
Qed.

Lemma negative_bit pres r f b o parts n c :
  good_rule r -> x_options r = Some o -> cut_at "," o parts ->
  parse_filter pres (cstr (rule_line r)) (length (rule_line r)) = Ok (f, b) ->
  negative_option parts n -> ~ abbreviation n -> name_bit n c ->
  forall i, N.testbit c i = true -> N.testbit (f_anti f) i = true.
Proof.
  intros G O C HP P Na Hn i T.
  destruct (option_bits pres r f b o parts G O C HP) as (_ & H1 & _).
  apply H1. exists (B "~" ++ n). split; [apply P|].
  assert (exists s, In s [B "~" ++ n] /\ N.testbit (neg_bit s) i = true) as K.
  { apply neg_bits_names.
    - intros m [[[<-|[]] K]|[E|[]]]; auto.
      + exfalso. apply K. now exists n.
      + apply app_inv_head in E. now subst.
    - exists n, c. split; auto. cbn; auto. }
  destruct K as (s & [<-|[]] & K). exact K.
Qed.

Lemma known_written n b : In (n, b) option_table -> ~ abbreviation n.
Proof. intros I (m & c & r & _ & _ & H). eapply H; eauto. Qed.

(** ** Option matching, exactly *)
Definition domain_ok (f : filter) (dom : option bytes) : Prop :=
  match f_dom f, dom with
  | Some _, Some d => contextDomainMatchesFilter f d = true
  | _, _ => True
  end.

Definition types_okb (f : filter) (context : N) : bool :=
  if (context =? 0)%N
  then negb (has (f_opt f) FOResourcesOnly) && negb (has (f_anti f) FOResourcesOnly)
  else ((N.ldiff (f_opt f) BehavioralFilterOnly =? 0)%N
        || has (N.land (f_opt f) FOResourcesOnly) context)
       && negb (has (N.land (f_anti f) FOResourcesOnly) context).

Definition domain_okb (f : filter) (dom : option bytes) : bool :=
  match f_dom f, dom with
  | Some _, Some d => contextDomainMatchesFilter f d
  | _, _ => true
  end.

Lemma domain_parts f dom : domain_okb f dom = true <-> domain_ok f dom.
Proof. unfold domain_okb, domain_ok. destruct (f_dom f), dom; tauto. Qed.

Lemma both_false a b c d : has a b && has c d = false <-> ~ (common a b /\ common c d).
Proof. rewrite <- !has_common. destruct (has a b), (has c d); cbn; intuition congruence. Qed.

Lemma types_parts f context :
  types_okb f context = true <->
  (if (context =? 0)%N
   then ~ common (f_opt f) FOResourcesOnly /\ ~ common (f_anti f) FOResourcesOnly
   else (N.ldiff (f_opt f) BehavioralFilterOnly = 0%N \/
         common (N.land (f_opt f) FOResourcesOnly) context) /\
        ~ common (N.land (f_anti f) FOResourcesOnly) context).
Proof.
  unfold types_okb. destruct (context =? 0)%N.
  - now rewrite andb_true_iff, !negb_true_iff, !has_false.
  - now rewrite andb_true_iff, orb_true_iff, negb_true_iff, has_false, has_common, N.eqb_eq.
Qed.

Lemma anti_nonbehavioral a context :
  has (N.land a FOResourcesOnly) context = true ->
  (N.ldiff a BehavioralFilterOnly =? 0)%N = false.
Proof.
  rewrite has_common; intros (i & T1 & T2); rewrite N.land_spec in T1.
  apply andb_true_iff in T1 as [T1 T3]. apply N.eqb_neq; intros E.
  assert (N.testbit (N.ldiff a BehavioralFilterOnly) i = true) as K.
  - rewrite N.ldiff_spec, T1; cbn [andb]; apply negb_true_iff.
    destruct (N.testbit BehavioralFilterOnly i) eqn:B1; auto.
    assert (N.testbit (N.land BehavioralFilterOnly FOResourcesOnly) i = true) as K
       by (rewrite N.land_spec, B1, T3; auto).
    change (N.land BehavioralFilterOnly FOResourcesOnly) with 0%N in K.
    now rewrite N.bits_0 in K.
  - rewrite E in K; now rewrite N.bits_0 in K.
Qed.

Lemma has_lor c a b : has c (N.lor a b) = has c a || has c b.
Proof.
  apply eq_true_iff_eq. rewrite orb_true_iff, !has_common. unfold common. split.
  - intros (i & T1 & T2). rewrite N.lor_spec, orb_true_iff in T2. destruct T2 as [T2|T2]; eauto.
  - intros [(i & T1 & T2)|(i & T1 & T2)]; exists i; rewrite N.lor_spec, T2; auto using orb_true_r.
Qed.

Lemma has_lor_l c a b : has (N.lor a b) c = has a c || has b c.
Proof. unfold has. rewrite !(N.land_comm _ c). apply (has_lor c). Qed.

Lemma matchesOptions_parts f context dom :
  matchesOptions f context dom =
  negb (has (f_opt f) FOUnsupportedSoSkipCheck)
  && (has (f_opt f) FODocument || negb (has context FODocument))
  && types_okb f context
  && domain_okb f dom
  && negb (has (f_opt f) FOThirdParty && has context FONotThirdParty)
  && negb (has (f_anti f) FOThirdParty && has context FOThirdParty).
Proof.
  unfold matchesOptions, hasUnsupportedOptions.
  destruct (has (f_opt f) FOUnsupportedSoSkipCheck); auto. cbn [negb andb].
  destruct (negb (has (f_opt f) FODocument) && has context FODocument) eqn:D.
  { apply andb_true_iff in D as [D1 D2]. apply negb_true_iff in D1. now rewrite D1, D2. }
  assert (has (f_opt f) FODocument || negb (has context FODocument) = true) as ->.
  { destruct (has (f_opt f) FODocument), (has context FODocument); auto. }
  cbn [andb].
  match goal with |- (if ?T then _ else _) = _ => assert (T = types_okb f context) as -> end.
  { unfold types_okb. pose proof (anti_nonbehavioral (f_anti f) context) as K.
    destruct (context =? 0)%N; cbn [negb].
    - now destruct (has (f_opt f) FOResourcesOnly), (has (f_anti f) FOResourcesOnly).
    - destruct (N.ldiff (f_opt f) BehavioralFilterOnly =? 0)%N,
        (has (N.land (f_opt f) FOResourcesOnly) context),
        (has (N.land (f_anti f) FOResourcesOnly) context); cbn [negb andb orb];
        try rewrite (K eq_refl); try rewrite andb_false_r; reflexivity. }
  destruct (types_okb f context); auto. cbn [andb].
  match goal with |- (if ?T then _ else _) = _ => assert (T = negb (domain_okb f dom)) as -> end.
  { unfold domain_okb. now destruct (f_dom f), dom. }
  destruct (domain_okb f dom); auto. cbn [negb andb].
  rewrite has_lor.
  destruct (has context FOThirdParty), (has context FONotThirdParty),
    (has (f_opt f) FOThirdParty), (has (f_anti f) FOThirdParty); auto.
Qed.

Lemma matchesOptions_exact f context dom :
  matchesOptions f context dom = true <->
  ~ common (f_opt f) FOUnsupportedSoSkipCheck /\
  (common context FODocument -> common (f_opt f) FODocument) /\
  (if (context =? 0)%N
   then ~ common (f_opt f) FOResourcesOnly /\ ~ common (f_anti f) FOResourcesOnly
   else (N.ldiff (f_opt f) BehavioralFilterOnly = 0%N \/
         common (N.land (f_opt f) FOResourcesOnly) context) /\
        ~ common (N.land (f_anti f) FOResourcesOnly) context) /\
  domain_ok f dom /\
  ~ (common (f_opt f) FOThirdParty /\ common context FONotThirdParty) /\
  ~ (common (f_anti f) FOThirdParty /\ common context FOThirdParty).
Proof.
  rewrite matchesOptions_parts, !andb_true_iff, negb_true_iff, has_false, orb_true_iff,
    negb_true_iff, has_common, has_false, types_parts, domain_parts, !negb_true_iff, !both_false.
  assert (forall P Q : Prop, (P \/ ~ Q) -> (Q -> P)) by tauto.
  assert (common (f_opt f) FODocument \/ ~ common context FODocument <->
          (common context FODocument -> common (f_opt f) FODocument)) as K.
  { destruct (has context FODocument) eqn:D; [apply has_common in D|apply has_false in D]; tauto. }
  rewrite K. tauto.
Qed.

Lemma no_options_false E f input n context dom bf host :
  matchesOptions f context dom = false ->
  filter_matches E f input n context dom bf host = Ok false.
Proof. unfold filter_matches. now intros ->. Qed.

Lemma match_options E f input n context dom bf host :
  filter_matches E f input n context dom bf host = Ok true ->
  matchesOptions f context dom = true.
Proof.
  unfold filter_matches. now destruct (matchesOptions f context dom).
Qed.

(** ** C25 *)
Lemma unsupported_rule pres r f b o parts n c :
  good_rule r -> x_options r = Some o -> cut_at "," o parts ->
  parse_filter pres (cstr (rule_line r)) (length (rule_line r)) = Ok (f, b) ->
  positive_option parts n -> ~ abbreviation n -> name_bit n c ->
  common c FOUnsupportedSoSkipCheck ->
  hasUnsupportedOptions f = true.
Proof.
  intros G O C HP P Na Hn (i & T1 & T2). unfold hasUnsupportedOptions.
  apply has_common. exists i. split; auto. eapply positive_bit; eauto.
Qed.

Lemma unsupported_never E f input n context dom bf host :
  hasUnsupportedOptions f = true ->
  filter_matches E f input n context dom bf host = Ok false.
Proof.
  intros H. apply no_options_false. unfold matchesOptions. now rewrite H.
Qed.

(** ** C26 *)
Lemma resource_bits i : N.testbit FOResourcesOnly i = true <->
  exists n b, In n resource_types /\ In (n, b) option_table /\ N.testbit b i = true.
Proof.
  split.
  - intros T.
    assert (forall l, N.testbit (fold_left N.lor l 0%N) i = true ->
              exists b, In b l /\ N.testbit b i = true) as K.
    { assert (forall l a, N.testbit (fold_left N.lor l a) i = true ->
              N.testbit a i = true \/ exists b, In b l /\ N.testbit b i = true) as K.
      { induction l as [|x l IH]; cbn; auto. intros a H. apply IH in H as [H|(b & I & H)].
        - rewrite N.lor_spec, orb_true_iff in H. destruct H; eauto.
        - right. eauto. }
      intros l H. apply K in H as [H|H]; auto. now rewrite N.bits_0 in H. }
    apply K in T as (b & I & T).
    assert (forallb (fun b => existsb (fun e => (snd e =? b)%N && memb (fst e) resource_types)
              option_table) [FOScript; FOImage; FOStylesheet; FOObject; FOXmlHttpRequest;
       FOObjectSubrequest; FOSubdocument; FODocument; FOOther; FOXBL; FOFont;
       FOMedia; FOWebRTC; FOWebsocket; FOPing] = true) as Q by (vm_compute; reflexivity).
    rewrite forallb_forall in Q. apply Q in I. apply existsb_exists in I as ([n c] & I & J).
    cbn [fst snd] in J. apply andb_true_iff in J as [J1 J2]. apply N.eqb_eq in J1 as ->.
    exists n, b. split; auto. unfold memb in J2. apply existsb_exists in J2 as (x & J2 & J3).
    apply beq_eq in J3 as ->. auto.
  - intros (n & b & I & J & T).
    assert (forallb (fun e => negb (memb (fst e) resource_types)
             || (N.land (snd e) FOResourcesOnly =? snd e)%N) option_table = true) as Q
      by (vm_compute; reflexivity).
    rewrite forallb_forall in Q. apply Q in J. cbn [fst snd] in J.
    assert (memb n resource_types = true) as M.
    { unfold memb. apply existsb_exists. exists n. split; auto. apply beq_eq; auto. }
    rewrite M in J. cbn [negb orb] in J. apply N.eqb_eq in J. rewrite <- J in T.
    rewrite N.land_spec, andb_true_iff in T. tauto.
Qed.

Lemma nonbehavioral_resource a :
  N.ldiff a BehavioralFilterOnly = 0%N -> ~ common a FOResourcesOnly.
Proof.
  intros E (i & T1 & T2).
  assert (has (N.land a FOResourcesOnly) FOResourcesOnly = true) as K.
  { apply has_common. exists i. rewrite N.land_spec, T1, T2. auto. }
  apply anti_nonbehavioral in K. apply N.eqb_neq in K. easy.
Qed.

Lemma name_bit_unique n a b :
  In (n, a) option_table -> name_bit n b -> a = b.
Proof.
  intros I H. pose proof (known_prefix n a I) as (P1 & P2 & P3 & P4).
  apply name_bit_spec in H.
  - rewrite <- H. symmetry. now apply known_bit.
  - eapply known_written; eauto.
  - now apply not_begins.
  - now apply not_begins.
Qed.

Lemma nonresource_names n b i :
  name_bit n b -> N.testbit b i = true -> N.testbit FOResourcesOnly i = true ->
  In n resource_types /\ In (n, b) option_table.
Proof.
  intros H T R.
  assert (forall x, N.land x FOResourcesOnly = 0%N -> N.testbit x i = true -> False) as K.
  { intros x Hx Tx. assert (N.testbit (N.land x FOResourcesOnly) i = true) as Q
      by (rewrite N.land_spec, Tx, R; auto).
    rewrite Hx in Q. now rewrite N.bits_0 in Q. }
  destruct H as [n b I|n Hb|n Hb|n].
  - split; auto.
    assert (forallb (fun e => memb (fst e) resource_types
             || (N.land (snd e) FOResourcesOnly =? 0)%N) option_table = true) as Q
      by (vm_compute; reflexivity).
    rewrite forallb_forall in Q. specialize (Q _ I). cbn [fst snd] in Q.
    apply orb_true_iff in Q as [Q|Q].
    + unfold memb in Q. apply existsb_exists in Q as (x & Q1 & Q2).
      apply beq_eq in Q2 as ->. auto.
    + apply N.eqb_eq in Q. exfalso. eauto.
  - exfalso. now apply (K FOCSP).
  - exfalso. now apply (K FORedirect).
  - exfalso. now apply (K FOUnknown).
Qed.

Lemma resource_needs pres r f b o parts context dom :
  good_rule r -> x_options r = Some o -> cut_at "," o parts -> written_out parts ->
  parse_filter pres (cstr (rule_line r)) (length (rule_line r)) = Ok (f, b) ->
  matchesOptions f context dom = true ->
  (forall n, In n resource_types -> positive_option parts n ->
     exists m c, In m resource_types /\ positive_option parts m /\
                 In (m, c) option_table /\ common context c) /\
  (forall n c, In n resource_types -> negative_option parts n ->
     In (n, c) option_table -> ~ common context c).
Proof.
  intros G O C W HP M.
  destruct (options_exact pres r f b o parts G O C W HP) as [X1 X2].
  apply matchesOptions_exact in M as (_ & _ & M & _).
  assert (forall n, In n resource_types -> exists c, In (n, c) option_table /\ common c c) as KT.
  { intros n I.
    assert (forallb (fun n => existsb (fun e => beq (fst e) n && has (snd e) (snd e)) option_table)
      resource_types = true) as Q by (vm_compute; reflexivity).
    rewrite forallb_forall in Q. apply Q in I. apply existsb_exists in I as ([m c] & I & J).
    cbn [fst snd] in J. apply andb_true_iff in J as [J1 J2]. apply beq_eq in J1 as ->.
    exists c. split; auto. now apply has_common. }
  split.
  - intros n In1 Pn. destruct (KT n In1) as (c & Tc & i & Ti & _).
    assert (common (f_opt f) FOResourcesOnly) as CR.
    { exists i. split; [apply X1; exists n, c; auto using nb_known|].
      apply resource_bits. eauto. }
    destruct (context =? 0)%N; [tauto|]. destruct M as [[M|M] _].
    + now apply nonbehavioral_resource in M.
    + destruct M as (j & T1 & T2). rewrite N.land_spec, andb_true_iff in T1.
      destruct T1 as [T1 T3]. apply X1 in T1 as (m & d & P & Hm & Td).
      destruct (nonresource_names m d j) as [R1 R2]; auto.
      exists m, d. split; auto. split; auto. split; auto. exists j. auto.
  - intros n c In1 Nn Tc (i & T1 & T2).
    assert (N.testbit (f_anti f) i = true) as T3 by (apply X2; exists n, c; auto using nb_known).
    assert (N.testbit FOResourcesOnly i = true) as T4 by (apply resource_bits; eauto).
    destruct (N.eqb_spec context 0) as [->|Nz].
    + now rewrite N.bits_0 in T1.
    + destruct M as [_ M]. apply M. exists i. rewrite N.land_spec, T3, T4. auto.
Qed.

(** ** C27 *)
Lemma document_needs pres r f b context dom :
  good_rule r ->
  parse_filter pres (cstr (rule_line r)) (length (rule_line r)) = Ok (f, b) ->
  common context FODocument -> matchesOptions f context dom = true ->
  exists o parts, x_options r = Some o /\ cut_at "," o parts /\
    (written_out parts -> positive_option parts (B "document")).
Proof.
  intros G HP D M. apply matchesOptions_exact in M as (_ & M & _).
  specialize (M D). destruct (x_options r) as [o|] eqn:O.
  - exists o, (split_on "," o). split; auto. split; [apply split_cut|]. intros W.
    destruct M as (i & T1 & T2).
    destruct (options_exact pres r f b o _ G O (split_cut "," o) W HP) as [X1 _].
    apply X1 in T1 as (n & c & P & Hn & T).
    assert (i = 7%N) as ->.
    { change FODocument with (2 ^ 7)%N in T2. rewrite N.pow2_bits_eqb in T2.
      apply N.eqb_eq in T2. auto. }
    destruct (nonresource_names n c 7) as [_ I]; auto.
    assert (forallb (fun e => negb (N.testbit (snd e) 7) || beq (fst e) (B "document"))
      option_table = true) as Q by (vm_compute; reflexivity).
    rewrite forallb_forall in Q. apply Q in I. cbn [fst snd] in I. rewrite T in I.
    cbn [negb orb] in I. apply beq_eq in I. now rewrite <- I.
  - exfalso. rewrite (rule_shape pres r f b G HP) in M.
    unfold shape in M. rewrite O in M. destruct M as (i & T1 & _).
    assert (f_opt (set_data (if pres then set_rule (shape_base r) (Some (rule_line r))
                           else shape_base r) (x_body r)) = 0%N) as K by now destruct pres.
    cbn [apply_options] in T1. rewrite K in T1. now rewrite N.bits_0 in T1.
Qed.

(** ** C28 *)
Fixpoint wsuf (start p : bytes) : list bytes :=
  match p with
  | [] => []
  | c :: p' => if ceq c "." then start :: wsuf p' p' else wsuf start p'
  end.

Lemma ctx_walk_find pos neg p : forall start,
  ctx_walk pos neg start p =
  match find (fun s => memb s pos || memb s neg) (wsuf start p) with
  | Some s => Some (memb s pos)
  | None => None
  end.
Proof.
  induction p as [|c p IH]; intros start; cbn [ctx_walk wsuf]; auto.
  destruct (ceq c "."); auto. cbn [find].
  destruct (memb start pos) eqn:M1; cbn [orb].
  - now rewrite M1.
  - destruct (memb start neg) eqn:M2; auto. now rewrite M1.
Qed.

Lemma wsuf_spec p : forall w s, ~ In "."%char w ->
  (In s (wsuf (w ++ p) p) <->
   (s = w ++ p \/ exists q, p = q ++ B "." ++ s) /\ In "."%char s).
Proof.
  induction p as [|c p IH]; intros w s Nw; cbn [wsuf].
  - cbn. split; [easy|]. rewrite app_nil_r. intros [[->|(q & E)] I]; [easy|].
    now destruct q.
  - destruct (ceq_spec c ".") as [->|N].
    + cbn [In]. specialize (IH [] s). cbn [app] in IH. rewrite IH by (intros []).
      split.
      * intros [<-|[[->|(q & ->)] I]].
        -- split; auto. apply in_or_app. cbn; auto.
        -- split; auto. right. exists []. auto.
        -- split; auto. right. exists ("."%char :: q). auto.
      * intros [[->|(q & E)] I]; auto.
        destruct q as [|x q]; cbn in E.
        -- injection E as ->. right. auto.
        -- injection E as <- ->. right. split; auto. right. now exists q.
    + assert (~ In "."%char (w ++ [c])) as N'.
      { intros I. apply in_app_or in I as [I|[I|[]]]; auto. }
      specialize (IH (w ++ [c]) s N'). rewrite <- app_assoc in IH. cbn [app] in IH.
      rewrite IH. split.
      * intros [[->|(q & ->)] I]; split; auto. right. exists (c :: q). auto.
      * intros [[->|(q & E)] I]; split; auto. right.
        destruct q as [|x q]; cbn in E; injection E as E1 E2; [easy|]. exists q. exact E2.
Qed.

Lemma wsuf_wide d s : In s (wsuf d d) <-> wide_suffix d s.
Proof. apply (wsuf_spec d [] s). intros []. Qed.

Lemma wsuf_length p : forall start s, length p <= length start ->
  In s (wsuf start p) -> length s <= length start.
Proof.
  induction p as [|c p IH]; intros start s L; cbn [wsuf]; [easy|]. cbn in L.
  destruct (ceq c ".").
  - intros [<-|I]; auto. apply IH in I; lia.
  - apply IH. lia.
Qed.

Lemma wsuf_sorted p : forall start, length p <= length start ->
  forall a s l, wsuf start p = a ++ s :: l -> forall s', In s' l -> length s' < length s.
Proof.
  induction p as [|c p IH]; intros start L a s l; cbn [wsuf]; [now destruct a|].
  cbn in L. destruct (ceq c ".").
  - destruct a as [|x a]; cbn; intros [= ? E] s' I.
    + subst. apply wsuf_length in I; lia.
    + subst. eapply IH; eauto.
  - apply IH. lia.
Qed.

Lemma find_split {A} (P : A -> bool) l :
  match find P l with
  | Some s => exists a b, l = a ++ s :: b /\ P s = true /\ forall x, In x a -> P x = false
  | None => forall x, In x l -> P x = false
  end.
Proof.
  induction l as [|x l IH]; cbn [find]; [easy|].
  destruct (P x) eqn:Px.
  - exists [], l. repeat split; auto. intros y [].
  - destruct (find P l) as [s|].
    + destruct IH as (a & b & -> & Hs & Ha). exists (x :: a), b. repeat split; auto.
      intros y [<-|I]; auto.
    + intros y [<-|I]; auto.
Qed.

Lemma memb_In x l : memb x l = true <-> In x l.
Proof.
  unfold memb. rewrite existsb_exists. split.
  - intros (y & I & E). apply beq_eq in E as ->. auto.
  - intros I. exists x. split; auto. now apply beq_eq.
Qed.

Lemma is_anti_begins d : is_anti d = true <-> begins (B "~") d.
Proof.
  rewrite begins_prefixb. destruct d as [|c d]; cbn; [easy|].
  now rewrite ceq_sym, andb_true_r.
Qed.

Lemma lists_domainsOf dl s : In s (domainsOf dl) <-> lists_domain dl s.
Proof.
  unfold domainsOf, lists_domain. rewrite filter_In, negb_true_iff. split.
  - intros [I A]. exists (split_on "|" dl). split; [apply split_cut|]. split; auto.
    rewrite <- is_anti_begins. congruence.
  - intros (parts & C & I & N). apply cut_unique in C as ->. split; auto.
    rewrite <- is_anti_begins in N. destruct (is_anti s); [exfalso; auto|auto].
Qed.

Lemma excludes_antiDomainsOf dl s : In s (antiDomainsOf dl) <-> excludes_domain dl s.
Proof.
  unfold antiDomainsOf, excludes_domain. rewrite in_map_iff. split.
  - intros (x & <- & I). apply filter_In in I as [I A].
    apply is_anti_begins in A as (v & ->). exists (split_on "|" dl).
    split; [apply split_cut|auto].
  - intros (parts & C & I). apply cut_unique in C as ->. exists (B "~" ++ s).
    split; auto. apply filter_In. split; auto.
Qed.

Lemma split_some dl : f_domains (mkF 0 0 0 None (Some dl) [] None None) <> [] \/
  antiDomainsOf dl <> [].
Proof.
  cbn. unfold domainsOf, antiDomainsOf. pose proof (split_on_nonempty "|"%char dl) as H.
  destruct (split_on "|" dl) as [|x l]; [easy|]. cbn. destruct (is_anti x); [right|left]; easy.
Qed.

Lemma contextDomain_spec f dl d :
  f_dom f = Some dl -> (contextDomainMatchesFilter f d = true <-> domain_applies dl d).
Proof.
  intros Hd. unfold contextDomainMatchesFilter, f_domains, f_antiDomains. rewrite Hd.
  assert (negb (nonempty (domainsOf dl)) && negb (nonempty (antiDomainsOf dl)) = false) as ->.
  { pose proof (split_some dl) as K. cbn in K.
    destruct (domainsOf dl), (antiDomainsOf dl); auto. destruct K; easy. }
  rewrite ctx_walk_find.
  pose proof (find_split (fun s => memb s (domainsOf dl) || memb s (antiDomainsOf dl))
                (wsuf d d)) as F.
  assert (forall s, memb s (domainsOf dl) || memb s (antiDomainsOf dl) = true <->
                    lists_domain dl s \/ excludes_domain dl s) as KM.
  { intros s. now rewrite orb_true_iff, !memb_In, lists_domainsOf, excludes_antiDomainsOf. }
  destruct (find _ _) as [s|].
  - destruct F as (a & b & E & Fs & Fa).
    assert (forall s', wide_suffix d s' -> lists_domain dl s' \/ excludes_domain dl s' ->
              s' = s \/ length s' < length s) as KS.
    { intros s' W LE. apply wsuf_wide in W. rewrite E in W.
      apply in_app_or in W as [W|[W|W]]; auto.
      - apply Fa in W. apply KM in LE. congruence.
      - right. eapply wsuf_sorted; eauto. }
    assert (wide_suffix d s) as Ws.
    { apply wsuf_wide. rewrite E. apply in_or_app. cbn; auto. }
    apply KM in Fs. rewrite memb_In, lists_domainsOf. split.
    + intros Ls. left. exists s. split; auto. split; auto.
      intros s' W LE. destruct (KS s' W LE) as [->|]; lia.
    + intros [(x & Wx & Lx & Hx)|[H1 H2]].
      * destruct (KS x Wx (or_introl Lx)) as [->|L]; auto.
        specialize (Hx s Ws Fs). lia.
      * destruct (H1 s Ws). destruct Fs; easy.
  - assert ((if negb (nonempty (domainsOf dl)) && nonempty (antiDomainsOf dl)
             then true else negb (nonempty (domainsOf dl))) = true <->
            forall s, ~ lists_domain dl s) as ->.
    { transitivity (domainsOf dl = []).
      - destruct (domainsOf dl), (antiDomainsOf dl); cbn; split; easy.
      - split.
        + intros E0 s L. apply lists_domainsOf in L. now rewrite E0 in L.
        + intros H. destruct (domainsOf dl) as [|x l] eqn:E0; auto.
          exfalso. apply (H x). apply lists_domainsOf. rewrite E0. cbn; auto. }
    assert (forall s, wide_suffix d s -> ~ lists_domain dl s /\ ~ excludes_domain dl s) as KN.
    { intros s W. apply wsuf_wide, F in W.
      split; intros L; assert (memb s (domainsOf dl) || memb s (antiDomainsOf dl) = true)
        by (apply KM; auto); congruence. }
    split.
    + intros H. right. auto.
    + intros [(s & W & L & _)|[_ H]]; auto. now apply KN in W.
Qed.

Lemma last_some_cut {A} (g : bytes -> option A) d a s b x :
  g s = Some x -> (forall t, In t b -> g t = None) -> last_some g d (a ++ s :: b) = Some x.
Proof.
  intros Hs Hb. unfold last_some. rewrite fold_left_app. cbn [fold_left]. rewrite Hs.
  clear Hs. induction b as [|t b IH]; cbn; auto.
  rewrite (Hb t) by (cbn; auto). apply IH. intros; apply Hb; cbn; auto.
Qed.

Lemma seg_dom_none s :
  ~ begins (B "domain=") s -> ~ begins (B "~domain=") s -> seg_dom s = None.
Proof.
  intros H1 H2. apply not_begins in H1, H2. unfold seg_dom.
  destruct s as [|c s]; auto. cbn [seg_split].
  destruct (ceq_spec c "~") as [->|N]; cbn [snd].
  - replace (prefixb (B "domain=") s) with (prefixb (B "~domain=") ("~"%char :: s))
      by reflexivity. now rewrite H2.
  - now rewrite H1.
Qed.

Lemma rule_domain_list pres r f b o parts dl :
  good_rule r -> x_options r = Some o -> cut_at "," o parts ->
  parse_filter pres (cstr (rule_line r)) (length (rule_line r)) = Ok (f, b) ->
  last_domain parts dl -> f_dom f = Some dl.
Proof.
  intros G O C HP (x & y & -> & Hy).
  destruct (option_bits pres r f b o _ G O C HP) as (_ & _ & -> & _).
  apply last_some_cut.
  - reflexivity.
  - intros t I. apply Hy in I as [I1 I2]. now apply seg_dom_none.
Qed.

Lemma domain_rule E pres r f b o parts dl d url context bf host :
  good_rule r -> x_options r = Some o -> cut_at "," o parts -> last_domain parts dl ->
  parse_filter pres (cstr (rule_line r)) (length (rule_line r)) = Ok (f, b) ->
  (domain_applies dl d ->
   filter_matches E f (cstr url) (length url) context (Some d) bf host =
   filter_matches E f (cstr url) (length url) context None bf host) /\
  (~ domain_applies dl d ->
   filter_matches E f (cstr url) (length url) context (Some d) bf host = Ok false).
Proof.
  intros G O C L HP. pose proof (rule_domain_list pres r f b o parts dl G O C HP L) as Hd.
  split; intros H.
  - unfold filter_matches.
    assert (matchesOptions f context (Some d) = matchesOptions f context None) as ->; auto.
    rewrite !matchesOptions_parts. unfold domain_okb. rewrite Hd.
    apply (contextDomain_spec f dl d Hd) in H. now rewrite H.
  - apply no_options_false. rewrite matchesOptions_parts. unfold domain_okb. rewrite Hd.
    assert (contextDomainMatchesFilter f d = false) as ->.
    { destruct (contextDomainMatchesFilter f d) eqn:K; auto.
      apply (contextDomain_spec f dl d Hd) in K. easy. }
    now rewrite andb_false_r, !andb_false_l.
Qed.

(** ** C29, C49 *)
Lemma party_rules pres r f b o parts context dom :
  good_rule r -> x_options r = Some o -> cut_at "," o parts ->
  parse_filter pres (cstr (rule_line r)) (length (rule_line r)) = Ok (f, b) ->
  matchesOptions f context dom = true ->
  (positive_option parts (B "third-party") -> ~ common context FONotThirdParty) /\
  (negative_option parts (B "third-party") -> ~ common context FOThirdParty).
Proof.
  intros G O C HP M. apply matchesOptions_exact in M as (_ & _ & _ & _ & M1 & M2).
  assert (In (B "third-party", FOThirdParty) option_table) as I.
  { cbn. tauto. }
  assert (N.testbit FOThirdParty 13 = true) as T by reflexivity.
  split; intros P Q.
  - apply M1. split; auto. exists 13%N. split; auto.
    eapply positive_bit; eauto using nb_known, known_written.
  - apply M2. split; auto. exists 13%N. split; auto.
    eapply negative_bit; eauto using nb_known, known_written.
Qed.

Lemma party_derived context dom host :
  (common context (N.lor FOThirdParty FONotThirdParty) ->
   party_context context dom host = context) /\
  (~ common context (N.lor FOThirdParty FONotThirdParty) ->
   forall d, dom = Some d ->
   (first_party d host -> party_context context dom host = N.lor context FONotThirdParty) /\
   (~ first_party d host -> party_context context dom host = N.lor context FOThirdParty)) /\
  (dom = None -> party_context context dom host = context).
Proof.
  unfold party_context. split; [|split].
  - intros H. apply has_common in H. rewrite H. now destruct dom.
  - intros H d ->. apply has_false in H. rewrite H. split; intros F.
    + apply isThirdPartyHost_spec in F. now rewrite F.
    + destruct (isThirdPartyHost d host) eqn:K; auto.
      apply isThirdPartyHost_spec in K. easy.
  - now intros ->.
Qed.
