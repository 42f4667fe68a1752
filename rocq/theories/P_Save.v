(** Saving and restoring objects in JavaScript; values as texts and numbers. *)
From Verif Require Import Base Flags Sets FilterM ParseM ClientM SerialM JsM OwnM BindM
  Spec SpecM SpecC SpecS SpecW SpecU SpecV SpecB P_Base P_Ser6 P_Ser7 P_Dec6 P_Bind P_Args.
From Coq Require Import ZArith.
From Verif Require Import SpecC.

(** ** Decimal notation is unique *)

Lemma value_snoc ds u : value (ds ++ [u]) = (10 * value ds + (u - 48))%N.
Proof. unfold value. now rewrite fold_left_app. Qed.

Definition digit (u : N) : Prop := (48 <= u <= 57)%N.

Lemma value_unique a : Forall digit a -> (hd 0 a <> 48)%N -> forall b, Forall digit b -> (hd 0 b <> 48)%N ->
  value a = value b -> a = b.
Proof.
  assert (Z : forall l, Forall digit l -> (hd 0 l <> 48)%N -> value l = 0%N -> l = []).
  { induction l as [|u l IH] using rev_ind; intros F H V; auto. exfalso.
    apply Forall_app in F as [F1 F2]. inversion F2 as [|? ? D _]. subst. unfold digit in D.
    rewrite value_snoc in V. destruct l as [|x l].
    - cbn in H. lia.
    - assert (x :: l = []) as K by (apply IH; auto; lia). discriminate K. }
  induction a as [|u a IH] using rev_ind; intros Fa Ha b Fb Hb V.
  - symmetry. apply Z; auto.
  - destruct b as [|w b _] using rev_ind; [now apply Z|].
    pose proof Fa as Fa'. pose proof Fb as Fb'.
    apply Forall_app in Fa as [A1 A2]. inversion A2 as [|? ? Da _]. subst. unfold digit in Da.
    apply Forall_app in Fb as [B1 B2]. inversion B2 as [|? ? Db _]. subst. unfold digit in Db.
    rewrite !value_snoc in V. assert (value a = value b /\ u = w) as [Q ->] by lia.
    f_equal. destruct a as [|x a], b as [|y b]; auto.
    assert (y :: b = []) as K by (apply Z; auto). discriminate K.
Qed.

Lemma decimal_unique z s t : decimal z s -> decimal z t -> s = t.
Proof.
  intros (a & [Na Fa] & Ha & Va & ->) (b & [Nb Fb] & Hb & Vb & ->).
  assert (a = b) as ->; [|reflexivity]. rewrite <- Vb in Va. clear Vb.
  assert (Z : forall l, l <> [] -> Forall digit l -> value l = 0%N -> (hd 0 l = 48)%N).
  { intros l N F V. destruct (N.eq_dec (hd 0%N l) 48) as [|H]; auto. exfalso. apply N.
    apply (value_unique l F H []); [constructor|discriminate|exact V]. }
  destruct (N.eq_dec (hd 0%N a) 48) as [A|A].
  - apply Ha in A. subst a. cbn in Va. rewrite (Hb (Z b Nb Fb (eq_sym Va))). reflexivity.
  - destruct (N.eq_dec (hd 0%N b) 48) as [B|B].
    + apply Hb in B. subst b. cbn in Va. exfalso. apply A. apply Z; auto.
    + apply value_unique; auto.
Qed.

Lemma text_stands v s : to_string v = Some s <-> stands_for v s.
Proof.
  split.
  - intros T. destruct v as [| |[|]|z|t|b t|t n y]; cbn [to_string] in T; subst;
      try (injection T as <-); try constructor. apply int_decimal.
  - intros T. destruct T; auto. cbn [to_string]. f_equal.
    eapply decimal_unique; [apply int_decimal|assumption].
Qed.

Lemma number_counts J v z : to_number J v = Some z <-> counts_as J v z.
Proof.
  split.
  - intros T. destruct v as [| |[|]|x|t|b [t|]|t n y]; cbn [to_number option_map] in T; subst;
      try (injection T as <-); try discriminate T; constructor.
  - intros T. destruct T; reflexivity.
Qed.

(** ** Saving and restoring *)

Lemma go_calls J E ms calls c : Forall2 (means J) ms (map Call calls) ->
  goes_on J E c ms = continue E c calls.
Proof.
  intros H. unfold continue. rewrite <- act_calls. unfold goes_on.
  remember (map Call calls) as xs eqn:X. clear X calls. revert c.
  induction H as [|m x ms xs M F IH]; intros c; [reflexivity|]. cbn [foldM].
  rewrite (means_act J E c m x M). destruct (act E c x); cbn [bind]; auto.
Qed.

Lemma calls_history J (E : env) ms calls : Forall2 (means J) ms (map Call calls) -> history calls.
Proof. intros H. exact (proj2 (session_calls J E ms calls H)). Qed.

Lemma saves J E ms calls c args : Forall2 (means J) ms (map Call calls) -> session J E ms = Ok c ->
  exists buf, invoke J E c MSerialize args = Ok (c, RBuffer buf) /\ serialize c true true = Ok buf.
Proof.
  intros H A. destruct (session_calls J E ms calls H) as [Q Hi]. rewrite Q in A.
  destruct (serialize_size_exact E calls c Hi A true true) as (blobs & buf & _ & _ & Se & _).
  exists buf. split; auto. cbn [invoke]. now rewrite Se.
Qed.

Lemma alike_asked J E c d :
  (forall url context dom v c2, matches E c url context dom = Ok (v, c2) ->
     exists w c2', matches E d url context dom = Ok (w, c2') /\ same_verdict v w) ->
  (forall url context dom v, findMatchingFilters E c url context dom = Ok v ->
     exists w, findMatchingFilters E d url context dom = Ok w /\ same_verdict v w) ->
  replies_alike J E c d.
Proof.
  intros HM HF. split.
  - intros args c2 r I. cbn [invoke] in *. destruct (given J (arg args 0)) as [p|]; [|discriminate I].
    cbn [bind] in *. destruct (page_arg J (arg args 2)) as [page|]; [|discriminate I]. cbn [bind] in *.
    destruct (matches E c p (to_mask J (arg args 1)) page) as [[v c3]|] eqn:M; [|discriminate I].
    destruct (HM _ _ _ _ _ M) as (w & d2 & M' & V & _). rewrite M'. cbn [bind fst snd] in *.
    injection I as _ <-. rewrite V. eauto.
  - intros args c2 fd I d2 r K. cbn [invoke] in *. destruct (given J (arg args 0)) as [p|]; [|discriminate I].
    cbn [bind] in *. destruct (page_arg J (arg args 2)) as [page|]; [|discriminate I]. cbn [bind] in *.
    destruct (findMatchingFilters E c p (to_mask J (arg args 1)) page) as [v|] eqn:M; [|discriminate I].
    destruct (HF _ _ _ _ M) as (w & M' & V & _). rewrite M' in K. cbn [bind fst snd] in *.
    destruct (report_filter (v_filter v)) as [a|]; [|discriminate I].
    cbn [bind] in I. destruct (report_filter (v_exc v)) as [b|]; [|discriminate I]. cbn [bind] in I.
    destruct (report_filter (v_filter w)) as [a'|]; [|discriminate K].
    cbn [bind] in K. destruct (report_filter (v_exc w)) as [b'|]; [|discriminate K]. cbn [bind] in K.
    injection K as _ <-. injection I as _ I. destruct (_ || _); cbn [or_throw] in *; [discriminate I|].
    injection I as <-. cbn [fd_matches]. rewrite V. eauto.
Qed.

Lemma restores_as_read J E ms calls c buf d s rest :
  Forall2 (means J) ms (map Call calls) -> session J E ms = Ok c ->
  serialize c true true = Ok buf -> (forall t, tagExists d t = tagExists c t) ->
  exists c', invoke J E d MDeserialize (JBytes buf s :: rest) = Ok (c', RBool true) /\
    forall more moreCalls c1, Forall2 (means J) more (map Call moreCalls) ->
      goes_on J E (client_as_read c) more = Ok c1 ->
      exists c1', goes_on J E c' more = Ok c1' /\ replies_alike J E c1 c1'.
Proof.
  intros H A Se T. destruct (session_calls J E ms calls H) as [Q Hi]. rewrite Q in A.
  destruct (decides_as_read E calls c Hi A true true buf d [] Se T) as (c' & De & K).
  rewrite app_nil_r in De. exists c'. split; [cbn [invoke]; now rewrite De|].
  intros more mc c1 Me G. rewrite (go_calls J E more mc _ Me) in G. setoid_rewrite (fun c => go_calls J E more mc c Me).
  destruct (K mc c1 (calls_history J E more mc Me) G) as (c1' & G' & K1 & K2).
  exists c1'. split; auto. now apply alike_asked.
Qed.

Lemma restores_exactly J E ms calls c buf d s rest :
  Forall2 (means J) ms (map Call calls) -> session J E ms = Ok c -> all_storable calls ->
  serialize c true true = Ok buf -> (forall t, tagExists d t = tagExists c t) ->
  exists c', invoke J E d MDeserialize (JBytes buf s :: rest) = Ok (c', RBool true) /\
    forall more moreCalls c1, Forall2 (means J) more (map Call moreCalls) ->
      goes_on J E c more = Ok c1 ->
      exists c1', goes_on J E c' more = Ok c1' /\ replies_alike J E c1 c1'.
Proof.
  intros H A St Se T. destruct (session_calls J E ms calls H) as [Q Hi]. rewrite Q in A.
  destruct (restored_decides E calls c Hi A true true buf d [] St Se T) as (c' & De & K).
  rewrite app_nil_r in De. exists c'. split; [cbn [invoke]; now rewrite De|].
  intros more mc c1 Me G. rewrite (go_calls J E more mc _ Me) in G. setoid_rewrite (fun c => go_calls J E more mc c Me).
  destruct (K mc c1 (calls_history J E more mc Me) G) as (c1' & G' & K1 & K2).
  exists c1'. split; auto. now apply alike_asked.
Qed.

Lemma success_said J E d b s rest c' :
  (invoke J E d MDeserialize (JBytes b s :: rest) = Ok (c', RBool true) <-> deserialize b d = Ok (c', true)) /\
  (invoke J E d MDeserialize (JBytes b s :: rest) = Ok (c', RBool false) <-> deserialize b d = Ok (c', false)) /\
  (invoke J E d MDeserialize (JBytes b s :: rest) = UB <-> deserialize b d = UB).
Proof.
  cbn [invoke]. destruct (deserialize b d) as [[x [|]]|]; cbn [bind fst snd];
    (split; [|split]); split; intros H; try discriminate H; auto; now injection H as ->.
Qed.
