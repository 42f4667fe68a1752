(** Reading data files follows their format: C101. *)
From Verif Require Import Base Flags Sets FilterM ParseM ClientM SerialM Spec SpecM SpecS SpecFile
  P_Base P_Rule P_Ser1 P_Js2.

(** ** Numbers *)

Lemma unhex_spec c v : unhexdigit c = Some v <-> exists k, v = N.of_nat k /\ hex_value c k.
Proof.
  split.
  - intros H. exists (N.to_nat v). split; [now rewrite N2Nat.id|].
    destruct c as [[] [] [] [] [] [] [] []]; vm_compute in H; try discriminate H; injection H as <-;
      vm_compute; auto.
  - intros (k & -> & [H|H]).
    + do 16 (destruct k as [|k]; [injection H as <-; reflexivity|]). now destruct k.
    + do 16 (destruct k as [|k]; [injection H as <-; reflexivity|]). now destruct k.
Qed.

Lemma unhex_none c : unhexdigit c = None <-> ~ is_hex c.
Proof.
  split.
  - intros H (v & V). assert (unhexdigit c = Some (N.of_nat v)) as K by (apply unhex_spec; eauto).
    congruence.
  - intros H. destruct (unhexdigit c) as [v|] eqn:U; auto. apply unhex_spec in U as (k & _ & K).
    destruct H. now exists k.
Qed.

Lemma digits_scan ds n : digits_value ds n -> forall s, scan_digits (ds ++ s) 0 = scan_digits s n.
Proof.
  intros H. induction H as [|ds n c v D IH V]; intros s; [reflexivity|].
  rewrite <- app_assoc, IH. cbn [app scan_digits].
  assert (unhexdigit c = Some (N.of_nat v)) as -> by (apply unhex_spec; eauto). reflexivity.
Qed.

Lemma scan_no_hex s n : no_hex_next s -> scan_digits s n = (n, s).
Proof.
  intros H. destruct s as [|c s]; [reflexivity|]. cbn [scan_digits].
  assert (unhexdigit c = None) as ->; [|reflexivity]. apply unhex_none. exact (H c s eq_refl).
Qed.

Lemma scan_digits_inv s : forall acc pre n r, digits_value pre acc -> scan_digits s acc = (n, r) ->
  exists ds, s = ds ++ r /\ digits_value (pre ++ ds) n /\ no_hex_next r.
Proof.
  induction s as [|c s IH]; intros acc pre n r D H; cbn [scan_digits] in H.
  - injection H as <- <-. exists []. split; [reflexivity|]. split; [now rewrite app_nil_r|].  intros c r [=].
  - destruct (unhexdigit c) as [v|] eqn:U.
    + apply unhex_spec in U as (k & -> & K). apply (IH _ (pre ++ [c])) in H as (ds & -> & D' & N).
      * exists (c :: ds). rewrite <- app_assoc in D'. auto.
      * now constructor.
    + injection H as <- <-. exists []. split; [reflexivity|]. split; [now rewrite app_nil_r|].
      intros x r [= <- _]. now apply unhex_none.
Qed.

Lemma digits_hex ds n : digits_value ds n -> Forall is_hex ds.
Proof.
  intros H. induction H as [|ds n c v D IH V]; [constructor|]. apply Forall_app. split; auto.
  constructor; [now exists v|constructor].
Qed.

Lemma ceq_refl c : ceq c c = true.
Proof. now apply ceq_eq. Qed.

Lemma in_xX x : In x (B "xX") <-> ceq x "x" || ceq x "X" = true.
Proof.
  rewrite orb_true_iff, !ceq_eq. cbn. intuition (subst; auto).
Qed.

Lemma unsigned_spec s n r : scan_unsigned s = Some (n, r) <-> unsigned_text s n r.
Proof.
  split.
  - intros H. destruct s as [|c s]; [discriminate H|]. cbn [scan_unsigned] in H.
    destruct (unhexdigit c) as [v|] eqn:U; [|discriminate H].
    assert (scan_digits (c :: s) 0 = (n, r) ->
      (forall x q, s = x :: q -> ceq c "0" = true -> ~ In x (B "xX")) -> unsigned_text (c :: s) n r) as P.
    { intros S X. destruct (scan_digits_inv (c :: s) 0 [] n r digits_none S) as (ds & E & D & N).
      rewrite E. constructor; auto.
      - intros ->. apply (N c s (eq_sym E)). apply unhex_spec in U as (k & _ & K). now exists k.
      - intros x q -> ->. injection E as -> ->. apply (X x q); auto. }
    destruct s as [|x s]; [injection H as H; apply P; auto; discriminate|].
    destruct (ceq c "0" && (ceq x "x" || ceq x "X")) eqn:Z.
    + apply andb_prop in Z as [Z0 Z1]. apply ceq_eq in Z0 as ->. injection H as H.
      destruct (scan_digits_inv s 0 [] n r digits_none H) as (ds & -> & D & N).
      apply unsigned_prefix; auto. now apply in_xX.
    + injection H as H. apply P; auto. intros y q [= <- <-] C I. apply in_xX in I.
      rewrite C, I in Z. discriminate Z.
  - intros H. destruct H as [ds n rest Nd D N X|x ds n rest I D N].
    + destruct ds as [|c ds]; [easy|]. pose proof (digits_hex _ _ D) as Hx. inversion Hx as [|? ? H1 H2]. subst.
      assert (scan_digits ((c :: ds) ++ rest) 0 = (n, rest)) as S
        by (rewrite (digits_scan _ _ D); now apply scan_no_hex).
      cbn [app] in *. cbn [scan_unsigned].
      destruct (unhexdigit c) as [v|] eqn:U; [|apply unhex_none in U; tauto].
      destruct (ds ++ rest) as [|y q] eqn:E; [now rewrite S|].
      destruct (ceq c "0" && (ceq y "x" || ceq y "X")) eqn:Z; [|now rewrite S].
      exfalso. apply andb_prop in Z as [Z0 Z1]. apply ceq_eq in Z0 as ->. apply in_xX in Z1.
      destruct ds as [|z ds].
      * cbn in E. subst rest. now apply (X y q).
      * injection E as -> _. inversion H2 as [|? ? K _]. subst.
        destruct K as (k & K). assert (unhexdigit y = Some (N.of_nat k)) as W by (apply unhex_spec; eauto).
        cbn in Z1. destruct Z1 as [<-|[<-|[]]]; discriminate W.
    + cbn [scan_unsigned]. change (unhexdigit "0") with (Some 0%N). cbn match.
      apply in_xX in I. rewrite ceq_refl, I. cbn [andb]. rewrite (digits_scan _ _ D).
      now rewrite scan_no_hex.
Qed.

Lemma blank_space c : is_space c = true <-> In (N_of_ascii c) [32; 9; 10; 11; 12; 13]%N.
Proof.
  split.
  - intros H. destruct c as [[] [] [] [] [] [] [] []]; vm_compute in H; try discriminate H; vm_compute; auto 8.
  - intros H. destruct c as [[] [] [] [] [] [] [] []]; vm_compute in H; try reflexivity;
      repeat (destruct H as [H|H]; [discriminate H|]); destruct H.
Qed.

Lemma skip_blank bl s : blank_text bl -> skip_space (bl ++ s) = skip_space s.
Proof.
  intros H. induction H as [|c bl C F IH]; [reflexivity|]. cbn [app skip_space].
  apply blank_space in C. now rewrite C.
Qed.

Lemma skip_space_inv s : exists bl, blank_text bl /\ s = bl ++ skip_space s.
Proof.
  induction s as [|c s (bl & F & E)]; [exists []; split; [constructor|reflexivity]|]. cbn [skip_space].
  destruct (is_space c) eqn:C; [|exists []; split; [constructor|reflexivity]].
  exists (c :: bl). split; [constructor; auto; now apply blank_space|]. cbn [app]. now f_equal.
Qed.

Lemma unsigned_first s n r : unsigned_text s n r -> exists c q v, s = c :: q /\ unhexdigit c = Some v.
Proof.
  intros H. apply unsigned_spec in H. destruct s as [|c q]; [discriminate H|]. cbn [scan_unsigned] in H.
  destruct (unhexdigit c) as [v|] eqn:U; [eauto|discriminate H].
Qed.

Lemma hex_plain c v : unhexdigit c = Some v -> is_space c = false /\ ceq c "-" = false /\ ceq c "+" = false.
Proof.
  intros H. destruct c as [[] [] [] [] [] [] [] []]; vm_compute in H; try discriminate H; vm_compute; auto.
Qed.

Lemma number_spec s n r : scan_hex s = Some (n, r) <-> number_text s n r.
Proof.
  split.
  - intros H. unfold scan_hex in H. destruct (skip_space_inv s) as (bl & F & E).
    destruct (skip_space s) as [|c q]; [discriminate H|]. rewrite E.
    destruct (ceq c "-") eqn:C1.
    + apply ceq_eq in C1 as ->. destruct (scan_unsigned q) as [[m t]|] eqn:U; [|discriminate H].
      injection H as <- <-. apply number_minus; auto. now apply unsigned_spec.
    + destruct (ceq c "+") eqn:C2.
      * apply ceq_eq in C2 as ->. apply number_plus; auto. now apply unsigned_spec.
      * apply number_unsigned; auto. now apply unsigned_spec.
  - intros H. unfold scan_hex. destruct H as [bl s n r F U|bl s n r F U|bl s n r F U];
      rewrite skip_blank by auto.
    + destruct (unsigned_first _ _ _ U) as (c & q & v & -> & V). destruct (hex_plain c v V) as (P1 & P2 & P3).
      cbn [skip_space]. rewrite P1, P2, P3. now apply unsigned_spec.
    + change (skip_space ("+"%char :: s)) with ("+"%char :: s). cbn [ceq]. now apply unsigned_spec.
    + change (skip_space ("-"%char :: s)) with ("-"%char :: s). apply unsigned_spec in U.
      cbv beta iota. rewrite ceq_refl. now rewrite U.
Qed.

Lemma numbers_spec k : forall s vs, scan_fields k s = vs <-> numbers_text k s vs.
Proof.
  induction k as [|k IH]; intros s vs.
  - split; [intros <-; constructor|intros H; inversion H; reflexivity].
  - cbn [scan_fields]. split.
    + destruct (scan_hex s) as [[n r]|] eqn:Sh.
      * apply number_spec in Sh. intros <-. destruct r as [|c r].
        -- apply (numbers_last k s n []); auto. discriminate.
        -- destruct (ceq c ",") eqn:C.
           ++ apply ceq_eq in C as ->. apply (numbers_more k s n r); auto. now apply IH.
           ++ apply (numbers_last k s n (c :: r)); auto. intros q [= -> _]. now rewrite ceq_refl in C.
      * intros <-. apply numbers_none. intros n r N. apply number_spec in N. congruence.
    + intros H. inversion H as [|k' s' N|k' s' n r N X|k' s' n r vs' N V]; subst.
      * destruct (scan_hex s) as [[n r]|] eqn:Sh; auto. apply number_spec in Sh. destruct (N n r Sh).
      * apply number_spec in N as ->. f_equal. destruct r as [|c r]; auto.
        destruct (ceq c ",") eqn:C; auto. apply ceq_eq in C as ->. destruct (X r eq_refl).
      * apply number_spec in N as ->. f_equal. rewrite ceq_refl. now apply IH.
Qed.

(** What is behind the NUL does not matter. *)
Lemma digits_stop h t : forall acc,
  scan_digits (h ++ NUL :: t) acc = (fst (scan_digits h acc), snd (scan_digits h acc) ++ NUL :: t).
Proof.
  induction h as [|c h IH]; intros acc; [reflexivity|]. cbn [app scan_digits].
  destruct (unhexdigit c); [apply IH|reflexivity].
Qed.

Definition extend {A} (t : bytes) (o : option (A * bytes)) : option (A * bytes) :=
  option_map (fun x => (fst x, snd x ++ NUL :: t)) o.

Lemma unsigned_stop h t : scan_unsigned (h ++ NUL :: t) = extend t (scan_unsigned h).
Proof.
  destruct h as [|c h]; [reflexivity|]. cbn [app scan_unsigned].
  destruct (unhexdigit c) as [v|] eqn:U; [|reflexivity].
  destruct h as [|x h].
  - cbn [app]. replace (ceq NUL "x" || ceq NUL "X") with false by reflexivity. rewrite andb_false_r.
    change (c :: NUL :: t) with ([c] ++ NUL :: t). now rewrite digits_stop.
  - cbn [app]. destruct (ceq c "0" && (ceq x "x" || ceq x "X")).
    + now rewrite digits_stop.
    + change (c :: x :: h ++ NUL :: t) with ((c :: x :: h) ++ NUL :: t). now rewrite digits_stop.
Qed.

Lemma space_stop h t : skip_space (h ++ NUL :: t) = skip_space h ++ NUL :: t.
Proof.
  induction h as [|c h IH]; [reflexivity|]. cbn [app skip_space]. destruct (is_space c); auto.
Qed.

Lemma hex_stop h t : scan_hex (h ++ NUL :: t) = extend t (scan_hex h).
Proof.
  unfold scan_hex. rewrite space_stop. destruct (skip_space h) as [|c q]; [reflexivity|]. cbn [app].
  destruct (ceq c "-"); [|destruct (ceq c "+"); [apply unsigned_stop|]].
  - rewrite unsigned_stop. now destruct (scan_unsigned q) as [[m r]|].
  - change (c :: q ++ NUL :: t) with ((c :: q) ++ NUL :: t). apply unsigned_stop.
Qed.

Lemma fields_stop k : forall h t, scan_fields k (h ++ NUL :: t) = scan_fields k h.
Proof.
  induction k as [|k IH]; intros h t; [reflexivity|]. cbn [scan_fields]. rewrite hex_stop.
  destruct (scan_hex h) as [[n r]|]; [|reflexivity]. cbn [extend option_map fst snd]. f_equal.
  destruct r as [|c r]; [reflexivity|]. cbn [app]. now rewrite IH.
Qed.

Lemma fields_at k h t vs : scan_fields k (h ++ NUL :: t) = vs <-> numbers_text k h vs.
Proof. rewrite fields_stop. apply numbers_spec. Qed.
