(** Comparing the decisions of two histories. *)
From Coq Require Import Permutation.
From Verif Require Import Base Flags Protocol Url Sets FilterM ParseM ClientM Spec SpecM
  SpecC P_Base P_Protocol P_Url P_Match P_Rule P_Parse P_List P_Shape P_Fp P_Line P_Line2
  P_Fp2 P_Props1 P_Props2 P_Props3 P_Opt P_Opt2 P_Set P_Client P_Decide P_Hist P_Dec2.

Definition effect (E : env) (calls : list call) (e : bool) url context dom : Prop :=
  exists f, heeded E calls e url dom f /\ applies E calls f url context dom.

Lemma decision_eq E1 E2 calls1 calls2 c1 c2 url context dom v1 v2 c1' c2' :
  history calls1 -> after E1 calls1 = Ok c1 -> history calls2 -> after E2 calls2 = Ok c2 ->
  nonul url ->
  (web_url url -> forall e, effect E1 calls1 e url context dom <-> effect E2 calls2 e url context dom) ->
  matches E1 c1 (cstr url) context dom = Ok (v1, c1') ->
  matches E2 c2 (cstr url) context dom = Ok (v2, c2') ->
  v_block v1 = v_block v2.
Proof.
  intros H1 A1 H2 A2 Hu K M1 M2.
  destruct (isBlockableProtocol_spec url Hu) as (b & _ & W). destruct b.
  - assert (web_url url) as Hw by (now apply W).
    pose proof (decision E1 calls1 c1 url context dom v1 c1' H1 A1 Hu Hw M1) as D1.
    pose proof (decision E2 calls2 c2 url context dom v2 c2' H2 A2 Hu Hw M2) as D2.
    unfold effect in K. rewrite !(K Hw) in D1. rewrite <- D2 in D1.
    destruct (v_block v1), (v_block v2); auto.
    + symmetry. now apply D1.
    + now apply D1.
  - assert (~ web_url url) as Hw by (intros X; apply W in X; discriminate).
    rewrite matches_nonweb in M1, M2 by auto. congruence.
Qed.

(** ** Environments that differ in the Bloom hashes only *)
Lemma classify_hashes E h h2 f : classify (with_bloom_hashes E h h2) f = classify E f.
Proof. reflexivity. Qed.

Lemma wild_hashes hs hs' parts tail input n i :
  wild hs None parts tail input n i = wild hs' None parts tail input n i.
Proof.
  revert i; induction parts as [|p parts IH]; intros i; auto. cbn [wild part_pairs_ok negb].
  destruct (match p, parts with [], [] => _ | _, _ => _ end); auto. cbn [bind].
  destruct (negb _); auto. destruct (indexOfFilter _ _ _ _) as [[j|]|]; auto. cbn [bind].
  destruct parts; auto. destruct (rd _ _); auto. cbn [bind]. destruct (ceq _ _); auto.
Qed.

Lemma filter_matches_hashes E h h2 f input n context dom host :
  filter_matches (with_bloom_hashes E h h2) f input n context dom None host =
  filter_matches E f input n context dom None host.
Proof.
  unfold filter_matches. destruct (negb _); auto. destruct (f_data f) as [[d t]|]; auto.
  destruct (has _ _); auto. destruct (has _ _ && _); auto. destruct (has _ _); auto.
  destruct (has _ _); auto. cbn [host_pairs_ok negb].
  destruct (if has _ _ then _ else _); auto. cbn [bind]. destruct (negb _); auto.
  apply wild_hashes.
Qed.

Lemma heeded_hashes E h h2 calls e url dom f :
  heeded E calls e url dom f -> heeded (with_bloom_hashes E h h2) calls e url dom f.
Proof.
  intros [g X|g X|g X N|g X N|g host k X1 X2 X3 X4].
  - now apply heeded_fingerprint.
  - now apply heeded_plain.
  - now apply heeded_listed.
  - now apply heeded_excluded.
  - now apply (heeded_host _ calls e url dom g host k).
Qed.

Lemma effect_hashes E h h2 calls e url context dom :
  effect E calls e url context dom <-> effect (with_bloom_hashes E h h2) calls e url context dom.
Proof.
  unfold effect, applies, matches_alone.
  split; intros (f & X & (host & H1 & H2) & T); exists f; (split; [|split; [exists host; split|]]); auto.
  - now apply heeded_hashes.
  - now rewrite filter_matches_hashes.
  - apply (heeded_hashes _ (e_hashes E) (e_hash2 E)) in X. destruct E; exact X.
  - now rewrite filter_matches_hashes in H2.
Qed.

(** ** One more loaded line *)
Definition parsed (x : bool * bytes) (f : filter) : Prop := parses_to (fst x) (snd x) f.

Lemma loaded_in_insert E calls1 calls2 a x b k f :
  loaded_lines calls1 = a ++ b -> loaded_lines calls2 = a ++ x :: b ->
  (loaded_in E calls1 k f -> loaded_in E calls2 k f) /\
  (loaded_in E calls2 k f -> loaded_in E calls1 k f \/ parsed x f).
Proof.
  intros L1 L2. unfold loaded_in. rewrite L1, L2. split.
  - intros (p & l & I & X). exists p, l. split; auto.
    apply in_app_or in I as [I|I]; apply in_or_app; cbn; auto.
  - intros (p & l & I & X). apply in_app_or in I as [I|[->|I]].
    + left. exists p, l. split; auto. apply in_or_app; auto.
    + right. apply X.
    + left. exists p, l. split; auto. apply in_or_app; auto.
Qed.

Lemma first_host_insert calls1 calls2 a x b e f :
  loaded_lines calls1 = a ++ b -> loaded_lines calls2 = a ++ x :: b ->
  b = [] \/ (forall g, parsed x g -> ~ host_rule e g) ->
  first_host_rule calls1 e f -> first_host_rule calls2 e f.
Proof.
  intros L1 L2 C [HR (a1 & p & l & b1 & h & L & P & Hh & N)]. split; auto.
  rewrite L1 in L. rewrite L2.
  apply app_eq_app in L as (m & [[E1 E2]|[E1 E2]]).
  - (* a = a1 ++ m *)
    destruct m as [|y m].
    + cbn in E2. rewrite app_nil_r in E1. subst a1.
      destruct C as [->|C]; [discriminate|].
      exists (a ++ [x]), p, l, b1, h. rewrite <- app_assoc. cbn. rewrite <- E2.
      split; auto. split; auto. split; auto.
      intros p' l' g I P' HR'. apply in_app_or in I as [I|[->|[]]]; eauto.
      exfalso. apply (C g); auto.
    + injection E2 as <- E2. exists a1, p, l, (m ++ x :: b), h. rewrite E1, <- app_assoc.
      auto 6.
  - (* a1 = a ++ m *)
    destruct C as [->|C].
    + destruct m; discriminate.
    + exists (a ++ x :: m), p, l, b1, h. rewrite E2, <- app_assoc. cbn. split; auto.
      split; auto. split; auto. intros p' l' g I P' HR'.
      apply in_app_or in I as [I|[->|I]].
      * apply (N p' l' g); auto. rewrite E1. apply in_or_app; auto.
      * exfalso. apply (C g); auto.
      * apply (N p' l' g); auto. rewrite E1. apply in_or_app; auto.
Qed.

Lemma first_host_remove calls1 calls2 a x b e f :
  loaded_lines calls1 = a ++ b -> loaded_lines calls2 = a ++ x :: b ->
  first_host_rule calls2 e f -> first_host_rule calls1 e f \/ parsed x f.
Proof.
  intros L1 L2 [HR (a1 & p & l & b1 & h & L & P & Hh & N)].
  rewrite L2 in L. apply app_eq_app in L as (m & [[E1 E2]|[E1 E2]]).
  - destruct m as [|y m].
    + cbn in E2. injection E2 as <- <-. now right.
    + injection E2 as <- E2. left. split; auto. exists a1, p, l, (m ++ b), h.
      rewrite L1, E1, <- app_assoc. auto 6.
  - destruct m as [|y m].
    + cbn in E2. assert (x = (p, l)) as -> by congruence. now right.
    + injection E2 as <- E2. left. split; auto. exists (a ++ m), p, l, b1, h.
      rewrite L1, E2, <- app_assoc. split; auto. split; auto. split; auto.
      intros p' l' g I. apply (N p' l' g). rewrite E1.
      apply in_app_or in I as [I|I]; apply in_or_app; cbn; auto.
Qed.

Lemma heeded_insert E calls1 calls2 a x b e url dom f :
  loaded_lines calls1 = a ++ b -> loaded_lines calls2 = a ++ x :: b ->
  b = [] \/ (forall g, parsed x g -> ~ host_rule e g) ->
  (forall g, parsed x g -> classify E g <> Ok (only_excluded e)) ->
  heeded E calls1 e url dom f -> heeded E calls2 e url dom f.
Proof.
  intros L1 L2 C1 C2.
  assert (forall k g, loaded_in E calls1 k g -> loaded_in E calls2 k g) as LI
    by (intros k g; now apply (loaded_in_insert E calls1 calls2 a x b)).
  intros [g X|g X|g X N|g X N|g host k X1 X2 X3 X4].
  - apply heeded_fingerprint; auto.
  - apply heeded_plain; auto.
  - apply heeded_listed; auto.
  - apply heeded_excluded; auto.
    intros (g' & dl & s & Y1 & Y2). apply N. exists g', dl, s. split; auto.
    pose proof Y1 as Y1'.
    apply (loaded_in_insert E calls1 calls2 a x b) in Y1 as [Y1|Y1]; auto.
    exfalso. apply (C2 g' Y1). destruct Y1' as (p & l & _ & _ & Y). exact Y.
  - apply (heeded_host E calls2 e url dom g host k); auto.
    eapply (first_host_insert calls1 calls2 a x b); eauto.
Qed.

Lemma heeded_remove E calls1 calls2 a x b e url dom f :
  loaded_lines calls1 = a ++ b -> loaded_lines calls2 = a ++ x :: b ->
  heeded E calls2 e url dom f -> heeded E calls1 e url dom f \/ parsed x f.
Proof.
  intros L1 L2.
  assert (forall k g, loaded_in E calls2 k g -> loaded_in E calls1 k g \/ parsed x g) as LI
    by (intros k g; now apply (loaded_in_insert E calls1 calls2 a x b)).
  intros [g X|g X|g X N|g X N|g host k X1 X2 X3 X4].
  - apply LI in X as [X|X]; auto. left. now apply heeded_fingerprint.
  - apply LI in X as [X|X]; auto. left. now apply heeded_plain.
  - apply LI in X as [X|X]; auto. left. now apply heeded_listed.
  - apply LI in X as [X|X]; auto. left. apply heeded_excluded; auto.
    intros (g' & dl & s & Y1 & Y2). apply N. exists g', dl, s. split; auto.
    now apply (loaded_in_insert E calls1 calls2 a x b).
  - apply (first_host_remove calls1 calls2 a x b) in X1 as [X1|X1]; auto. left.
    now apply (heeded_host E calls1 e url dom g host k).
Qed.

(** Tags of histories that differ in parse calls only. *)
Lemma tag_enabled_parse a p t b u :
  tag_enabled (a ++ Parse p t :: b) u <-> tag_enabled (a ++ b) u.
Proof.
  induction b as [|k b IH] using rev_ind.
  - rewrite app_nil_r, tag_enabled_snoc. split.
    + intros [[=]|[X _]]; auto.
    + intros X. right. split; auto. discriminate.
  - rewrite (app_comm_cons b [k] (Parse p t)), !app_assoc, !tag_enabled_snoc.
    cbn [app] in IH. rewrite IH. tauto.
Qed.

Lemma loaded_from_app L a b : loaded_from L (a ++ b) = loaded_from (loaded_from L a) b.
Proof.
  revert L; induction a as [|k a IH]; intros L; auto. destruct k; cbn [app loaded_from]; apply IH.
Qed.

Lemma loaded_from_shape rest :
  (exists S, forall L, loaded_from L rest = S) \/ (exists S, forall L, loaded_from L rest = L ++ S).
Proof.
  induction rest as [|k rest IH].
  - right. exists []. intros L. now rewrite app_nil_r.
  - destruct k as [p t| | | | |]; cbn [loaded_from]; auto.
    + destruct IH as [[S H]|[S H]].
      * left. exists S. auto.
      * right. exists (map (pair p) (text_lines t) ++ S). intros L. now rewrite H, app_assoc.
    + destruct IH as [[S H]|[S H]]; left; exists (loaded_from [] rest); auto.
Qed.

(** The classes of a line are determined by its text. *)
Lemma parsed_unique x f g : parsed x f -> parsed x g -> f = g.
Proof. intros (b & H) (b' & H'). congruence. Qed.

Lemma loaded_category E calls t t' f :
  loaded E calls t f -> forall k, classify E f = Ok k -> category_of k = t' -> t = t'.
Proof.
  intros (k & (p & l & _ & _ & K) & C) k' K' C'. assert (k = k') by congruence. congruence.
Qed.
