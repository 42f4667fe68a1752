(** Proofs for SpecF: exactly which lines fault. *)
From Verif Require Import Base Flags Url Sets FilterM ParseM ClientM Spec SpecM SpecF
  P_Base P_Url P_Match P_Rule P_Parse P_List P_Fp P_Line P_Props2 P_Props3 P_Line2 P_Opt P_Opt2 P_Dec2.

Lemma gated_is_gate k : gated k <-> is_gate k = true.
Proof.
  unfold gated. split.
  - intros [<-|[<-|[<-|[<-|[]]]]]; reflexivity.
  - destruct k as [| |[]]; cbn; intros; try discriminate; auto.
Qed.

Lemma gate_dom_only E f k :
  classify E f = Ok k -> gated k ->
  isDomainOnlyFilter f = true \/ isAntiDomainOnlyFilter f = true.
Proof.
  unfold classify, classify_tail. intros H G.
  repeat match type of H with
  | context [if ?b then _ else _] => destruct b eqn:?
  end; try (injection H as <-; cbn in G; intuition discriminate);
  apply bind_ok in H as (o & _ & H); destruct o;
  repeat match type of H with
  | context [if ?b then _ else _] => destruct b eqn:?
  end; try (injection H as <-; cbn in G; intuition discriminate); auto.
Qed.

Lemma long_domain_fits E f k :
  classify E f = Ok k -> gated k -> (dom_fits f = false <-> long_domain f).
Proof.
  intros H G. pose proof (gate_dom_only E f k H G) as D.
  unfold dom_fits, long_domain.
  assert (forallb (fun d => length d <=? 1024) (gate_items f) = false <->
          exists d, In d (gate_items f) /\ 1024 < length d) as ->.
  { split.
    - intros F. destruct (existsb (fun d => negb (length d <=? 1024)) (gate_items f)) eqn:X.
      + apply existsb_exists in X as (d & I & X). exists d. split; auto.
        apply negb_true_iff in X. now apply Nat.leb_gt.
      + exfalso. apply not_true_iff_false in F. apply F. apply forallb_forall.
        intros d I. apply not_true_iff_false in X.
        destruct (length d <=? 1024) eqn:L; auto. exfalso. apply X.
        apply existsb_exists. exists d. now rewrite L.
    - intros (d & I & L). apply not_true_iff_false. intros F.
      rewrite forallb_forall in F. specialize (F d I). apply Nat.leb_le in F. lia. }
  destruct D as [D|D].
  - split.
    + intros (d & I & L). apply (dom_items f d D) in I as (dl & X & Y & _).
      exists dl, d. auto.
    + intros (dl & d & X & [Y|Y] & L).
      * exists d. split; auto. apply (dom_items f d D). exists dl.
        split; [|split]; auto. intros ->. cbn in L. lia.
      * exfalso. unfold isDomainOnlyFilter, f_antiDomains in D. rewrite X in D.
        apply andb_prop in D as [_ D]. apply negb_true_iff in D.
        apply excludes_antiDomainsOf in Y. destruct (antiDomainsOf dl); [easy|discriminate].
  - split.
    + intros (d & I & L). apply (anti_items f d D) in I as (dl & X & Y).
      exists dl, d. auto.
    + intros (dl & d & X & [Y|Y] & L).
      * exfalso. unfold isAntiDomainOnlyFilter, f_domains in D. rewrite X in D.
        apply andb_prop in D as [_ D]. apply negb_true_iff in D.
        apply lists_domainsOf in Y. destruct (domainsOf dl); [easy|discriminate].
      * exists d. split; auto. apply (anti_items f d D). exists dl. auto.
Qed.

Lemma fp_UB_host E f h d :
  has (f_type f) FTRegex = false ->
  has (f_type f) FTHostAnchored = true -> f_host f = Some h ->
  f_data f = Some (d, [NUL]) -> length d < length h -> getFingerprint E f = UB.
Proof.
  intros R H1 H2 H3 L. unfold getFingerprint. rewrite R, H1, H2, H3.
  rewrite skipn_all2; [reflexivity|]. rewrite app_length. cbn [length]. lia.
Qed.

Lemma fp_UB_cut E f h :
  has (f_type f) FTRegex = false ->
  has (f_type f) FTHostAnchored = true -> f_host f = Some h -> h <> [] ->
  f_data f = None -> getFingerprint E f = UB.
Proof.
  intros R H1 H2 H3 H4. unfold getFingerprint. rewrite R, H1, H2, H4.
  destruct h; [easy|reflexivity].
Qed.

Lemma cut_types t :
  In t (FTComment :: FTEmpty :: net_types ++ only_types) ->
  has t FTHostAnchored = true -> In t net_types.
Proof.
  intros I H.
  assert (forallb (fun t => negb (has t FTHostAnchored) || memN t net_types)
            (FTComment :: FTEmpty :: net_types ++ only_types) = true) as X by reflexivity.
  rewrite forallb_forall in X. specialize (X t I). rewrite H in X. cbn in X.
  now apply memN_In.
Qed.

Lemma net_not_cosmetic f : In (f_type f) net_types -> is_cosmetic f = false.
Proof.
  unfold is_cosmetic. generalize (f_type f). intros t I.
  assert (forallb (fun t => negb ((t =? FTElementHiding)%N || (t =? FTElementHidingException)%N))
            net_types = true) as X by reflexivity.
  rewrite forallb_forall in X. apply negb_true_iff. auto.
Qed.

Lemma net_tail E f :
  In (f_type f) net_types -> has (f_type f) FTHostAnchored = true ->
  hasUnsupportedOptions f = false -> has (f_type f) FTHostOnly = false ->
  getFingerprint E f = UB -> classify E f = UB.
Proof.
  intros I HA U HO G. unfold classify, classify_tail. rewrite U, HO, G. cbn [bind].
  assert (forallb (fun t =>
     negb ((N.land t FTListTypesMask =? FTElementHiding)%N
        || (N.land t FTListTypesMask =? FTElementHidingException)%N
        || (N.land t FTListTypesMask =? FTHTMLFiltering)%N
        || (N.land t FTListTypesMask =? FTEmpty)%N
        || (N.land t FTListTypesMask =? FTComment)%N)
     || has t FTHostOnly || negb (has t FTHostAnchored)) net_types = true) as X by reflexivity.
  rewrite forallb_forall in X. specialize (X _ I). rewrite HO, HA in X.
  cbn [negb] in X. rewrite !orb_false_r in X. apply negb_true_iff in X.
  repeat match type of X with
  | (_ || _)%bool = false => apply orb_false_elim in X as [X ?]
  end.
  repeat match goal with H : (_ =? _)%N = false |- _ => rewrite H; clear H end.
  destruct (_ =? _)%N; reflexivity.
Qed.

Lemma classify_UB E f : classify E f = UB ->
  getFingerprint E f = UB /\ hasUnsupportedOptions f = false /\
  has (f_type f) FTHostOnly = false.
Proof.
  unfold classify, classify_tail. intros H.
  destruct (hasUnsupportedOptions f); [discriminate|].
  destruct (has (f_type f) FTHostOnly).
  { repeat match type of H with
    | context [if ?b then _ else _] => destruct b eqn:?
    end; discriminate. }
  destruct (getFingerprint E f) as [o|]; auto. exfalso. cbn [bind] in H.
  repeat match type of H with
  | context [if ?b then _ else _] => destruct b eqn:?
  end; try discriminate; destruct o; try discriminate;
  repeat match type of H with
  | context [if ?b then _ else _] => destruct b eqn:?
  end; discriminate.
Qed.

Lemma whole_fp E pres l f :
  line_text l -> pline pres l = (f, true) ->
  (getFingerprint E f = UB <->
   exists h d, has (f_type f) FTHostAnchored = true /\ f_host f = Some h /\
     f_data f = Some (d, [NUL]) /\ length d < length h).
Proof.
  intros Hl P. pose proof (pline_ok pres l Hl) as RO. rewrite P in RO. cbn [fst snd] in RO.
  destruct RO as (_ & _ & _ & R4 & (d & Hd & Td) & Ht).
  assert (has (f_type f) FTRegex = false) as NR
    by (apply types_no_regex; do 2 right; exact Ht).
  split.
  - intros G. destruct (has (f_type f) FTHostAnchored) eqn:HA.
    + destruct (f_host f) as [h|] eqn:Hh; [|now destruct (R4 eq_refl)].
      destruct (Nat.le_gt_cases (length h) (length d)) as [L|L].
      * exfalso. destruct (getFingerprint_spec E f d NR Hd) as (o & Ho & _); eauto.
        -- now apply line_text_nonul.
        -- congruence.
      * exists h, d. auto.
    + exfalso. destruct (getFingerprint_spec E f d NR Hd) as (o & Ho & _).
      * now apply line_text_nonul.
      * congruence.
      * congruence.
  - intros (h & d' & H1 & H2 & H3 & H4). eapply fp_UB_host; eauto.
Qed.

Lemma rule_of_fault E pres l :
  line_text l ->
  (rule_of E pres l = UB <->
   line_fault E (fst (pline pres l)) (snd (pline pres l))).
Proof.
  intros Hl. unfold rule_of.
  pose proof (pline_ok pres l Hl) as RO. pose proof (whole_fp E pres l) as W.
  destruct (pline pres l) as [f r] eqn:P. cbn [fst snd] in *.
  destruct RO as (R1 & R2 & R3 & R4 & R5).
  assert (forall k, classify E f = Ok k ->
    ((if is_gate k && negb (dom_fits f) then UB else Ok (f, r, k)) = UB <->
     gated k /\ long_domain f)) as G.
  { intros k Hk. split.
    - destruct (is_gate k) eqn:GK; [|discriminate].
      apply gated_is_gate in GK. destruct (dom_fits f) eqn:D; [discriminate|]. intros _.
      split; auto. now apply (long_domain_fits E f k).
    - intros [GK L]. apply (long_domain_fits E f k Hk GK) in L. rewrite L.
      apply gated_is_gate in GK. now rewrite GK. }
  destruct r.
  - specialize (W f Hl eq_refl).
    destruct R5 as ((d & Hd & Td) & Ht).
    assert (is_cosmetic f = true -> has (f_type f) FTHostAnchored = false) as CN.
    { unfold is_cosmetic. intros C. apply orb_prop in C as [C|C]; apply N.eqb_eq in C;
        rewrite C; reflexivity. }
    split.
    + intros H. destruct (getFingerprint E f) as [o|] eqn:GF.
      * destruct (classify E f) as [k|] eqn:CK.
        -- assert ((if is_gate k && negb (dom_fits f) then UB else Ok (f, true, k)) = UB) as H'
             by (destruct (true && negb (is_cosmetic f)); exact H).
           apply (G k eq_refl) in H' as [H1 H2]. now apply lf_domain with k.
        -- apply classify_UB in CK as [CK _]. congruence.
      * destruct (proj1 W eq_refl) as (h & d' & H1 & H2 & H3 & H4).
        now apply lf_host with h d'.
    + intros H. inversion H as [h d' H1 H2 H3 H4|?|k w H1 H2 H3]; subst.
      * assert (getFingerprint E f = UB) as GF by (apply W; eauto 8).
        destruct (is_cosmetic f) eqn:C; [rewrite (CN eq_refl) in H1; discriminate|].
        cbn [negb andb]. rewrite GF. reflexivity.
      * destruct (true && negb (is_cosmetic f)).
        -- destruct (getFingerprint E f); [cbn [bind]|reflexivity].
           rewrite H1. cbn [bind]. apply (G k H1). auto.
        -- cbn [bind]. rewrite H1. cbn [bind]. apply (G k H1). auto.
  - clear W. cbn [andb bind]. split.
    + intros H. destruct (classify E f) as [k|] eqn:CK.
      * cbn [bind] in H. apply (G k eq_refl) in H as [H1 H2]. now apply lf_domain with k.
      * apply classify_UB in CK as (CK & U & HO).
        destruct R5 as [[Hd Ht]|(d & Hd & Td & Ht)].
        -- destruct (has (f_type f) FTHostAnchored) eqn:HA.
           ++ destruct (f_host f) as [h|] eqn:Hh; [|now destruct (R4 eq_refl)].
              apply lf_cut with h; auto. intros ->. revert CK.
              unfold getFingerprint. rewrite (types_no_regex _ Ht), HA, Hh, Hd.
              discriminate.
           ++ exfalso. revert CK. unfold getFingerprint.
              rewrite (types_no_regex _ Ht), HA, Hd. discriminate.
        -- exfalso. revert CK. unfold getFingerprint. rewrite Ht. discriminate.
    + intros H. inversion H as [?|h H1 H2 H3 H4 H5 H6|k w H1 H2 H3]; subst.
      * destruct R5 as [[_ Ht]|(d & Hd & _)]; [|congruence].
        rewrite (net_tail E f); auto.
        -- now apply cut_types.
        -- eapply fp_UB_cut; eauto. now apply types_no_regex.
      * rewrite H1. cbn [bind]. apply (G k H1). auto.
Qed.

Lemma line_fault_iff E pres l f b :
  line_text l -> parse_filter pres (cstr l) (length l) = Ok (f, b) ->
  (parse E pres (cstr l) client0 = UB <-> line_fault E f b).
Proof.
  intros Hl H. rewrite parse_filter_cstr in H by auto. injection H as H.
  rewrite parse_normal by now apply line_text_nonul.
  rewrite text_lines_single by auto. cbn [mapM].
  pose proof (rule_of_fault E pres l Hl) as R. rewrite H in R. cbn [fst snd] in R.
  rewrite <- R. destruct (rule_of E pres l); cbn [bind rmap]; split; auto; discriminate.
Qed.

Lemma text_fault_iff E pres t c :
  nonul t ->
  (parse E pres (cstr t) c = UB <->
   exists l f b, In l (text_lines t) /\
     parse_filter pres (cstr l) (length l) = Ok (f, b) /\ line_fault E f b).
Proof.
  intros Ht. rewrite parse_UB_line by auto. split.
  - intros (l & I & H). pose proof (text_lines_line t l Ht I) as Hl.
    pose proof (parse_filter_cstr pres l Hl) as P.
    destruct (pline pres l) as [f b]. exists l, f, b. split; [|split]; auto.
    now apply (line_fault_iff E pres l f b).
  - intros (l & f & b & I & P & H). exists l. split; auto.
    pose proof (text_lines_line t l Ht I) as Hl.
    now apply (line_fault_iff E pres l f b).
Qed.

Lemma reading_total pres l :
  line_text l -> exists f b, parse_filter pres (cstr l) (length l) = Ok (f, b).
Proof.
  intros Hl. rewrite parse_filter_cstr by auto. destruct (pline pres l); eauto.
Qed.

Lemma fault_example :
  (forall E c, parse E false (cstr (B "||a|b/ccc")) c <> UB) /\
  (forall E c, parse E false (cstr (B "ok" ++ [LF] ++ B "||a|b")) c = UB).
Proof.
  split; intros E c.
  - rewrite text_fault_iff by now apply nonulb_ok.
    intros (l & f & b & I & P & F).
    assert (l = B "||a|b/ccc") as -> by (vm_compute in I; destruct I as [<-|[]]; reflexivity).
    assert (Ok (f, b) = parse_filter false (cstr (B "||a|b/ccc")) 9) as Q by exact (eq_sym P).
    vm_compute in Q. injection Q as -> ->. clear P I.
    inversion F as [h d H1 H2 H3 H4|?|k w H1 H2 (dl & d & H3 & _)]; subst.
    + cbn [f_host f_data] in *. injection H2 as <-. injection H3 as <-. cbn in H4. lia.
    + discriminate.
  - apply text_fault_iff; [now apply nonulb_ok|].
    exists (B "||a|b"), (fst (pline false (B "||a|b"))), true.
    split; [vm_compute; auto|]. split; [vm_compute; reflexivity|].
    eapply lf_host; vm_compute; reflexivity.
Qed.
