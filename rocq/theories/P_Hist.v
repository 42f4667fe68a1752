(** Clients after histories of calls. *)
From Verif Require Import Base Flags Protocol Url Sets FilterM ParseM ClientM Spec SpecM
  SpecC P_Base P_Protocol P_Url P_Match P_Rule P_Parse P_List P_Shape P_Fp P_Line P_Line2
  P_Fp2 P_Props1 P_Props2 P_Props3 P_Opt P_Opt2 P_Set P_Client P_Decide.

Lemma after_snoc E calls k : after E (calls ++ [k]) = (c <- after E calls ;; perform E c k).
Proof.
  unfold after. rewrite foldM_app. destruct (foldM _ _ calls); auto. cbn [foldM bind].
  destruct (perform E a k); reflexivity.
Qed.

Lemma loaded_from_snoc L calls k :
  loaded_from L (calls ++ [k]) =
  match k with
  | Parse pres t => loaded_from L calls ++ map (pair pres) (text_lines t)
  | Clear => []
  | _ => loaded_from L calls
  end.
Proof.
  revert L; induction calls as [|x calls IH]; intros L.
  - destruct k; reflexivity.
  - destruct x; cbn [app loaded_from]; apply IH.
Qed.

Lemma snoc_or {A} (l : list A) : l = [] \/ exists l' x, l = l' ++ [x].
Proof. destruct l using rev_ind; eauto. Qed.

Lemma tag_enabled_snoc calls k t :
  tag_enabled (calls ++ [k]) t <-> k = AddTag t \/ (tag_enabled calls t /\ k <> RemoveTag t).
Proof.
  unfold tag_enabled. split.
  - intros (a & b & H & N). destruct (snoc_or b) as [->|(b' & x & ->)].
    + apply app_inj_tail in H as [_ ->]. auto.
    + right. rewrite app_comm_cons, app_assoc in H. apply app_inj_tail in H as [-> ->].
      split.
      * exists a, b'. split; auto. intros I. apply N. apply in_or_app; auto.
      * intros ->. apply N. apply in_or_app; right; cbn; auto.
  - intros [->|[(a & b & -> & N) K]].
    + exists calls, []. auto.
    + exists a, (b ++ [k]). split; [now rewrite <- app_assoc|].
      intros I. apply in_app_or in I as [I|[I|[]]]; auto.
Qed.

Lemma tag_enabled_nil t : ~ tag_enabled [] t.
Proof. intros ([|] & b & H & _); discriminate. Qed.

Lemma tagExists_add c u t :
  tagExists (addTag c u) t = true <-> u = t \/ tagExists c t = true.
Proof.
  unfold addTag. destruct (tagExists c u) eqn:X.
  - split; auto. intros [->|]; auto.
  - unfold tagExists. cbn [set_tags c_tags]. rewrite !memb_In. cbn [In]. tauto.
Qed.

Lemma tagExists_remove c u t :
  tagExists (removeTag c u) t = true <-> tagExists c t = true /\ u <> t.
Proof.
  unfold tagExists, removeTag. cbn [set_tags c_tags]. rewrite !memb_In, filter_In.
  rewrite negb_true_iff, beq_neq. tauto.
Qed.

Definition line_rule (E : env) (pl : bool * bytes) (r : prule) : Prop :=
  line_text (snd pl) /\ rule_of E (fst pl) (snd pl) = Ok r.

Lemma block_phase_quiet E c q bf hit mf c1 :
  block_phase E c q bf = Ok (hit, mf, c1) -> quiet c c1.
Proof.
  unfold block_phase. intros H. apply bind_ok in H as (m & _ & H). destruct m.
  { injection H as <- <- <-. apply quiet_refl. }
  cbv zeta in H. apply bind_ok in H as (h & _ & H). destruct h.
  - injection H as <- <- <-. apply quiet_refl.
  - destruct (bloomMiss _ _ _).
    + injection H as <- <- <-. apply quiet_set.
    + apply bind_ok in H as (r & _ & H). destruct r.
      * injection H as <- <- <-. apply quiet_refl.
      * apply bind_ok in H as (r & _ & H). injection H as <- <- <-. apply quiet_set.
  - injection H as <- <- <-. apply quiet_refl.
Qed.

Lemma exc_phase_quiet E c q bf hit mf c1 :
  exc_phase E c q bf = Ok (hit, mf, c1) -> quiet c c1.
Proof.
  unfold exc_phase. intros H. apply bind_ok in H as (m & _ & H). destruct m.
  { injection H as <- <- <-. apply quiet_refl. }
  cbv zeta in H. apply bind_ok in H as (h & _ & H). destruct h.
  - injection H as <- <- <-. apply quiet_set.
  - destruct (bloomMiss _ _ _).
    + injection H as <- <- <-. apply quiet_set.
    + apply bind_ok in H as (r & _ & H). destruct r.
      * injection H as <- <- <-. apply quiet_refl.
      * apply bind_ok in H as (r & _ & H). injection H as <- <- <-. apply quiet_set.
  - injection H as <- <- <-. apply quiet_set.
Qed.

Lemma matches_quiet E c input context dom v c' :
  matches E c input context dom = Ok (v, c') -> quiet c c'.
Proof.
  unfold matches. intros H. apply bind_ok in H as (n & _ & H).
  apply bind_ok in H as (web & _ & H). destruct (negb web).
  { injection H as <- <-. apply quiet_refl. }
  apply bind_ok in H as (q & _ & H). cbv zeta in H.
  apply bind_ok in H as ([[hit mf] c1] & HB & H). apply block_phase_quiet in HB.
  destruct (negb hit).
  { injection H as <- <-. auto. }
  apply bind_ok in H as ([[bl me] c2] & HX & H). apply exc_phase_quiet in HX.
  injection H as <- <-. eapply quiet_trans; eauto.
Qed.

Lemma quiet_tags c c' t : quiet c c' -> tagExists c' t = tagExists c t.
Proof. intros [_ Q]. unfold tagExists. now rewrite Q. Qed.

Lemma hist E calls c :
  history calls -> after E calls = Ok c ->
  exists rs, rep E c rs /\ Forall2 (line_rule E) (loaded_lines calls) rs /\
             forall t, tagExists c t = true <-> tag_enabled calls t.
Proof.
  revert c. induction calls as [|k calls IH] using rev_ind; intros c Hc H.
  - injection H as <-. exists []. split; [apply rep_client0|]. split; [constructor|].
    intros t. split; [discriminate|]. intros X. now apply tag_enabled_nil in X.
  - apply Forall_app in Hc as [Hc Hk]. inversion Hk as [|? ? Kk _]; subst.
    rewrite after_snoc in H. apply bind_ok in H as (c0 & H0 & H).
    destruct (IH c0 Hc H0) as (rs & R & F & T). clear IH.
    unfold loaded_lines. rewrite loaded_from_snoc. fold (loaded_lines calls).
    destruct k as [pres t| |t|t|url context dom|]; cbn [perform call_ok] in *.
    + destruct (rep_parse E pres t c0 c rs Kk R H) as (rs' & M & R').
      exists (rs ++ rs'). split; auto. split.
      * apply Forall2_app; auto. apply mapM_ok in M.
        assert (forall l, In l (text_lines t) -> line_text l) as L
          by (intros l; now apply text_lines_line).
        clear -M L. induction M as [|l r ls rs H M IH]; constructor.
        -- split; cbn; auto. apply L. now left.
        -- apply IH. intros; apply L. now right.
      * intros u. rewrite tag_enabled_snoc, <- T.
        assert (tagExists c u = tagExists c0 u) as ->.
        { rewrite parse_normal in H by auto. apply rmap_ok in H as (x & _ & ->).
          unfold install. now destruct (fold_left _ _ _) as [[[? ?] ?] ?]. }
        split; [intros; right; split; auto; discriminate|]. intros [|[]]; auto; discriminate.
    + injection H as <-. exists []. split; [apply rep_clear|]. split; [constructor|].
      intros u. rewrite tag_enabled_snoc, <- T.
      change (tagExists (clear c0) u) with (tagExists c0 u).
      split; [intros; right; split; auto; discriminate|]. intros [|[]]; auto; discriminate.
    + injection H as <-. exists rs. split.
      { eapply rep_same; [|exact R]. unfold addTag.
        destruct (tagExists c0 t); repeat split. }
      split; auto. intros u. rewrite tag_enabled_snoc, tagExists_add, <- T.
      split; (intros [|X]; [left; congruence|right]); auto. 2:apply X. split; auto. discriminate.
    + injection H as <-. exists rs. split.
      { eapply rep_same; [|exact R]. repeat split. }
      split; auto. intros u. rewrite tag_enabled_snoc, tagExists_remove, <- T.
      split.
      * intros [X1 X2]. right. split; auto. congruence.
      * intros [X|[X1 X2]]; [discriminate|]. split; auto. congruence.
    + apply rmap_ok in H as ([v c'] & H & ->). cbn [snd].
      apply matches_quiet in H. exists rs. split.
      { eapply rep_same; [apply H|exact R]. }
      split; auto. intros u. rewrite tag_enabled_snoc, <- T.
      rewrite (quiet_tags c0 c') by auto.
      split; [intros; right; split; auto; discriminate|]. intros [|[]]; auto; discriminate.
    + injection H as <-. exists rs. split.
      { eapply rep_same; [|exact R]. unfold enableBadFp.
        destruct (c_badfp c0); repeat split. }
      split; auto. intros u. rewrite tag_enabled_snoc, <- T.
      assert (tagExists (enableBadFp E c0) u = tagExists c0 u) as ->.
      { unfold enableBadFp. destruct (c_badfp c0); reflexivity. }
      split; [intros; right; split; auto; discriminate|]. intros [|[]]; auto; discriminate.
Qed.

(** ** From stored rules back to lines *)
Lemma line_rule_parses E pl r f :
  line_rule E pl r -> (parses_to (fst pl) (snd pl) f <-> f = fst (fst r)).
Proof.
  destruct pl as [pres l], r as [[g b] k]. intros [L H]. cbn [fst snd] in *.
  apply rule_of_class in H as [H _]. unfold parses_to.
  rewrite parse_filter_cstr by auto. rewrite H. split.
  - intros (b' & [= -> ->]). auto.
  - intros ->. eauto.
Qed.

Lemma line_rule_ok E pl r : line_rule E pl r -> prule_ok E r.
Proof. intros [L H]. now apply (rule_of_ok E (fst pl) (snd pl)). Qed.

Lemma F2_in {A C} (R : A -> C -> Prop) l m y :
  Forall2 R l m -> In y m -> exists x, In x l /\ R x y.
Proof.
  induction 1 as [|a c l m H F IH]; intros []; [subst; exists a; cbn; auto|].
  destruct IH as (x & I & X); auto. exists x; cbn; auto.
Qed.

Lemma F2_in_l {A C} (R : A -> C -> Prop) l m x :
  Forall2 R l m -> In x l -> exists y, In y m /\ R x y.
Proof.
  induction 1 as [|a c l m H F IH]; intros []; [subst; exists c; cbn; auto|].
  destruct IH as (y & I & X); auto. exists y; cbn; auto.
Qed.

Lemma loaded_rule E calls rs k f :
  Forall2 (line_rule E) (loaded_lines calls) rs ->
  loaded_in E calls k f <-> exists b, In (f, b, k) rs.
Proof.
  intros F. split.
  - intros (pres & l & I & P & K). destruct (F2_in_l _ _ _ _ F I) as (r & J & LR).
    apply (line_rule_parses E (pres, l) r f LR) in P. pose proof (line_rule_ok E _ _ LR) as PO.
    destruct r as [[g b] k']. cbn [fst] in P. subst g. destruct PO as [_ K'].
    assert (k' = k) as -> by congruence. eauto.
  - intros (b & I). destruct (F2_in _ _ _ _ F I) as ([pres l] & J & LR).
    exists pres, l. split; auto. split.
    + now apply (line_rule_parses E (pres, l) (f, b, k)).
    + apply (line_rule_ok E _ _ LR).
Qed.

Lemma loaded_rules_in E calls rs k f :
  Forall2 (line_rule E) (loaded_lines calls) rs ->
  loaded_in E calls (CList k) f <-> In f (rules_in k rs).
Proof. intros F. rewrite (loaded_rule E calls rs) by auto. now rewrite in_rules_in. Qed.

Lemma types_net_host t : In t (net_types ++ only_types) -> has t FTHostOnly = true ->
  has t FTHostAnchored = true /\
  (t =? FTElementHiding)%N || (t =? FTElementHidingException)%N = false /\
  (has t FTException = true -> N.land t FTListTypesMask = FTException) /\
  (has t FTException = false ->
   forallb (fun m => negb (N.land t FTListTypesMask =? m)%N)
     [FTException; FTElementHiding; FTElementHidingException; FTHTMLFiltering; FTEmpty;
      FTComment] = true).
Proof.
  intros I H.
  assert (forallb (fun t => implb (has t FTHostOnly)
    (has t FTHostAnchored &&
     negb ((t =? FTElementHiding)%N || (t =? FTElementHidingException)%N) &&
     implb (has t FTException) (N.land t FTListTypesMask =? FTException)%N &&
     (has t FTException || forallb (fun m => negb (N.land t FTListTypesMask =? m)%N)
     [FTException; FTElementHiding; FTElementHidingException; FTHTMLFiltering; FTEmpty;
      FTComment]))) (net_types ++ only_types) = true) as A
    by (vm_compute; reflexivity).
  rewrite forallb_forall in A. apply A in I. rewrite H in I. cbn [implb] in I.
  apply andb_prop in I as [I I4]. apply andb_prop in I as [I I3].
  apply andb_prop in I as [I1 I2]. apply negb_true_iff in I2.
  split; auto. split; auto. split.
  - intros X. rewrite X in I3. now apply N.eqb_eq.
  - intros X. now rewrite X in I4.
Qed.

Lemma in_hosts_rule E e f b k :
  prule_ok E (f, b, k) -> in_hosts e (f, b, k) = true <-> host_rule e f.
Proof.
  intros [(_ & _ & _ & R4 & R5) _]. unfold in_hosts, host_rule. split.
  - intros H. apply andb_prop in H as [H H3]. apply andb_prop in H as [H H2].
    apply andb_prop in H as [-> _]. apply eqb_prop in H3. split; auto. split; auto.
    destruct R5 as [(d & X & _) _]. congruence.
  - intros (H1 & H2 & H3). destruct b.
    + destruct R5 as [_ I]. destruct (types_net_host _ I H1) as (_ & C & _).
      unfold is_cosmetic. rewrite C, H1, H2. now destruct e.
    + destruct R5 as [[R5 _]|(d & _ & _ & T)]; [easy|]. rewrite T in H1. discriminate.
Qed.

Lemma host_rule_host E e f b k :
  prule_ok E (f, b, k) -> host_rule e f -> f_host f = Some (hkey f).
Proof.
  intros [(_ & _ & _ & R4 & R5) _] (H1 & _ & H3). unfold hkey.
  destruct (f_host f) as [h|]; auto. exfalso. apply R4; auto.
  destruct b.
  - destruct R5 as [_ I]. now apply types_net_host.
  - destruct R5 as [[R5 _]|(d & _ & _ & T)]; [easy|]. rewrite T in H1. discriminate.
Qed.

Lemma host_rule_class E e f b k :
  prule_ok E (f, b, k) -> host_rule e f -> k = CHost e \/ hasUnsupportedOptions f = true.
Proof.
  intros [(_ & _ & _ & _ & R5) K] (H1 & H2 & H3).
  assert (In (f_type f) (net_types ++ only_types)) as I.
  { destruct b; [apply R5|].
    destruct R5 as [[R5 _]|(d & _ & _ & T)]; [easy|]. rewrite T in H1. discriminate. }
  destruct (hasUnsupportedOptions f) eqn:U; auto. left.
  unfold classify, classify_tail in K. rewrite U, H1 in K.
  destruct (types_net_host _ I H1) as (_ & _ & T1 & T2). destruct e.
  - rewrite (T1 H2), N.eqb_refl in K. congruence.
  - specialize (T2 H2). cbn [forallb] in T2.
    rewrite !andb_true_iff, !negb_true_iff in T2.
    destruct T2 as (X0 & X1 & X2 & X3 & X4 & X5 & _).
    rewrite X0, X1, X2, X3, X4, X5 in K. congruence.
Qed.

Lemma pick_split s hs f :
  pick s hs = Some f <->
  exists a b, hs = a ++ f :: b /\ hkey f = s /\ forall g, In g a -> hkey g <> s.
Proof.
  unfold pick. split.
  - intros H. pose proof (find_split (fun f => beq (hkey f) s) hs) as K. rewrite H in K.
    destruct K as (a & b & -> & X & Y). apply beq_eq in X. exists a, b.
    split; auto. split; auto. intros g I. apply Y in I. now apply beq_neq.
  - intros (a & b & -> & X & Y). induction a as [|g a IH]; cbn [app find].
    + now rewrite (proj2 (beq_eq _ _) X).
    + rewrite (proj2 (beq_neq _ _)); [|apply Y; now left]. apply IH. intros; apply Y; now right.
Qed.

Lemma filter_map_split {A C} (P : A -> bool) (g : A -> C) l a x b :
  map g (List.filter P l) = a ++ x :: b ->
  exists l1 y l2, l = l1 ++ y :: l2 /\ P y = true /\ g y = x /\
                  map g (List.filter P l1) = a /\ map g (List.filter P l2) = b.
Proof.
  revert a; induction l as [|z l IH]; intros a H; cbn [List.filter map] in H.
  { destruct a; discriminate. }
  destruct (P z) eqn:Pz.
  - destruct a as [|a0 a]; cbn [map app] in H; injection H as H1 H2.
    + exists [], z, l. repeat split; auto.
    + destruct (IH a H2) as (l1 & y & l2 & -> & Y1 & Y2 & Y3 & Y4).
      exists (z :: l1), y, l2. repeat split; auto. cbn [List.filter]. rewrite Pz. cbn. congruence.
  - destruct (IH a H) as (l1 & y & l2 & -> & Y1 & Y2 & Y3 & Y4).
    exists (z :: l1), y, l2. repeat split; auto. cbn [List.filter]. now rewrite Pz.
Qed.

Lemma first_host_pick E calls rs e f h :
  Forall2 (line_rule E) (loaded_lines calls) rs ->
  (first_host_rule calls e f /\ f_host f = Some h) <-> pick h (hosts_in e rs) = Some f.
Proof.
  intros F. rewrite pick_split. split.
  - intros [[HR (a & pres & l & b & h' & L & P & Hh & N)] Hh'].
    assert (h' = h) as -> by congruence. rewrite L in F.
    apply Forall2_app_inv_l in F as (ra & rb & Fa & Fb & ->).
    inversion Fb as [|? r ? rb' LR Fb']; subst.
    assert (f = fst (fst r)) as Ef by (now apply (line_rule_parses E (pres, l))).
    destruct r as [[g bb] k]. cbn [fst] in Ef. subst g.
    pose proof (line_rule_ok _ _ _ LR) as PO.
    exists (hosts_in e ra), (hosts_in e rb'). split; [|split].
    + unfold hosts_in. rewrite filter_app, map_app. cbn [List.filter].
      rewrite (proj2 (in_hosts_rule E e f bb k PO) HR). reflexivity.
    + unfold hkey. now rewrite Hh.
    + intros g I K. apply in_hosts_in in I as (kg & I & IH).
      destruct (F2_in _ _ _ _ Fa I) as ([p' l'] & J & LR').
      pose proof (line_rule_ok _ _ _ LR') as PO'.
      apply (in_hosts_rule E) in IH; auto.
      apply (N p' l' g); auto.
      * now apply (line_rule_parses E (p', l') (g, true, kg)).
      * rewrite (host_rule_host E e g true kg) by auto. congruence.
  - intros (a & b & H & K & N). apply filter_map_split in H as
      (ra & [[g bb] k] & rb & -> & IH & Eg & Ea & Eb). cbn [fst] in Eg. subst g.
    apply Forall2_app_inv_r in F as (la & lb & Fa & Fb & L).
    inversion Fb as [|[pres l] ? lb' ? LR Fb']; subst.
    pose proof (line_rule_ok _ _ _ LR) as PO. apply (in_hosts_rule E) in IH; auto.
    pose proof (host_rule_host E e f bb k PO IH) as Hh.
    split; [split; auto|auto]. exists la, pres, l, lb', (hkey f).
    split; auto. split; [now apply (line_rule_parses E (pres, l) (f, bb, k))|].
    split; auto. intros p' l' g I P' HR' Hg.
    destruct (F2_in_l _ _ _ _ Fa I) as ([[g' bg] kg] & J & LR').
    assert (g = g') as <- by (now apply (line_rule_parses E (p', l') (g', bg, kg))).
    pose proof (line_rule_ok _ _ _ LR') as PO'.
    apply (N g); [|unfold hkey; now rewrite Hg].
    apply in_map_iff. exists (g, bg, kg). split; auto. apply filter_In. split; auto.
    now apply (in_hosts_rule E).
Qed.
