(** Serialization: what a client holds, and its bytes. *)
From Verif Require Import Base Flags Protocol Url Sets FilterM ParseM ClientM SerialM Spec SpecM
  SpecC SpecS P_Base P_Protocol P_Url P_Match P_Rule P_Parse P_List P_Shape P_Fp P_Line P_Line2
  P_Fp2 P_Props1 P_Props2 P_Props3 P_Opt P_Opt2 P_Set P_Client P_Decide P_Hist P_Ser1 P_Ser2.

(** ** Tags hold no comma *)
Definition nocomma (s : bytes) : Prop := ~ In ","%char s.

Lemma parseOption_tag f seg :
  nocomma seg -> nocomma (f_tag f) -> nocomma (f_tag (parseOption f seg)).
Proof.
  intros Hc Hd. unfold parseOption.
  set (w := match seg with [] => _ | _ => _ end).
  assert (nocomma (snd w)) as W2.
  { unfold w. destruct seg as [|c s]; [auto|]. destruct (ceq c "~"); auto.
    cbn [snd]. intros I. apply Hc. cbn; auto. }
  destruct w as [anti s]. cbn [snd] in *.
  destruct (prefixb (B "domain=") s); [auto|].
  destruct (prefixb (B "tag=") s).
  { cbn [f_tag]. intros I. apply W2. eapply In_skipn; eauto. }
  destruct anti; auto.
Qed.

Lemma options_tag segs f :
  (forall x, In x segs -> nocomma x) ->
  nocomma (f_tag f) -> nocomma (f_tag (fold_left parseOption segs f)).
Proof.
  revert f; induction segs as [|x segs IH]; intros f Hs H; cbn [fold_left]; auto.
  apply IH.
  - intros; apply Hs; cbn; auto.
  - apply parseOption_tag; auto. apply Hs. now left.
Qed.

Lemma cur_f_tag c s : f_tag (cur_f c s) = f_tag (s_f s).
Proof. unfold cur_f. now destruct (_ && _). Qed.

Lemma pline_tag pres l : line_text l -> nocomma (f_tag (fst (pline pres l))).
Proof.
  intros Hl.
  destruct (pline_ind pres l (fun p s => nocomma (f_tag (s_f s)))
    (fun o => match o with PReturn f => nocomma (f_tag f) | PEnd s => nocomma (f_tag (s_f s)) end) Hl)
    as [(f & E & K)|[(s & E1 & K & E2)|(s & r & E1 & K & E2)]]; auto.
  - intros a c b s act El _ _ _ H SC.
    destruct SC as [E|E1 E2|E1 E2|E1 E2 E3 E4|E1 E2|E1 E2|E1 E2|E1 E2|E1 E2 E3 E4 E5
      |E1 E2 E3|E1 E2 E3|E1 E2 E3|st' E1 E2 E3 E4];
      cbn [put_ps skip_ps s_st s_f]; auto.
    + cbv zeta. now destruct (line_hostonly b).
    + cbv zeta. now destruct pres.
    + intros _. unfold take_domains. destruct (s_data s);
        cbn [set_type set_dom f_tag]; now rewrite cur_f_tag.
    + apply options_tag.
      * intros x I. now apply split_on_sub in I as [_ I].
      * cbn [f_tag]. now rewrite cur_f_tag.
    + intros _. unfold take_domains. destruct (s_data s);
        cbn [set_type set_dom f_tag]; now rewrite cur_f_tag.
    + now rewrite cur_f_tag.
  - now intros [].
  - now rewrite E.
  - now rewrite E2.
  - rewrite E2. cbn [fst set_data f_tag]. now destruct pres.
Qed.

Definition ends_nul (f : filter) : Prop := forall d t, f_data f = Some (d, t) -> t = [NUL].

Lemma line_text_nonul l : line_text l -> nonul l.
Proof. intros H I. destruct (H NUL I) as [X _]; now apply X. Qed.

Lemma opt_text_str o : opt_text o -> nonul (str o).
Proof. intros H. destruct o as [s|]; [|easy]. apply line_text_nonul. now apply H. Qed.

Lemma rule_ok_arr f b : rule_ok f b -> nocomma (f_tag f) -> arr_rule f /\ ends_nul f.
Proof.
  intros (R1 & R2 & R3 & R4 & R5) Ht.
  assert (f_data f = None \/ exists d, f_data f = Some (d, [NUL]) /\ line_text d) as D.
  { destruct b.
    - destruct R5 as [R5 _]. now right.
    - destruct R5 as [[R5 _]|(d & R5 & R6 & _)]; [now left|right; eauto]. }
  split.
  - split; [|split; [|split; [|split]]]; auto using opt_text_str, line_text_nonul.
    destruct D as [D|(d & D & T)]; [now left|]. right. exists d, []. split; auto.
    now apply line_text_nonul.
  - intros d t E. destruct D as [D|(d' & D & T)]; congruence.
Qed.

Lemma line_rule_arr E pl r : line_rule E pl r -> arr_rule (fst (fst r)) /\ ends_nul (fst (fst r)).
Proof.
  intros H. pose proof (line_rule_ok E pl r H) as PO. destruct pl as [p l], r as [[f b] k].
  destruct H as [L H]. cbn [fst snd] in *. apply rule_of_class in H as [H _].
  apply (rule_ok_arr f b); [apply PO|].
  pose proof (pline_tag p l L) as T. now rewrite H in T.
Qed.

(** ** What is in the sets *)
Definition hostP (P : filter -> Prop) (g : filter) : Prop :=
  exists f, g = copyFilter f /\ f_data f <> None /\ P f.

Record sfine (P : filter -> Prop) (s : sets) : Prop := mkSfine {
  sf_b : fits (x_bloom s); sf_eb : fits (x_ebloom s);
  sf_h : Forall (Forall (hostP P)) (x_host s);
  sf_eh : Forall (Forall (hostP P)) (x_ehost s);
  sf_h0 : x_host s <> []; sf_eh0 : x_ehost s <> [];
  sf_d1 : x_nfd s <> []; sf_d2 : x_nfa s <> [];
  sf_d3 : x_nfdexc s <> []; sf_d4 : x_nfaexc s <> []
}.

Definition oall {A} (P : A -> Prop) (o : option A) : Prop := forall x, o = Some x -> P x.

Definition cfine (P : filter -> Prop) (c : client) : Prop :=
  oall fits (c_bloom c) /\ oall fits (c_ebloom c) /\
  oall (fun s => Forall (Forall (hostP P)) s /\ s <> []) (c_host c) /\
  oall (fun s => Forall (Forall (hostP P)) s /\ s <> []) (c_ehost c) /\
  oall (fun s => s <> []) (c_nfd c) /\ oall (fun s => s <> []) (c_nfa c) /\
  oall (fun s => s <> []) (c_nfdexc c) /\ oall (fun s => s <> []) (c_nfaexc c).

Lemma hostP_mono (P Q : filter -> Prop) s :
  (forall f, P f -> Q f) -> Forall (Forall (hostP P)) s -> Forall (Forall (hostP Q)) s.
Proof.
  intros H. apply Forall_impl. intros b. apply Forall_impl.
  intros g (f & E & D & K). exists f. auto.
Qed.

Lemma cfine_mono (P Q : filter -> Prop) c :
  (forall f, P f -> Q f) -> cfine P c -> cfine Q c.
Proof.
  intros H (H1 & H2 & H3 & H4 & H5). split; auto. split; auto.
  split; [|split; auto].
  - intros s E. destruct (H3 s E). split; auto. eapply hostP_mono; eauto.
  - intros s E. destruct (H4 s E). split; auto. eapply hostP_mono; eauto.
Qed.

Lemma hs_new_nonempty {A} n : (0 < n)%N -> @hs_new A n <> [].
Proof. intros H E. apply (f_equal (@length _)) in E. unfold hs_new in E. rewrite repeat_length in E. cbn in E. lia. Qed.

Lemma hs_new_Forall {A} (P : A -> Prop) n : Forall (Forall P) (hs_new n).
Proof. apply Forall_forall. intros b I. apply repeat_spec in I as ->. constructor. Qed.

Lemma upd_Forall {A} (Q : list A -> Prop) (s : hset A) i g :
  Forall Q s -> (forall b, Q b -> Q (g b)) -> Forall Q (upd s i g).
Proof.
  intros F H. revert i. induction F as [|b s Hb F IH]; intros [|i]; cbn; constructor; auto.
Qed.

Lemma hs_add_Forall {A} key hash (Q : A -> Prop) s x :
  Forall (Forall Q) s -> Q x -> Forall (Forall Q) (hs_add key hash s x).
Proof.
  intros F H. unfold hs_add. apply upd_Forall; auto.
  intros b Hb. destruct (existsb _ b); auto. apply Forall_app. auto.
Qed.

Lemma hs_add_nonempty {A} key hash (s : hset A) x : s <> [] -> hs_add key hash s x <> [].
Proof.
  intros H E. apply (f_equal (@length _)) in E. rewrite hs_add_length in E.
  destruct s; [easy|discriminate].
Qed.

Lemma gate_nonempty E l s : s <> [] -> fold_left (gate_add E) l s <> [].
Proof.
  revert s; induction l as [|x l IH]; intros s H; cbn; auto.
  apply IH. now apply hs_add_nonempty.
Qed.

Lemma ins_fine (P : filter -> Prop) E f s :
  is_cosmetic f = true \/ (exists o, getFingerprint E f = Ok o) ->
  f_data f <> None -> P f -> sfine P s -> sfine P (ins E f s).
Proof.
  intros G D H [S1 S2 S3 S4 S5 S6 S7 S8 S9 S10]. rewrite ins_spec by auto.
  assert (hostP P (copyFilter f)) as HP by (exists f; auto).
  constructor; cbn [x_bloom x_ebloom x_host x_ehost x_nfd x_nfa x_nfdexc x_nfaexc]; auto.
  - destruct (_ && _); auto. destruct (fpo E f); auto. now apply fits_add.
  - destruct (_ && _); auto. destruct (fpo E f); auto. now apply fits_add.
  - destruct (in_hosts false _); auto. now apply hs_add_Forall.
  - destruct (in_hosts true _); auto. now apply hs_add_Forall.
  - destruct (in_hosts false _); auto. now apply hs_add_nonempty.
  - destruct (in_hosts true _); auto. now apply hs_add_nonempty.
Qed.

Lemma gate_fine (P : filter -> Prop) E f k s : sfine P s -> sfine P (gate E f k s).
Proof.
  intros [S1 S2 S3 S4 S5 S6 S7 S8 S9 S10]. unfold gate.
  destruct k; constructor; cbn [x_bloom x_ebloom x_host x_ehost x_nfd x_nfa x_nfdexc x_nfaexc];
    auto; now apply gate_nonempty.
Qed.

Definition st_s (a : st) : sets := fst (fst (fst a)).

Lemma store_fine (P : filter -> Prop) E a r :
  prule_fine E r -> (snd (fst r) = true -> f_data (fst (fst r)) <> None /\ P (fst (fst r))) ->
  sfine P (st_s a) -> sfine P (st_s (store E a r)).
Proof.
  intros PF H S. destruct a as [[[s w] ha] hae], r as [[f b] k]. cbn [fst snd st_s] in *.
  assert (sfine P (if b then ins E f s else s)) as K.
  { destruct b; auto. destruct (H eq_refl). apply ins_fine; auto. }
  unfold store. destruct k as [|[]|k]; cbn [st_s fst]; auto. now apply gate_fine.
Qed.

Lemma fold_fine (P : filter -> Prop) E rs : forall a,
  Forall (prule_fine E) rs ->
  (forall r, In r rs -> snd (fst r) = true -> f_data (fst (fst r)) <> None /\ P (fst (fst r))) ->
  sfine P (st_s a) -> sfine P (st_s (fold_left (store E) rs a)).
Proof.
  induction rs as [|r rs IH]; intros a F H S; cbn [fold_left]; auto.
  inversion F; subst. apply IH; auto.
  - intros x I. apply H. now right.
  - apply store_fine; auto. apply H. now left.
Qed.

Lemma cfine_init (P : filter -> Prop) c : cfine P c -> sfine P (initSets c).
Proof.
  intros (H1 & H2 & H3 & H4 & H5 & H6 & H7 & H8). unfold initSets.
  constructor; cbn [x_bloom x_ebloom x_host x_ehost x_nfd x_nfa x_nfdexc x_nfaexc].
  - destruct (c_bloom c); [now apply H1|apply fits_new].
  - destruct (c_ebloom c); [now apply H2|apply fits_new].
  - destruct (c_host c); [now apply H3|apply hs_new_Forall].
  - destruct (c_ehost c); [now apply H4|apply hs_new_Forall].
  - destruct (c_host c); [now apply H3|now apply hs_new_nonempty].
  - destruct (c_ehost c); [now apply H4|now apply hs_new_nonempty].
  - destruct (c_nfd c); [now apply H5|now apply hs_new_nonempty].
  - destruct (c_nfa c); [now apply H6|now apply hs_new_nonempty].
  - destruct (c_nfdexc c); [now apply H7|now apply hs_new_nonempty].
  - destruct (c_nfaexc c); [now apply H8|now apply hs_new_nonempty].
Qed.

Lemma sfine_client (P : filter -> Prop) c a : sfine P (st_s a) -> cfine P (with_st c a).
Proof.
  destruct a as [[[s w] ha] hae]. cbn [st_s fst].
  intros [S1 S2 S3 S4 S5 S6 S7 S8 S9 S10]. unfold with_st, cfine, oall.
  cbn [c_bloom c_ebloom c_host c_ehost c_nfd c_nfa c_nfdexc c_nfaexc].
  split; [intros x [= <-]; auto|]. split; [intros x [= <-]; auto|].
  split; [intros x [= <-]; auto|]. split; [intros x [= <-]; auto|].
  split; [intros x [= <-]; auto|]. split; [intros x [= <-]; auto|].
  split; intros x [= <-]; auto.
Qed.

Lemma install_fine (P : filter -> Prop) E rs c :
  Forall (prule_fine E) rs ->
  (forall r, In r rs -> snd (fst r) = true -> f_data (fst (fst r)) <> None /\ P (fst (fst r))) ->
  cfine P c -> cfine P (install E rs c).
Proof.
  intros F H C. apply sfine_client. apply fold_fine; auto. now apply cfine_init.
Qed.

Lemma cfine_same (P : filter -> Prop) c c' : same_rules c c' -> cfine P c -> cfine P c'.
Proof.
  intros (S1 & S2 & S3 & S4 & S5 & S6 & S7 & S8 & S9 & S10 & S11). unfold cfine.
  now rewrite S4, S5, S6, S7, S8, S9, S10, S11.
Qed.

Lemma cfine_none (P : filter -> Prop) c : c_bloom c = None -> c_ebloom c = None -> c_host c = None ->
  c_ehost c = None -> c_nfd c = None -> c_nfa c = None -> c_nfdexc c = None ->
  c_nfaexc c = None -> cfine P c.
Proof.
  unfold cfine, oall. intros -> -> -> -> -> -> -> ->. repeat (split; [intros x [=]|]). intros x [=].
Qed.

Definition of_line (calls : list call) (f : filter) : Prop :=
  (exists p l, In (p, l) (loaded_lines calls) /\ parses_to p l f) /\ arr_rule f.

Lemma hist_fine E calls c :
  history calls -> after E calls = Ok c -> cfine (of_line calls) c.
Proof.
  revert c. induction calls as [|k calls IH] using rev_ind; intros c Hc H.
  - injection H as <-. now apply cfine_none.
  - apply Forall_app in Hc as [Hc Hk]. inversion Hk as [|? ? Kk _]; subst.
    rewrite after_snoc in H. apply bind_ok in H as (c0 & H0 & H).
    specialize (IH c0 Hc H0).
    assert (loaded_lines (calls ++ [k]) = loaded_lines calls -> cfine (of_line (calls ++ [k])) c0) as M.
    { intros L. eapply cfine_mono; [|exact IH]. intros f. unfold of_line. now rewrite L. }
    pose proof (loaded_from_snoc [] calls k) as LS. fold (loaded_lines (calls ++ [k])) in LS.
    fold (loaded_lines calls) in LS.
    destruct k as [pres t| |t|t|url context dom|]; cbn [perform call_ok] in *.
    + rewrite parse_normal in H by auto. apply rmap_ok in H as (rs & H & ->).
      assert (Forall2 (line_rule E) (map (pair pres) (text_lines t)) rs) as F.
      { apply mapM_ok in H.
        assert (forall l, In l (text_lines t) -> line_text l) as L
          by (intros l; now apply text_lines_line).
        clear -H L. induction H as [|l r ls rs H M IH]; constructor.
        - split; cbn; auto. apply L. now left.
        - apply IH. intros; apply L. now right. }
      apply install_fine.
      * apply Forall_forall. intros r I. destruct (F2_in _ _ _ _ F I) as ([p l] & _ & L & R).
        now apply (rule_of_ok E p l).
      * intros r I Hr. destruct (F2_in _ _ _ _ F I) as (pl & I' & R).
        pose proof (line_rule_ok E _ _ R) as PO. pose proof (line_rule_arr E _ _ R) as [AR _].
        pose proof (proj2 (line_rule_parses E _ _ (fst (fst r)) R) eq_refl) as PT.
        destruct r as [[f b] k]. cbn [fst snd] in *. subst b.
        destruct PO as ((_ & _ & _ & _ & (d & Dd & _) & _) & _). split; [congruence|].
        split; auto. exists (fst pl), (snd pl). split; auto. rewrite LS.
        apply in_or_app. right. now destruct pl.
      * eapply cfine_mono; [|exact IH]. intros f ((p & l & I & PT) & AR). split; auto.
        exists p, l. split; auto. rewrite LS. apply in_or_app. auto.
    + injection H as <-. now apply cfine_none.
    + injection H as <-. eapply cfine_same; [|apply M; exact LS].
      unfold addTag. destruct (tagExists c0 t); repeat split.
    + injection H as <-. eapply cfine_same; [|apply M; exact LS]. repeat split.
    + apply rmap_ok in H as ([v c'] & H & ->). cbn [snd]. apply matches_quiet in H.
      eapply cfine_same; [apply H|apply M; exact LS].
    + injection H as <-. eapply cfine_same; [|apply M; exact LS].
      unfold enableBadFp. destruct (c_badfp c0); repeat split.
Qed.

Lemma hist_lists E calls c :
  history calls -> after E calls = Ok c ->
  forall k f, In f (tget (c_lists c) k) ->
    (exists p l, In (p, l) (loaded_lines calls) /\ parses_to p l f) /\ arr_rule f /\ ends_nul f.
Proof.
  intros Hc H k f I. destruct (hist E calls c Hc H) as (rs & R & F & _).
  assert (exists b, In (f, b, CList k) rs) as [b J].
  { destruct R as (_ & [[-> R]|(a & G & Ec)]).
    - destruct R as (R & _). rewrite R in I. now destruct k.
    - rewrite Ec in I. destruct a as [[[s w] ha] hae]. cbn [with_st c_lists] in I.
      rewrite <- in_rules_in. pose proof (g_lists _ _ _ G k) as W. cbn [st_w fst snd] in W.
      now rewrite <- W. }
  destruct (F2_in _ _ _ _ F J) as ([p l] & I' & L).
  pose proof (line_rule_arr E _ _ L) as A. split; [|exact A].
  exists p, l. split; auto. now apply (line_rule_parses E (p, l) (f, b, CList k)).
Qed.
