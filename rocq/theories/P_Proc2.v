(** Processes and threads. *)
From Verif Require Import Base Flags Url Sets FilterM ParseM ClientM SerialM OwnM OwnT ProcM
  Spec SpecM SpecC SpecE SpecG SpecLine SpecU SpecProc P_Base P_Parse P_Opt P_Opt2 P_Abb
  P_List P_OwnT P_Read3 P_Read4 P_Read5 P_Client P_Proc.

(** ** Names *)

Definition look (seg : bytes) : list bytes :=
  match unrecognized seg with Some n => [n] | None => [] end.

Lemma not_begins_iff p s : prefixb p s = false <-> ~ begins p s.
Proof.
  split; intros H.
  - intros B0. apply prefixb_spec in B0. congruence.
  - destruct (prefixb p s) eqn:Q; auto. elim H. now apply prefixb_spec.
Qed.

Lemma named_unnegated p n : named p n -> unnegated p = n.
Proof.
  intros [[<- N]| ->]; [|reflexivity]. unfold unnegated. destruct p as [|c s]; auto.
  destruct (ceq_spec c "~") as [->|]; auto. elim N. now exists s.
Qed.

Lemma named_exists p : exists n, named p n.
Proof.
  destruct p as [|c s].
  - exists []. left. split; auto. intros (v & H). discriminate H.
  - destruct (ceq_spec c "~") as [->|N].
    + exists s. now right.
    + exists (c :: s). left. split; auto. intros (v & H). injection H as -> _. now elim N.
Qed.

Lemma look_unknown p n : named p n -> denotes n FOUnknown -> look p = [n].
Proof.
  intros N D. apply named_unnegated in N. unfold look, unrecognized. rewrite N. cbv zeta.
  destruct (denotes_no_value _ _ D) as [A1 A2].
  rewrite (proj2 (not_begins_iff _ _) A1), (proj2 (not_begins_iff _ _) A2).
  apply denotes_spec in D; auto. rewrite D. now rewrite N.eqb_refl.
Qed.

Lemma look_known p n : named p n -> ~ denotes n FOUnknown -> look p = [].
Proof.
  intros N D. apply named_unnegated in N. unfold look, unrecognized. rewrite N. cbv zeta.
  destruct (prefixb (B "domain=") n) eqn:P1; auto.
  destruct (prefixb (B "tag=") n) eqn:P2; auto.
  destruct (N.eqb_spec (option_bit n) FOUnknown) as [Q|Q]; auto.
  elim D. apply denotes_spec; auto; now apply not_begins_iff.
Qed.

Lemma denotes_dec n : denotes n FOUnknown \/ ~ denotes n FOUnknown.
Proof.
  destruct (prefixb (B "domain=") n) eqn:P1.
  { right. intros D. apply denotes_no_value in D as [D _]. now apply D, prefixb_spec. }
  destruct (prefixb (B "tag=") n) eqn:P2.
  { right. intros D. apply denotes_no_value in D as [_ D]. now apply D, prefixb_spec. }
  apply not_begins_iff in P1, P2.
  destruct (N.eq_dec (option_bit n) FOUnknown) as [Q|Q].
  - left. now apply denotes_spec.
  - right. intros D. now apply denotes_spec in D.
Qed.

Lemma unknown_names ps ns : unknown_among ps ns -> flat_map look ps = ns.
Proof.
  induction 1 as [|p n ps ns N D U IH|p n ps ns N D U IH]; cbn [flat_map]; auto.
  - rewrite (look_unknown p n), IH by auto. reflexivity.
  - rewrite (look_known p n), IH by auto. reflexivity.
Qed.

Lemma unknown_exists ps : exists ns, unknown_among ps ns.
Proof.
  induction ps as [|p ps (ns & IH)]; [exists []; constructor|].
  destruct (named_exists p) as (n & N). destruct (denotes_dec n) as [D|D].
  - exists (n :: ns). now constructor.
  - exists ns. now apply (ua_known p n).
Qed.

(** ** Lines, texts, calls *)

Lemma line_names_spec pres pn l ns :
  is_line pn l -> line_mentions l ns -> line_names pres pn = Ok ns.
Proof.
  intros (t & r & T & E1 & E2 & Hl) M. destruct pn as [p n]. cbn [fst snd] in *. subst p n.
  unfold line_names. destruct M as [m o parts ns R W O C U|m R H].
  - destruct (line_options pres l t r m Hl T R) as (op & Eo & A & _).
    unfold bytes in *. rewrite Eo, (A W), O.
    cbn [bind segments]. rewrite <- (cut_unique _ _ _ C). f_equal. now apply unknown_names.
  - destruct (line_options pres l t r m Hl T R) as (op & Eo & A & B0).
    unfold bytes in *. rewrite Eo.
    assert (op = None) as ->; [|reflexivity].
    destruct (within_dec l m R) as [W|W]; auto. rewrite (A W). destruct H; tauto.
Qed.

Lemma line_mentions_exists l : exists ns, line_mentions l ns.
Proof.
  destruct (reading_exists l) as (m & R).
  destruct (options_of m) as [o|] eqn:O.
  - destruct (within_dec l m R) as [W|W].
    + destruct (unknown_exists (split_on "," o)) as (ns & U). exists ns.
      apply (lm_options l m o (split_on "," o)); auto. apply split_cut.
    + exists []. apply (lm_none l m); auto.
  - exists []. apply (lm_none l m); auto.
Qed.

Lemma gather_lines pres L ls nss :
  Forall2 is_line L ls -> Forall2 line_mentions ls nss ->
  gather (line_names pres) L = Ok (concat nss).
Proof.
  intros F. revert nss. induction F as [|pn l L ls I F IH]; intros nss G; inversion G; subst.
  - reflexivity.
  - cbn [gather]. rewrite (line_names_spec pres pn l y) by auto. cbn [bind].
    rewrite (IH l') by auto. reflexivity.
Qed.

Lemma call_names_spec x ms :
  ncall_ok x -> call_mentions x ms -> call_names x = Ok (ms ++ ms).
Proof.
  intros K C. revert K. destruct C as [pres t nss F|y N]; intros K.
  - cbn [call_names]. unfold text_names. destruct (lines_of_spec t K) as (L & -> & G).
    cbn [bind]. rewrite !(gather_lines _ _ _ _ G F). reflexivity.
  - destruct y as [k| |]; try reflexivity. destruct k; try reflexivity. now elim (N preserveRules text).
Qed.

Lemma mentions_exist xs : exists ms, mentions xs ms.
Proof.
  induction xs as [|x xs (ms & IH)]; [exists []; constructor|].
  assert (exists ns, call_mentions x ns) as (ns & C).
  { assert (D : (exists pres t, x = Call (Parse pres t)) \/ forall pres t, x <> Call (Parse pres t)).
    { destruct x as [[]| |]; try (right; discriminate). left. eauto. }
    destruct D as [(pres & t & ->)|D]; [|exists []; now constructor].
    assert (exists nss, Forall2 line_mentions (text_lines t) nss) as (nss & F).
    { induction (text_lines t) as [|l ls (nss & F)]; [exists []; constructor|].
      destruct (line_mentions_exists l) as (n & L). exists (n :: nss). now constructor. }
    exists (concat nss). now constructor. }
  exists (ns ++ ms). now constructor.
Qed.

(** ** The console *)

Lemma fm_same ms ns : first_mentions ms ns -> forall n, In n ns <-> In n ms.
Proof.
  induction 1 as [|ms ns n F IH N|ms ns n F IH I]; intros m; [tauto|..].
  - rewrite !in_app_iff, IH. tauto.
  - rewrite in_app_iff, IH. cbn. split; [tauto|]. intros [Q|[<-|[]]]; auto.
Qed.

Lemma fm_nodup ms ns : first_mentions ms ns -> NoDup ns.
Proof.
  induction 1 as [|ms ns n F IH N|ms ns n F IH I]; auto; [constructor|].
  apply NoDup_rev in IH. rewrite <- (rev_involutive (ns ++ [n])). apply NoDup_rev.
  rewrite rev_app_distr. cbn [rev app]. constructor; auto. rewrite <- in_rev.
  now rewrite (fm_same _ _ F).
Qed.

Lemma fm_snoc ms n ns : first_mentions (ms ++ [n]) ns ->
  (In n ms /\ first_mentions ms ns) \/ (~ In n ms /\ exists ns', ns = ns' ++ [n] /\ first_mentions ms ns').
Proof.
  intros F. inversion F as [Q|ms' ns' n' F' N Q|ms' ns' n' F' I Q].
  - now destruct ms.
  - apply app_inj_tail in Q as [-> ->]. right. eauto.
  - apply app_inj_tail in Q as [-> ->]. left. auto.
Qed.

Lemma fm_unique ms : forall ns ns', first_mentions ms ns -> first_mentions ms ns' -> ns = ns'.
Proof.
  induction ms as [|n ms IH] using rev_ind; intros ns ns' F F'.
  - inversion F; inversion F'; subst; auto;
      match goal with H : _ ++ [_] = [] |- _ => symmetry in H; now apply app_cons_not_nil in H end.
  - apply fm_snoc in F as [[I F]|[N (a & -> & F)]]; apply fm_snoc in F' as [[I' F']|[N' (a' & -> & F')]];
      try tauto; auto. f_equal. auto.
Qed.

Lemma fm_drop a b : forall ns, incl b a -> first_mentions (a ++ b) ns -> first_mentions a ns.
Proof.
  induction b as [|n b IH] using rev_ind; intros ns I F; [now rewrite app_nil_r in F|].
  rewrite app_assoc in F. apply fm_snoc in F as [[_ F]|[N _]].
  - apply IH; auto. intros x Hx. apply I, in_or_app. auto.
  - elim N. apply in_or_app. left. apply I, in_or_app. right. now left.
Qed.

Definition shows (seen : list bytes) (w : board) : Prop :=
  (forall n, In n (b_known w) <-> In n seen) /\
  exists ns, first_mentions seen ns /\ b_out w = map announcement ns.

Lemma shows_look w seen n : shows seen w -> shows (seen ++ [n]) (look_up w n).
Proof.
  intros (K & ns & F & O). unfold look_up.
  destruct (memb n (b_known w)) eqn:M.
  - apply memb_In in M. split.
    + intros m. rewrite K, in_app_iff. cbn. split; [tauto|]. intros [Q|[<-|[]]]; auto. now apply K.
    + exists ns. split; auto. apply fm_again; auto. now apply K.
  - assert (N : ~ In n (b_known w)) by (intros I; apply memb_In in I; congruence).
    split; cbn [b_known b_out].
    + intros m. rewrite in_app_iff. cbn. rewrite K. tauto.
    + exists (ns ++ [n]). split; [apply fm_new; auto; intros I; now apply N, K|].
      now rewrite O, map_app.
Qed.

Lemma shows_all ns : forall w seen, shows seen w -> shows (seen ++ ns) (fold_left look_up ns w).
Proof.
  induction ns as [|n ns IH]; intros w seen S0; cbn [fold_left]; [now rewrite app_nil_r|].
  change (n :: ns) with ([n] ++ ns). rewrite app_assoc. apply IH. now apply shows_look.
Qed.

Lemma shows_twice w seen ms : shows seen w -> shows (seen ++ ms) (fold_left look_up (ms ++ ms) w).
Proof.
  intros S0. apply (shows_all (ms ++ ms)) in S0 as (K & ns & F & O). rewrite app_assoc in F.
  split.
  - intros n. rewrite K, !in_app_iff. tauto.
  - exists ns. split; auto. apply fm_drop in F; auto. intros x I. apply in_or_app. auto.
Qed.

Lemma process_board E xs : forall P P' ms seen,
  Forall ncall_ok (map snd xs) -> foldM (call_on E) P xs = Ok P' -> mentions (map snd xs) ms ->
  shows seen (p_board P) -> shows (seen ++ ms) (p_board P').
Proof.
  induction xs as [|[i x] xs IH]; intros P P' ms seen K R M S0; cbn [map snd foldM] in *.
  - injection R as <-. inversion M; subst. now rewrite app_nil_r.
  - inversion K; subst. inversion M as [|x' m1 xs' m2 C M']; subst.
    apply bind_ok in R as (P1 & R1 & R). unfold call_on in R1.
    apply bind_ok in R1 as (c & A & R1). apply bind_ok in R1 as (ns & N & R1).
    rewrite (call_names_spec x m1) in N by auto.
    assert (ns = m1 ++ m1) as -> by congruence.
    rewrite app_assoc. apply (IH P1 P'); auto.
    assert (P1 = mkProc (fun j => if j =? i then c else p_client P j)
                        (fold_left look_up (m1 ++ m1) (p_board P))) as -> by congruence.
    cbn [p_board]. now apply shows_twice.
Qed.

Theorem console E xs P ms :
  Forall ncall_ok (map snd xs) -> foldM (call_on E) process0 xs = Ok P -> mentions (map snd xs) ms ->
  exists ns, first_mentions ms ns /\ b_out (p_board P) = map announcement ns.
Proof.
  intros K R M. apply (process_board E xs process0 P ms [] K R M).
  split; [tauto|]. exists []. split; [constructor|reflexivity].
Qed.

Lemma announcement_inj n m : announcement n = announcement m -> n = m.
Proof. unfold announcement. apply app_inv_head. Qed.

Theorem console_once E xs P ms :
  Forall ncall_ok (map snd xs) -> foldM (call_on E) process0 xs = Ok P -> mentions (map snd xs) ms ->
  NoDup (b_out (p_board P)) /\
  forall s, In s (b_out (p_board P)) <-> exists n, In n ms /\ s = announcement n.
Proof.
  intros K R M. destruct (console E xs P ms K R M) as (ns & F & ->). split.
  - apply FinFun.Injective_map_NoDup; [exact announcement_inj|]. exact (fm_nodup _ _ F).
  - intros s. rewrite in_map_iff. split.
    + intros (n & <- & I). exists n. split; auto. now apply (fm_same _ _ F).
    + intros (n & I & ->). exists n. split; auto. now apply (fm_same _ _ F).
Qed.

(** ** The clients *)

Lemma clients_apart_from E xs : forall P P', foldM (call_on E) P xs = Ok P' ->
  forall i, foldM (act E) (p_client P i) (calls_of i xs) = Ok (p_client P' i).
Proof.
  induction xs as [|[k x] xs IH]; intros P P' R i; cbn [foldM] in R.
  - injection R as <-. reflexivity.
  - apply bind_ok in R as (P1 & R1 & R). specialize (IH _ _ R i).
    unfold call_on in R1. apply bind_ok in R1 as (c & A & R1). apply bind_ok in R1 as (ns & N & R1).
    assert (P1 = mkProc (fun j => if j =? k then c else p_client P j)
                        (fold_left look_up ns (p_board P))) as -> by congruence.
    cbn [p_client] in IH. unfold calls_of in *. cbn [List.filter fst].
    rewrite (Nat.eqb_sym k i). destruct (Nat.eqb_spec i k) as [->|Nk]; auto.
    cbn [map snd foldM]. rewrite A. cbn [bind]. exact IH.
Qed.

Theorem clients_apart E xs P : foldM (call_on E) process0 xs = Ok P ->
  forall i, foldM (act E) client0 (calls_of i xs) = Ok (p_client P i).
Proof. intros R i. exact (clients_apart_from E xs process0 P R i). Qed.

Lemma process_defined_from E xs : forall P, Forall ncall_ok (map snd xs) ->
  (forall i, exists c, foldM (act E) (p_client P i) (calls_of i xs) = Ok c) ->
  exists P', foldM (call_on E) P xs = Ok P'.
Proof.
  induction xs as [|[k x] xs IH]; intros P K H; cbn [foldM]; [eauto|].
  cbn [map snd] in K. inversion K; subst.
  destruct (H k) as (ck & Hk). unfold calls_of in Hk. cbn [List.filter fst] in Hk.
  rewrite Nat.eqb_refl in Hk. cbn [map snd foldM] in Hk. apply bind_ok in Hk as (c & A & Hk).
  destruct (mentions_exist [x]) as (ms & M). inversion M as [|x' m1 xs' m2 C M']; subst.
  unfold call_on at 1. rewrite A. cbn [bind]. rewrite (call_names_spec x m1) by auto. cbn [bind].
  apply IH; auto. intros i. cbn [p_client].
  specialize (H i). unfold calls_of in *. cbn [List.filter fst] in H.
  rewrite (Nat.eqb_sym k i) in H. destruct (Nat.eqb_spec i k) as [Q|Nk]; [|exact H].
  exists ck. rewrite Q. exact Hk.
Qed.

Theorem process_defined E xs : Forall ncall_ok (map snd xs) ->
  (exists P, foldM (call_on E) process0 xs = Ok P) <->
  (forall i, exists c, foldM (act E) client0 (calls_of i xs) = Ok c).
Proof.
  intros K. split.
  - intros (P & R) i. exists (p_client P i). now apply clients_apart.
  - intros H. now apply process_defined_from.
Qed.

(** ** Threads *)

Lemma calls_names_spec xs : forall ms, Forall ncall_ok xs -> mentions xs ms ->
  exists ns, calls_names xs = Ok ns /\ forall n, In n ns <-> In n ms.
Proof.
  unfold calls_names. induction xs as [|x xs IH]; intros ms K M; inversion M; subst.
  - exists []. split; [reflexivity|tauto].
  - inversion K; subst. destruct (IH ns) as (a & A & H); auto.
    cbn [gather]. rewrite (call_names_spec x ms0) by auto. rewrite A. cbn [bind].
    eexists. split; [reflexivity|]. intros n. rewrite !in_app_iff, H. tauto.
Qed.

Definition upto (known : list bytes) (names : nat -> list bytes) (s : threads) : Prop :=
  incl known (th_known s) /\
  forall i, (exists a, names i = a ++ t_names (th_of s i)) /\
    (t_inserting (th_of s i) = true ->
     exists n ns, t_names (th_of s i) = n :: ns /\ ~ In n known).

Lemma upto_step known names s i : upto known names s -> upto known names (access s i).
Proof.
  intros (I & H). unfold access.
  destruct (t_names (th_of s i)) as [|n ns] eqn:En; [now split|].
  assert (D : forall k t,
    incl known k ->
    (exists a, names i = a ++ t_names t) ->
    (t_inserting t = true -> exists n ns, t_names t = n :: ns /\ ~ In n known) ->
    upto known names (with_thread s k i t)).
  { intros k t A1 A2 A3. split; [exact A1|]. intros j. cbn [with_thread th_of].
    destruct (Nat.eqb_spec j i) as [->|]; auto. }
  destruct (H i) as [(a & Ea) Hi]. rewrite En in Ea.
  destruct (t_inserting (th_of s i)) eqn:Q.
  - apply D.
    + intros x Hx. right. now apply I.
    + exists (a ++ [n]). cbn [t_names]. now rewrite <- app_assoc.
    + discriminate.
  - destruct (memb n (th_known s)) eqn:M.
    + apply D; auto.
      * exists (a ++ [n]). cbn [t_names]. now rewrite <- app_assoc.
      * discriminate.
    + apply D; auto.
      * exists a. exact Ea.
      * intros _. exists n, ns. split; auto. intros J. apply I, memb_In in J. congruence.
Qed.

Lemma upto_run known names turns : forall s, upto known names s ->
  upto known names (run_schedule s turns).
Proof.
  induction turns as [|i turns IH]; intros s U; cbn [run_schedule fold_left]; auto.
  apply IH. now apply upto_step.
Qed.

Definition start (known : list bytes) (names : nat -> list bytes) : threads :=
  mkThreads known (fun i => mkThread (names i) false).

Lemma reach_insert i n ns : forall a known s,
  th_known s = known -> th_of s i = mkThread (a ++ n :: ns) false -> ~ In n known ->
  exists turns, t_inserting (th_of (run_schedule s turns) i) = true /\
    t_names (th_of (run_schedule s turns) i) <> [] /\
    forall j, j <> i -> th_of (run_schedule s turns) j = th_of s j.
Proof.
  intros a. induction a as [|m a IH]; intros known s Ek Et N.
  - exists [i]. cbn [run_schedule fold_left]. unfold access. rewrite Et. cbn [t_names t_inserting app].
    destruct (memb n (th_known s)) eqn:M; [apply memb_In in M; congruence|].
    cbn [with_thread th_of]. rewrite Nat.eqb_refl. cbn [t_inserting t_names].
    split; [reflexivity|]. split; [discriminate|]. intros j Nj. now rewrite (proj2 (Nat.eqb_neq j i)).
  - destruct (memb m (th_known s)) eqn:M.
    + destruct (IH known (access s i)) as (turns & A & B0 & C); auto.
      * unfold access. rewrite Et. cbn [t_names t_inserting app]. rewrite M. exact Ek.
      * unfold access. rewrite Et. cbn [t_names t_inserting app]. rewrite M.
        cbn [with_thread th_of]. now rewrite Nat.eqb_refl.
      * exists (i :: turns). split; [exact A|]. split; [exact B0|].
        intros j Nj. change (run_schedule s (i :: turns)) with (run_schedule (access s i) turns).
        rewrite (C j Nj). unfold access. rewrite Et. cbn [t_names t_inserting app]. rewrite M. cbn [with_thread th_of].
        now rewrite (proj2 (Nat.eqb_neq j i)).
    + exists [i]. cbn [run_schedule fold_left]. unfold access. rewrite Et. cbn [t_names t_inserting app].
      rewrite M. cbn [with_thread th_of]. rewrite Nat.eqb_refl. cbn [t_inserting t_names].
      split; [reflexivity|]. split; [discriminate|]. intros j Nj. now rewrite (proj2 (Nat.eqb_neq j i)).
Qed.

Theorem race_iff known names :
  (exists turns, racing (run_schedule (start known names) turns)) <->
  exists i j, i <> j /\ (exists n, In n (names i) /\ ~ In n known) /\ names j <> [].
Proof.
  split.
  - intros (turns & i & j & Nij & Q & Ni & Nj).
    assert (U : upto known names (start known names)).
    { split; [easy|]. intros k. split; [now exists []|discriminate]. }
    apply (upto_run known names turns) in U as [_ U].
    exists i, j. split; auto. split.
    + destruct (U i) as [(a & Ea) H]. destruct (H Q) as (n & ns & En & Nn).
      exists n. split; auto. rewrite Ea, En. apply in_or_app. right. now left.
    + destruct (U j) as [(a & Ea) _]. intros E0. rewrite Ea in E0. now apply app_eq_nil in E0 as [_ E0].
  - intros (i & j & Nij & (n & In_ & Nn) & Nj). apply in_split in In_ as (a & ns & En).
    destruct (reach_insert i n ns a known (start known names)) as (turns & A & B0 & C); auto.
    { cbn [start th_of]. now rewrite En. }
    exists turns, i, j. split; auto. split; auto. split; auto. rewrite C by auto. exact Nj.
Qed.

Theorem no_race_exactly known prog ms :
  (forall i, Forall ncall_ok (prog i)) -> (forall i, mentions (prog i) (ms i)) ->
  ((forall names, (forall i, calls_names (prog i) = Ok (names i)) ->
    forall turns, ~ racing (run_schedule (start known names) turns)) <->
   forall i j n, i <> j -> In n (ms i) -> ms j <> [] -> In n known).
Proof.
  intros K M.
  set (get := fun i => match calls_names (prog i) with Ok ns => ns | UB => [] end).
  assert (G : forall i, calls_names (prog i) = Ok (get i) /\ forall n, In n (get i) <-> In n (ms i)).
  { intros i. destruct (calls_names_spec (prog i) (ms i) (K i) (M i)) as (ns & A & H).
    unfold get. rewrite A. auto. }
  assert (Z : forall j, get j = [] <-> ms j = []).
  { intros j. split; intros Q.
    - destruct (ms j) as [|n l] eqn:Em; auto. exfalso. apply (in_nil (a := n)). rewrite <- Q.
      apply G. rewrite Em. now left.
    - destruct (get j) as [|n l] eqn:Em; auto. exfalso. apply (in_nil (a := n)). rewrite <- Q.
      apply G. rewrite Em. now left. }
  split.
  - intros H i j n Nij I Nj. destruct (in_dec (list_eq_dec ascii_dec) n known) as [D|D]; auto.
    exfalso. destruct (proj2 (race_iff known get)) as (turns & R).
    + exists i, j. split; auto. split; [exists n; split; auto; now apply G|]. now rewrite Z.
    + apply (H get) in R; auto. intros k. apply G.
  - intros H names A turns R.
    destruct (proj1 (race_iff known names)) as (i & j & Nij & (n & I & Nn) & Nj); [eauto|].
    assert (names i = get i) as Ei by (destruct (G i); specialize (A i); congruence).
    assert (names j = get j) as Ej by (destruct (G j); specialize (A j); congruence).
    apply Nn, (H i j n Nij); [apply G; congruence|]. rewrite <- Z. congruence.
Qed.
