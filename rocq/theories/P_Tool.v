(** Proofs for the script layer: C72-C77. *)
From Verif Require Import Base Flags Protocol Url Sets FilterM ParseM ClientM SerialM JsM DataM ListsM ToolM
  Spec SpecM SpecC SpecS SpecJ SpecL SpecX SpecT SpecTool
  P_Base P_Protocol P_Url P_Match P_Rule P_Props1 P_Props2 P_Set P_Parse P_List P_Line P_Line2 P_Line4
  P_Line5 P_Fp2 P_Opt P_Opt2 P_Shape P_Match2 P_Client P_Hist P_Decide P_Dec2 P_Dec3
  P_Dec4 P_Dec5 P_Dec6 P_Dec7 P_Dec8 P_Like P_Js P_Js2 P_Ex P_Data SpecC.
From Verif Require P_Stat P_Ser6.

(** ** C72, C73 *)
Lemma divided_total {A} (P : A -> Prop) l m k : divided P l m k -> m + k = length l.
Proof. induction 1; cbn [length]; lia. Qed.

Lemma divided_ext {A} (P Q : A -> Prop) l m k :
  (forall x, In x l -> (P x <-> Q x)) -> divided P l m k -> divided Q l m k.
Proof.
  intros X D. induction D as [|x l m k H D IH|x l m k H D IH]; constructor.
  - apply X; cbn; auto.
  - apply IH. intros y I. apply X. cbn; auto.
  - intros Y. apply H, X; cbn; auto.
  - apply IH. intros y I. apply X. cbn; auto.
Qed.

Lemma blocks_alike E c c' context page url :
  alike c c' -> blocks E c context page url -> blocks E c' context page url.
Proof.
  intros A (v & d & M & V). destruct (answers_alike E c c' (cstr url) context (Some page) A) as [X _].
  rewrite M in X. cbn [rmap fst] in X.
  destruct (matches E c' (cstr url) context (Some page)) as [[w d']|] eqn:M'; [|discriminate].
  injection X as ->. exists w, d'. auto.
Qed.

Lemma jsMatches_asked E c site context page b c' :
  jsMatches E c site context (Some page) = Ok (b, c') ->
  alike c c' /\ (b = true <-> blocks E c context page site).
Proof.
  unfold jsMatches, js_string. intros H. apply bind_ok in H as ([v d] & M & H).
  injection H as <- <-. cbn [fst snd]. split; [now apply asked_alike in M|].
  unfold blocks. rewrite M. split.
  - intros V. exists v, d. auto.
  - intros (w & d' & X & V). injection X as <- _. exact V.
Qed.

Lemma checkList_gen E context host sites : forall c m k m' k' c',
  foldM (fun s site =>
           let '(m, k, c) := s in
           r <- jsMatches E c site context (Some host) ;;
           if fst r then Ok (S m, k, snd r) else Ok (m, S k, snd r)) (m, k, c) sites
    = Ok (m', k', c') ->
  exists a b, m' = m + a /\ k' = k + b /\ divided (blocks E c context host) sites a b /\ alike c c'.
Proof.
  induction sites as [|s sites IH]; intros c m k m' k' c' H; cbn [foldM] in H.
  - injection H as <- <- <-. exists 0, 0. split; [lia|]. split; [lia|]. split; [constructor|apply alike_refl].
  - apply bind_ok in H as ([[m1 k1] c1] & H1 & H).
    apply bind_ok in H1 as ([b d] & J & H1). cbn [fst snd] in H1.
    apply jsMatches_asked in J as [A J].
    apply IH in H as (x & y & -> & -> & D & A').
    assert (divided (blocks E d context host) sites x y -> divided (blocks E c context host) sites x y) as K.
    { apply divided_ext. intros z _. split; apply blocks_alike; auto. now apply alike_sym. }
    destruct b; injection H1 as <- <- <-.
    + exists (S x), y. split; [lia|]. split; [lia|]. split; [|eapply alike_trans; eauto].
      constructor; [now apply J|now apply K].
    + exists x, (S y). split; [lia|]. split; [lia|]. split; [|eapply alike_trans; eauto].
      constructor; [|now apply K]. intros X. apply J in X. discriminate.
Qed.

Lemma checkList_counts E context host c sites m k c' :
  checkList E context host c sites = Ok (m, k, c') ->
  divided (blocks E c context host) sites m k /\ m + k = length sites.
Proof.
  intros H. apply checkList_gen in H as (a & b & -> & -> & D & _).
  split; [exact D|]. now apply divided_total in D.
Qed.

Lemma checkList_defined E context host sites : forall c m k,
  (forall s, In s sites -> exists v c', matches E c (cstr s) context (Some host) = Ok (v, c')) ->
  exists r, foldM (fun s site =>
           let '(m, k, c) := s in
           r <- jsMatches E c site context (Some host) ;;
           if fst r then Ok (S m, k, snd r) else Ok (m, S k, snd r)) (m, k, c) sites = Ok r.
Proof.
  induction sites as [|s sites IH]; intros c m k H; cbn [foldM]; [eauto|].
  destruct (H s) as (v & d & M); [cbn; auto|].
  unfold jsMatches at 1, js_string at 1. rewrite M. cbn [bind fst snd].
  assert (forall t, In t sites -> exists v c', matches E d (cstr t) context (Some host) = Ok (v, c')) as K.
  { intros t I. destruct (H t) as (w & d' & N); [cbn; auto|].
    apply asked_alike in M. destruct (answers_alike E c d (cstr t) context (Some host) M) as [X _].
    rewrite N in X. cbn [rmap] in X.
    destruct (matches E d (cstr t) context (Some host)) as [[w' e]|]; [eauto|discriminate]. }
  destruct (v_block v); cbn [bind]; apply IH; exact K.
Qed.

Lemma discover_gen E (cache : bool) context host c sites : forall m k seen r,
  Forall (fun e : bytes * bool => snd e = true) seen ->
  foldM (fun (s : nat * nat * list (bytes * bool)) site =>
              let '((m, k), seen) := s in
              match (if cache then find (fun e => beq (fst e) site) seen else None) with
              | Some (_, true) => Ok ((S m, k), seen)
              | Some (_, false) => Ok ((m, S k), seen)
              | None =>
                  _ <- jsFind E c site context (Some host) ;;
                  Ok ((S m, k), (site, true) :: seen)
              end) ((m, k), seen) sites = Ok r ->
  fst r = (m + length sites, k).
Proof.
  induction sites as [|s sites IH]; intros m k seen r F H; cbn [foldM length] in *.
  - injection H as <-. cbn [fst]. now rewrite Nat.add_0_r.
  - apply bind_ok in H as ([[m1 k1] sn] & H1 & H).
    assert (m1 = S m /\ k1 = k /\ Forall (fun e : bytes * bool => snd e = true) sn) as (-> & -> & F').
    { destruct (if cache then find _ seen else None) as [[x [|]]|] eqn:Q.
      - injection H1 as <- <- <-. auto.
      - destruct cache; [|discriminate]. apply find_some in Q as [I _].
        rewrite Forall_forall in F. now apply F in I.
      - apply bind_ok in H1 as (d & _ & H1). injection H1 as <- <- <-. auto. }
    apply IH in H; auto. rewrite H. f_equal. lia.
Qed.

Lemma discover_counts_all E cache context host c sites r :
  checkListDiscover E cache context host c sites = Ok r -> r = (length sites, 0).
Proof.
  unfold checkListDiscover. intros H. apply rmap_ok in H as (x & H & ->).
  apply discover_gen in H; auto.
Qed.

(** ** C74 *)
Lemma uuids_distinct : NoDup (map fst catalogue).
Proof.
  assert (forall l : list bytes, (fix nd l := match l with [] => true | x :: l' => negb (existsb (beq x) l') && nd l' end) l = true -> NoDup l) as K.
  { induction l as [|x l IH]; intros H; constructor.
    - apply andb_prop in H as [H _]. intros I. apply negb_true_iff in H.
      assert (existsb (beq x) l = true) as X; [|congruence].
      apply existsb_exists. exists x. split; auto. now apply beq_eq.
    - apply IH. now apply andb_prop in H as [_ H]. }
  apply K. vm_compute. reflexivity.
Qed.

Lemma find_list_none uuid ls : find_list uuid ls = None <-> forall url, ~ In (uuid, url) ls.
Proof.
  unfold find_list. split.
  - intros H url I. apply (find_none _ _ H) in I. cbn [fst] in I.
    assert (beq uuid uuid = true) by now apply beq_eq. congruence.
  - intros H. destruct (find _ ls) as [[u l]|] eqn:Q; auto. exfalso.
    apply find_some in Q as [I X]. cbn [fst] in X. apply beq_eq in X. subst u. now apply (H l).
Qed.

Lemma find_list_some uuid ls x : find_list uuid ls = Some x -> x = (uuid, snd x) /\ In x ls.
Proof.
  unfold find_list. intros H. apply find_some in H as [I X]. apply beq_eq in X.
  destruct x as [u l]. cbn [fst snd] in *. subst. auto.
Qed.

Lemma unique_url uuid u1 u2 : In (uuid, u1) catalogue -> In (uuid, u2) catalogue -> u1 = u2.
Proof.
  generalize uuids_distinct. generalize catalogue. intros l N I J.
  apply in_split in I as (a & b & ->). rewrite map_app in N. cbn [map fst] in N.
  apply NoDup_remove_2 in N. apply in_app_or in J as [J|[J|J]].
  - exfalso. apply N, in_or_app. left. apply (in_map fst) in J. exact J.
  - congruence.
  - exfalso. apply N, in_or_app. right. apply (in_map fst) in J. exact J.
Qed.

Lemma uuid_lookup E keep fetch uuid :
  (forall url, In (uuid, url) catalogue ->
     makeFromListUUID E keep fetch uuid =
     makeFromListURL E keep fetch (getListFilterFunction uuid) url) /\
  ((forall url, ~ In (uuid, url) catalogue) -> makeFromListUUID E keep fetch uuid = None).
Proof.
  unfold makeFromListUUID. cbv zeta.
  assert (forall x, (exists ls, In ls [default_lists; region_lists; malware_lists] /\ find_list uuid ls = Some x) ->
    In (uuid, snd x) catalogue) as K.
  { intros x (ls & I & F). apply find_list_some in F as [F J]. rewrite <- F. unfold catalogue.
    rewrite !in_app_iff. cbn [In] in I. intuition (subst; auto). }
  destruct (find_list uuid default_lists) as [x|] eqn:F1.
  { assert (In (uuid, snd x) catalogue) as I by (apply K; exists default_lists; cbn; auto).
    split; [intros url J; now rewrite (unique_url uuid url (snd x))|].
    intros N. now apply N in I. }
  destruct (find_list uuid region_lists) as [x|] eqn:F2.
  { assert (In (uuid, snd x) catalogue) as I by (apply K; exists region_lists; cbn [In]; auto).
    split; [intros url J; now rewrite (unique_url uuid url (snd x))|].
    intros N. now apply N in I. }
  destruct (find_list uuid malware_lists) as [x|] eqn:F3.
  { assert (In (uuid, snd x) catalogue) as I by (apply K; exists malware_lists; cbn [In]; auto).
    split; [intros url J; now rewrite (unique_url uuid url (snd x))|].
    intros N. now apply N in I. }
  split; auto. intros url I. exfalso. unfold catalogue in I. rewrite !in_app_iff in I.
  rewrite find_list_none in F1, F2, F3. destruct I as [I|[I|I]]; [eapply F1|eapply F2|eapply F3]; eauto.
Qed.

Lemma catalogue_plain uuid url : In (uuid, url) catalogue -> getListFilterFunction uuid = None.
Proof.
  intros I.
  assert (forallb (fun e => negb (beq (fst e) (B "FBB430E8-3910-4761-9373-840FC3B43FF2"))) catalogue = true) as K
    by (vm_compute; reflexivity).
  rewrite forallb_forall in K. apply K in I. cbn [fst] in I. apply negb_true_iff in I.
  unfold getListFilterFunction. now rewrite I.
Qed.

Lemma strings_one E keep t : clientFromStrings E keep [t] = after E [Parse keep t].
Proof. unfold clientFromStrings, after. reflexivity. Qed.

Lemma lists_client E keep ts :
  Forall nonul ts ->
  client_of E keep ts (clientFromStrings E keep [sanitizeABPInput (join_lf (map (singleListData None) ts))]).
Proof.
  intros H. rewrite strings_one. split.
  - apply (lists_defined E [] keep ts H).
  - intros c c' A A'.
    apply (lists_decide E [] [] keep ts c c'); auto; try constructor.
    cbn [app]. now rewrite app_nil_r.
Qed.

Lemma all_of_bodies fetch filter urls :
  (exists bs, bodies fetch urls bs /\
     all_of (map (getSingleListData fetch filter) urls) = Some (map (singleListData filter) bs)) \/
  ((exists u, In u urls /\ fetch u = None) /\
   all_of (map (getSingleListData fetch filter) urls) = None).
Proof.
  induction urls as [|u urls IH]; cbn [map all_of].
  - left. exists []. split; [constructor|reflexivity].
  - unfold getSingleListData at 1 3. destruct (fetch u) as [b|] eqn:Q; cbn [option_map].
    + destruct IH as [(bs & F & ->)|((v & I & N) & ->)].
      * left. exists (b :: bs). split; [constructor; auto|reflexivity].
      * right. split; [|reflexivity]. exists v. split; [right; exact I|exact N].
    + right. split; [|reflexivity]. exists u. split; [left; reflexivity|exact Q].
Qed.

Lemma bodies_fun fetch urls : forall bs bs', bodies fetch urls bs -> bodies fetch urls bs' -> bs = bs'.
Proof.
  induction urls as [|u urls IH]; intros bs bs' F G; inversion F; inversion G; subst; auto.
  f_equal; [congruence|]. eapply IH; eauto.
Qed.

Lemma urls_client E keep fetch urls :
  (forall bs, bodies fetch urls bs -> Forall nonul bs ->
     exists r, makeFromListURLs E keep fetch None urls = Some r /\ client_of E keep bs r) /\
  ((exists u, In u urls /\ fetch u = None) -> makeFromListURLs E keep fetch None urls = None).
Proof.
  unfold makeFromListURLs.
  destruct (all_of_bodies fetch None urls) as [(bs0 & F & ->)|((v & I & N) & ->)]; cbn [option_map].
  - split.
    + intros bs G H. rewrite (bodies_fun _ _ _ _ F G) in *. eexists. split; [reflexivity|].
      now apply lists_client.
    + intros (u & I & N). exfalso. revert I. induction F as [|x b urls bs X F IH]; [intros []|].
      intros [->|I]; [congruence|auto].
  - split; auto. intros bs G. exfalso. revert I. induction G as [|x b urls bs X F IH]; [intros []|].
    intros [->|I]; [congruence|auto].
Qed.

Lemma url_client E keep fetch url :
  (forall b, fetch url = Some b -> nonul b ->
     exists r, makeFromListURL E keep fetch None url = Some r /\ client_of E keep [b] r) /\
  (fetch url = None -> makeFromListURL E keep fetch None url = None).
Proof.
  unfold makeFromListURL, getSingleListData. split.
  - intros b -> H. cbn [option_map]. eexists. split; [reflexivity|].
    apply (lists_client E keep [b]). auto.
  - intros ->. reflexivity.
Qed.

Lemma uuid_client E keep fetch uuid url :
  In (uuid, url) catalogue ->
  (forall b, fetch url = Some b -> nonul b ->
     exists r, makeFromListUUID E keep fetch uuid = Some r /\ client_of E keep [b] r) /\
  (fetch url = None -> makeFromListUUID E keep fetch uuid = None).
Proof.
  intros I. rewrite (proj1 (uuid_lookup E keep fetch uuid) url I), (catalogue_plain _ _ I).
  apply url_client.
Qed.

(** ** C75 *)
Lemma type_bit n t :
  In (n, t) type_names ->
  split_on "," t = [t] /\ split_on "," (B "~" ++ t) = [B "~" ++ t] /\
  forall f,
    parseOption f t =
      mkF (f_type f) (N.lor (f_opt f) (filterOption n)) (f_anti f) (f_data f) (f_dom f) (f_tag f) (f_host f) (f_rule f) /\
    parseOption f (B "~" ++ t) =
      mkF (f_type f) (f_opt f) (N.lor (f_anti f) (filterOption n)) (f_data f) (f_dom f) (f_tag f) (f_host f) (f_rule f).
Proof.
  intros I. unfold type_names in I. cbn [In] in I.
  repeat (destruct I as [I|I]; [injection I as <- <-; split; [reflexivity|]; split; [reflexivity|];
    intros f; split; reflexivity|]).
  destruct I.
Qed.

Definition opts_ok (opt anti context : N) : bool :=
  matchesOptions (mkF 0 opt anti None None [] None None) context None.

Lemma matchesOptions_nodom f context dom :
  f_dom f = None -> matchesOptions f context dom = opts_ok (f_opt f) (f_anti f) context.
Proof. intros D. unfold opts_ok, matchesOptions. rewrite D. reflexivity. Qed.

Definition parties : list N := [0; FOThirdParty; FONotThirdParty]%N.

Lemma party_in n dom host :
  exists b, In b parties /\
    party_context n dom host = N.lor n b.
Proof.
  destruct (party_cases n dom host) as [->|(_ & [->| ->])].
  - exists 0%N. split; [cbn; auto|]. now rewrite N.lor_0_r.
  - exists FOThirdParty. split; [cbn; auto|reflexivity].
  - exists FONotThirdParty. split; [cbn; auto|reflexivity].
Qed.

Definition type_table_ok : bool :=
  forallb (fun e => forallb (fun e' => forallb (fun b =>
    let v := filterOption (fst e) in
    let v' := filterOption (fst e') in
    eqb (opts_ok v 0 (N.lor v' b)) (beq (fst e) (fst e')) &&
    eqb (opts_ok 0 v (N.lor v' b)) (negb (beq (fst e') (B "document")) && negb (beq (fst e) (fst e'))) &&
    eqb (opts_ok 0 0 (N.lor v' b)) (negb (beq (fst e') (B "document"))))
    parties) type_names) type_names.

Lemma type_table : type_table_ok = true.
Proof. vm_compute. reflexivity. Qed.

Lemma type_cases n t n' t' b :
  In (n, t) type_names -> In (n', t') type_names -> In b parties ->
  (opts_ok (filterOption n) 0 (N.lor (filterOption n') b) = true <-> n = n') /\
  (opts_ok 0 (filterOption n) (N.lor (filterOption n') b) = true <-> n' <> B "document" /\ n <> n') /\
  (opts_ok 0 0 (N.lor (filterOption n') b) = true <-> n' <> B "document").
Proof.
  intros I J K. pose proof type_table as T. unfold type_table_ok in T.
  rewrite forallb_forall in T. apply T in I. rewrite forallb_forall in I. apply I in J.
  rewrite forallb_forall in J. apply J in K. cbn [fst] in K.
  apply andb_prop in K as [K K3]. apply andb_prop in K as [K1 K2].
  apply eqb_prop in K1, K2, K3. rewrite K1, K2, K3. clear.
  rewrite andb_true_iff, !negb_true_iff.
  assert (forall x y, beq x y = false <-> x <> y) as NE.
  { intros x y. destruct (beq_spec x y); split; congruence. }
  rewrite !NE, beq_eq. tauto.
Qed.

Lemma filter_matches_with E f g input len context dom bf host :
  f_type f = f_type g -> f_data f = f_data g -> f_host f = f_host g ->
  matchesOptions f context dom = true -> matchesOptions g context dom = true ->
  filter_matches E f input len context dom bf host = filter_matches E g input len context dom bf host.
Proof. intros T D H O1 O2. unfold filter_matches. now rewrite O1, O2, T, D, H. Qed.

Lemma rule_shape pres r f : good_rule r -> parses_to pres (rule_line r) f -> f = shape pres r.
Proof.
  intros G (b & P). rewrite parse_filter_cstr, parse_rule_line in P; auto; [congruence|].
  now apply good_rule_line.
Qed.

Lemma option_shape pres r o f :
  good_rule (with_options r o) -> parses_to pres (rule_line (with_options r o)) f ->
  f_type f = shape_type r /\ f_data f = Some (x_body r, [NUL]) /\ f_host f = shape_host r /\
  f_opt f = f_opt (apply_options o (shape_base r)) /\
  f_anti f = f_anti (apply_options o (shape_base r)) /\
  f_dom f = f_dom (apply_options o (shape_base r)).
Proof.
  intros G P. apply rule_shape in P as ->; auto.
  destruct (shape_fields pres (with_options r o)) as (A & D & H & _).
  split; [exact A|]. split; [exact D|]. split; [exact H|].
  unfold shape. cbn [with_options x_options x_body].
  change (shape_base (with_options r o)) with (shape_base r).
  destruct pres; cbn; auto.
Qed.

Lemma alone_options E f g url n b dom :
  f_type f = f_type g -> f_data f = f_data g -> f_host f = f_host g ->
  (forall host, matchesOptions f (party_context n dom host) dom = true) ->
  (forall host, matchesOptions g (party_context b dom host) dom = true) ->
  (matches_alone E f url n dom <-> matches_alone E g url b dom).
Proof.
  intros T D H O1 O2. unfold matches_alone.
  split; intros (host & U & M); exists host; (split; [exact U|]); rewrite <- M;
    unfold filter_matches; now rewrite O1, O2, T, D, H.
Qed.

Lemma alone_not E f url n dom :
  (forall host, matchesOptions f (party_context n dom host) dom = false) ->
  ~ matches_alone E f url n dom.
Proof.
  intros O (host & _ & M). unfold filter_matches in M. rewrite O in M. discriminate.
Qed.

Section Types.
Context (E : env) (pres : bool) (r : rule_syntax) (n t : bytes) (f0 : filter) (url : bytes) (dom : option bytes).
Context (I : In (n, t) type_names).
Context (G0 : good_rule (with_options r None)) (P0 : parses_to pres (rule_line (with_options r None)) f0).

Lemma type_rule f n' t' :
  good_rule (with_options r (Some t)) -> parses_to pres (rule_line (with_options r (Some t))) f ->
  In (n', t') type_names ->
  (n' <> n -> ~ matches_alone E f url (filterOption n') dom) /\
  (n' <> B "document" ->
   (matches_alone E f url (filterOption n) dom <-> matches_alone E f0 url (filterOption n') dom)).
Proof.
  intros G P J.
  destruct (option_shape _ _ _ _ G P) as (T1 & D1 & H1 & O1 & A1 & X1).
  destruct (option_shape _ _ _ _ G0 P0) as (T2 & D2 & H2 & O2 & A2 & X2).
  destruct (type_bit n t I) as (Sp & _ & PO). cbn [apply_options] in O1, A1, X1, O2, A2, X2.
  rewrite Sp in O1, A1, X1. cbn [fold_left] in O1, A1, X1.
  rewrite (proj1 (PO _)) in O1, A1, X1. cbn [shape_base f_opt f_anti f_dom] in *.
  rewrite N.lor_0_l in O1.
  split.
  - intros NE. apply alone_not. intros host. rewrite matchesOptions_nodom by auto. rewrite O1, A1.
    destruct (party_in (filterOption n') dom host) as (b & Ib & ->).
    destruct (type_cases n t n' t' b I J Ib) as (C & _).
    destruct (opts_ok _ _ _); auto. exfalso. apply NE. symmetry. now apply C.
  - intros ND. apply alone_options; try congruence.
    + intros host. rewrite matchesOptions_nodom by auto. rewrite O1, A1.
      destruct (party_in (filterOption n) dom host) as (b & Ib & ->).
      now apply (type_cases n t n t b I I Ib).
    + intros host. rewrite matchesOptions_nodom by auto. rewrite O2, A2.
      destruct (party_in (filterOption n') dom host) as (b & Ib & ->).
      now apply (type_cases n t n' t' b I J Ib).
Qed.

Lemma negated_type_rule f n' t' :
  good_rule (with_options r (Some (B "~" ++ t))) ->
  parses_to pres (rule_line (with_options r (Some (B "~" ++ t)))) f ->
  In (n', t') type_names ->
  (n' = n -> ~ matches_alone E f url (filterOption n') dom) /\
  (n' <> n ->
   (matches_alone E f url (filterOption n') dom <-> matches_alone E f0 url (filterOption n') dom)).
Proof.
  intros G P J.
  destruct (option_shape _ _ _ _ G P) as (T1 & D1 & H1 & O1 & A1 & X1).
  destruct (option_shape _ _ _ _ G0 P0) as (T2 & D2 & H2 & O2 & A2 & X2).
  destruct (type_bit n t I) as (_ & Sp & PO). cbn [apply_options] in O1, A1, X1, O2, A2, X2.
  rewrite Sp in O1, A1, X1. cbn [fold_left] in O1, A1, X1.
  rewrite (proj2 (PO _)) in O1, A1, X1. cbn [shape_base f_opt f_anti f_dom] in *.
  rewrite N.lor_0_l in A1.
  assert (forall host, matchesOptions f (party_context (filterOption n') dom host) dom = true <->
    n' <> B "document" /\ n <> n') as K1.
  { intros host. rewrite matchesOptions_nodom by auto. rewrite O1, A1.
    destruct (party_in (filterOption n') dom host) as (b & Ib & ->).
    apply (type_cases n t n' t' b I J Ib). }
  assert (forall host, matchesOptions f0 (party_context (filterOption n') dom host) dom = true <->
    n' <> B "document") as K2.
  { intros host. rewrite matchesOptions_nodom by auto. rewrite O2, A2.
    destruct (party_in (filterOption n') dom host) as (b & Ib & ->).
    apply (type_cases n t n' t' b I J Ib). }
  split.
  - intros ->. apply alone_not. intros host. specialize (K1 host).
    destruct (matchesOptions f _ _); auto. exfalso. destruct (proj1 K1 eq_refl); congruence.
  - intros NE. destruct (beq_spec n' (B "document")) as [Q|Q].
    + split; intros M; exfalso; revert M; apply alone_not; intros host;
        specialize (K1 host); specialize (K2 host).
      * destruct (matchesOptions f _ _); auto. exfalso. destruct (proj1 K1 eq_refl); congruence.
      * destruct (matchesOptions f0 _ _); auto. exfalso. now apply (proj1 K2 eq_refl).
    + apply alone_options; try congruence.
      * intros host. apply K1. split; auto.
      * intros host. now apply K2.
Qed.
End Types.

(** ** C76 *)
Lemma header_defined E calls c :
  history calls -> after E calls = Ok c ->
  ((exists t, generateHeader c = Ok t) <-> detecting calls).
Proof.
  intros H A. destruct (P_Stat.hist_bad E calls c H A) as [D _]. rewrite D. unfold generateHeader.
  destruct (c_badfp c) as [l|]; split; try easy; eauto. intros (t & X). discriminate.
Qed.

(** ** C77 *)
Lemma storable_like f g : like f g -> storable f -> storable g.
Proof.
  intros [] (A & B0 & C). unfold storable, pattern in *.
  now rewrite <- lk_data, <- lk_dom, <- lk_tag.
Qed.

Lemma ima_storable p l f : In l (text_lines ima_rules) -> parses_to p l f -> storable f.
Proof.
  intros I P.
  assert (line_text l) as Hl by (eapply text_lines_line; [|exact I]; now apply nonulb_ok).
  apply parses_rule_at in P; auto. subst f. vm_compute in I.
  destruct I as [<-|[<-|[]]]; apply P_Ser6.storableb_ok; destruct p; vm_compute; reflexivity.
Qed.

Lemma sanitized_line t l :
  In l (text_lines (sanitizeABPInput t)) ->
  (exists m, In m (text_lines t) /\ forall p, likeL (p, l) (p, m)) \/ In l (text_lines ima_rules).
Proof.
  unfold sanitizeABPInput, sanitizeWith. rewrite text_lines_join by now destruct (map mapRule _).
  rewrite flat_map_app. intros I. apply in_app_or in I as [I|I]; [|right; exact I].
  left. apply in_flat_map in I as (w & J & I). apply in_map_iff in J as (u & <- & J).
  apply filter_In in J as [J _]. rewrite text_lines_split.
  assert (forall m, In m (text_lines u) -> In m (flat_map text_lines (split_on LF t))) as K.
  { intros m Im. apply in_flat_map. eauto. }
  destruct (mark_single u) as [X|[X Y]].
  - rewrite X in I. exists l. split; [now apply K|]. intros p. apply like_refl.
  - rewrite X in I. destruct I as [<-|[]]. exists u. split; [apply K; rewrite Y; cbn; auto|].
    intros p. apply mark_like.
Qed.

Lemma prepared_storable ts :
  Forall nonul ts ->
  all_storable (map (Parse false) ts) -> all_storable (map (Parse false) (map sanitizeABPInput ts)).
Proof.
  intros H S p l f I P. unfold loaded_lines in I. rewrite loaded_parses in I. cbn [app] in I.
  apply in_flat_map in I as (t' & J & I). apply in_map_iff in J as (t & <- & J).
  apply in_map_iff in I as (l' & X & I). injection X as X1 X2. subst p l'.
  rewrite Forall_forall in H. pose proof (H t J) as Ht.
  apply sanitized_line in I as I'. destruct I' as [(m & Im & LK)|I'].
  - assert (line_text m) as Hm by (eapply text_lines_line; eauto).
    assert (line_text l) as Hl by (eapply text_lines_line; [|exact I]; now apply sanitize_nonul).
    assert (parses_to false m (rl (false, m))) as Pm by now apply (parsed_rl (false, m)).
    apply (parsed_rl (false, l)) in P; auto. subst f.
    apply (storable_like (rl (false, m))).
    + apply like_sym, LK.
    + apply (S false m); auto. unfold loaded_lines. rewrite loaded_parses. cbn [app].
      apply in_flat_map. exists t. split; auto. now apply in_map.
  - eapply ima_storable; eauto.
Qed.

Lemma prepared_decide E p ts c1 c2 :
  Forall nonul ts -> ts <> [] ->
  after E (map (Parse p) (map sanitizeABPInput ts)) = Ok c1 ->
  after E (map (Parse p) (ts ++ [ima_rules])) = Ok c2 ->
  same_decisions E c1 c2.
Proof.
  intros H NE A1 A2 url context dom Hu.
  assert (nonul ima_rules) as Hi by now apply nonulb_ok.
  assert (Forall nonul (map sanitizeABPInput ts)) as H'.
  { apply Forall_forall. intros x I. apply in_map_iff in I as (t & <- & I).
    apply sanitize_nonul. rewrite Forall_forall in H. auto. }
  apply (corr_decisions E (map (Parse p) (map sanitizeABPInput ts)) (map (Parse p) (ts ++ [ima_rules]))); auto.
  - now apply history_parses.
  - apply history_parses. apply Forall_app. auto.
  - unfold loaded_lines. rewrite !loaded_parses. cbn [app]. rewrite flat_map_app. cbn [flat_map].
    rewrite app_nil_r. fold (imaL p).
    apply (corr_trans E _ (flat_map (fun t => map (pair p) (text_lines t) ++ imaL p) ts)).
    + clear. induction ts as [|t ts IH]; [apply corr_refl|]. cbn [map flat_map]. apply corr_app; auto.
      pose proof (sanitize_corr E p t) as K. rewrite map_app in K. exact K.
    + destruct ts as [|t ts _] using rev_ind; [easy|].
      rewrite !flat_map_app. cbn [flat_map]. rewrite !app_nil_r, <- !app_assoc.
      constructor.
      * apply covered_incl. intros x I. rewrite !in_app_iff in *.
        destruct I as [I|I]; [|tauto]. apply in_flat_map in I as (u & J & I).
        apply in_app_or in I as [I|I]; [|tauto]. left. apply in_flat_map. eauto.
      * apply covered_incl. intros x I. rewrite !in_app_iff in *.
        destruct I as [I|I]; [|tauto]. apply in_flat_map in I as (u & J & I).
        left. apply in_flat_map. exists u. split; auto. apply in_or_app; auto.
      * intros e. apply same_hosts. rewrite !hostlines_app. f_equal. clear.
        induction ts as [|u us IH]; [reflexivity|]. cbn [flat_map].
        rewrite !hostlines_app, ima_no_host, app_nil_r. now f_equal.
  - intros u. pose proof (tags_parses [] p (map sanitizeABPInput ts) [] u) as X.
    pose proof (tags_parses [] p (ts ++ [ima_rules]) [] u) as Y.
    cbn [app] in X, Y. rewrite app_nil_r in X, Y. now rewrite X, Y.
Qed.

Lemma strings_map E p ts : clientFromStrings E p ts = after E (map (Parse p) ts).
Proof.
  unfold clientFromStrings, after. generalize client0. induction ts as [|t ts IH]; intros c; [reflexivity|].
  cbn [map foldM perform]. destruct (parse E p (cstr t) c); cbn [bind]; auto.
Qed.

Lemma all_of_lists fetch lists :
  (forall l, In l lists -> In l catalogue) ->
  all_of (map (fun l => getSingleListData fetch (getListFilterFunction (fst l)) (snd l)) lists) =
  all_of (map (getSingleListData fetch None) (map snd lists)).
Proof.
  intros H. rewrite map_map. f_equal. apply map_ext_in. intros [u l] I. cbn [fst snd].
  now rewrite (catalogue_plain u l) by auto.
Qed.

Lemma default_data E sites fetch lists bs :
  (forall l, In l lists -> In l catalogue) -> lists <> [] ->
  bodies fetch (map snd lists) bs -> Forall nonul bs -> Forall nonul sites ->
  all_storable (map (Parse false) bs) ->
  exists r, dataFileForList E sites fetch lists = Some r /\
    forall data, r = Ok data ->
    exists c c', after E (map (Parse false) (map sanitizeABPInput bs)) = Ok c /\
      clientFromDAT data = Ok c' /\
      (forall url context dom v c1, matches E c url context dom = Ok (v, c1) ->
         exists w c1', matches E c' url context dom = Ok (w, c1') /\ same_verdict v w) /\
      (forall url context dom v, findMatchingFilters E c url context dom = Ok v ->
         exists w, findMatchingFilters E c' url context dom = Ok w /\ same_verdict v w) /\
      (forall c2, after E (map (Parse false) (bs ++ [ima_rules])) = Ok c2 -> same_decisions E c c2).
Proof.
  intros L NE F H Hs S. unfold dataFileForList. rewrite all_of_lists by auto.
  destruct (all_of_bodies fetch None (map snd lists)) as [(bs0 & F0 & ->)|((v & I & N) & ->)].
  2:{ exfalso. clear - F I N. revert I. induction F as [|x b urls bs X F IH]; [intros []|].
      intros [->|I]; [congruence|auto]. }
  rewrite (bodies_fun _ _ _ _ F0 F). cbn [option_map]. eexists. split; [reflexivity|].
  intros data D.
  assert (Forall nonul (map sanitizeABPInput bs)) as H'.
  { apply Forall_forall. intros x I. apply in_map_iff in I as (t & <- & I).
    apply sanitize_nonul. rewrite Forall_forall in H. auto. }
  change (map (singleListData None) bs) with (map sanitizeABPInput bs) in D.
  destruct (data_file E sites _ data H' Hs (prepared_storable bs H S) D) as (c & c' & A & R & M1 & M2 & _).
  exists c, c'. rewrite strings_map in A. split; [exact A|]. split; [exact R|].
  split; [exact M1|]. split; [exact M2|].
  intros c2 A2. apply (prepared_decide E false bs c c2); auto.
  intros ->. inversion F as [X|]. destruct lists; [easy|discriminate].
Qed.

Lemma default_data_any E sites fetch lists bs :
  (forall l, In l lists -> In l catalogue) -> lists <> [] ->
  bodies fetch (map snd lists) bs -> Forall nonul bs -> Forall nonul sites ->
  exists r, dataFileForList E sites fetch lists = Some r /\
    forall data, r = Ok data ->
    exists c c', after E (map (Parse false) (map sanitizeABPInput bs)) = Ok c /\
      clientFromDAT data = Ok c' /\
      (forall url context dom v c1, matches E (restarted c client0) url context dom = Ok (v, c1) ->
         exists w c1', matches E c' url context dom = Ok (w, c1') /\ same_verdict v w) /\
      (forall url context dom v, findMatchingFilters E (restarted c client0) url context dom = Ok v ->
         exists w, findMatchingFilters E c' url context dom = Ok w /\ same_verdict v w) /\
      (forall c2, after E (map (Parse false) (bs ++ [ima_rules])) = Ok c2 -> same_decisions E c c2).
Proof.
  intros L NE F H Hs. unfold dataFileForList. rewrite all_of_lists by auto.
  destruct (all_of_bodies fetch None (map snd lists)) as [(bs0 & F0 & ->)|((v & I & N) & ->)].
  2:{ exfalso. clear - F I N. revert I. induction F as [|x b urls bs X F IH]; [intros []|].
      intros [->|I]; [congruence|auto]. }
  rewrite (bodies_fun _ _ _ _ F0 F). cbn [option_map]. eexists. split; [reflexivity|].
  intros data D.
  assert (Forall nonul (map sanitizeABPInput bs)) as H'.
  { apply Forall_forall. intros x I. apply in_map_iff in I as (t & <- & I).
    apply sanitize_nonul. rewrite Forall_forall in H. auto. }
  change (map (singleListData None) bs) with (map sanitizeABPInput bs) in D.
  destruct (data_file_any E sites _ data H' Hs D) as (c & c' & A & R & M1 & M2 & _).
  exists c, c'. rewrite strings_map in A. split; [exact A|]. split; [exact R|].
  split; [exact M1|]. split; [exact M2|].
  intros c2 A2. apply (prepared_decide E false bs c c2); auto.
  intros ->. inversion F as [X|]. destruct lists; [easy|discriminate].
Qed.

Lemma failed_data E sites fetch lists :
  (exists l, In l lists /\ fetch (snd l) = None) -> dataFileForList E sites fetch lists = None.
Proof.
  unfold dataFileForList. intros (l & I & N).
  assert (all_of (map (fun l => getSingleListData fetch (getListFilterFunction (fst l)) (snd l)) lists) = None) as ->; auto.
  induction lists as [|x ls IH]; [easy|]. cbn [map all_of].
  destruct I as [->|I].
  - unfold getSingleListData at 1. now rewrite N.
  - rewrite (IH I). now destruct (getSingleListData _ _ _).
Qed.

Lemma region_data E sites fetch unbreak url b :
  fetch url = Some b -> nonul b -> nonul unbreak -> Forall nonul sites ->
  all_storable [Parse false b; Parse false unbreak] ->
  exists r, dataFileForRegion E sites fetch unbreak url = Some r /\
    forall data, r = Ok data ->
    exists c c', after E [Parse false b; Parse false unbreak] = Ok c /\
      clientFromDAT data = Ok c' /\
      (forall url context dom v c1, matches E c url context dom = Ok (v, c1) ->
         exists w c1', matches E c' url context dom = Ok (w, c1') /\ same_verdict v w) /\
      (forall url context dom v, findMatchingFilters E c url context dom = Ok v ->
         exists w, findMatchingFilters E c' url context dom = Ok w /\ same_verdict v w).
Proof.
  intros F Hb Hu Hs S. unfold dataFileForRegion. rewrite F. cbn [option_map].
  eexists. split; [reflexivity|]. intros data D.
  assert (Forall nonul [b; unbreak]) as H by (repeat constructor; auto).
  destruct (data_file E sites [b; unbreak] data H Hs S D) as (c & c' & A & R & M1 & M2 & _).
  exists c, c'. rewrite strings_map in A. auto.
Qed.

Lemma region_data_any E sites fetch unbreak url b :
  fetch url = Some b -> nonul b -> nonul unbreak -> Forall nonul sites ->
  exists r, dataFileForRegion E sites fetch unbreak url = Some r /\
    forall data, r = Ok data ->
    exists c c', after E [Parse false b; Parse false unbreak] = Ok c /\
      clientFromDAT data = Ok c' /\
      (forall url context dom v c1, matches E (restarted c client0) url context dom = Ok (v, c1) ->
         exists w c1', matches E c' url context dom = Ok (w, c1') /\ same_verdict v w) /\
      (forall url context dom v, findMatchingFilters E (restarted c client0) url context dom = Ok v ->
         exists w, findMatchingFilters E c' url context dom = Ok w /\ same_verdict v w).
Proof.
  intros F Hb Hu Hs. unfold dataFileForRegion. rewrite F. cbn [option_map].
  eexists. split; [reflexivity|]. intros data D.
  assert (Forall nonul [b; unbreak]) as H by (repeat constructor; auto).
  destruct (data_file_any E sites [b; unbreak] data H Hs D) as (c & c' & A & R & M1 & M2 & _).
  exists c, c'. rewrite strings_map in A. auto.
Qed.

Lemma region_differs E b unbreak u context dom :
  (d <- dataFile E [] [b; unbreak] ;; c <- clientFromDAT d ;;
   rmap (fun x => v_block (fst x)) (matches E c (cstr u) context dom)) = Ok false ->
  (c <- after E (map (Parse false) [b; unbreak; ima_rules]) ;;
   rmap (fun x => v_block (fst x)) (matches E c (cstr u) context dom)) = Ok true ->
  exists data c' c2 v1 v2 c1 c3,
    dataFile E [] [b; unbreak] = Ok data /\ clientFromDAT data = Ok c' /\
    after E (map (Parse false) [b; unbreak; ima_rules]) = Ok c2 /\
    matches E c' (cstr u) context dom = Ok (v1, c1) /\
    matches E c2 (cstr u) context dom = Ok (v2, c3) /\ v_block v1 = false /\ v_block v2 = true.
Proof.
  intros H1 H2. apply bind_ok in H1 as (data & D & H1). apply bind_ok in H1 as (c' & R & H1).
  apply rmap_ok in H1 as ([v1 c1] & M1 & V1). apply bind_ok in H2 as (c2 & A & H2).
  apply rmap_ok in H2 as ([v2 c3] & M2 & V2). cbn [fst] in *.
  exists data, c', c2, v1, v2, c1, c3. auto 10.
Qed.
