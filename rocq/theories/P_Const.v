(** Proofs for C113. *)
From Verif Require Import Base Flags Protocol Url Sets FilterM ParseM ClientM SerialM JsM DataM ListsM ToolM
  Spec SpecM SpecC SpecS SpecJ SpecX SpecT SpecTool SpecConst
  P_Base P_Parse P_List P_Props2 P_Line5 P_Match2 P_Ex P_Opt P_Opt2 P_Data P_Shape P_Tool OwnM OwnT.

Lemma land_apart a b : N.land a b = 0%N <-> bits_apart a b.
Proof.
  split.
  - intros H i T. pose proof (N.land_spec a b i) as L. rewrite H, N.bits_0, T in L.
    cbn in L. auto.
  - intros H. apply N.bits_inj. intros i. rewrite N.land_spec, N.bits_0.
    destruct (N.testbit a i) eqn:T; auto. now rewrite (H i T).
Qed.

(** ** Contexts that no rule can tell bits_apart *)
Definition equivalent (a b : N) : Prop :=
  forall f dom, matchesOptions f a dom = matchesOptions f b dom.

Lemma has_more x a v : has x v = false -> has x (N.lor a v) = has x a.
Proof. intros H. rewrite has_lor, H. apply orb_false_r. Qed.

Lemma has_more_l x a v : has v x = false -> has (N.lor a v) x = has a x.
Proof. intros H. rewrite has_lor_l, H. apply orb_false_r. Qed.

Definition seen : N := N.lor FOResourcesOnly (N.lor FOThirdParty FONotThirdParty).

Lemma has_sub v x : has v seen = false -> N.land x seen = x -> has v x = false.
Proof.
  intros H S. rewrite has_false in *. intros (i & A & B). apply H. exists i. split; auto.
  rewrite <- S, N.land_spec in B. now apply andb_prop in B.
Qed.

Lemma more_same k v : k <> 0%N -> has v seen = false -> equivalent (N.lor k v) k.
Proof.
  intros K V f dom. unfold matchesOptions.
  assert (forall x, N.land x seen = x -> has v x = false) as S by (intros; now apply has_sub).
  rewrite (has_more_l FODocument) by now apply S.
  rewrite !(has_more_l FOThirdParty) by now apply S.
  rewrite !(has_more_l FONotThirdParty) by now apply S.
  rewrite (has_more_l (N.lor FOThirdParty FONotThirdParty)) by now apply S.
  assert (forall y, has (N.land y FOResourcesOnly) (N.lor k v) = has (N.land y FOResourcesOnly) k) as R.
  { intros y. apply has_more. apply has_false. intros (i & A & B).
    rewrite N.land_spec in A. apply andb_prop in A as [_ A].
    assert (has v FOResourcesOnly = false) as F by now apply S.
    apply has_false in F. apply F. now exists i. }
  rewrite !R.
  assert ((k =? 0)%N = false) as -> by now apply N.eqb_neq.
  assert ((N.lor k v =? 0)%N = false) as ->; [|reflexivity].
  apply N.eqb_neq. intros Z. apply N.lor_eq_0_iff in Z. tauto.
Qed.

Lemma party_more m v page host : has v seen = false ->
  equivalent (party_context (N.lor m v) (Some page) host) (party_context m (Some page) host).
Proof.
  intros V. unfold party_context.
  assert (has v (N.lor FOThirdParty FONotThirdParty) = false) as P by now apply has_sub.
  rewrite (has_more_l _ m v P).
  destruct (has m (N.lor FOThirdParty FONotThirdParty)) eqn:M.
  - apply more_same; auto. intros ->. discriminate.
  - assert (forall b, b <> 0%N -> equivalent (N.lor (N.lor m v) b) (N.lor m b)) as K.
    { intros b Nb. rewrite <- N.lor_assoc, (N.lor_comm v b), N.lor_assoc. apply more_same; auto.
      intros Z. apply N.lor_eq_0_iff in Z. tauto. }
    destruct (isThirdPartyHost page host); apply K; discriminate.
Qed.

Section Same.
Context (E : env) (a b : N) (H : equivalent a b).

Lemma filter_matches_same f input n dom bf host :
  filter_matches E f input n a dom bf host = filter_matches E f input n b dom bf host.
Proof. unfold filter_matches. now rewrite H. Qed.

Lemma scan_list_same c fs input n dom bf host :
  hasMatchingFilters E c fs input n a dom bf host = hasMatchingFilters E c fs input n b dom bf host.
Proof.
  induction fs as [|f fs IH]; cbn [hasMatchingFilters]; auto.
  now rewrite filter_matches_same, IH.
Qed.

Lemma probe_same c s h input n dom :
  host_probe E c s h input n a dom = host_probe E c s h input n b dom.
Proof.
  unfold host_probe. destruct (hs_find _ _ _ _); auto. now rewrite filter_matches_same.
Qed.

Lemma walk_same c s h k input n dom :
  host_walk E c s h k input n a dom = host_walk E c s h k input n b dom.
Proof.
  induction k as [|k IH]; cbn [host_walk]; [apply probe_same|].
  now rewrite probe_same, IH.
Qed.

Context (input : bytes) (n : nat) (url : bytes) (dom : option bytes) (host : bytes).
Let qa := mkQ input n url a dom host.
Let qb := mkQ input n url b dom host.

Lemma scan_same c k bf : scan E c k qa bf = scan E c k qb bf.
Proof. unfold scan. cbn. apply scan_list_same. Qed.

Lemma lookup_same c s : lookup E c s qa = lookup E c s qb.
Proof. unfold lookup, hostLookup. cbn. destruct s; auto. now rewrite walk_same. Qed.

Lemma block_same c bf : block_phase E c qa bf = block_phase E c qb bf.
Proof. unfold block_phase. rewrite !scan_same, lookup_same. reflexivity. Qed.

Lemma exc_same c bf : exc_phase E c qa bf = exc_phase E c qb bf.
Proof. unfold exc_phase. rewrite !scan_same, lookup_same. reflexivity. Qed.

Lemma found_same c s : lookup_filter E c s qa = lookup_filter E c s qb.
Proof. unfold lookup_filter. now rewrite lookup_same. Qed.
End Same.

Lemma matches_more E c input m v page : has v seen = false ->
  matches E c input (N.lor m v) (Some page) = matches E c input m (Some page).
Proof.
  intros V. unfold matches. destruct (strlen input) as [n|]; cbn [bind]; auto.
  destruct (isBlockableProtocol input n) as [w|]; cbn [bind]; auto. destruct (negb w); auto.
  unfold mkQuery. destruct (getUrlHost input) as [host|]; cbn [bind]; auto. cbn [q_url].
  pose proof (party_more m v page host V) as P.
  rewrite (block_same E _ _ P). destruct (block_phase _ _ _ _) as [[[hit mf] c1]|]; cbn [bind]; auto.
  destruct (negb hit); auto. now rewrite (exc_same E _ _ P).
Qed.

Lemma find_more E c input m v page : has v seen = false ->
  findMatchingFilters E c input (N.lor m v) (Some page) = findMatchingFilters E c input m (Some page).
Proof.
  intros V. unfold findMatchingFilters. destruct (strlen input) as [n|]; cbn [bind]; auto.
  unfold mkQuery. destruct (getUrlHost input) as [host|]; cbn [bind]; auto.
  pose proof (party_more m v page host V) as P.
  rewrite !(scan_same E _ _ P), !(found_same E _ _ P). reflexivity.
Qed.

Lemma other_unseen name : In name other_names -> has (filterOption name) seen = false.
Proof.
  intros I.
  assert (forallb (fun x => negb (has (filterOption x) seen)) other_names = true) as F
    by (vm_compute; reflexivity).
  rewrite forallb_forall in F. apply F in I. now apply negb_true_iff in I.
Qed.

Lemma inert E c input m page name : In name other_names ->
  matches E c input (N.lor m (filterOption name)) (Some page) = matches E c input m (Some page) /\
  findMatchingFilters E c input (N.lor m (filterOption name)) (Some page) =
  findMatchingFilters E c input m (Some page).
Proof. intros I. apply other_unseen in I. split; [now apply matches_more|now apply find_more]. Qed.

(** ** All names are one of the three kinds, and their values are bits_apart *)
Lemma kinds name v : In (name, v) filterOptions ->
  (exists t, In (name, t) type_names) \/ In name other_names \/
  name = B "thirdParty" \/ name = B "notThirdParty".
Proof.
  intros I.
  assert (forallb (fun x => existsb (fun y => beq (fst y) (fst x)) type_names
     || existsb (fun y => beq y (fst x)) other_names
     || beq (fst x) (B "thirdParty") || beq (fst x) (B "notThirdParty")) filterOptions = true) as F
    by (vm_compute; reflexivity).
  rewrite forallb_forall in F. apply F in I. cbn [fst] in I.
  apply orb_prop in I as [I|I]; [|right; right; right; now apply beq_eq].
  apply orb_prop in I as [I|I]; [|right; right; left; now apply beq_eq].
  apply orb_prop in I as [I|I]; apply existsb_exists in I as (y & Iy & Q); apply beq_eq in Q.
  - left. exists (snd y). rewrite <- Q. now destruct y.
  - right. left. now subst y.
Qed.

Lemma values_apart n1 v1 n2 v2 :
  In (n1, v1) filterOptions -> In (n2, v2) filterOptions ->
  (n1 <> n2 -> bits_apart v1 v2) /\ (v1 = 0%N <-> n1 = B "noFilterOption") /\ filterOption n1 = v1.
Proof.
  intros I J.
  assert (forallb (fun x => forallb (fun y => beq (fst x) (fst y) || (N.land (snd x) (snd y) =? 0)%N)
      filterOptions && eqb (snd x =? 0)%N (beq (fst x) (B "noFilterOption"))
      && (filterOption (fst x) =? snd x)%N) filterOptions = true) as F
    by (vm_compute; reflexivity).
  rewrite forallb_forall in F. apply F in I. cbn [fst snd] in I.
  apply andb_prop in I as [I I3]. apply andb_prop in I as [I1 I2].
  rewrite forallb_forall in I1. apply I1 in J. cbn [fst snd] in J.
  split.
  - intros N. apply orb_prop in J as [J|J]; [apply beq_eq in J; contradiction|].
    apply land_apart. now apply N.eqb_eq.
  - split; [|now apply N.eqb_eq]. apply eqb_prop in I2.
    rewrite <- N.eqb_eq, I2. apply beq_eq.
Qed.

(** ** Parties *)
Lemma party_kept m b page host : has b (N.lor FOThirdParty FONotThirdParty) = true ->
  party_context (N.lor m b) page host = N.lor m b.
Proof.
  intros Hb. unfold party_context. destruct page; auto.
  rewrite has_lor_l, Hb, orb_true_r. reflexivity.
Qed.

Lemma option_third :
  (forall f, parseOption f (B "third-party") =
    mkF (f_type f) (N.lor (f_opt f) FOThirdParty) (f_anti f) (f_data f) (f_dom f) (f_tag f) (f_host f) (f_rule f)) /\
  (forall f, parseOption f (B "~third-party") =
    mkF (f_type f) (f_opt f) (N.lor (f_anti f) FOThirdParty) (f_data f) (f_dom f) (f_tag f) (f_host f) (f_rule f)).
Proof. split; intros f; reflexivity. Qed.

Lemma opts_third k : k <> 0%N ->
  opts_ok FOThirdParty 0 k = opts_ok 0 0 k && negb (has k FONotThirdParty) /\
  opts_ok 0 FOThirdParty k = opts_ok 0 0 k && negb (has k FOThirdParty).
Proof.
  intros K. unfold opts_ok. rewrite !matchesOptions_parts. unfold types_okb, domain_okb.
  cbn [f_opt f_anti f_dom]. assert ((k =? 0)%N = false) as -> by now apply N.eqb_neq.
  change (has FOThirdParty FOUnsupportedSoSkipCheck) with false.
  change (has FOThirdParty FODocument) with false.
  change (has 0 FOUnsupportedSoSkipCheck) with false. change (has 0 FODocument) with false.
  change (has 0 FOThirdParty) with false. change (has FOThirdParty FOThirdParty) with true.
  change (N.ldiff FOThirdParty BehavioralFilterOnly) with 0%N.
  change (N.ldiff 0 BehavioralFilterOnly) with 0%N.
  change (N.land FOThirdParty FOResourcesOnly) with 0%N.
  change (N.land 0 FOResourcesOnly) with 0%N. change (has 0 k) with false.
  cbn [negb andb orb N.eqb]. rewrite !andb_true_r. now split.
Qed.

Lemma alone_iff E f g url n b dom dom' :
  f_type f = f_type g -> f_data f = f_data g -> f_host f = f_host g ->
  (forall host, matchesOptions f (party_context n dom host) dom =
                matchesOptions g (party_context b dom' host) dom') ->
  (matches_alone E f url n dom <-> matches_alone E g url b dom').
Proof.
  intros T D H O. unfold matches_alone.
  split; intros (host & U & M); exists host; (split; [exact U|]); rewrite <- M;
    unfold filter_matches; now rewrite O, T, D, H.
Qed.

Section Parties.
Context (E : env) (pres : bool) (r : rule_syntax) (f0 : filter) (url : bytes) (m : N).
Context (G0 : good_rule (with_options r None)) (P0 : parses_to pres (rule_line (with_options r None)) f0).

Let third := N.lor m (filterOption (B "thirdParty")).
Let first := N.lor m (filterOption (B "notThirdParty")).

Lemma third_context page host : party_context third page host = third.
Proof. now apply party_kept. Qed.
Lemma first_context page host : party_context first page host = first.
Proof. now apply party_kept. Qed.
Lemma third_some : third <> 0%N.
Proof. unfold third. intros Z. apply N.lor_eq_0_iff in Z as [_ Z]. discriminate. Qed.
Lemma first_some : first <> 0%N.
Proof. unfold first. intros Z. apply N.lor_eq_0_iff in Z as [_ Z]. discriminate. Qed.

Lemma third_rule f page page' :
  good_rule (with_options r (Some (B "third-party"))) ->
  parses_to pres (rule_line (with_options r (Some (B "third-party")))) f ->
  ~ matches_alone E f url first page /\
  (bits_apart m (filterOption (B "notThirdParty")) ->
   (matches_alone E f url third page <-> matches_alone E f0 url third page')).
Proof.
  intros G P.
  destruct (option_shape _ _ _ _ G P) as (T1 & D1 & H1 & O1 & A1 & X1).
  destruct (option_shape _ _ _ _ G0 P0) as (T2 & D2 & H2 & O2 & A2 & X2).
  cbn [apply_options] in O1, A1, X1, O2, A2, X2.
  change (split_on "," (B "third-party")) with [B "third-party"] in O1, A1, X1.
  cbn [fold_left] in O1, A1, X1. rewrite (proj1 option_third) in O1, A1, X1.
  cbn [shape_base f_opt f_anti f_dom] in *. rewrite N.lor_0_l in O1.
  split.
  - apply alone_not. intros host. rewrite matchesOptions_nodom, O1, A1, first_context by auto.
    rewrite (proj1 (opts_third _ first_some)).
    assert (has first FONotThirdParty = true) as ->.
    { unfold first. rewrite has_lor_l. apply orb_true_r. }
    apply andb_false_r.
  - intros AP. apply alone_iff; try congruence. intros host.
    rewrite !matchesOptions_nodom, O1, A1, O2, A2, !third_context by auto.
    rewrite (proj1 (opts_third _ third_some)).
    assert (has third FONotThirdParty = false) as ->; [|apply andb_true_r].
    unfold third. rewrite has_lor_l. apply orb_false_intro; [|reflexivity].
    apply has_false. intros (i & B1 & B2). apply AP in B1.
    change (filterOption (B "notThirdParty")) with FONotThirdParty in B1. congruence.
Qed.

Lemma first_rule f page page' :
  good_rule (with_options r (Some (B "~third-party"))) ->
  parses_to pres (rule_line (with_options r (Some (B "~third-party")))) f ->
  ~ matches_alone E f url third page /\
  (bits_apart m (filterOption (B "thirdParty")) ->
   (matches_alone E f url first page <-> matches_alone E f0 url first page')).
Proof.
  intros G P.
  destruct (option_shape _ _ _ _ G P) as (T1 & D1 & H1 & O1 & A1 & X1).
  destruct (option_shape _ _ _ _ G0 P0) as (T2 & D2 & H2 & O2 & A2 & X2).
  cbn [apply_options] in O1, A1, X1, O2, A2, X2.
  change (split_on "," (B "~third-party")) with [B "~third-party"] in O1, A1, X1.
  cbn [fold_left] in O1, A1, X1. rewrite (proj2 option_third) in O1, A1, X1.
  cbn [shape_base f_opt f_anti f_dom] in *. rewrite N.lor_0_l in A1.
  split.
  - apply alone_not. intros host. rewrite matchesOptions_nodom, O1, A1, third_context by auto.
    rewrite (proj2 (opts_third _ third_some)).
    assert (has third FOThirdParty = true) as ->.
    { unfold third. rewrite has_lor_l. apply orb_true_r. }
    apply andb_false_r.
  - intros AP. apply alone_iff; try congruence. intros host.
    rewrite !matchesOptions_nodom, O1, A1, O2, A2, !first_context by auto.
    rewrite (proj2 (opts_third _ first_some)).
    assert (has first FOThirdParty = false) as ->; [|apply andb_true_r].
    unfold first. rewrite has_lor_l. apply orb_false_intro; [|reflexivity].
    apply has_false. intros (i & B1 & B2). apply AP in B1.
    change (filterOption (B "thirdParty")) with FOThirdParty in B1. congruence.
Qed.
End Parties.

(** ** C102: which lines have their domain list taken bits_apart while loading *)
Lemma asks_iff E f k : classify E f = Ok k ->
  (asks_domains k = true <->
   (exists a, k = CList a /\ a <> KCosmetic /\ a <> KHtml) /\ getFingerprint E f = Ok None).
Proof.
  intros C.
  assert (forall host fp dom anti nofp, (fp = KFilters \/ fp = KException) ->
    (exists b, host = CHost b) -> asks_domains (CList dom) = true ->
    asks_domains (CList anti) = true -> asks_domains (CList nofp) = true ->
    classify_tail E f host fp dom anti nofp = Ok k ->
    (asks_domains k = true <->
     (exists a, k = CList a /\ a <> KCosmetic /\ a <> KHtml) /\ getFingerprint E f = Ok None)) as T.
  { intros host fp dom anti nofp F (b & ->) D A X. unfold classify_tail.
    destruct (has (f_type f) FTHostOnly).
    { intros Q. injection Q as <-. split; [discriminate|]. intros ((a & Q & _) & _). discriminate. }
    destruct (getFingerprint E f) as [[g|]|]; cbn [bind]; [| |discriminate].
    - intros Q. injection Q as <-. split; [|intros (_ & Q); discriminate].
      destruct F as [-> | ->]; discriminate.
    - assert (forall a, asks_domains (CList a) = true -> a <> KCosmetic /\ a <> KHtml) as L
        by (intros a H; split; intros ->; discriminate).
      destruct (isDomainOnlyFilter f); [|destruct (isAntiDomainOnlyFilter f)];
        intros Q; injection Q as <-; split; eauto. }
  unfold classify in C. destruct (hasUnsupportedOptions f).
  { injection C as <-. split; [discriminate|]. intros ((a & Q & _) & _). discriminate. }
  destruct (_ =? FTException)%N; [eapply T in C; eauto|].
  destruct (_ =? FTElementHiding)%N.
  { injection C as <-. split; [discriminate|]. intros ((a & Q & N & _) & _). congruence. }
  destruct (_ =? FTElementHidingException)%N.
  { injection C as <-. split; [discriminate|]. intros ((a & Q & N & _) & _). congruence. }
  destruct (_ =? FTHTMLFiltering)%N.
  { injection C as <-. split; [discriminate|]. intros ((a & Q & _ & N) & _). congruence. }
  destruct (_ =? FTEmpty)%N.
  { injection C as <-. split; [discriminate|]. intros ((a & Q & _) & _). discriminate. }
  destruct (_ =? FTComment)%N.
  { injection C as <-. split; [discriminate|]. intros ((a & Q & _) & _). discriminate. }
  eapply T in C; eauto.
Qed.

(** ** C74: the texts of the catalogue *)
Definition memc (c : ascii) (l : bytes) : bool := existsb (ceq c) l.

Lemma memc_in c l : memc c l = true <-> In c l.
Proof.
  unfold memc. rewrite existsb_exists. split.
  - intros (x & I & Q). apply ceq_eq in Q. now subst.
  - intros I. exists c. split; auto. now apply ceq_eq.
Qed.

Definition uuid_formb (u : bytes) : bool :=
  match split_on "-" u with
  | [a; b; c; d; e] =>
      forallb (forallb (fun x => memc x (B "0123456789ABCDEF"))) [a; b; c; d; e] &&
      (length a =? 8) && (length b =? 4) && (length c =? 4) && (length d =? 4) && (length e =? 12)
  | _ => false
  end.

Lemma uuid_formb_ok u : uuid_formb u = true -> uuid_form u.
Proof.
  unfold uuid_formb. pose proof (split_cut "-" u) as C.
  destruct (split_on "-" u) as [|a [|b [|c [|d [|e [|]]]]]]; try discriminate.
  rewrite !andb_true_iff, !Nat.eqb_eq. intros (((((H & A) & B1) & C1) & D) & E1).
  exists a, b, c, d, e. split; [exact C|]. split.
  - apply Forall_forall. intros x I. apply Forall_forall. intros y J. unfold hex_digit.
    rewrite forallb_forall in H. apply H in I. rewrite forallb_forall in I. apply memc_in. now apply I.
  - cbn [map]. congruence.
Qed.

Definition addressb (url : bytes) : bool :=
  match split_on "/" url with
  | https :: empty :: host :: more =>
      beq https (B "https:") && beq empty [] && memc "." host && negb (memc " " url)
      && match more with [] => false | [[]] => false | _ => true end
  | _ => false
  end.

Lemma addressb_ok url : addressb url = true -> secure_address url.
Proof.
  unfold addressb. destruct (split_cut "/" url) as (_ & J & K).
  destruct (split_on "/" url) as [|h [|e [|host more]]]; try discriminate.
  rewrite !andb_true_iff, negb_true_iff. intros ((((A & B1) & C) & D) & M).
  apply beq_eq in A, B1. subst h e. exists host, (joined "/" more).
  assert (more <> []) as Nm by (intros ->; discriminate).
  split.
  { rewrite J at 1. destruct more; [congruence|]. cbn [joined app B]. reflexivity. }
  split.
  { destruct more as [|w [|w' ws]]; [congruence| |].
    - cbn. intros ->. discriminate.
    - cbn [joined]. intros Q. destruct w; discriminate. }
  split; [now apply memc_in|]. split.
  - apply K. cbn. auto.
  - intros I. apply memc_in in I. congruence.
Qed.

Lemma catalogue_forms uuid url : In (uuid, url) catalogue -> uuid_form uuid /\ secure_address url.
Proof.
  intros I.
  assert (forallb (fun p => uuid_formb (fst p) && addressb (snd p)) catalogue = true) as A
    by (vm_compute; reflexivity).
  rewrite forallb_forall in A. apply A in I. cbn [fst snd] in I. apply andb_true_iff in I as (U & V).
  split; [now apply uuid_formb_ok | now apply addressb_ok].
Qed.
