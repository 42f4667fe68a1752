(** Proofs for the sample program and the published files: C80-C84. *)
From Verif Require Import Base Flags Protocol Url Sets FilterM ParseM ClientM SerialM JsM DataM ListsM ToolM
  CatalogM PublishM Spec SpecM SpecC SpecS SpecJ SpecL SpecX SpecT SpecTool SpecP
  P_Base P_Protocol P_Url P_Match P_Rule P_Props1 P_Props2 P_Set P_Parse P_List P_Line P_Line2 P_Line4
  P_Line5 P_Fp2 P_Opt P_Opt2 P_Shape P_Match2 P_Client P_Hist P_Decide P_Dec2 P_Dec3
  P_Dec4 P_Dec5 P_Dec6 P_Dec7 P_Dec8 P_Like P_Js P_Js2 P_Ex P_Data P_Tool SpecC.
From Verif Require P_Stat P_Ser3 P_Ser4 P_Ser6 P_Ser7 P_Life2.

(** ** C80 *)
Lemma adviseAll_ok E urls : forall c o c',
  adviseAll E c urls = Ok (o, c') ->
  exists bs, sample_answers E c urls bs /\ o = sample_lines urls bs /\ alike c c' /\
    continue E c (map (fun u => Ask u 0%N (Some (B "slashdot.org"))) urls) = Ok c'.
Proof.
  induction urls as [|u urls IH]; intros c o c' H; cbn [adviseAll] in H.
  - injection H as <- <-. exists []. split; [constructor|]. split; [reflexivity|]. split; [apply alike_refl|reflexivity].
  - apply bind_ok in H as ([v d] & M & H). apply bind_ok in H as ([o1 d1] & A & H).
    injection H as <- <-. cbn [fst snd] in *.
    apply IH in A as (bs & F & -> & L & C).
    pose proof (asked_alike _ _ _ _ _ _ _ M) as L0.
    exists (v_block v :: bs). split; [|split; [|split]].
    + constructor; [exists v, d; auto|].
      clear -F L0. induction F as [|u b us bs (v & c' & M & V) F IH]; constructor; auto.
      destruct (answers_alike E c d (cstr u) 0%N (Some (B "slashdot.org")) L0) as [X _].
      rewrite M in X. cbn [rmap fst] in X.
      destruct (matches E c (cstr u) 0%N (Some (B "slashdot.org"))) as [[w e]|]; [|discriminate].
      injection X as ->. eauto.
    + unfold advice, sample_lines. cbn [combine flat_map fst snd]. reflexivity.
    + eapply alike_trans; eauto.
    + cbn [map]. unfold continue in *. cbn [foldM]. unfold perform at 1.
      change FONoFilterOption with 0%N in M. rewrite M. cbn [bind rmap snd]. exact C.
Qed.

Lemma alike_answers E c d bs urls : alike c d -> sample_answers E c urls bs -> sample_answers E d urls bs.
Proof.
  intros A F. induction F as [|u b us' bs'' (v & c' & M & V) F IH]; constructor; auto.
  destruct (answers_alike E c d (cstr u) 0%N (Some (B "slashdot.org")) A) as [X _].
  rewrite M in X. cbn [rmap fst] in X.
  destruct (matches E d (cstr u) 0%N (Some (B "slashdot.org"))) as [[w e]|]; [|discriminate].
  injection X as <-. eauto.
Qed.

Lemma adviseAll_defined E urls : forall c bs,
  sample_answers E c urls bs -> exists c', adviseAll E c urls = Ok (sample_lines urls bs, c').
Proof.
  induction urls as [|u urls IH]; intros c bs F; inversion F as [|u' b us bs' (v & d & M & V) F'].
  - exists c. reflexivity.
  - subst. cbn [adviseAll]. change FONoFilterOption with 0%N. rewrite M. cbn [bind fst snd].
    pose proof (asked_alike _ _ _ _ _ _ _ M) as A.
    destruct (IH d bs' (alike_answers _ _ _ _ _ A F')) as (c' & ->). exists c'. reflexivity.
Qed.

Lemma same_answers_lines E c c' urls bs :
  (forall url context dom v c1, matches E c url context dom = Ok (v, c1) ->
     exists w c1', matches E c' url context dom = Ok (w, c1') /\ same_verdict v w) ->
  sample_answers E c urls bs -> sample_answers E c' urls bs.
Proof.
  intros H F. induction F as [|u b us bs' (v & c1 & M & V) F IH]; constructor; auto.
  destruct (H _ _ _ _ _ M) as (w & c1' & M' & S). exists w, c1'. split; auto.
  destruct S as (S & _). congruence.
Qed.

Lemma sample_prints_twice E texts urls c bs :
  Forall nonul texts -> Forall nonul urls -> all_storable (map (Parse false) texts) ->
  after E (map (Parse false) texts) = Ok c -> sample_answers E c urls bs ->
  exists file, sampleRun E texts urls = Ok (sample_lines urls bs ++ sample_lines urls bs, file) /\
    exists c', deserialize file client0 = Ok (c', true) /\ sample_answers E c' urls bs.
Proof.
  intros Ht Hu St A F.
  destruct (adviseAll_defined E urls c bs F) as (c1 & Ad).
  destruct (adviseAll_ok _ _ _ _ _ Ad) as (bs1 & F1 & _ & L & C).
  set (calls := map (Parse false) texts) in *.
  set (asks := map (fun u => Ask u 0%N (Some (B "slashdot.org"))) urls) in *.
  assert (history calls) as H1.
  { apply Forall_forall. intros k I. apply in_map_iff in I as (t & <- & I).
    rewrite Forall_forall in Ht. now apply Ht. }
  assert (history (calls ++ asks)) as H2.
  { apply Forall_app. split; auto. apply Forall_forall. intros k I. apply in_map_iff in I as (t & <- & I).
    rewrite Forall_forall in Hu. now apply Hu. }
  assert (after E (calls ++ asks) = Ok c1) as A1.
  { unfold after in *. rewrite foldM_app, A. exact C. }
  assert (all_storable (calls ++ asks)) as St1.
  { unfold all_storable, loaded_lines. rewrite loaded_from_app.
    assert (forall us L, loaded_from L (map (fun u => Ask u 0%N (Some (B "slashdot.org"))) us) = L) as K.
    { induction us as [|u us IH]; intros L0; cbn [map loaded_from]; auto. }
    unfold asks. rewrite K. exact St. }
  assert (forall t, tagExists client0 t = tagExists c1 t) as T.
  { intros t. destruct (P_Hist.hist E (calls ++ asks) c1 H2 A1) as (rs & _ & _ & T).
    destruct (tagExists c1 t) eqn:X; auto. apply T in X as (a & b & X & _).
    assert (In (AddTag t) (calls ++ asks)) as J by (rewrite X; apply in_or_app; cbn; auto).
    apply in_app_iff in J as [J|J]; apply in_map_iff in J as (? & J & _); discriminate. }
  assert (exists file, serialize c1 true true = Ok file) as (file & S1).
  { eexists. apply (P_Ser4.serialize_ok (P_Ser3.of_line (calls ++ asks))). eapply P_Ser6.hist_shaped; eauto. }
  assert (sample_answers E c1 urls bs) as F2 by (eapply alike_answers; eauto).
  exists file.
  destruct (P_Ser6.restored_decides E _ _ H2 A1 true true file client0 [] St1 S1 T) as (c2 & D & Q).
  rewrite app_nil_r in D.
  destruct (Q [] c1) as (c2' & C2 & Q1 & _); [constructor|reflexivity|].
  injection C2 as <-.
  destruct (P_Ser6.lists_restored E _ _ H2 A1 true true file client0 [] St1 S1) as (c2'' & D' & _ & _ & _ & T2).
  rewrite app_nil_r, D in D'. injection D' as <-.
  assert (forall t, tagExists c2 t = tagExists c1 t) as T3.
  { intros t. rewrite <- T. unfold tagExists. now rewrite T2. }
  destruct (P_Ser6.restored_decides E _ _ H2 A1 true true file c2 [] St1 S1 T3) as (c3 & D3 & Q3).
  rewrite app_nil_r in D3.
  destruct (Q3 [] c1) as (c3' & C3 & Q4 & _); [constructor|reflexivity|].
  injection C3 as <-.
  split; [|exists c2; split; auto; eapply same_answers_lines; eauto].
  destruct (adviseAll_defined E urls c3 bs) as (c4 & Ad4); [eapply same_answers_lines; eauto|].
  unfold sampleRun. change (foldM (fun c t => parse E false (cstr t) c) client0 texts) with
    (clientFromStrings E false texts). rewrite strings_after0. fold calls. rewrite A. cbn [bind].
  unfold checkForClient. rewrite Ad. cbn [bind fst snd]. rewrite S1. cbn [bind]. rewrite D.
  cbn [bind fst snd negb]. rewrite D3. cbn [bind fst snd negb]. rewrite Ad4. reflexivity.
Qed.

Lemma alike_restarted c c' d d' : alike c c' -> (forall t, tagExists d t = tagExists d' t) ->
  alike (restarted c d) (restarted c' d').
Proof.
  intros ((Q1 & Q2 & Q3 & Q4 & Q5 & Q6 & Q7 & Q8 & Q9 & Q10 & Q11) & _) T.
  unfold alike, same_rules, restarted.
  cbn [c_lists c_numHA c_numHAE c_bloom c_ebloom c_host c_ehost c_nfd c_nfa c_nfdexc c_nfaexc c_badfp].
  rewrite Q1, Q2, Q3, Q4, Q5, Q6, Q7, Q8, Q9, Q10, Q11. split; [repeat split|]. split; [exact T|easy].
Qed.

Lemma sample_any E texts urls c bs bs' :
  Forall nonul texts -> Forall nonul urls -> after E (map (Parse false) texts) = Ok c ->
  sample_answers E c urls bs -> sample_answers E (restarted c client0) urls bs' ->
  exists file, sampleRun E texts urls = Ok (sample_lines urls bs ++ sample_lines urls bs', file).
Proof.
  intros Ht Hu A F F'.
  destruct (adviseAll_defined E urls c bs F) as (c1 & Ad).
  destruct (adviseAll_ok _ _ _ _ _ Ad) as (bs1 & F1 & _ & L & C).
  set (calls := map (Parse false) texts) in *.
  set (asks := map (fun u => Ask u 0%N (Some (B "slashdot.org"))) urls) in *.
  assert (history (calls ++ asks)) as H2.
  { apply Forall_app. split; apply Forall_forall; intros k I; apply in_map_iff in I as (t & <- & I).
    - rewrite Forall_forall in Ht. now apply Ht.
    - rewrite Forall_forall in Hu. now apply Hu. }
  assert (after E (calls ++ asks) = Ok c1) as A1.
  { unfold after in *. rewrite foldM_app, A. exact C. }
  destruct (P_Life2.saved_again E _ c1 true true [] client0 H2 A1) as (file & c2 & S & D & _ & _ & _ & T).
  destruct (P_Life2.saved_again E _ c1 true true [] c2 H2 A1) as (file' & c3 & S' & D3 & Q & _).
  rewrite S in S'. injection S' as <-. rewrite app_nil_r in D, D3.
  destruct (adviseAll_defined E urls c3 bs') as (c4 & Ad4).
  { eapply same_answers_lines; [exact Q|]. eapply alike_answers; [|exact F'].
    apply alike_restarted; auto. }
  exists file.
  unfold sampleRun. change (foldM (fun c t => parse E false (cstr t) c) client0 texts) with
    (clientFromStrings E false texts). rewrite strings_after0. fold calls. rewrite A. cbn [bind].
  unfold checkForClient. rewrite Ad. cbn [bind fst snd]. rewrite S. cbn [bind]. rewrite D.
  cbn [bind fst snd negb]. rewrite D3. cbn [bind fst snd negb]. rewrite Ad4. reflexivity.
Qed.

(** The program also runs to its end, and the data can always be read back, when
    the rules do not survive saving. *)
Lemma sample_first_half E texts urls o file :
  Forall nonul texts -> Forall nonul urls -> sampleRun E texts urls = Ok (o, file) ->
  exists c bs bs', after E (map (Parse false) texts) = Ok c /\ sample_answers E c urls bs /\
    o = sample_lines urls bs ++ sample_lines urls bs' /\ length bs' = length urls.
Proof.
  intros Ht Hu R. unfold sampleRun in R. apply bind_ok in R as (c & P & R).
  change (clientFromStrings E false texts = Ok c) in P. rewrite strings_after0 in P.
  unfold checkForClient in R. apply bind_ok in R as ([o1 c1] & Ad & R). cbn [fst snd] in R.
  destruct (adviseAll_ok _ _ _ _ _ Ad) as (bs & F & -> & L & C).
  set (calls := map (Parse false) texts) in *.
  set (asks := map (fun u => Ask u 0%N (Some (B "slashdot.org"))) urls) in *.
  assert (history (calls ++ asks)) as H2.
  { apply Forall_app. split; apply Forall_forall; intros k I; apply in_map_iff in I as (t & <- & I).
    - rewrite Forall_forall in Ht. now apply Ht.
    - rewrite Forall_forall in Hu. now apply Hu. }
  assert (after E (calls ++ asks) = Ok c1) as A1.
  { unfold after in *. rewrite foldM_app, P. exact C. }
  apply bind_ok in R as (buf & S1 & R).
  destruct (P_Ser7.lists_as_read E _ _ H2 A1 true true buf client0 [] S1) as (c2 & D & _).
  rewrite app_nil_r in D. rewrite D in R. cbn [bind fst snd negb] in R.
  destruct (P_Ser7.lists_as_read E _ _ H2 A1 true true buf c2 [] S1) as (c3 & D3 & _).
  rewrite app_nil_r in D3. rewrite D3 in R. cbn [bind fst snd negb] in R.
  apply bind_ok in R as ([o2 c4] & Ad2 & R). injection R as <- <-. cbn [fst].
  destruct (adviseAll_ok _ _ _ _ _ Ad2) as (bs' & F' & -> & _).
  exists c, bs, bs'. split; auto. split; auto. split; auto.
  clear -F'. induction F'; cbn [length]; congruence.
Qed.

(** ** C81 *)
Lemma read_chars_plain s r : plain_chars s -> read_chars (s ++ """"%char :: r) = Some (s, r).
Proof.
  induction 1 as [|a s P F IH]; [reflexivity|]. cbn [app read_chars].
  assert (ceq a """"%char = false) as ->.
  { unfold plain_char in P. now destruct (ceq a """"%char). }
  now rewrite P, IH.
Qed.

Lemma read_member_str n name v r : plain_chars name -> plain_chars v ->
  forall sp, Forall (fun a => jspace a = true) sp ->
  read_members (S n) (sp ++ """"%char :: name ++ B """: """ ++ v ++ """"%char :: r) =
  match skip_space r with
  | [] => None
  | a :: r =>
      if ceq a "}" then Some ([(name, JStr v)], r)
      else if ceq a "," then
        match read_members n r with
        | Some (ms, r) => Some ((name, JStr v) :: ms, r)
        | None => None
        end
      else None
  end.
Proof.
  intros Pn Pv sp F.
  assert (skip_space (sp ++ """"%char :: name ++ B """: """ ++ v ++ """"%char :: r) =
          """"%char :: name ++ B """: """ ++ v ++ """"%char :: r) as K.
  { induction F as [|a sp Ha F IH]; [reflexivity|]. cbn [app skip_space]. now rewrite Ha. }
  cbn [read_members]. rewrite K. cbn [read_string]. change (ceq """" """") with true. cbv iota.
  change (B """: """ ++ v ++ """"%char :: r) with
    (""""%char :: ":"%char :: " "%char :: """"%char :: v ++ """"%char :: r).
  rewrite read_chars_plain by auto. cbn [skip_space]. change (jspace ":") with false. cbv iota.
  change (negb (ceq ":" ":")) with false. cbv iota. cbn [skip_space].
  change (jspace " ") with true. cbv iota. change (jspace """") with false. cbv iota.
  unfold read_value. cbn [read_string]. change (ceq """" """") with true. cbv iota.
  now rewrite read_chars_plain by auto.
Qed.

Lemma plainb s : forallb plain_char s = true -> plain_chars s.
Proof. intros H. apply Forall_forall. intros a I. rewrite forallb_forall in H. auto. Qed.

Lemma manifest_read name key : plain_chars name -> plain_chars key ->
  json_object (manifestText name key) = Some (manifest_members name key).
Proof.
  intros Pn Pk. unfold json_object, manifestText.
  change (B "{" ++ [LF] ++ ?x) with ("{"%char :: LF :: x).
  set (r := LF :: _).
  change (skip_space ("{"%char :: r)) with ("{"%char :: r). change (ceq "{" "{") with true. cbv iota.
  assert (exists m, length r = 5 + m) as (m & ->).
  { exists (length r - 5). unfold r. simpl. lia. }
  subst r. cbn [Nat.add].
  change (LF :: B "  ""description"": ""Brave Ad Block Updater extension""," ++ ?x) with
    ((LF :: B "  ") ++ """"%char :: B "description" ++ B """: """ ++ B "Brave Ad Block Updater extension" ++
     """"%char :: ","%char :: x).
  rewrite read_member_str by (try (apply plainb; reflexivity); repeat constructor).
  change (skip_space (","%char :: ?x)) with (","%char :: x). cbv iota.
  change (ceq "," "}") with false. change (ceq "," ",") with true. cbv iota.
  change ([LF] ++ B "  ""key"": """ ++ key ++ B """," ++ ?x) with
    ((LF :: B "  ") ++ """"%char :: B "key" ++ B """: """ ++ key ++ """"%char :: ","%char :: x).
  rewrite read_member_str by (try (apply plainb; reflexivity); auto; repeat constructor).
  change (skip_space (","%char :: ?x)) with (","%char :: x). cbv iota.
  change (ceq "," "}") with false. change (ceq "," ",") with true. cbv iota.
  set (tl := B "  ""name"": ""Brave Ad Block Updater (" ++ _).
  change (read_members (S (S (S m))) ([LF] ++ B "  ""manifest_version"": 2," ++ [LF] ++ tl)) with
    (match read_members (S (S m)) ([LF] ++ tl) with
     | Some (ms, r) => Some ((B "manifest_version", JNum (B "2")) :: ms, r)
     | None => None
     end).
  subst tl.
  assert (B "  ""name"": ""Brave Ad Block Updater (" ++ name ++ B ")""," ++ [LF] ++
          B "  ""version"": ""0.0.0""" ++ [LF] ++ B "}" ++ [LF] =
          B "  " ++ """"%char :: B "name" ++ B """: """ ++ (B "Brave Ad Block Updater (" ++ name ++ B ")") ++
          """"%char :: ","%char :: (LF :: B "  ") ++ """"%char :: B "version" ++ B """: """ ++ B "0.0.0" ++
          """"%char :: [LF] ++ B "}" ++ [LF]) as ->.
  { simpl. rewrite <- app_assoc. reflexivity. }
  change ([LF] ++ B "  " ++ ?x) with ((LF :: B "  ") ++ x).
  rewrite read_member_str.
  2:{ apply plainb. reflexivity. }
  2:{ apply Forall_app. split; [apply plainb; reflexivity|]. apply Forall_app. split; auto.
      apply plainb. reflexivity. }
  2:{ repeat constructor. }
  change (skip_space (","%char :: ?x)) with (","%char :: x). cbv iota.
  change (ceq "," "}") with false. change (ceq "," ",") with true. cbv iota.
  rewrite read_member_str by (try (apply plainb; reflexivity); repeat constructor).
  reflexivity.
Qed.

Lemma infos_plain : forall uuid title key, In (uuid, title, key) region_infos ->
  plain_chars title /\ plain_chars key.
Proof.
  assert (forallb (fun r : bytes * bytes * bytes => let '(_, t, k) := r in
            forallb plain_char t && forallb plain_char k) region_infos = true) as F by (vm_compute; reflexivity).
  intros uuid title key I. rewrite forallb_forall in F. apply F in I. apply andb_prop in I as [I J].
  split; now apply plainb.
Qed.

(** ** Files *)
Lemma look_put p q x d : look (put p x d) q = if beq p q then Some x else look d q.
Proof. unfold look, put. cbn [find fst]. now destruct (beq p q). Qed.

Lemma beq_neq p q : p <> q -> beq p q = false.
Proof. intros N. destruct (beq p q) eqn:X; auto. apply beq_eq in X. contradiction. Qed.

Lemma beq_same p : beq p p = true.
Proof. now apply beq_eq. Qed.

Definition distinctb (l : list bytes) : bool :=
  (fix nd l := match l with [] => true | x :: l' => negb (existsb (beq x) l') && nd l' end) l.

Lemma distinctb_ok l : distinctb l = true -> NoDup l.
Proof.
  induction l as [|x l IH]; intros H; constructor.
  - apply andb_prop in H as [H _]. intros I. apply negb_true_iff in H.
    assert (existsb (beq x) l = true) as X; [|congruence].
    apply existsb_exists. exists x. split; auto. now apply beq_eq.
  - apply IH. now apply andb_prop in H as [_ H].
Qed.

Definition info_path (dir : bytes) (r : bytes * bytes * bytes) : bytes :=
  dir ++ B "/" ++ fst (fst r) ++ B "-manifest.json".

Lemma manifests_fold dir l : NoDup (map (fun r : bytes * bytes * bytes => fst (fst r)) l) -> forall d,
  let d' := fold_left (fun d r => let '(uuid, title, key) := r in
               put (dir ++ B "/" ++ uuid ++ B "-manifest.json") (manifestText title key) d) l d in
  (forall uuid title key, In (uuid, title, key) l ->
     look d' (dir ++ B "/" ++ uuid ++ B "-manifest.json") = Some (manifestText title key)) /\
  (forall p, ~ In p (map (info_path dir) l) -> look d' p = look d p).
Proof.
  induction l as [|[[u t] k] l IH]; intros N d; cbn [fold_left map fst].
  - split; [intros ? ? ? []|auto].
  - inversion N as [|? ? X N']; subst. destruct (IH N' (put (dir ++ B "/" ++ u ++ B "-manifest.json") (manifestText t k) d)) as [I1 I2].
    split.
    + intros uuid title key [Q|I]; [|now apply I1]. injection Q as -> -> ->.
      rewrite I2.
      * now rewrite look_put, beq_same.
      * intros J. apply X. apply in_map_iff in J as ([[u' t'] k'] & Q & J). cbn [fst] in Q.
        unfold info_path in Q. cbn [fst] in Q. apply app_inv_head in Q. apply app_inv_head in Q.
        apply app_inv_tail in Q. subst u'. apply in_map_iff. exists (uuid, t', k'). auto.
    + intros p P. rewrite I2 by (intros J; apply P; cbn; auto).
      rewrite look_put, beq_neq; auto. intros Q. apply P. left. exact Q.
Qed.

Lemma infos_uuids : map (fun r : bytes * bytes * bytes => fst (fst r)) region_infos = map fst region_lists.
Proof. vm_compute. reflexivity. Qed.

Lemma region_uuids : NoDup (map fst region_lists).
Proof. apply distinctb_ok. vm_compute. reflexivity. Qed.

Lemma info_paths : map (info_path (B "out")) region_infos =
  map (fun r : bytes * bytes => B "out/" ++ fst r ++ B "-manifest.json") region_lists.
Proof.
  transitivity (map (fun u => B "out/" ++ u ++ B "-manifest.json") (map fst region_lists)).
  - rewrite <- infos_uuids, map_map. apply map_ext. intros [[u t] k]. reflexivity.
  - rewrite map_map. reflexivity.
Qed.

Lemma paths_distinct E sites fetch unbreak :
  NoDup (B "bad_fingerprints.h" :: manifest_paths ++ map fst (data_files E sites fetch unbreak)).
Proof.
  assert (map fst (data_files E sites fetch unbreak) =
          B "out/ABPFilterParserData.dat" :: B "out/SafeBrowsingData.dat" ::
          map (fun r => B "out/" ++ fst r ++ B ".dat") region_lists) as ->.
  { unfold data_files. cbn [map fst]. do 2 f_equal. }
  apply distinctb_ok. vm_compute. reflexivity.
Qed.

Lemma manifests_written d :
  look (generateManifestFiles d) (B "out/default-manifest.json") = Some (manifestText (B "Default") default_key) /\
  (forall uuid title key, In (uuid, title, key) region_infos ->
     look (generateManifestFiles d) (B "out/" ++ uuid ++ B "-manifest.json") = Some (manifestText title key)) /\
  (forall p, ~ In p manifest_paths -> look (generateManifestFiles d) p = look d p).
Proof.
  unfold generateManifestFiles, generateRegionalManifests.
  assert (NoDup (map (fun r : bytes * bytes * bytes => fst (fst r)) region_infos)) as N
    by (rewrite infos_uuids; apply region_uuids).
  destruct (manifests_fold (B "out") region_infos N (generateDefaultManifest (B "out") d)) as [I1 I2].
  split; [|split].
  - rewrite I2; [reflexivity|].
    rewrite info_paths. assert (NoDup manifest_paths) as D.
    { apply distinctb_ok. vm_compute. reflexivity. }
    unfold manifest_paths in D. now apply NoDup_cons_iff in D as [D _].
  - intros uuid title key I. exact (I1 uuid title key I).
  - intros p P. rewrite I2.
    + unfold generateDefaultManifest. rewrite look_put, beq_neq; auto. intros Q. apply P. left. exact Q.
    + rewrite info_paths. intros I. apply P. right. exact I.
Qed.

(** ** C82 *)
Definition job_file (E : env) (sites : list bytes) (j : job) : bytes * option (res bytes) :=
  (B "out/" ++ fst j, option_map (dataFile E sites) (snd j)).

Lemma generate_file E sites items name d d' :
  generateFromString E sites items name d = Ok d' ->
  exists data header c, dataFile E sites items = Ok data /\
    d' = put (B "out/" ++ name) data (put (B "bad_fingerprints.h") header d) /\
    after E (map (Parse false) items ++ DetectBad :: asks_of sites) = Ok c /\
    generateHeader c = Ok header.
Proof.
  unfold generateFromString, dataFile. intros H.
  apply bind_ok in H as (c & P & H). apply bind_ok in H as (c1 & C & H).
  apply bind_ok in H as (h & G & H). apply bind_ok in H as (s & S & H). injection H as <-.
  exists s, h, c1. rewrite P. cbn [bind]. rewrite C. cbn [bind]. split; auto. split; auto. split; auto.
  change (clientFromStrings E false items = Ok c) in P. rewrite strings_after0 in P.
  unfold after in *. rewrite foldM_app, P. cbn [bind foldM perform]. now rewrite <- checkSites_perform.
Qed.

Lemma runJobs_ok E sites jobs : forall d ok d',
  NoDup (B "bad_fingerprints.h" :: map (fun j => B "out/" ++ fst j) jobs) ->
  runJobs E sites jobs d = Ok (ok, d') ->
  exists done rest, jobs = done ++ rest /\
    all_written (map (job_file E sites) done) d' /\
    (if ok then rest = [] else exists n rest', rest = (n, None) :: rest') /\
    (forall p, p <> B "bad_fingerprints.h" -> ~ In p (map (fun j => B "out/" ++ fst j) done) ->
       look d' p = look d p).
Proof.
  induction jobs as [|[n [items|]] jobs IH]; intros d ok d' N H; cbn [runJobs] in H.
  - injection H as <- <-. exists [], []. split; auto. split; [intros ? ? []|]. split; auto.
  - apply bind_ok in H as (d1 & G & H).
    cbn [map fst] in N. inversion N as [|? ? N1 N2]; subst. inversion N2 as [|? ? N3 N4]; subst.
    apply IH in H as (done & rest & -> & W & R & O).
    2:{ constructor; auto. intros I. apply N1. right. exact I. }
    apply generate_file in G as (data & h & c & D & -> & _ & _).
    exists ((n, Some items) :: done), rest. split; auto. split; [|split; auto].
    + intros p r [Q|I]; [|now apply W].
      unfold job_file in Q. cbn [fst snd option_map] in Q. injection Q as <- <-.
      exists data. split; [now rewrite D|]. rewrite O.
      * now rewrite look_put, beq_same.
      * intros Q. apply N1. left. exact Q.
      * intros I. apply N3. rewrite map_app. apply in_or_app. auto.
    + intros p P1 P2. rewrite O; auto.
      * rewrite look_put, beq_neq. rewrite look_put, beq_neq; auto.
        intros Q. apply P2. left. exact Q.
      * intros I. apply P2. right. exact I.
  - injection H as <- <-. exists [], ((n, None) :: jobs). split; auto. split; [intros ? ? []|].
    split; eauto.
Qed.

Lemma nodup_right {A} (a b : list A) : NoDup (a ++ b) -> NoDup b.
Proof. induction a as [|x a IH]; auto. intros N. inversion N; auto. Qed.

Definition all_jobs (fetch : fetcher) (unbreak : bytes) : list job :=
  listsJob fetch default_lists (B "ABPFilterParserData.dat") ::
  listsJob fetch malware_lists (B "SafeBrowsingData.dat") ::
  map (regionJob fetch unbreak) region_lists.

Lemma jobs_files E sites fetch unbreak :
  map (job_file E sites) (all_jobs fetch unbreak) = data_files E sites fetch unbreak.
Proof.
  unfold all_jobs, data_files. cbn [map]. f_equal. f_equal. rewrite map_map. apply map_ext.
  intros [u url]. unfold job_file, regionJob, dataFileForRegion. cbn [fst snd].
  f_equal. now destruct (fetch url).
Qed.

Lemma data_paths (E : env) (sites : list bytes) fetch unbreak :
  NoDup (B "bad_fingerprints.h" :: map (fun j : job => B "out/" ++ fst j) (all_jobs fetch unbreak)).
Proof.
  assert (map (fun j : job => B "out/" ++ fst j) (all_jobs fetch unbreak) =
          map fst (data_files E sites fetch unbreak)) as ->.
  { rewrite <- jobs_files, map_map. reflexivity. }
  pose proof (paths_distinct E sites fetch unbreak) as D.
  apply NoDup_cons_iff in D as [D1 D2]. apply nodup_right in D2. apply NoDup_cons_iff. split; auto.
  intros I. apply D1. apply in_or_app. auto.
Qed.

Lemma data_written E sites fetch unbreak d ok d' :
  generateDataFiles E sites fetch unbreak d = Ok (ok, d') ->
  exists done rest, data_files E sites fetch unbreak = done ++ rest /\
    all_written done d' /\
    (if ok then rest = [] else exists p rest', rest = (p, None) :: rest') /\
    (forall p, p <> B "bad_fingerprints.h" -> ~ In p (map fst done) -> look d' p = look d p).
Proof.
  intros H. change (runJobs E sites (all_jobs fetch unbreak) d = Ok (ok, d')) in H.
  apply runJobs_ok in H as (done & rest & Q & W & R & O); [|apply data_paths; assumption].
  exists (map (job_file E sites) done), (map (job_file E sites) rest).
  split; [|split; [|split]].
  - rewrite <- jobs_files, Q. apply map_app.
  - exact W.
  - destruct ok; [now subst|]. destruct R as (n & rest' & ->). exists (B "out/" ++ n), (map (job_file E sites) rest'). reflexivity.
  - intros p P1 P2. apply O; auto. rewrite map_map in P2. exact P2.
Qed.

Lemma all_of_some {A C} (f : A -> option C) l :
  (forall x, In x l -> f x <> None) <-> all_of (map f l) <> None.
Proof.
  induction l as [|x l IH]; cbn [map all_of].
  - split; [discriminate|intros _ ? []].
  - destruct (f x) as [y|] eqn:X.
    + destruct (all_of (map f l)) as [ys|] eqn:Y; cbn [option_map]; split.
      * discriminate.
      * intros _ z [<-|I]; [congruence|]. apply IH; auto. discriminate.
      * intros H. exfalso. apply IH; auto. intros z I. apply H. cbn. auto.
      * intros H. exfalso. now apply H.
    + split; [intros H; exfalso; now apply (H x (or_introl eq_refl))|intros H; now exfalso; apply H].
Qed.

Lemma complete_iff E sites fetch unbreak d ok d' :
  generateDataFiles E sites fetch unbreak d = Ok (ok, d') -> (ok = true <-> all_fetched fetch).
Proof.
  intros H. apply data_written in H as (done & rest & Q & W & R & _).
  assert ((forall p r, In (p, r) (data_files E sites fetch unbreak) -> r <> None) <-> all_fetched fetch) as K.
  { unfold data_files, all_fetched, catalogue. split.
    - intros F uuid url I. destruct (fetch url) as [b|] eqn:X; [eauto|exfalso].
      apply in_app_iff in I as [I|I]; [|apply in_app_iff in I as [I|I]].
      + apply (F _ _ (or_introl eq_refl)). unfold dataFileForList.
        destruct (all_of _) eqn:Y; auto. exfalso.
        assert (all_of (map (fun l => getSingleListData fetch (getListFilterFunction (fst l)) (snd l)) default_lists) <> None) as Z by congruence.
        rewrite <- all_of_some in Z. apply (Z _ I). unfold getSingleListData. cbn [fst snd]. now rewrite X.
      + apply (F (B "out/" ++ uuid ++ B ".dat") (dataFileForRegion E sites fetch unbreak url)).
        * right. right. apply in_map_iff. exists (uuid, url). auto.
        * unfold dataFileForRegion. now rewrite X.
      + destruct I.
    - intros F p r I. destruct I as [I|[I|I]].
      + injection I as <- <-. unfold dataFileForList.
        destruct (all_of _) eqn:Y; [discriminate|]. exfalso. revert Y. apply all_of_some.
        intros [u url] J. unfold getSingleListData. cbn [fst snd].
        destruct (F u url) as (b & ->); [apply in_or_app; auto|discriminate].
      + injection I as <- <-. unfold dataFileForList.
        destruct (all_of _) eqn:Y; [discriminate|]. exfalso. revert Y. apply all_of_some.
        intros [u url] J. unfold getSingleListData. cbn [fst snd].
        destruct (F u url) as (b & ->); [apply in_or_app; right; apply in_or_app; auto|discriminate].
      + apply in_map_iff in I as ([u url] & I & J). injection I as <- <-. unfold dataFileForRegion.
        destruct (F u url) as (b & ->); [apply in_or_app; right; apply in_or_app; auto|discriminate]. }
  rewrite <- K. rewrite Q. destruct ok.
  - subst rest. rewrite app_nil_r. split; auto. intros _ p r I. destruct (W p r I) as (x & -> & _). discriminate.
  - destruct R as (p & rest' & ->). split; [discriminate|]. intros F. exfalso.
    apply (F p None); auto. apply in_or_app. right. left. reflexivity.
Qed.

(** ** C83 *)
Lemma runJobs_header E sites jobs : forall d d' n items,
  NoDup (B "bad_fingerprints.h" :: map (fun j : job => B "out/" ++ fst j) (jobs ++ [(n, Some items)])) ->
  runJobs E sites (jobs ++ [(n, Some items)]) d = Ok (true, d') ->
  exists c header, after E (map (Parse false) items ++ DetectBad :: asks_of sites) = Ok c /\
    generateHeader c = Ok header /\ look d' (B "bad_fingerprints.h") = Some header.
Proof.
  induction jobs as [|[m [its|]] jobs IH]; intros d d' n items N H; cbn [app runJobs] in H.
  - apply bind_ok in H as (d1 & G & H). injection H as <-.
    apply generate_file in G as (data & h & c & D & -> & A & G).
    exists c, h. split; [exact A|]. split; [exact G|]. reflexivity.
  - apply bind_ok in H as (d1 & G & H). apply IH in H; auto.
    cbn [map app] in N. inversion N as [|? ? N1 N2]; subst. inversion N2; subst.
    constructor; auto. intros I. apply N1. right. exact I.
  - discriminate.
Qed.

(** ** C84 *)
Lemma key_inj a b x y : uploadFile a x b = y -> fst y = a ++ B "/" ++ b.
Proof. now intros <-. Qed.

Lemma upload_keys prod date listing : NoDup listing ->
  NoDup (map fst (uploads prod date None listing)).
Proof.
  intros N. unfold uploads. induction N as [|f l X N IH]; [constructor|].
  assert (forall p, In p (map fst (flat_map (fun filename =>
      if prod then [uploadFile dataFileVersion (B "out/" ++ filename) filename;
                    uploadFile (B "backups/" ++ date) (B "out/" ++ filename) filename]
      else [uploadFile (B "test/" ++ dataFileVersion) (B "out/" ++ filename) filename]) l)) ->
    exists g, In g l /\ if prod then p = dataFileVersion ++ B "/" ++ g \/ p = (B "backups/" ++ date) ++ B "/" ++ g
                       else p = (B "test/" ++ dataFileVersion) ++ B "/" ++ g) as K.
  { intros p I. apply in_map_iff in I as (u & <- & I). apply in_flat_map in I as (g & J & I).
    exists g. split; auto. destruct prod.
    - destruct I as [<-|[<-|[]]]; cbn [fst uploadFile]; auto.
    - destruct I as [<-|[]]; cbn [fst uploadFile]; auto. }
  cbn [flat_map]. rewrite map_app. destruct prod; cbn [map app uploadFile fst].
  - constructor; [|constructor; [|exact IH]].
    + intros [I|I]; [discriminate|]. apply K in I as (g & J & [Q|Q]); [|discriminate].
      apply app_inv_head in Q. apply app_inv_head in Q. now subst g.
    + intros I. apply K in I as (g & J & [Q|Q]); [discriminate|].
      apply app_inv_head in Q. apply app_inv_head in Q. now subst g.
  - constructor; [|exact IH].
    intros I. apply K in I as (g & J & Q). apply app_inv_head in Q. apply app_inv_head in Q. now subst g.
Qed.

Lemma basename_out f : ~ In "/"%char f -> basename (B "out/" ++ f) = f.
Proof.
  intros N. unfold basename.
  change (B "out/" ++ f) with (B "out" ++ "/"%char :: f).
  rewrite P_Js2.split_on_first by (intros I; vm_compute in I; repeat (destruct I as [I|I]; [discriminate|]); destruct I).
  rewrite split_on_none by auto. reflexivity.
Qed.

Lemma upload_one date f listing : ~ In "/"%char f -> In f listing ->
  uploads true date (Some (B "out/" ++ f)) listing = uploads true date None [f] /\
  (forall u, In u (uploads true date (Some (B "out/" ++ f)) listing) -> In u (uploads true date None listing)).
Proof.
  intros N I. unfold uploads. rewrite basename_out by auto. cbn [flat_map app]. split; auto.
  intros u J. apply in_flat_map. exists f. auto.
Qed.

Lemma upload_place prod date dat listing key path :
  In (key, path) (uploads prod date dat listing) ->
  (prod = false <-> exists k, key = B "test/" ++ k).
Proof.
  intros I.
  assert (if prod then (exists k, key = B "4/" ++ k) \/ (exists k, key = B "backups/" ++ k)
          else exists k, key = B "test/" ++ k) as K.
  { unfold uploads, uploadFile in I. destruct dat as [q|].
    - destruct prod; repeat (destruct I as [I|I]; [injection I as <- _|]); try destruct I.
      + left. eexists. reflexivity.
      + right. eexists. reflexivity.
      + eexists. reflexivity.
    - apply in_flat_map in I as (f & J & I).
      destruct prod; repeat (destruct I as [I|I]; [injection I as <- _|]); try destruct I.
      + left. eexists. reflexivity.
      + right. eexists. reflexivity.
      + eexists. reflexivity. }
  destruct prod; split; auto; try discriminate.
  intros (k & ->). destruct K as [(k' & K)|(k' & K)]; discriminate.
Qed.

Lemma upload_all (prod : bool) (date : bytes) (listing : list bytes) (f : bytes) : In f listing ->
  In ((if prod then B "4/" else B "test/4/") ++ f, B "out/" ++ f) (uploads prod date None listing).
Proof.
  intros I. unfold uploads, uploadFile. apply in_flat_map. exists f. split; auto.
  destruct prod; left; reflexivity.
Qed.

(** ** Assembled statements *)
Lemma infos_nodup : NoDup (map fst region_infos).
Proof.
  apply (NoDup_map_inv fst). rewrite map_map. rewrite infos_uuids. exact region_uuids.
Qed.

Lemma manifest_files d :
  (exists t, look (generateManifestFiles d) (B "out/default-manifest.json") = Some t /\
     json_object t = Some (manifest_members (B "Default") default_key)) /\
  (forall uuid title key, In (uuid, title, key) region_infos ->
     exists t, look (generateManifestFiles d) (B "out/" ++ uuid ++ B "-manifest.json") = Some t /\
       json_object t = Some (manifest_members title key)) /\
  (forall p, ~ In p manifest_paths -> look (generateManifestFiles d) p = look d p).
Proof.
  destruct (manifests_written d) as (M1 & M2 & M3). split; [|split; auto].
  - eexists. split; [exact M1|]. apply manifest_read; apply plainb; vm_compute; reflexivity.
  - intros uuid title key I. eexists. split; [exact (M2 _ _ _ I)|].
    apply infos_plain in I as [P1 P2]. now apply manifest_read.
Qed.

Lemma complete_run E sites fetch unbreak d d' :
  generateDataFiles E sites fetch unbreak d = Ok (true, d') ->
  all_written (data_files E sites fetch unbreak) d' /\
  (forall p, p <> B "bad_fingerprints.h" -> ~ In p (map fst (data_files E sites fetch unbreak)) ->
     look d' p = look d p).
Proof.
  intros H. apply data_written in H as (done & rest & -> & W & -> & O). rewrite app_nil_r. auto.
Qed.

Lemma interrupted_run E sites fetch unbreak d d' :
  generateDataFiles E sites fetch unbreak d = Ok (false, d') ->
  exists done failed rest, data_files E sites fetch unbreak = done ++ (failed, None) :: rest /\
    all_written done d' /\
    (forall p, p <> B "bad_fingerprints.h" -> ~ In p (map fst done) -> look d' p = look d p).
Proof.
  intros H. apply data_written in H as (done & rest & Q & W & (p & rest' & ->) & O). eauto 8.
Qed.

Lemma last_header E sites fetch unbreak d d' uuid url b :
  generateDataFiles E sites fetch unbreak d = Ok (true, d') ->
  last region_lists (B "", B "") = (uuid, url) -> fetch url = Some b ->
  exists c l, after E (map (Parse false) [b; unbreak] ++ DetectBad :: asks_of sites) = Ok c /\
    c_badfp c = Some l /\ look d' (B "bad_fingerprints.h") = Some (headerText l).
Proof.
  intros H L F. change (runJobs E sites (all_jobs fetch unbreak) d = Ok (true, d')) in H.
  assert (exists pre, all_jobs fetch unbreak = pre ++ [(uuid ++ B ".dat", Some [b; unbreak])]) as (pre & Q).
  { unfold all_jobs. rewrite (app_removelast_last (B "", B "") (l := region_lists)) by discriminate.
    rewrite L, map_app, !app_comm_cons. eexists. f_equal. cbn [map]. unfold regionJob.
    cbn [fst snd]. rewrite F. reflexivity. }
  pose proof (data_paths E sites fetch unbreak) as N. rewrite Q in H, N.
  apply runJobs_header in H as (c & h & A & G & K); auto.
  unfold generateHeader in G. destruct (c_badfp c) as [l|] eqn:X; [|discriminate].
  injection G as <-. eauto.
Qed.

(** A test for the presence of a word. *)
Fixpoint contains (w s : bytes) : bool :=
  prefixb w s || match s with [] => false | _ :: s' => contains w s' end.

Lemma contains_mid w x y : contains w (x ++ w ++ y) = true.
Proof.
  assert (prefixb w (w ++ y) = true) as P.
  { clear x. induction w as [|a w IH]; cbn; auto. now rewrite ceq_refl. }
  induction x as [|a x IH]; cbn [app].
  - destruct (w ++ y); cbn [contains]; now rewrite P.
  - cbn [contains]. rewrite IH. apply orb_true_r.
Qed.

Lemma half_twice (half o : bytes) : o = half ++ half ->
  firstn (length o / 2) o = skipn (length o / 2) o.
Proof.
  intros ->. assert (length (half ++ half) / 2 = length half) as ->.
  { rewrite app_length. replace (length half + length half) with (length half * 2) by lia.
    apply Nat.div_mul. lia. }
  rewrite firstn_app, skipn_app, Nat.sub_diag, firstn_all, skipn_all. cbn [firstn skipn app].
  now rewrite app_nil_r.
Qed.

(** Runs that are defined because the work on each distinct content is. *)
Fixpoint lbeq (a b : list bytes) : bool :=
  match a, b with
  | [], [] => true
  | x :: a', y :: b' => beq x y && lbeq a' b'
  | _, _ => false
  end.

Lemma lbeq_eq a : forall b, lbeq a b = true -> a = b.
Proof.
  induction a as [|x a IH]; intros [|y b] H; try discriminate; auto. cbn [lbeq] in H.
  apply andb_prop in H as [H1 H2]. apply beq_eq in H1. now rewrite H1, (IH b H2).
Qed.

Definition defined_for (E : env) (sites items : list bytes) : bool :=
  match generateFromString E sites items [] [] with Ok _ => true | UB => false end.

Lemma defined_any E sites items name d :
  defined_for E sites items = true -> exists d', generateFromString E sites items name d = Ok d'.
Proof.
  unfold defined_for, generateFromString.
  destruct (foldM _ client0 items) as [c|]; [|discriminate]. cbn [bind].
  destruct (checkSites E (enableBadFp E c) sites) as [c1|]; [|discriminate]. cbn [bind].
  destruct (generateHeader c1) as [h|]; [|discriminate]. cbn [bind].
  destruct (serialize c1 true true) as [s|]; [|discriminate]. cbn [bind]. eauto.
Qed.

Lemma runs_defined E sites kinds : forall jobs d,
  forallb (defined_for E sites) kinds = true ->
  forallb (fun j : job => match snd j with
                          | Some items => existsb (lbeq items) kinds
                          | None => false end) jobs = true ->
  exists d', runJobs E sites jobs d = Ok (true, d').
Proof.
  induction jobs as [|[n [items|]] jobs IH]; intros d K J; cbn [runJobs].
  - eauto.
  - cbn [forallb snd] in J. apply andb_prop in J as [J1 J2].
    apply existsb_exists in J1 as (k & I & Q). apply lbeq_eq in Q. subst k.
    rewrite forallb_forall in K. destruct (defined_any E sites items n d (K _ I)) as (d1 & ->). cbn [bind].
    apply IH; auto. now apply forallb_forall.
  - discriminate.
Qed.

Lemma header_spoiled E sites fetch unbreak kinds b w :
  forallb (defined_for E sites) kinds = true ->
  forallb (fun j : job => match snd j with
                          | Some items => existsb (lbeq items) kinds
                          | None => false end) (all_jobs fetch unbreak) = true ->
  fetch (snd (last region_lists (B "", B ""))) = Some b ->
  rmap (fun c => option_map (fun l => contains w (headerText l)) (c_badfp c))
    (after E (map (Parse false) [b; unbreak] ++ DetectBad :: asks_of sites)) = Ok (Some false) ->
  exists d', generateDataFiles E sites fetch unbreak [] = Ok (true, d') /\
    forall h x y, look d' (B "bad_fingerprints.h") = Some h -> h = x ++ w ++ y -> False.
Proof.
  intros K J F C. destruct (runs_defined E sites kinds _ [] K J) as (d' & R). exists d'. split; auto.
  intros h x y L ->. destruct (last region_lists (B "", B "")) as [u url] eqn:Z. cbn [snd] in F.
  destruct (last_header E sites fetch unbreak [] d' u url b R Z F) as (c & l & A & Q & H).
  rewrite A in C. cbn [rmap] in C. rewrite Q in C. cbn [option_map] in C.
  assert (contains w (headerText l) = false) as C' by congruence.
  assert (headerText l = x ++ w ++ y) as L' by congruence.
  rewrite L', contains_mid in C'. discriminate.
Qed.
