(** Proofs about runs that are cut off: C111. *)
From Coq Require Import Lia.
From Verif Require Import Base Flags Sets FilterM ParseM ClientM SerialM JsM DataM ListsM ToolM
  CatalogM PublishM DiskM Spec SpecM SpecC SpecP SpecDisk P_Base P_Js P_Data P_Cut P_Tool P_List P_Pub.

Lemma cut_app k a b d : cutAfter k (a ++ b) d = cutAfter (k - length a) b (cutAfter k a d).
Proof. unfold cutAfter. now rewrite firstn_app, fold_left_app. Qed.

Lemma cut_all k a d : length a <= k -> cutAfter k a d = fold_left dstep a d.
Proof. intros L. unfold cutAfter. now rewrite firstn_all2. Qed.

Lemma cut_nil k d : cutAfter k [] d = d.
Proof. unfold cutAfter. now rewrite firstn_nil. Qed.

Lemma cut_zero a d : cutAfter 0 a d = d.
Proof. reflexivity. Qed.

Lemma adding p x : forall data d s, look d p = Some s ->
  look (fold_left dstep (map (DByte p) data) d) x =
  if beq p x then Some (s ++ data) else look d x.
Proof.
  induction data as [|b data IH]; intros d s L; cbn [map fold_left].
  - rewrite app_nil_r. destruct (beq p x) eqn:X; auto. apply beq_eq in X. now subst.
  - rewrite (IH _ (s ++ [b])).
    + destruct (beq p x) eqn:X; [now rewrite <- app_assoc|]. cbn [dstep]. now rewrite look_put, X.
    + cbn [dstep]. rewrite look_put, beq_same, L. reflexivity.
Qed.

Lemma cut_writing k p data d x :
  look (cutAfter k (writing p data) d) x =
  match k with
  | 0 => look d x
  | S j => if beq p x then Some (firstn j data) else look d x
  end.
Proof.
  unfold cutAfter, writing. destruct k as [|j]; auto. cbn [firstn fold_left].
  rewrite firstn_map, (adding p x (firstn j data) _ []).
  - cbn [dstep app]. destruct (beq p x) eqn:X; auto. now rewrite look_put, X.
  - cbn [dstep]. now rewrite look_put, beq_same.
Qed.

Lemma writing_length p data : length (writing p data) = S (length data).
Proof. unfold writing. cbn [length]. now rewrite map_length. Qed.

Lemma written_all k p data d x : S (length data) <= k ->
  look (cutAfter k (writing p data) d) x = if beq p x then Some data else look d x.
Proof. intros L. rewrite cut_writing. destruct k; [lia|]. rewrite firstn_all2 by lia. reflexivity. Qed.

Lemma not_torn p data d k : S (length data) <= k -> look (cutAfter k (writing p data) d) p = Some data.
Proof. intros L. now rewrite written_all, beq_same by auto. Qed.

(** What one file adds to a disk that is otherwise done. *)
Lemma partly_cons spoiled path data l d d1 d' :
  ~ In path spoiled -> ~ In path (map fst l) ->
  (forall p, ~ In p spoiled -> look d1 p = if beq path p then Some data else look d p) ->
  partly_made spoiled l d1 d' -> partly_made spoiled ((path, Some (Ok data)) :: l) d d'.
Proof.
  intros N1 N2 L (fin & rest & -> & W & O).
  exists ((path, Some (Ok data)) :: fin), rest. split; [reflexivity|].
  rewrite map_app in N2.
  assert (~ In path (map fst fin)) as N3 by (intros I; apply N2, in_or_app; auto).
  split.
  - intros p r [Q|I]; [|now apply W]. injection Q as <- <-. exists data. split; auto.
    assert (look d1 path = Some data) as L1 by (rewrite L, beq_same; auto).
    destruct O as [O|(p2 & data2 & more & -> & _ & O)]; rewrite O; auto.
    intros ->. apply N2, in_or_app. right. left. reflexivity.
  - destruct O as [O|(p2 & data2 & more & -> & T & O)]; [left|right; exists p2, data2, more; split; auto; split; auto];
      intros p Q1 Q2; [|intros Q3]; cbn [map fst] in Q2; rewrite O; auto;
      try (intros I; apply Q2; right; exact I);
      rewrite L, beq_neq; auto; intros ->; apply Q2; left; reflexivity.
Qed.

Lemma partly_none spoiled l d d' :
  (forall p, ~ In p spoiled -> look d' p = look d p) -> partly_made spoiled l d d'.
Proof. intros O. exists [], l. split; auto. split; [intros ? ? []|]. left. auto. Qed.

Lemma partly_ext spoiled l d d1 d' :
  (forall p, ~ In p spoiled -> look d1 p = look d p) -> partly_made spoiled l d1 d' -> partly_made spoiled l d d'.
Proof.
  intros X (fin & rest & Q & W & O). exists fin, rest. split; auto. split; auto.
  destruct O as [O|(p2 & data2 & more & R & T & O)]; [left|right; exists p2, data2, more; split; auto; split; auto];
    intros p Q1; intros; rewrite O; auto.
Qed.

(** One file cut off while it is written, or done. *)
Lemma partly_file spoiled path data l d k (ops : list dop) :
  ~ In path spoiled -> ~ In path (map fst l) ->
  (forall d1 j, partly_made spoiled l d1 (cutAfter j ops d1)) ->
  partly_made spoiled ((path, Some (Ok data)) :: l) d (cutAfter k (writing path data ++ ops) d).
Proof.
  intros N1 N2 IH. rewrite cut_app, writing_length. destruct (le_lt_dec (S (length data)) k) as [L|L].
  - apply (partly_cons spoiled path data l d (cutAfter k (writing path data) d)); auto.
    intros p _. now apply written_all.
  - replace (k - S (length data)) with 0 by lia. rewrite cut_zero.
    destruct k as [|j].
    + apply partly_none. intros p _. apply cut_writing.
    + exists [], ((path, Some (Ok data)) :: l). split; auto. split; [intros ? ? []|]. right.
      exists path, data, l. split; auto. split.
      * exists (firstn j data), (skipn j data). rewrite cut_writing, beq_same. split; auto.
        split; [symmetry; apply firstn_skipn|]. intros Q. apply (f_equal (@length _)) in Q.
        rewrite skipn_length in Q. cbn in Q. lia.
      * intros p _ _ Np. rewrite cut_writing, beq_neq; auto.
Qed.

Lemma string_ops E sites items name :
  (exists ops, stringOps E sites items name = (ops, EndUndefined) /\
     (ops = [] \/ exists h, ops = writing (B "bad_fingerprints.h") h) /\
     forall d, generateFromString E sites items name d = UB) \/
  exists h s, stringOps E sites items name =
                (writing (B "bad_fingerprints.h") h ++ writing (B "out/" ++ name) s, EndDone) /\
              dataFile E sites items = Ok s /\
              (forall d, generateFromString E sites items name d =
                 Ok (put (B "out/" ++ name) s (put (B "bad_fingerprints.h") h d))).
Proof.
  unfold stringOps, dataFile, generateFromString.
  destruct (foldM _ client0 items) as [c|]; cbn [bind]; [|left; eauto].
  destruct (checkSites E (enableBadFp E c) sites) as [c1|]; cbn [bind]; [|left; eauto].
  destruct (generateHeader c1) as [h|]; cbn [bind]; [|left; eauto].
  destruct (serialize c1 true true) as [s|]; cbn [bind]; [|left; eauto 7].
  right. exists h, s. auto.
Qed.

Definition spoil := [B "bad_fingerprints.h"].

Lemma header_cut k h d p : ~ In p spoil ->
  look (cutAfter k (writing (B "bad_fingerprints.h") h) d) p = look d p.
Proof.
  intros N. rewrite cut_writing. destruct k; auto. rewrite beq_neq; auto. intros <-. apply N. left. reflexivity.
Qed.

Lemma jobs_cut E sites jobs : forall d k,
  NoDup (B "bad_fingerprints.h" :: map (fun j => B "out/" ++ fst j) jobs) ->
  partly_made spoil (map (job_file E sites) jobs) d (cutAfter k (fst (jobsOps E sites jobs)) d).
Proof.
  induction jobs as [|[n [items|]] jobs IH]; intros d k N; cbn [jobsOps fst].
  - apply partly_none. intros. now rewrite cut_nil.
  - cbn [map fst] in N. inversion N as [|? ? N1 N2]; subst. inversion N2 as [|? ? N3 N4]; subst.
    destruct (string_ops E sites items n) as [(ops & -> & O & _)|(h & s & -> & D & _)]; cbn [fst snd].
    + apply partly_none. intros p Np. destruct O as [->|(h & ->)]; [now rewrite cut_nil|now apply header_cut].
    + destruct (jobsOps E sites jobs) as [ops e] eqn:J. cbn [fst] in *.
      rewrite <- app_assoc, cut_app. cbn [map]. unfold job_file at 1. cbn [fst snd option_map]. rewrite D.
      eapply partly_ext; [intros p Np; apply header_cut; exact Np|].
      apply partly_file.
      * intros [Q|[]]. apply N1. left. now symmetry.
      * rewrite map_map. exact N3.
      * intros d1 j. apply IH. constructor; auto. intros I. apply N1. right. exact I.
  - apply partly_none. intros. now rewrite cut_nil.
Qed.

Lemma data_cut E sites fetch unbreak d k :
  partly_made [B "bad_fingerprints.h"] (data_files E sites fetch unbreak) d
    (cutAfter k (fst (dataOps E sites fetch unbreak)) d).
Proof.
  rewrite <- jobs_files. apply (jobs_cut E sites (all_jobs fetch unbreak)). apply data_paths; assumption.
Qed.

(** Without interruption: the effect of the whole run. *)
Lemma jobs_all E sites jobs : forall d d0,
  (forall p, look d p = look d0 p) ->
  match runJobs E sites jobs d0 with
  | UB => snd (jobsOps E sites jobs) = EndUndefined
  | Ok (ok, d') => snd (jobsOps E sites jobs) = (if ok then EndDone else EndFailed) /\
      forall p, look (fold_left dstep (fst (jobsOps E sites jobs)) d) p = look d' p
  end.
Proof.
  induction jobs as [|[n [items|]] jobs IH]; intros d d0 X; cbn [runJobs jobsOps fst snd fold_left]; auto.
  destruct (string_ops E sites items n) as [(ops & -> & O & G)|(h & s & -> & D & G)]; rewrite G; cbn [fst snd bind]; auto.
  assert (forall p, look (fold_left dstep (writing (B "bad_fingerprints.h") h ++ writing (B "out/" ++ n) s) d) p =
                    look (put (B "out/" ++ n) s (put (B "bad_fingerprints.h") h d0)) p) as X'.
  { intros p. rewrite fold_left_app, <- (cut_all (S (length s)) (writing (B "out/" ++ n) s)), written_all
      by (rewrite ?writing_length; auto).
    rewrite !look_put. destruct (beq (B "out/" ++ n) p); auto.
    rewrite <- (cut_all (S (length h)) (writing _ h)), written_all by (rewrite ?writing_length; auto).
    now rewrite X. }
  specialize (IH _ _ X'). destruct (jobsOps E sites jobs) as [ops e]. cbn [fst snd] in *.
  destruct (runJobs E sites jobs _) as [[ok d']|]; auto.
  destruct IH as [-> IH]. split; auto. intros p. rewrite fold_left_app. apply IH.
Qed.

Lemma data_all E sites fetch unbreak d :
  match generateDataFiles E sites fetch unbreak d with
  | UB => snd (dataOps E sites fetch unbreak) = EndUndefined
  | Ok (ok, d') => snd (dataOps E sites fetch unbreak) = (if ok then EndDone else EndFailed) /\
      forall p, look (fold_left dstep (fst (dataOps E sites fetch unbreak)) d) p = look d' p
  end.
Proof. apply (jobs_all E sites (all_jobs fetch unbreak) d d). auto. Qed.

(** A run on any disk, for instance on what an interrupted one left. *)
Lemma data_rerun E sites fetch unbreak d ops :
  dataOps E sites fetch unbreak = (ops, EndDone) ->
  all_written (data_files E sites fetch unbreak) (fold_left dstep ops d).
Proof.
  intros Q. pose proof (data_all E sites fetch unbreak d) as A. rewrite Q in A. cbn [fst snd] in A.
  destruct (generateDataFiles E sites fetch unbreak d) as [[ok d']|] eqn:G; [|discriminate].
  destruct A as [Ok L]. destruct ok; [|discriminate].
  apply complete_run in G as [W _]. intros p r I. destruct (W p r I) as (data & -> & K).
  exists data. split; auto. now rewrite L.
Qed.

(** Every part of every data file is what some cut leaves. *)
Lemma jobs_every E sites path data q u : forall jobs d ops,
  jobsOps E sites jobs = (ops, EndDone) ->
  In (path, Some (Ok data)) (map (job_file E sites) jobs) -> data = q ++ u ->
  exists k, look (cutAfter k ops d) path = Some q.
Proof.
  induction jobs as [|[n [items|]] jobs IH]; intros d ops J I Q; [contradiction| |discriminate].
  cbn [jobsOps] in J.
  destruct (string_ops E sites items n) as [(o & So & _)|(h & s & So & D & _)]; rewrite So in J; [discriminate|].
  destruct (jobsOps E sites jobs) as [ops' e'] eqn:J'.
  assert (ops = (writing (B "bad_fingerprints.h") h ++ writing (B "out/" ++ n) s) ++ ops') as -> by congruence.
  assert (e' = EndDone) as -> by congruence.
  cbn [map] in I. destruct I as [I|I].
  - unfold job_file in I. cbn [fst snd option_map] in I. rewrite D in I.
    assert (path = B "out/" ++ n) as -> by congruence. assert (s = data) as -> by congruence.
    exists (S (length h) + S (length q)). rewrite <- app_assoc, cut_app, writing_length.
    replace (S (length h) + S (length q) - S (length h)) with (S (length q)) by lia.
    rewrite cut_app, writing_length, Q, app_length.
    replace (S (length q) - S (length q + length u)) with 0 by lia.
    rewrite cut_zero.
    rewrite cut_writing, beq_same. f_equal. rewrite firstn_app, Nat.sub_diag, firstn_all. apply app_nil_r.
  - destruct (IH (fold_left dstep (writing (B "bad_fingerprints.h") h ++ writing (B "out/" ++ n) s) d) ops' eq_refl I Q)
      as (k & K).
    exists (length (writing (B "bad_fingerprints.h") h ++ writing (B "out/" ++ n) s) + k).
    rewrite cut_app, (cut_all (_ + k)) by lia. replace (_ + k - _) with k by lia. exact K.
Qed.

Lemma data_every E sites fetch unbreak d ops path data q u :
  dataOps E sites fetch unbreak = (ops, EndDone) ->
  In (path, Some (Ok data)) (data_files E sites fetch unbreak) -> data = q ++ u ->
  exists k, look (cutAfter k ops d) path = Some q.
Proof.
  intros O I. rewrite <- jobs_files in I. now apply (jobs_every E sites path data q u (all_jobs fetch unbreak)).
Qed.

(** ** Loading a torn file *)

Lemma file_torn E sites items data q u :
  Forall nonul items -> Forall nonul sites -> dataFile E sites items = Ok data ->
  data = q ++ u -> u <> [] -> clientFromDAT q = UB.
Proof.
  intros Hi Hs D Q N. unfold dataFile in D. apply bind_ok in D as (c & P & D).
  apply bind_ok in D as (c2 & CS & D).
  change (clientFromStrings E false items = Ok c) in P. rewrite strings_after0 in P.
  assert (history (map (Parse false) items ++ DetectBad :: asks_of sites)) as H.
  { apply Forall_app. split; [|constructor; [exact I|]];
      apply Forall_forall; intros k I; apply in_map_iff in I as (t & <- & I).
    - rewrite Forall_forall in Hi. now apply Hi.
    - rewrite Forall_forall in Hs. now apply Hs. }
  unfold clientFromDAT. erewrite (truncated E _ c2 true true data q u client0 H); eauto.
  unfold after in *. rewrite foldM_app, P. cbn [bind foldM perform]. now rewrite <- checkSites_perform.
Qed.

Lemma host_filter_nonul t : nonul t -> nonul (hostListFilter t).
Proof.
  intros H. unfold hostListFilter. apply nonul_join. apply Forall_forall. intros x I.
  apply in_map_iff in I as (l & <- & I). apply nonul_app. split; [now apply nonulb_ok|].
  pose proof (nonul_split t H) as F. rewrite Forall_forall in F. apply F.
  rewrite <- (firstn_skipn 4 (split_on LF t)). apply in_or_app. auto.
Qed.

Lemma all_of_nonul l : forall items,
  (forall b, In (Some b) l -> nonul b) -> all_of l = Some items -> Forall nonul items.
Proof.
  induction l as [|[b|] l IH]; intros items H A; cbn [all_of] in A; [|destruct (all_of l) as [bs|]; [|discriminate]|discriminate];
    injection A as <-; constructor.
  - apply H. left. reflexivity.
  - apply IH; auto. intros b' I. apply H. now right.
Qed.

Lemma lists_nonul fetch lists items :
  (forall url b, fetch url = Some b -> nonul b) ->
  all_of (map (fun l => getSingleListData fetch (getListFilterFunction (fst l)) (snd l)) lists) = Some items ->
  Forall nonul items.
Proof.
  intros F A. eapply all_of_nonul; [|exact A]. intros b I. apply in_map_iff in I as ([x y] & I & _).
  cbn [fst snd] in I. unfold getSingleListData in I. destruct (fetch y) as [t|] eqn:T; [|discriminate].
  injection I as <-. unfold singleListData, sanitizeABPInput. apply sanitize_nonul.
  unfold getListFilterFunction. destruct (beq x _); [apply host_filter_nonul|]; eauto.
Qed.

Lemma data_texts E sites fetch unbreak path data :
  clean_texts fetch unbreak sites ->
  In (path, Some (Ok data)) (data_files E sites fetch unbreak) ->
  exists items, Forall nonul items /\ dataFile E sites items = Ok data.
Proof.
  intros (F & U & S).
  assert (forall lists, dataFileForList E sites fetch lists = Some (Ok data) ->
            exists items, Forall nonul items /\ dataFile E sites items = Ok data) as K.
  { intros lists I. unfold dataFileForList in I. destruct (all_of _) as [items|] eqn:A; [|discriminate].
    injection I as I. exists items. split; auto. eapply lists_nonul; eauto. }
  intros [I|[I|I]].
  - apply (K default_lists). congruence.
  - apply (K malware_lists). congruence.
  - apply in_map_iff in I as ([x y] & I & _). cbn [fst snd] in I. injection I as _ I.
    unfold dataFileForRegion in I. destruct (fetch y) as [b|] eqn:B1; [|discriminate]. injection I as I.
    exists [b; unbreak]. split; auto. repeat constructor; eauto.
Qed.

Lemma torn_unreadable E sites fetch unbreak path data d :
  clean_texts fetch unbreak sites ->
  In (path, Some (Ok data)) (data_files E sites fetch unbreak) ->
  torn d path data -> exists q, look d path = Some q /\ clientFromDAT q = UB.
Proof.
  intros C I (q & u & L & Q & N). exists q. split; auto.
  destruct (data_texts E sites fetch unbreak path data C I) as (items & Hi & D).
  destruct C as (_ & _ & S). exact (file_torn E sites items data q u Hi S D Q N).
Qed.

Lemma whole_readable E sites fetch unbreak path data :
  clean_texts fetch unbreak sites ->
  In (path, Some (Ok data)) (data_files E sites fetch unbreak) -> exists c, clientFromDAT data = Ok c.
Proof.
  intros C I. destruct (data_texts E sites fetch unbreak path data C I) as (items & Hi & D).
  destruct C as (_ & _ & S). destruct (data_file_any E sites items data Hi S D) as (c & c' & _ & K & _). eauto.
Qed.

(** ** Manifests *)

Lemma writes_cut (l : list (bytes * bytes)) : forall d k,
  NoDup (map fst l) ->
  partly_made [] (map (fun w => (fst w, Some (Ok (snd w)))) l) d
    (cutAfter k (flat_map (fun w => writing (fst w) (snd w)) l) d).
Proof.
  induction l as [|[p data] l IH]; intros d k N; cbn [map flat_map fst snd].
  - apply partly_none. intros. now rewrite cut_nil.
  - cbn [map fst] in N. inversion N as [|? ? N1 N2]; subst. apply partly_file; auto.
    + rewrite map_map. exact N1.
Qed.

Lemma manifest_cut d k : partly_made [] manifest_contents d (cutAfter k manifestOps d).
Proof.
  set (l := (B "out/default-manifest.json", manifestText (B "Default") default_key) ::
            map (fun r : bytes * bytes * bytes => let '(uuid, title, key) := r in
                   (B "out/" ++ uuid ++ B "-manifest.json", manifestText title key)) region_infos).
  assert (manifest_contents = map (fun w => (fst w, Some (Ok (snd w)))) l) as ->.
  { unfold l, manifest_contents. cbn [map fst snd]. apply (f_equal (cons _)). generalize region_infos.
    intros r. rewrite map_map. apply map_ext. intros [[a b] c]. reflexivity. }
  assert (manifestOps = flat_map (fun w => writing (fst w) (snd w)) l) as ->.
  { unfold l, manifestOps. cbn [flat_map fst snd]. apply (f_equal (app _)). generalize region_infos.
    intros r. induction r as [|[[a b] c] r IH]; [reflexivity|]. cbn [flat_map map fst snd]. now rewrite IH. }
  apply writes_cut.
  apply distinctb_ok. vm_compute. reflexivity.
Qed.

Lemma write_one p data d x : look (fold_left dstep (writing p data) d) x = look (put p data d) x.
Proof.
  rewrite <- (cut_all (S (length data)) (writing p data)), written_all by (rewrite ?writing_length; auto).
  now rewrite look_put.
Qed.

Lemma put_ext p data d d0 : (forall x, look d x = look d0 x) -> forall x, look (put p data d) x = look (put p data d0) x.
Proof. intros X x. rewrite !look_put. now rewrite X. Qed.

Lemma manifest_all d p : look (fold_left dstep manifestOps d) p = look (generateManifestFiles d) p.
Proof.
  unfold manifestOps, generateManifestFiles, generateDefaultManifest, generateRegionalManifests.
  rewrite fold_left_app.
  assert (forall x, look (fold_left dstep (writing (B "out/default-manifest.json") (manifestText (B "Default") default_key)) d) x =
                    look (put (B "out" ++ B "/default-manifest.json") (manifestText (B "Default") default_key) d) x) as X.
  { intros x. rewrite write_one. reflexivity. }
  revert X. generalize (fold_left dstep (writing (B "out/default-manifest.json") (manifestText (B "Default") default_key)) d).
  generalize (put (B "out" ++ B "/default-manifest.json") (manifestText (B "Default") default_key) d).
  generalize region_infos. intros r. induction r as [|[[a b] c] r IH]; intros d0 d1 X; [apply X|].
  cbn [flat_map fold_left]. rewrite fold_left_app. apply IH. intros x. rewrite write_one. now apply put_ext.
Qed.
