(** Making the data files when the process can be killed at any moment: C111. *)
From Verif Require Import Base Flags Sets FilterM ParseM ClientM SerialM JsM DataM ListsM ToolM CatalogM
  PublishM DiskM Spec SpecP SpecDisk P_Base P_Pub P_Disk P_Ex Props_Life Props_Pub.

(** The full property: wherever a run is cut off, the data files that are there
    can be loaded, provided those from the last complete run were there before.
    It fails: a file is emptied before it is written. *)
Theorem C111_refuted : ~ (forall E sites fetch unbreak d k path data,
  clean_texts fetch unbreak sites ->
  all_written (data_files E sites fetch unbreak) d ->
  In path (map fst (data_files E sites fetch unbreak)) ->
  look (cutAfter k (fst (dataOps E sites fetch unbreak)) d) path = Some data ->
  exists c, clientFromDAT data = Ok c).
Proof.
  intros H. destruct C82_example as (_ & (d' & R) & _).
  pose proof (C82_complete _ _ _ _ _ _ R) as [W _].
  destruct (W _ _ (or_introl eq_refl)) as (s & S & _).
  destruct (dataOps E1 [] fp_web []) as [ops e] eqn:O.
  pose proof (data_all E1 [] fp_web [] []) as A. rewrite R, O in A. cbn [fst snd] in A.
  destruct A as [-> _].
  destruct (data_every E1 [] fp_web [] d' ops (B "out/ABPFilterParserData.dat") s [] s O) as (k & K).
  { left. now rewrite S. }
  { reflexivity. }
  destruct (H E1 [] fp_web [] d' k (B "out/ABPFilterParserData.dat") []) as (c & C).
  - split; [|split; [now apply nonulb_ok|constructor]].
    intros url b. unfold fp_web. destruct (beq url _); intros [= <-]; now apply nonulb_ok.
  - exact W.
  - left. reflexivity.
  - rewrite O. exact K.
  - vm_compute in C. discriminate.
Qed.
Print Assumptions C111_refuted.

(** What does hold, wherever the run is cut off: the data files are made one
    after the other; those made are whole and new, at most one is torn, and the
    others are as before. *)
Theorem C111_cut_partial : forall E sites fetch unbreak d k,
  partly_made [B "bad_fingerprints.h"] (data_files E sites fetch unbreak) d
    (cutAfter k (fst (dataOps E sites fetch unbreak)) d).
Proof. exact data_cut. Qed.
Print Assumptions C111_cut_partial.

(** A whole file can be loaded; the torn one makes every program that loads it
    read past its end. *)
Theorem C111_whole_partial : forall E sites fetch unbreak path data,
  clean_texts fetch unbreak sites ->
  In (path, Some (Ok data)) (data_files E sites fetch unbreak) -> exists c, clientFromDAT data = Ok c.
Proof. exact whole_readable. Qed.
Print Assumptions C111_whole_partial.

Theorem C111_torn : forall E sites fetch unbreak path data d,
  clean_texts fetch unbreak sites ->
  In (path, Some (Ok data)) (data_files E sites fetch unbreak) ->
  torn d path data -> exists q, look d path = Some q /\ clientFromDAT q = UB.
Proof. exact torn_unreadable. Qed.
Print Assumptions C111_torn.

(** Nothing less is true: every part of every data file is what some cut leaves. *)
Theorem C111_every_part : forall E sites fetch unbreak d ops path data q u,
  dataOps E sites fetch unbreak = (ops, EndDone) ->
  In (path, Some (Ok data)) (data_files E sites fetch unbreak) -> data = q ++ u ->
  exists k, look (cutAfter k ops d) path = Some q.
Proof. exact data_every. Qed.
Print Assumptions C111_every_part.

(** Running it again to the end repairs everything, whatever the disk. *)
Theorem C111_rerun : forall E sites fetch unbreak d ops,
  dataOps E sites fetch unbreak = (ops, EndDone) ->
  all_written (data_files E sites fetch unbreak) (fold_left dstep ops d).
Proof. exact data_rerun. Qed.
Print Assumptions C111_rerun.

(** Without interruption the single writes come to the files of C82. *)
Theorem C111_uncut : forall E sites fetch unbreak d,
  match generateDataFiles E sites fetch unbreak d with
  | UB => snd (dataOps E sites fetch unbreak) = EndUndefined
  | Ok (ok, d') => snd (dataOps E sites fetch unbreak) = (if ok then EndDone else EndFailed) /\
      forall p, look (fold_left dstep (fst (dataOps E sites fetch unbreak)) d) p = look d' p
  end.
Proof. exact data_all. Qed.
Print Assumptions C111_uncut.

(** The manifests. *)
Theorem C111_manifests_partial : forall d k, partly_made [] manifest_contents d (cutAfter k manifestOps d).
Proof. exact manifest_cut. Qed.
Print Assumptions C111_manifests_partial.

Theorem C111_manifests_uncut : forall d p,
  look (fold_left dstep manifestOps d) p = look (generateManifestFiles d) p.
Proof. exact manifest_all. Qed.
Print Assumptions C111_manifests_uncut.

(** A run that comes to its end, and one whose first download fails. *)
Example C111_example :
  clean_texts fp_web [] [] /\
  snd (dataOps E1 [] fp_web []) = EndDone /\
  dataOps E1 [] (fun _ => None) [] = ([], EndFailed) /\
  length manifestOps > 1000.
Proof.
  split; [|split; [|split]].
  - split; [|split; [now apply nonulb_ok|constructor]].
    intros url b. unfold fp_web. destruct (beq url _); intros [= <-]; now apply nonulb_ok.
  - destruct C82_example as (_ & (d' & R) & _).
    pose proof (data_all E1 [] fp_web [] []) as A. rewrite R in A. apply A.
  - reflexivity.
  - apply Nat.ltb_lt. vm_compute. reflexivity.
Qed.

(** A file in three steps. *)
Example C111_steps_example :
  map (fun k => look (cutAfter k (writing (B "a") (B "xy")) [(B "a", B "old")]) (B "a")) [0; 1; 2; 3] =
  [Some (B "old"); Some []; Some (B "x"); Some (B "xy")].
Proof. reflexivity. Qed.
