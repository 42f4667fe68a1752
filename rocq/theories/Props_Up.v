(** Uploading when requests fail or the process is killed: C112. *)
From Verif Require Import Base Flags Sets FilterM ParseM ClientM SerialM JsM DataM ListsM ToolM CatalogM
  PublishM DiskM UploadM Spec SpecP SpecDisk SpecUp P_Base P_Pub P_Disk P_Up P_Ex Props_Life Props_Pub.

(** The full property: at every moment, what users get for a file since this run
    is also in the backup. *)
Theorem C112_refuted : ~ (forall date disk listing net b b' w f,
  NoDup listing -> uploadRun disk (uploads true date None listing) net b = (b', w) ->
  look b' (live_key f) <> look b (live_key f) -> backed_up date b' f).
Proof.
  intros H.
  assert (backed_up (B "d") [(B "4/a.dat", B "new")] (B "a.dat")) as X.
  { apply (H (B "d") [(B "out/a.dat", B "new")] [B "a.dat"] [true; false] [] _ UpFailed).
    - repeat constructor. intros [].
    - reflexivity.
    - vm_compute. discriminate. }
  vm_compute in X. discriminate.
Qed.
Print Assumptions C112_refuted.

(** What does hold: the files are published one after the other, each one with
    its backup; only the file the run stopped at can be without; files after it
    are untouched. *)
Theorem C112_backups_partial : forall date disk listing net b b' w,
  NoDup listing -> uploadRun disk (uploads true date None listing) net b = (b', w) ->
  exists made rest, listing = made ++ rest /\ (w = UpDone <-> rest = []) /\
    (forall f, In f made -> look b' (live_key f) = look disk (B "out/" ++ f) /\ backed_up date b' f) /\
    (forall f, ~ In f made -> hd_error rest <> Some f ->
       look b' (live_key f) = look b (live_key f) /\ look b' (backup_key date f) = look b (backup_key date f)).
Proof. exact backups. Qed.
Print Assumptions C112_backups_partial.

(** Every object is the old one or the whole local file, in test and in
    production, and nothing else in the bucket changes. *)
Theorem C112_whole : forall prod date listing disk net b b' w,
  NoDup listing -> uploadRun disk (uploads prod date None listing) net b = (b', w) ->
  partly_uploaded disk (uploads prod date None listing) b b' w.
Proof. exact uploads_partly. Qed.
Print Assumptions C112_whole.

Theorem C112_whole_single : forall prod date path listing disk net b b' w,
  uploadRun disk (uploads prod date (Some path) listing) net b = (b', w) ->
  partly_uploaded disk (uploads prod date (Some path) listing) b b' w.
Proof. exact single_partly. Qed.
Print Assumptions C112_whole_single.

(** If no request fails, the run comes to its end. *)
Theorem C112_done : forall prod date listing disk net b,
  (forall f, In f listing -> look disk (B "out/" ++ f) <> None) ->
  length (uploads prod date None listing) <= length net -> Forall (fun ok => ok = true) net ->
  exists b', uploadRun disk (uploads prod date None listing) net b = (b', UpDone).
Proof. exact all_uploaded. Qed.
Print Assumptions C112_done.

(** The first request that fails ends the run, with the bucket as it was before
    this request. *)
Theorem C112_stops : forall prod date listing disk n more b,
  (forall f, In f listing -> look disk (B "out/" ++ f) <> None) ->
  n < length (uploads prod date None listing) ->
  exists b', uploadRun disk (uploads prod date None listing) (repeat true n) b = (b', UpWaiting) /\
             uploadRun disk (uploads prod date None listing) (repeat true n ++ false :: more) b = (b', UpFailed).
Proof. exact uploads_stop. Qed.
Print Assumptions C112_stops.

(** A data file torn by a killed run of the other script (C111) is published
    like any other, and its users read past its end. *)
Theorem C112_torn_published : forall E sites fetch unbreak disk date listing net b b' name data,
  clean_texts fetch unbreak sites ->
  In (B "out/" ++ name, Some (Ok data)) (data_files E sites fetch unbreak) ->
  torn disk (B "out/" ++ name) data -> NoDup listing -> In name listing ->
  uploadRun disk (uploads true date None listing) net b = (b', UpDone) ->
  exists q, look b' (live_key name) = Some q /\ clientFromDAT q = UB.
Proof. exact torn_published. Qed.
Print Assumptions C112_torn_published.

(** Two files: answered well, the third request failing, and no answer yet. *)
Example C112_example :
  let disk := [(B "out/a.dat", B "A"); (B "out/b.dat", B "B")] in
  let us := uploads true (B "d") None [B "a.dat"; B "b.dat"] in
  uploadRun disk us [true; true; true; true] [] =
    ([(B "backups/d/b.dat", B "B"); (B "4/b.dat", B "B"); (B "backups/d/a.dat", B "A"); (B "4/a.dat", B "A")], UpDone) /\
  uploadRun disk us [true; true; false] [(B "4/b.dat", B "old")] =
    ([(B "backups/d/a.dat", B "A"); (B "4/a.dat", B "A"); (B "4/b.dat", B "old")], UpFailed) /\
  uploadRun disk us [true] [] = ([(B "4/a.dat", B "A")], UpWaiting).
Proof. repeat split. Qed.

(** A run killed in the middle of its first data file, and the upload after it. *)
Example C112_torn_example : exists k data b',
  let disk := cutAfter k (fst (dataOps E1 [] fp_web [])) [] in
  In (B "out/ABPFilterParserData.dat", Some (Ok data)) (data_files E1 [] fp_web []) /\
  torn disk (B "out/ABPFilterParserData.dat") data /\
  uploadRun disk (uploads true (B "d") None [B "ABPFilterParserData.dat"]) [true; true] [] = (b', UpDone).
Proof.
  destruct C82_example as (_ & (d' & R) & _).
  pose proof (C82_complete _ _ _ _ _ _ R) as [W _].
  destruct (W _ _ (or_introl eq_refl)) as (s & S & _).
  destruct (dataOps E1 [] fp_web []) as [ops e] eqn:O.
  pose proof (data_all E1 [] fp_web [] []) as A. rewrite R, O in A. cbn [fst snd] in A.
  destruct A as [-> _].
  assert (In (B "out/ABPFilterParserData.dat", Some (Ok s)) (data_files E1 [] fp_web [])) as I.
  { left. now rewrite S. }
  assert (s <> []) as N.
  { intros ->. destruct (whole_readable E1 [] fp_web [] (B "out/ABPFilterParserData.dat") []) as (c & C); auto.
    - split; [|split; [now apply nonulb_ok|constructor]].
      intros url b. unfold fp_web. destruct (beq url _); intros [= <-]; now apply nonulb_ok.
    - vm_compute in C. discriminate. }
  destruct (data_every E1 [] fp_web [] [] ops _ s [] s O I eq_refl) as (k & K).
  exists k, s. cbn zeta. cbn [fst].
  destruct (all_uploaded true (B "d") [B "ABPFilterParserData.dat"] (cutAfter k ops []) [true; true] []) as (b' & U).
  - intros f [<-|[]]. change (B "out/" ++ B "ABPFilterParserData.dat") with (B "out/ABPFilterParserData.dat").
    rewrite K. discriminate.
  - apply le_n.
  - repeat constructor.
  - exists b'. split; [exact I|]. split; [|exact U]. exists [], s. auto.
Qed.
