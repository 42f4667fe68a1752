(** Proofs about uploads: C112. *)
From Coq Require Import Lia.
From Verif Require Import Base Flags Sets FilterM ParseM ClientM SerialM JsM DataM ListsM ToolM
  CatalogM PublishM DiskM UploadM Spec SpecM SpecC SpecP SpecDisk SpecUp P_Base P_Pub P_Disk.

Lemma upload_partly disk us : forall net b b' w,
  NoDup (map fst us) -> uploadRun disk us net b = (b', w) -> partly_uploaded disk us b b' w.
Proof.
  induction us as [|[key path] us IH]; intros net b b' w N R; cbn [uploadRun] in R.
  - injection R as <- <-. exists [], []. split; auto. split; [tauto|]. split; [intros ? ? []|auto].
  - cbn [map fst] in N. inversion N as [|? ? N1 N2]; subst.
    destruct net as [|ok net].
    { injection R as <- <-. exists [], ((key, path) :: us). split; auto. split; [split; discriminate|].
      split; [intros ? ? []|auto]. }
    destruct (if ok then look disk path else None) as [data|] eqn:L.
    2:{ injection R as <- <-. exists [], ((key, path) :: us). split; auto. split; [split; discriminate|].
        split; [intros ? ? []|auto]. }
    assert (look disk path = Some data) as D by (destruct ok; [exact L|discriminate]).
    apply IH in R as (made & rest & -> & W & M & O); auto.
    exists ((key, path) :: made), rest. split; auto. split; auto. split.
    + intros k p [Q|I]; [|now apply M]. injection Q as <- <-. rewrite D. split; [discriminate|].
      rewrite O; [now rewrite look_put, beq_same|]. intros I. apply N1. rewrite map_app. apply in_or_app. auto.
    + intros k I. cbn [map fst] in I. rewrite O; [|intros J; apply I; now right].
      rewrite look_put, beq_neq; auto. intros Q. apply I. left. exact Q.
Qed.

Lemma uploads_partly prod date listing disk net b b' w :
  NoDup listing -> uploadRun disk (uploads prod date None listing) net b = (b', w) ->
  partly_uploaded disk (uploads prod date None listing) b b' w.
Proof. intros N. apply upload_partly. now apply upload_keys. Qed.

(** One file on the command line. *)
Lemma single_partly prod date path listing disk net b b' w :
  uploadRun disk (uploads prod date (Some path) listing) net b = (b', w) ->
  partly_uploaded disk (uploads prod date (Some path) listing) b b' w.
Proof.
  apply upload_partly. cbn [uploads]. destruct prod; cbn [map fst uploadFile]; repeat constructor; auto.
  intros [Q|[]]. discriminate.
Qed.

Definition pair_of (date f : bytes) : list (bytes * bytes) :=
  [(live_key f, B "out/" ++ f); (backup_key date f, B "out/" ++ f)].

Lemma uploads_pairs date listing : uploads true date None listing = flat_map (pair_of date) listing.
Proof.
  cbn [uploads]. apply flat_map_ext. intros f. unfold pair_of, uploadFile, live_key, backup_key.
  do 3 f_equal.
Qed.

Lemma keys_apart date f g : live_key f <> backup_key date g.
Proof. discriminate. Qed.

Lemma live_inj f g : live_key f = live_key g -> f = g.
Proof. unfold live_key. intros H. now apply app_inv_head in H. Qed.

Lemma backup_inj date f g : backup_key date f = backup_key date g -> f = g.
Proof. unfold backup_key. intros H. do 3 apply app_inv_head in H. exact H. Qed.

Lemma no_key date listing f : ~ In f listing ->
  ~ In (live_key f) (map fst (flat_map (pair_of date) listing)) /\
  ~ In (backup_key date f) (map fst (flat_map (pair_of date) listing)).
Proof.
  intros N. split; intros I; apply in_map_iff in I as ([k p] & Q & I); cbn [fst] in Q; subst k;
    apply in_flat_map in I as (g & J & [I|[I|[]]]).
  - assert (live_key g = live_key f) as X by congruence. apply live_inj in X. now subst.
  - assert (backup_key date g = live_key f) as X by congruence. discriminate.
  - assert (live_key g = backup_key date f) as X by congruence. discriminate.
  - assert (backup_key date g = backup_key date f) as X by congruence. apply backup_inj in X. now subst.
Qed.

(** The files one after the other, each with its backup. *)
Lemma pairs_run date disk listing : forall net b b' w,
  NoDup listing -> uploadRun disk (flat_map (pair_of date) listing) net b = (b', w) ->
  exists made rest, listing = made ++ rest /\ (w = UpDone <-> rest = []) /\
    (forall f, In f made -> look disk (B "out/" ++ f) <> None /\
       look b' (live_key f) = look disk (B "out/" ++ f) /\ backed_up date b' f) /\
    ((forall key, (forall f, In f made -> key <> live_key f /\ key <> backup_key date f) -> look b' key = look b key) \/
     exists f0 more, rest = f0 :: more /\ look disk (B "out/" ++ f0) <> None /\
       look b' (live_key f0) = look disk (B "out/" ++ f0) /\
       (forall key, (forall f, In f made -> key <> live_key f /\ key <> backup_key date f) -> key <> live_key f0 ->
          look b' key = look b key)).
Proof.
  induction listing as [|f listing IH]; intros net b b' w N R.
  - injection R as <- <-. exists [], []. split; auto. split; [tauto|]. split; [intros ? []|auto].
  - inversion N as [|? ? N1 N2]; subst. cbn [flat_map pair_of app] in R. cbn [uploadRun] in R.
    assert (forall x, (b', w) = (b, x) -> x <> UpDone ->
      exists made rest, f :: listing = made ++ rest /\ (w = UpDone <-> rest = []) /\
      (forall f, In f made -> look disk (B "out/" ++ f) <> None /\
         look b' (live_key f) = look disk (B "out/" ++ f) /\ backed_up date b' f) /\
      ((forall key, (forall f, In f made -> key <> live_key f /\ key <> backup_key date f) -> look b' key = look b key) \/
       exists f0 more, rest = f0 :: more /\ look disk (B "out/" ++ f0) <> None /\
         look b' (live_key f0) = look disk (B "out/" ++ f0) /\
         (forall key, (forall f, In f made -> key <> live_key f /\ key <> backup_key date f) -> key <> live_key f0 ->
            look b' key = look b key))) as K0.
    { intros x X Nx. injection X as -> ->. exists [], (f :: listing). split; auto.
      split; [split; [congruence|discriminate]|]. split; [intros ? []|auto]. }
    destruct net as [|ok net]; [apply (K0 UpWaiting); [now symmetry|discriminate]|].
    destruct (if ok then look disk (B "out/" ++ f) else None) as [data|] eqn:L;
      [|apply (K0 UpFailed); [now symmetry|discriminate]].
    clear K0. assert (look disk (B "out/" ++ f) = Some data) as D by (destruct ok; [exact L|discriminate]).
    set (b1 := put (live_key f) data b) in *.
    assert (forall x, (b', w) = (b1, x) -> x <> UpDone ->
      exists made rest, f :: listing = made ++ rest /\ (w = UpDone <-> rest = []) /\
      (forall f, In f made -> look disk (B "out/" ++ f) <> None /\
         look b' (live_key f) = look disk (B "out/" ++ f) /\ backed_up date b' f) /\
      ((forall key, (forall f, In f made -> key <> live_key f /\ key <> backup_key date f) -> look b' key = look b key) \/
       exists f0 more, rest = f0 :: more /\ look disk (B "out/" ++ f0) <> None /\
         look b' (live_key f0) = look disk (B "out/" ++ f0) /\
         (forall key, (forall f, In f made -> key <> live_key f /\ key <> backup_key date f) -> key <> live_key f0 ->
            look b' key = look b key))) as K1.
    { intros x X Nx. injection X as -> ->. exists [], (f :: listing). split; auto.
      split; [split; [congruence|discriminate]|]. split; [intros ? []|]. right. exists f, listing.
      split; auto. split; [now rewrite D|]. unfold b1. split.
      - now rewrite look_put, beq_same.
      - intros key _ Nk. rewrite look_put, beq_neq; auto. }
    destruct net as [|ok1 net]; [apply (K1 UpWaiting); [now symmetry|discriminate]|].
    rewrite D in R. destruct ok1; [|apply (K1 UpFailed); [now symmetry|discriminate]].
    clear K1. set (b2 := put (backup_key date f) data b1) in *.
    apply IH in R as (made & rest & -> & W & M & O); auto.
    assert (~ In f made) as Nf by (intros I; apply N1, in_or_app; auto).
    assert (look b2 (live_key f) = Some data /\ look b2 (backup_key date f) = Some data) as [B1 B2].
    { unfold b2, b1. rewrite !look_put, !beq_same. split; auto. }
    assert (forall key, (forall g, In g (f :: made) -> key <> live_key g /\ key <> backup_key date g) ->
              look b2 key = look b key) as O2.
    { intros key Nk. destruct (Nk f (or_introl eq_refl)) as [X Y]. unfold b2, b1.
      rewrite !look_put, !beq_neq; auto. }
    assert (forall g, In g made -> live_key f <> live_key g /\ live_key f <> backup_key date g) as A1.
    { intros g I. split; [|apply keys_apart]. intros X. apply live_inj in X. now subst. }
    assert (forall g, In g made -> backup_key date f <> live_key g /\ backup_key date f <> backup_key date g) as A2.
    { intros g I. split; [discriminate|]. intros X. apply backup_inj in X. now subst. }
    exists (f :: made), rest. split; auto. split; auto. split.
    + intros g [<-|I]; [|now apply M]. rewrite D. split; [discriminate|]. unfold backed_up.
      destruct O as [O|(f0 & more & -> & _ & _ & O)].
      * rewrite !O; auto. rewrite B1, B2. auto.
      * assert (live_key f <> live_key f0) as X.
        { intros X. apply live_inj in X. subst. apply N1, in_or_app. right. left. reflexivity. }
        rewrite !O; auto; [rewrite B1, B2; auto|discriminate].
    + destruct O as [O|(f0 & more & -> & D0 & L0 & O)]; [left|right; exists f0, more; split; auto; split; auto; split; auto].
      * intros key Nk. rewrite O; auto. intros g I. apply Nk. now right.
      * intros key Nk Nk0. rewrite O; auto. intros g I. apply Nk. now right.
Qed.

Lemma backups date disk listing net b b' w :
  NoDup listing -> uploadRun disk (uploads true date None listing) net b = (b', w) ->
  exists made rest, listing = made ++ rest /\ (w = UpDone <-> rest = []) /\
    (forall f, In f made -> look b' (live_key f) = look disk (B "out/" ++ f) /\ backed_up date b' f) /\
    (forall f, ~ In f made -> hd_error rest <> Some f ->
       look b' (live_key f) = look b (live_key f) /\ look b' (backup_key date f) = look b (backup_key date f)).
Proof.
  intros N R. rewrite uploads_pairs in R. apply pairs_run in R as (made & rest & Q & W & M & O); auto.
  exists made, rest. split; auto. split; auto. split.
  - intros f I. apply M in I as (_ & X & Y). auto.
  - intros f I H.
    assert (forall g, In g made -> live_key f <> live_key g /\ live_key f <> backup_key date g) as A1.
    { intros g J. split; [|apply keys_apart]. intros X. apply live_inj in X. now subst. }
    assert (forall g, In g made -> backup_key date f <> live_key g /\ backup_key date f <> backup_key date g) as A2.
    { intros g J. split; [discriminate|]. intros X. apply backup_inj in X. now subst. }
    destruct O as [O|(f0 & more & -> & _ & _ & O)]; split; apply O; auto; [|discriminate].
    intros X. apply live_inj in X. subst. now apply H.
Qed.

(** Everything answered well: all is there. *)
Lemma all_uploaded prod date listing disk net b :
  (forall f, In f listing -> look disk (B "out/" ++ f) <> None) ->
  length (uploads prod date None listing) <= length net -> Forall (fun ok => ok = true) net ->
  exists b', uploadRun disk (uploads prod date None listing) net b = (b', UpDone).
Proof.
  intros P. assert (forall key path, In (key, path) (uploads prod date None listing) -> look disk path <> None) as K.
  { intros key path I. cbn [uploads] in I. apply in_flat_map in I as (f & J & I).
    destruct prod; cbn [uploadFile] in I; [destruct I as [I|[I|[]]]|destruct I as [I|[]]];
      apply (f_equal snd) in I; change (B "out/" ++ f = path) in I; rewrite <- I; auto. }
  revert K. generalize (uploads prod date None listing). intros us. revert net b.
  induction us as [|[key path] us IH]; intros net b K L A; cbn [uploadRun]; eauto.
  destruct net as [|ok net]; cbn [length] in L; [lia|]. inversion A as [|? ? A1 A2]; subst.
  specialize (K key path) as K1. destruct (look disk path) as [data|]; [|exfalso; apply K1; [left; reflexivity|reflexivity]].
  apply IH; auto; [|lia]. intros k p I. apply (K k p). now right.
Qed.

(** A torn file is published like any other. *)
Lemma torn_published E sites fetch unbreak disk date listing net b b' name data :
  clean_texts fetch unbreak sites ->
  In (B "out/" ++ name, Some (Ok data)) (data_files E sites fetch unbreak) ->
  torn disk (B "out/" ++ name) data -> NoDup listing -> In name listing ->
  uploadRun disk (uploads true date None listing) net b = (b', UpDone) ->
  exists q, look b' (live_key name) = Some q /\ clientFromDAT q = UB.
Proof.
  intros C I T N L R. destruct (torn_unreadable E sites fetch unbreak _ _ disk C I T) as (q & Q & U).
  exists q. split; auto. apply backups in R as (made & rest & X & W & M & _); auto.
  assert (rest = []) as -> by now apply W. rewrite app_nil_r in X. subst made.
  destruct (M name L) as [-> _]. exact Q.
Qed.

(** The first request that fails ends the run and changes nothing. *)
Lemma upload_stops disk us : forall n more b,
  (forall key path, In (key, path) us -> look disk path <> None) -> n < length us ->
  exists b', uploadRun disk us (repeat true n) b = (b', UpWaiting) /\
             uploadRun disk us (repeat true n ++ false :: more) b = (b', UpFailed).
Proof.
  induction us as [|[key path] us IH]; intros n more b P L; cbn [length] in L; [lia|].
  destruct n as [|n]; cbn [repeat app uploadRun]; [eauto|].
  specialize (P key path) as P1. destruct (look disk path) as [data|]; [|exfalso; apply P1; [left; reflexivity|reflexivity]].
  apply IH; [|lia]. intros k p I. apply (P k p). now right.
Qed.

Lemma uploads_stop prod date listing disk n more b :
  (forall f, In f listing -> look disk (B "out/" ++ f) <> None) ->
  n < length (uploads prod date None listing) ->
  exists b', uploadRun disk (uploads prod date None listing) (repeat true n) b = (b', UpWaiting) /\
             uploadRun disk (uploads prod date None listing) (repeat true n ++ false :: more) b = (b', UpFailed).
Proof.
  intros P. apply upload_stops. intros key path I. cbn [uploads] in I. apply in_flat_map in I as (f & J & I).
  destruct prod; cbn [uploadFile] in I; [destruct I as [I|[I|[]]]|destruct I as [I|[]]];
    apply (f_equal snd) in I; change (B "out/" ++ f = path) in I; rewrite <- I; auto.
Qed.
