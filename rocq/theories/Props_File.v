(** The format of data files: C101.

    [data_file p c] (SpecFile.v) says, without the code, which bytes are a data
    file and what it holds.  [p] may go on behind the data. *)
From Verif Require Import Base Flags Sets FilterM ParseM ClientM SerialM Spec SpecM SpecC SpecS SpecW
  P_Base P_List P_File3 SpecFile.

(** deserialize() returns true for files of this format only; the client then
    holds what the file says, and its tags stay. *)
Theorem C101_accepted : forall p d c, deserialize p d = Ok (c, true) -> data_file p c /\ c_tags c = c_tags d.
Proof. exact accepted. Qed.
Print Assumptions C101_accepted.

(** It returns true for every file of this format, whatever the client held. *)
Theorem C101_format : forall p c0 d, data_file p c0 ->
  exists c, deserialize p d = Ok (c, true) /\ same_contents c0 c.
Proof. exact of_format. Qed.
Print Assumptions C101_format.

Theorem C101_iff : forall p d, (exists c, deserialize p d = Ok (c, true)) <-> (exists c, data_file p c).
Proof. exact accepted_iff. Qed.
Print Assumptions C101_iff.

(** What serialize() writes has this format. *)
Theorem C101_saved : forall E calls c, history calls -> after E calls = Ok c ->
  forall noCosmetic noHtml buf r, serialize c noCosmetic noHtml = Ok buf ->
  exists c', data_file (buf ++ r) c' /\ c_numHA c' = c_numHA c /\ c_numHAE c' = c_numHAE c /\
    forall k, Forall2 same_fields (map as_read (tget (written (c_lists c) noCosmetic noHtml) k))
                                  (tget (c_lists c') k).
Proof. exact saved_format. Qed.
Print Assumptions C101_saved.

(** A file not written by serialize(): a blank, a sign, "0x", missing numbers; one
    blocking rule with a tag and a page domain. *)
Example C101_example :
  let p := cstr (B " +0x1") ++ cstr (B "0,A") ++ cstr (B "ads") ++ cstr (B "~#t,x.com") ++ cstr [] in
  exists c f, data_file p c /\ tget (c_lists c) KFilters = [f] /\ f_opt f = 10%N /\
    pattern f = Some (B "ads") /\ f_tag f = B "t" /\ f_dom f = Some (B "x.com") /\ f_host f = None.
Proof.
  cbv zeta.
  destruct (deserialize (cstr (B " +0x1") ++ cstr (B "0,A") ++ cstr (B "ads") ++ cstr (B "~#t,x.com") ++ cstr [])
    client0) as [[c ok]|] eqn:D; [|vm_compute in D; discriminate D].
  assert (ok = true) as -> by (vm_compute in D; injection D as _ D; auto).
  destruct (tget (c_lists c) KFilters) as [|f [|g fs]] eqn:T; [vm_compute in D; injection D as <-; discriminate T| |
    vm_compute in D; injection D as <-; discriminate T].
  exists c, f. split; [exact (proj1 (C101_accepted _ _ _ D))|]. split; auto.
  vm_compute in D. injection D as <-. vm_compute in T. injection T as <-. repeat split.
Qed.

(** One that is refused: the last set has one byte, no room for its items. *)
Example C101_refused_example :
  let p := cstr (B "0,0,0,0,0,0,0,0,0,0,0,0,0,0,0,0,0,0,0,1") ++ cstr [] in
  (exists c, deserialize p client0 = Ok (c, false)) /\ ~ exists c, data_file p c.
Proof.
  cbv zeta. split; [eexists; vm_compute; reflexivity|]. intros H.
  apply (C101_iff _ client0) in H as (c & H). vm_compute in H. discriminate H.
Qed.
