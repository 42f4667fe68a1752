(** The scripts reach their end on safe lists: C69, C78, C82, C91. *)
From Verif Require Import Base Flags Protocol Url Sets FilterM ParseM ClientM SerialM JsM DataM ListsM ToolM
  CatalogM PublishM CheckM Spec SpecM SpecC SpecJ SpecL SpecTool SpecP SpecQ SpecY SpecDef
  P_Base P_Parse P_List P_Props2 P_Ex P_Js P_Data P_Tool P_Pub P_Safe P_Check P_Def
  Props_List Props_Client Props_Js Props_Pub Props_Check SpecC SpecJ.

(** ** C78 *)

(** Preparing a list (lib/filtering.js) keeps it safe: neither the rules that are
    rewritten nor those that are added can leave their buffers. *)
Theorem C78_prepared_safe : forall E keep pred t,
  safe_text E keep t -> safe_text E keep (sanitizeWith pred t).
Proof. exact prepared_safe. Qed.
Print Assumptions C78_prepared_safe.

Example C78_prepared_example : forall keep,
  safe_text E0 keep raw_list /\ safe_text E0 keep (B "^ima3.js") /\
  ~ safe_text E0 keep (B "a^b").
Proof.
  intros keep. split; [|split].
  - apply safe_textb; [plain_bytes|]. destruct keep; vm_compute; reflexivity.
  - apply safe_textb; [plain_bytes|]. destruct keep; vm_compute; reflexivity.
  - intros [N S].
    assert (history [Parse keep (B "a^b")]) as H by (constructor; [exact N|constructor]).
    destruct (safe_history E0 [Parse keep (B "a^b")] H) as (c & A & Q).
    { apply (safe_texts_calls E0 keep [B "a^b"]). constructor; [split; auto|constructor]. }
    destruct (Q (B "http://x.com/a") 0%N None) as [(v & c' & M) _]; [plain_bytes|].
    assert (bind (after E0 [Parse keep (B "a^b")])
      (fun c => matches E0 c (cstr (B "http://x.com/a")) 0%N None) = UB) as U
      by (destruct keep; vm_compute; reflexivity).
    rewrite A in U. cbn [bind] in U. congruence.
Qed.

(** ** C69 *)

(** Making a data file fails exactly if the lists cannot be read or one of the
    questions asked meanwhile cannot be answered. *)
Theorem C69_fails_iff : forall E sites items,
  Forall nonul items -> Forall nonul sites ->
  (dataFile E sites items = UB <-> unreadable E items \/ unanswerable E items sites).
Proof. exact data_defined. Qed.
Print Assumptions C69_fails_iff.

Theorem C69_safe : forall E sites items,
  Forall (safe_text E false) items -> Forall nonul sites ->
  exists data, dataFile E sites items = Ok data.
Proof. exact data_safe. Qed.
Print Assumptions C69_safe.

Example C69_safe_example :
  Forall (safe_text E0 false) [raw_list; B "||d.com^"] /\
  unanswerable E0 [B "a^b"] [B "http://x.com/"; B "http://x.com/a"].
Proof.
  split.
  - constructor; [apply C78_prepared_example|]. constructor; [|constructor].
    apply safe_textb; [plain_bytes|vm_compute; reflexivity].
  - destruct (after E0 (map (Parse false) [B "a^b"])) as [c|] eqn:A; [|vm_compute in A; discriminate].
    exists c, (B "http://x.com/a"). split; auto. split; [right; left; reflexivity|].
    assert (bind (after E0 (map (Parse false) [B "a^b"])) (fun c => matches E0 c (cstr (B "http://x.com/a"))
      FONoFilterOption (Some (B "slashdot.org"))) = UB) as U by (vm_compute; reflexivity).
    rewrite A in U. exact U.
Qed.

(** ** C82 *)

(** Making all data files fails exactly if one of them cannot be made and all
    before it can. *)
Theorem C82_fails_iff : forall E sites fetch unbreak d,
  (forall url body, fetch url = Some body -> nonul body) -> nonul unbreak -> Forall nonul sites ->
  (generateDataFiles E sites fetch unbreak d = UB <->
   exists done p rest, data_files E sites fetch unbreak = done ++ (p, Some UB) :: rest /\
     Forall (fun e => exists data, snd e = Some (Ok data)) done).
Proof. exact generate_ub. Qed.
Print Assumptions C82_fails_iff.

(** If everything that is downloaded is safe, it does not fail; and if all lists
    can be downloaded, every data file is there. *)
Theorem C82_safe : forall E sites fetch unbreak d,
  (forall url body, fetch url = Some body -> safe_text E false body) -> safe_text E false unbreak ->
  Forall nonul sites ->
  exists ok d', generateDataFiles E sites fetch unbreak d = Ok (ok, d').
Proof. exact generate_defined. Qed.
Print Assumptions C82_safe.

Theorem C82_safe_complete : forall E sites fetch unbreak d,
  (forall url body, fetch url = Some body -> safe_text E false body) -> safe_text E false unbreak ->
  Forall nonul sites -> all_fetched fetch ->
  exists d', generateDataFiles E sites fetch unbreak d = Ok (true, d') /\
    all_written (data_files E sites fetch unbreak) d'.
Proof. exact generate_complete. Qed.
Print Assumptions C82_safe_complete.

(** Every address serves the list of C55. *)
Example C82_safe_example :
  exists d', generateDataFiles E0 [B "http://a.com/x"; B "http://b.org/ima3.js"] (fun _ => Some raw_list) raw_list []
    = Ok (true, d').
Proof.
  destruct (C82_safe_complete E0 [B "http://a.com/x"; B "http://b.org/ima3.js"] (fun _ => Some raw_list) raw_list [])
    as (d' & R & _).
  - intros url body Q. injection Q as <-. apply C78_prepared_example.
  - apply C78_prepared_example.
  - constructor; [plain_bytes|]. constructor; [plain_bytes|constructor].
  - intros uuid url _. eauto.
  - exists d'. exact R.
Qed.

(** ** C91 *)

(** With lists that are safe the command line tool reaches its end; with
    --discover the lists must not name mere hosts (C60). *)
Theorem C91_safe_partial : forall E W a downloaded bs,
  loads W a downloaded bs -> Forall (safe_text E (keepText a)) bs -> plain_request W a ->
  (a_discover a = true -> Forall (names_no_host (keepText a)) bs) ->
  exists o, checkRun E W a = Ok o.
Proof. exact run_defined. Qed.
Print Assumptions C91_safe_partial.

(** The default lists, all of them downloaded. *)
Definition default_world : world := mkWorld (fun _ => Some raw_list) (fun _ => None).
Definition default_args : args :=
  mkArgs None None None None None (Some (B "a.com")) (Some (B "http://b.com/ima3.js"))
    (Some (B "out.dat")) None false false false (Some (B "script")).

Example C91_safe_example :
  exists bs, loads default_world default_args true bs /\
    Forall (safe_text E0 (keepText default_args)) bs /\ plain_request default_world default_args.
Proof.
  exists (map (fun _ => raw_list) (map snd default_lists)). split; [|split].
  - apply loads_default; try reflexivity. generalize (map snd default_lists). intros urls.
    induction urls as [|u urls IH]; [constructor|]. constructor; auto.
  - apply Forall_forall. intros t I. apply in_map_iff in I as (u & <- & _). apply C78_prepared_example.
  - split; [intros l X; injection X as <-; plain_bytes|intros p t X; discriminate].
Qed.

(** They must not. *)
Definition discover_args (t : bytes) : args :=
  mkArgs None None (Some t) None None (Some (B "a.com")) (Some (B "http://b.com/x"))
    None None true false false None.

Theorem C91_safe_refuted : ~ (forall E W a downloaded bs,
  loads W a downloaded bs -> Forall (safe_text E (keepText a)) bs -> plain_request W a ->
  exists o, checkRun E W a = Ok o).
Proof.
  intros H. destruct (H E0 nowhere (discover_args (B "||b.com^")) false [B "||b.com^"]) as (o & R).
  - apply loads_filter; reflexivity.
  - constructor; [|constructor]. apply safe_textb; [plain_bytes|vm_compute; reflexivity].
  - split; [intros l X; injection X as <-; plain_bytes|intros p t X; discriminate].
  - assert (checkRun E0 nowhere (discover_args (B "||b.com^")) = UB) as U by (vm_compute; reflexivity).
    congruence.
Qed.
Print Assumptions C91_safe_refuted.

Example C91_discover_example :
  names_no_host true (B "||b.com/x" ++ LF :: B "/foobar") /\
  rmap (fun o => match o with OChecked (AFound f) _ _ => fd_filter f | _ => None end)
    (checkRun E0 nowhere (discover_args (B "||b.com/x" ++ LF :: B "/foobar"))) = Ok (Some (B "b.com/x")).
Proof.
  split; [|vm_compute; reflexivity]. intros l f I P. vm_compute in I.
  destruct I as [<-|[<-|[]]]; (apply parses_rule_at in P; [|line]); subst f; vm_compute; reflexivity.
Qed.
