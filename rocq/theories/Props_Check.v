(** The command line tool: C90, C91. *)
From Verif Require Import Base Flags Protocol Url Sets FilterM ParseM ClientM SerialM JsM DataM ListsM ToolM CheckM
  Spec SpecM SpecC SpecS SpecJ SpecX SpecT SpecTool SpecY
  P_Base P_Parse P_List P_Props2 P_Line5 P_Match2 P_Ser6 P_Ex P_Opt P_Data P_Tool P_Check
  Props_List Props_Client Props_Serial SpecC SpecTool.

(** ** C90 *)

(** The answer printed about one address is that of a client with the lists that
    the command line names. *)
Theorem C90_one_address : forall E W a downloaded bs b st file c host l v c1,
  loads W a downloaded bs -> Forall nonul bs -> plain_request W a ->
  checkRun E W a = Ok (OChecked (AMatches b) st file) ->
  a_host a = Some host -> a_location a = Some l ->
  after E (map (Parse (keepText a)) (with_added downloaded bs)) = Ok c ->
  matches E c (cstr l) (typeOf a) (Some host) = Ok (v, c1) -> b = v_block v.
Proof. exact prints_matches. Qed.
Print Assumptions C90_one_address.

Theorem C90_one_address_discover : forall E W a downloaded bs x st file c host l v,
  loads W a downloaded bs -> Forall nonul bs -> plain_request W a ->
  checkRun E W a = Ok (OChecked (AFound x) st file) ->
  a_host a = Some host -> a_location a = Some l ->
  after E (map (Parse (keepText a)) (with_added downloaded bs)) = Ok c ->
  findMatchingFilters E c (cstr l) (typeOf a) (Some host) = Ok v -> fd_matches x = v_block v.
Proof. exact prints_found. Qed.
Print Assumptions C90_one_address_discover.

(** The same for the numbers printed about a file of addresses. *)
Theorem C90_addresses : forall E W a downloaded bs m k st file c host p text,
  loads W a downloaded bs -> Forall nonul bs -> plain_request W a -> a_discover a = false ->
  checkRun E W a = Ok (OChecked (ACounts m k) st file) ->
  a_host a = Some host -> a_list a = Some p -> w_file W p = Some text ->
  after E (map (Parse (keepText a)) (with_added downloaded bs)) = Ok c ->
  (forall s, In s (readSiteList text) ->
     exists v c1, matches E c (cstr s) (typeOf a) (Some host) = Ok (v, c1)) ->
  divided (blocks E c (typeOf a) host) (readSiteList text) m k.
Proof. exact prints_counts. Qed.
Print Assumptions C90_addresses.

(** With --discover every line of the file counts as matching. *)
Theorem C90_addresses_discover : forall E W a m k st file p text, a_discover a = true ->
  checkRun E W a = Ok (OChecked (ACounts m k) st file) ->
  a_list a = Some p -> w_file W p = Some text ->
  m = length (readSiteList text) /\ k = 0.
Proof. exact prints_discovered. Qed.
Print Assumptions C90_addresses_discover.

(** The type asked for: none without -O, the exported constant of that name with
    it, and none for a name that is not exported. *)
Theorem C90_types : forall a,
  (a_type a = None -> typeOf a = 0%N) /\
  (forall name mask, a_type a = Some name -> In (name, mask) filterOptions -> typeOf a = mask) /\
  (forall name, a_type a = Some name -> (forall mask, ~ In (name, mask) filterOptions) -> typeOf a = 0%N).
Proof. exact type_asked. Qed.
Print Assumptions C90_types.

Definition hello : bytes := B "||b.com^" ++ LF :: B "/foobar$domain=a.com" ++ [LF].
Definition asked_of (t : bytes) : args :=
  mkArgs None None (Some t) (Some (B "never.txt")) None (Some (B "a.com")) (Some (B "http://b.com/x"))
    (Some (B "out.dat")) None false false false (Some (B "script")).
Definition nowhere : world := mkWorld (fun _ => None) (fun _ => None).

Example C90_example :
  loads nowhere (asked_of hello) false [hello] /\ Forall nonul [hello] /\
  plain_request nowhere (asked_of hello) /\
  (exists st file, checkRun E0 nowhere (asked_of hello) = Ok (OChecked (AMatches true) st (Some (B "out.dat", file)))) /\
  exists c v c1, after E0 (map (Parse false) (with_added false [hello])) = Ok c /\
    matches E0 c (cstr (B "http://b.com/x")) (typeOf (asked_of hello)) (Some (B "a.com")) = Ok (v, c1) /\
    v_block v = true.
Proof.
  split; [apply loads_filter; reflexivity|]. split; [constructor; [plain_bytes|constructor]|].
  split; [split; [intros l X; injection X as <-; plain_bytes|intros p t X; discriminate]|]. split.
  - assert (rmap (fun o => match o with OChecked (AMatches b) _ (Some (f, _)) => Some (b, f) | _ => None end)
      (checkRun E0 nowhere (asked_of hello)) = Ok (Some (true, B "out.dat"))) as R by (vm_compute; reflexivity).
    apply rmap_ok in R as (o & R & Q).
    destruct o as [| | |[b| |] st [[f s]|]]; try discriminate Q. injection Q as <- <-.
    exists st, s. exact R.
  - assert ((c <- after E0 (map (Parse false) (with_added false [hello])) ;;
             rmap (fun r => v_block (fst r)) (matches E0 c (cstr (B "http://b.com/x"))
               (typeOf (asked_of hello)) (Some (B "a.com")))) = Ok true) as M1 by (vm_compute; reflexivity).
    apply bind_ok in M1 as (c & A & M1). apply rmap_ok in M1 as ([v1 c1] & M1 & V1).
    exists c, v1, c1. split; [exact A|]. split; [exact M1|now symmetry].
Qed.

(** A file of addresses: one of the three lines matches; with --discover all do. *)
Definition three : bytes := B "http://b.com/x" ++ LF :: B "http://c.org/" ++ LF :: B "http://x.b.com/".
Definition asked_list (t : bytes) (discover : bool) : args :=
  mkArgs None None (Some t) None None (Some (B "a.com")) None None (Some (B "sites.txt")) discover false false None.
Definition some_files : world :=
  mkWorld (fun _ => None) (fun p => if beq p (B "sites.txt") then Some three else None).

Example C90_addresses_example :
  map (fun d => rmap (fun o => match o with OChecked (ACounts m k) _ None => Some (m, k) | _ => None end)
    (checkRun E0 some_files (asked_list (B "b.com/x") d))) [false; true] = [Ok (Some (1, 2)); Ok (Some (3, 0))].
Proof. vm_compute. reflexivity. Qed.

(** The check gives the same answer when it is repeated with the data file that
    it wrote. *)
Theorem C90_saved_partial : forall E W W' a downloaded bs ans st f data,
  loads W a downloaded bs -> Forall nonul bs -> plain_request W a -> a_discover a = false ->
  all_storable (map (Parse false) bs) ->
  checkRun E W a = Ok (OChecked ans st (Some (f, data))) ->
  w_file W' f = Some data -> (forall p, a_list a = Some p -> w_file W' p = w_file W p) ->
  exists st', checkRun E W' (from_dat f a) = Ok (OChecked ans st' None).
Proof. exact saved_check. Qed.
Print Assumptions C90_saved_partial.

(** For all rules, it gives the answer for the rules as they are read back. *)
Theorem C90_saved_any_rules : forall E W W' a downloaded bs ans st f data,
  loads W a downloaded bs -> Forall nonul bs -> plain_request W a -> a_discover a = false ->
  checkRun E W a = Ok (OChecked ans st (Some (f, data))) ->
  w_file W' f = Some data -> (forall p, a_list a = Some p -> w_file W' p = w_file W p) ->
  exists host c, given (a_host a) = Some host /\ source E W a = Some (Ok c) /\
    forall ans' c1, answerFor E W a host (restarted c client0) = Ok (Some (ans', c1)) ->
      exists st', checkRun E W' (from_dat f a) = Ok (OChecked ans' st' None).
Proof. exact saved_any. Qed.
Print Assumptions C90_saved_any_rules.

(** Without the restriction the answer can change: the rule "/foobar$domain=". *)
Definition odd_check : args :=
  mkArgs None None (Some (B "/foobar$domain=")) None None (Some (B "b.com")) (Some (B "http://a.com/foobar"))
    (Some (B "out.dat")) None false false false None.

Theorem C90_refuted : ~ (forall E W W' a downloaded bs ans st f data,
  loads W a downloaded bs -> Forall nonul bs -> plain_request W a -> a_discover a = false ->
  checkRun E W a = Ok (OChecked ans st (Some (f, data))) ->
  w_file W' f = Some data -> (forall p, a_list a = Some p -> w_file W' p = w_file W p) ->
  exists st', checkRun E W' (from_dat f a) = Ok (OChecked ans st' None)).
Proof.
  intros H.
  assert (rmap (fun o => match o with OChecked (AMatches b) _ (Some (f, s)) => Some (b, f,
     rmap (fun o => match o with OChecked (AMatches b) _ None => Some b | _ => None end)
       (checkRun E0 (mkWorld (fun _ => None) (fun _ => Some s)) (from_dat f odd_check))) | _ => None end)
      (checkRun E0 nowhere odd_check) = Ok (Some (false, B "out.dat", Ok (Some true)))) as R
    by (vm_compute; reflexivity).
  apply rmap_ok in R as (o & R & Q).
  destruct o as [| | |[b| |] st [[f s]|]]; try discriminate Q.
  apply (f_equal (fun o => match o with Some x => x | None => (true, f, UB) end)) in Q.
  assert (false = b) as B1 by exact (f_equal (fun x => fst (fst x)) Q).
  assert (B "out.dat" = f) as B2 by exact (f_equal (fun x => snd (fst x)) Q).
  apply (f_equal snd) in Q. cbn [snd] in Q. subst b f.
  destruct (H E0 nowhere (mkWorld (fun _ => None) (fun _ => Some s)) odd_check false [B "/foobar$domain="]
              (AMatches false) st (B "out.dat") s) as (st' & R').
  - apply loads_filter; reflexivity.
  - constructor; [plain_bytes|constructor].
  - split; [intros l X; injection X as <-; plain_bytes|intros p t X; discriminate].
  - reflexivity.
  - exact R.
  - reflexivity.
  - intros p X. discriminate.
  - rewrite R' in Q. discriminate Q.
Qed.
Print Assumptions C90_refuted.

Example C90_saved_example : all_storable (map (Parse false) [hello]).
Proof.
  intros p l f I P. vm_compute in I.
  repeat (destruct I as [I|I]; [injection I as <- <-;
    apply parses_rule_at in P; [|line]; subst f; apply storableb_ok; vm_compute; reflexivity|]).
  destruct I.
Qed.

(** ** C91 *)

(** How a run ends: exactly when it prints how it is used, exactly when it
    reports an error, and that otherwise, unless the parsing statistics are asked
    for, it writes the file that it is told to write. *)
Theorem C91_outcome : forall E W a o, checkRun E W a = Ok o ->
  (o = OUsage <-> ~ asks_for a) /\
  (o = OError <-> asks_for a /\ (nothing_to_load W a \/ no_sites W a)) /\
  (forall n, o = OStats n -> a_stats a = true) /\
  (forall ans st file, o = OChecked ans st file ->
     a_stats a = false /\
     (given (a_output a) = None -> file = None) /\
     (forall f, given (a_output a) = Some f -> exists data, file = Some (f, data))).
Proof. exact run_outcome. Qed.
Print Assumptions C91_outcome.

Theorem C91_file_written_partial : forall E W a o f, checkRun E W a = Ok o ->
  given (a_output a) = Some f -> a_stats a = false ->
  o <> OUsage -> o <> OError -> exists ans st data, o = OChecked ans st (Some (f, data)).
Proof.
  intros E W a o f R G S N1 N2. destruct (run_outcome E W a o R) as (_ & _ & K & Q).
  destruct o as [| |n|ans st file]; [easy|easy| |].
  - specialize (K n eq_refl). congruence.
  - destruct (Q ans st file eq_refl) as (_ & _ & Q'). destruct (Q' f G) as (data & ->). eauto.
Qed.
Print Assumptions C91_file_written_partial.

(** --stats makes the tool ignore --output. *)
Theorem C91_refuted : ~ (forall E W a o f, checkRun E W a = Ok o ->
  given (a_output a) = Some f ->
  o <> OUsage -> o <> OError -> exists ans st data, o = OChecked ans st (Some (f, data))).
Proof.
  intros H.
  assert (exists n, checkRun E0 nowhere (mkArgs None None (Some (B "||b.com^")) None None None None
    (Some (B "out.dat")) None false true false None) = Ok (OStats n)) as (n & R).
  { assert (rmap (fun o => match o with OStats _ => true | _ => false end)
      (checkRun E0 nowhere (mkArgs None None (Some (B "||b.com^")) None None None None
        (Some (B "out.dat")) None false true false None)) = Ok true) as R by (vm_compute; reflexivity).
    apply rmap_ok in R as (o & R & Q). destruct o as [| |n|]; try discriminate Q. exists n. exact R. }
  destruct (H E0 nowhere _ (OStats n) (B "out.dat") R eq_refl) as (x & y & z & Q); discriminate.
Qed.
Print Assumptions C91_refuted.

(** The three ways of failing. *)
Example C91_example :
  ~ asks_for (mkArgs None None (Some hello) None None (Some (B "a.com")) None None None false false false None) /\
  asks_for (asked_list hello false) /\ no_sites nowhere (asked_list hello false) /\
  checkRun E0 nowhere (asked_list hello false) = Ok OError /\
  nothing_to_load nowhere (mkArgs None (Some (B "no.dat")) None None None (Some (B "a.com"))
    (Some (B "http://b.com/")) None None false false false None).
Proof.
  split; [|split; [|split; [|split]]].
  - intros [X|(_ & [(l & X)|(p & X)])]; discriminate X.
  - right. split; [eexists; reflexivity|]. right. eexists; reflexivity.
  - split; [reflexivity|]. split; [reflexivity|]. exists (B "sites.txt"). split; reflexivity.
  - vm_compute. reflexivity.
  - split; [|intros _ f X; reflexivity]. intros d bs L. inversion L; discriminate.
Qed.
