(** The sample program and the published files: C80-C84. *)
From Verif Require Import Base Flags Protocol Url Sets FilterM ParseM ClientM SerialM JsM DataM ListsM ToolM
  CatalogM PublishM Spec SpecM SpecC SpecS SpecJ SpecX SpecT SpecTool SpecP
  P_Base P_Parse P_List P_Props2 P_Line5 P_Match2 P_Ser6 P_Cut P_Ex P_Opt P_Data P_Tool P_Pub
  Props_List Props_Client Props_Serial Props_Life Props_Tool SpecC SpecTool.

(** ** C80 *)

(** The sample program prints its advice on every URL twice with the same
    content, and the advice is the client's answer. *)
Theorem C80_same_twice_partial : forall E texts urls c bs,
  Forall nonul texts -> Forall nonul urls -> all_storable (map (Parse false) texts) ->
  after E (map (Parse false) texts) = Ok c -> sample_answers E c urls bs ->
  exists file, sampleRun E texts urls = Ok (sample_lines urls bs ++ sample_lines urls bs, file) /\
    exists c', deserialize file client0 = Ok (c', true) /\ sample_answers E c' urls bs.
Proof. exact sample_prints_twice. Qed.
Print Assumptions C80_same_twice_partial.

(** Without the restriction to storable rules: the first half of the output is
    the client's answers, a second half of as many lines follows; the data is
    never refused. *)
Theorem C80_two_halves : forall E texts urls o file,
  Forall nonul texts -> Forall nonul urls -> sampleRun E texts urls = Ok (o, file) ->
  exists c bs bs', after E (map (Parse false) texts) = Ok c /\ sample_answers E c urls bs /\
    o = sample_lines urls bs ++ sample_lines urls bs' /\ length bs' = length urls.
Proof. exact sample_first_half. Qed.
Print Assumptions C80_two_halves.

(** For all rules: the second half is the answers of the client with its rules
    as they are read back. *)
Theorem C80_any_rules : forall E texts urls c bs bs',
  Forall nonul texts -> Forall nonul urls -> after E (map (Parse false) texts) = Ok c ->
  sample_answers E c urls bs -> sample_answers E (restarted c client0) urls bs' ->
  exists file, sampleRun E texts urls = Ok (sample_lines urls bs ++ sample_lines urls bs', file).
Proof. exact sample_any. Qed.
Print Assumptions C80_any_rules.

(** The full property fails with the rule "/foobar$domain=". *)
Theorem C80_refuted : ~ (forall E texts urls o file,
  Forall nonul texts -> Forall nonul urls -> sampleRun E texts urls = Ok (o, file) ->
  exists half, o = half ++ half).
Proof.
  intros H.
  assert (rmap fst (sampleRun E0 [B "/foobar$domain="] [B "http://a.com/foobar"]) =
          Ok (B "http://a.com/foobar: You should NOT block this URL!" ++ [LF] ++
              B "http://a.com/foobar: You should block this URL!" ++ [LF]))
    as R by (vm_compute; reflexivity).
  apply rmap_ok in R as ([o file] & R & L). cbn [fst] in L.
  destruct (H E0 [B "/foobar$domain="] [B "http://a.com/foobar"] o file) as (half & Q).
  - constructor; [plain_bytes|constructor].
  - constructor; [plain_bytes|constructor].
  - exact R.
  - rewrite Q in L. apply half_twice in L. vm_compute in L. discriminate.
Qed.
Print Assumptions C80_refuted.

Example C80_example :
  all_storable (map (Parse false) [ser_text; B "||b.com^"]) /\
  (exists c, after E0 (map (Parse false) [ser_text; B "||b.com^"]) = Ok c /\
     sample_answers E0 c [B "http://b.com/x"; B "http://c.org/"] [true; false]) /\
  rmap fst (sampleRun E0 [ser_text; B "||b.com^"] [B "http://b.com/x"; B "http://c.org/"]) =
  Ok (B "http://b.com/x: You should block this URL!" ++ [LF] ++
      B "http://c.org/: You should NOT block this URL!" ++ [LF] ++
      B "http://b.com/x: You should block this URL!" ++ [LF] ++
      B "http://c.org/: You should NOT block this URL!" ++ [LF]).
Proof.
  split; [|split; [|vm_compute; reflexivity]].
  - intros p l f I P. vm_compute in I.
    repeat (destruct I as [I|I]; [injection I as <- <-;
      apply parses_rule_at in P; [|line]; subst f; apply storableb_ok; vm_compute; reflexivity|]).
    destruct I.
  - assert ((c <- after E0 (map (Parse false) [ser_text; B "||b.com^"]) ;;
             rmap (fun r => v_block (fst r)) (matches E0 c (cstr (B "http://b.com/x")) 0 (Some (B "slashdot.org")))) = Ok true)
      as M1 by (vm_compute; reflexivity).
    assert ((c <- after E0 (map (Parse false) [ser_text; B "||b.com^"]) ;;
             rmap (fun r => v_block (fst r)) (matches E0 c (cstr (B "http://c.org/")) 0 (Some (B "slashdot.org")))) = Ok false)
      as M2 by (vm_compute; reflexivity).
    apply bind_ok in M1 as (c & A & M1). rewrite A in M2. cbn [bind] in M2.
    apply rmap_ok in M1 as ([v1 c1] & M1 & V1). apply rmap_ok in M2 as ([v2 c2] & M2 & V2).
    exists c. split; [exact A|].
    constructor; [exists v1, c1; split; [exact M1|symmetry; exact V1]|].
    constructor; [exists v2, c2; split; [exact M2|symmetry; exact V2]|constructor].
Qed.

Example C80_any_example :
  exists c, after E0 (map (Parse false) [B "/foobar$domain="]) = Ok c /\
    sample_answers E0 c [B "http://a.com/foobar"] [false] /\
    sample_answers E0 (restarted c client0) [B "http://a.com/foobar"] [true].
Proof.
  assert ((c <- after E0 (map (Parse false) [B "/foobar$domain="]) ;;
           r <- matches E0 c (cstr (B "http://a.com/foobar")) 0 (Some (B "slashdot.org")) ;;
           r' <- matches E0 (restarted c client0) (cstr (B "http://a.com/foobar")) 0 (Some (B "slashdot.org")) ;;
           Ok (v_block (fst r), v_block (fst r'))) = Ok (false, true)) as H by (vm_compute; reflexivity).
  apply bind_ok in H as (c & A & H). apply bind_ok in H as ([v c1] & M & H).
  apply bind_ok in H as ([v' c1'] & M' & H). injection H as V V'.
  exists c. split; [exact A|]. split; (constructor; [|constructor]); eauto.
Qed.

(** ** C81 *)

(** A manifest with any name and key that need no escaping is an object with
    these five members. *)
Theorem C81_manifest_text : forall name key, plain_chars name -> plain_chars key ->
  json_object (manifestText name key) = Some (manifest_members name key).
Proof. exact manifest_read. Qed.
Print Assumptions C81_manifest_text.

(** After the script has run, whatever the directory held before: the default
    list and every regional list have their manifest, with their own title and
    key; other files are as before. *)
Theorem C81_manifest_files : forall d,
  (exists t, look (generateManifestFiles d) (B "out/default-manifest.json") = Some t /\
     json_object t = Some (manifest_members (B "Default") default_key)) /\
  (forall uuid title key, In (uuid, title, key) region_infos ->
     exists t, look (generateManifestFiles d) (B "out/" ++ uuid ++ B "-manifest.json") = Some t /\
       json_object t = Some (manifest_members title key)) /\
  (forall p, ~ In p manifest_paths -> look (generateManifestFiles d) p = look d p).
Proof. exact manifest_files. Qed.
Print Assumptions C81_manifest_files.

(** The lists with a manifest are the lists of the catalogue. *)
Theorem C81_same_lists : map (fun r => fst (fst r)) region_infos = map fst region_lists /\
  NoDup (map fst region_infos).
Proof. split; [exact infos_uuids|exact infos_nodup]. Qed.
Print Assumptions C81_same_lists.

Example C81_example :
  plain_chars (B "BGR: Bulgarian Adblock list") /\
  json_object (manifestText (B "x""y") (B "k")) = None /\
  option_map (fun ms => nth 3 ms (B "", JNum []))
    (json_object (manifestText (B "BGR: Bulgarian Adblock list") (B "MIIB+/="))) =
  Some (B "name", JStr (B "Brave Ad Block Updater (BGR: Bulgarian Adblock list)")).
Proof. split; [apply plainb; reflexivity|]. split; vm_compute; reflexivity. Qed.

(** ** C82 *)

(** All downloads succeed: every data file is there, with the bytes of its own
    lists; nothing else but the header has changed. *)
Theorem C82_complete : forall E sites fetch unbreak d d',
  generateDataFiles E sites fetch unbreak d = Ok (true, d') ->
  all_written (data_files E sites fetch unbreak) d' /\
  (forall p, p <> B "bad_fingerprints.h" -> ~ In p (map fst (data_files E sites fetch unbreak)) ->
     look d' p = look d p).
Proof. exact complete_run. Qed.
Print Assumptions C82_complete.

(** A download fails: the files before it are new, the others are as before. *)
Theorem C82_interrupted : forall E sites fetch unbreak d d',
  generateDataFiles E sites fetch unbreak d = Ok (false, d') ->
  exists done failed rest, data_files E sites fetch unbreak = done ++ (failed, None) :: rest /\
    all_written done d' /\
    (forall p, p <> B "bad_fingerprints.h" -> ~ In p (map fst done) -> look d' p = look d p).
Proof. exact interrupted_run. Qed.
Print Assumptions C82_interrupted.

(** It runs to the end exactly if all lists can be downloaded. *)
Theorem C82_complete_iff : forall E sites fetch unbreak d ok d',
  generateDataFiles E sites fetch unbreak d = Ok (ok, d') -> (ok = true <-> all_fetched fetch).
Proof. exact complete_iff. Qed.
Print Assumptions C82_complete_iff.

(** No two of the files made for publication have the same path. *)
Theorem C82_paths_distinct : forall E sites fetch unbreak,
  NoDup (B "bad_fingerprints.h" :: manifest_paths ++ map fst (data_files E sites fetch unbreak)).
Proof. exact paths_distinct. Qed.
Print Assumptions C82_paths_distinct.

(** ** C83 *)

(** [w] is recorded while the data file of the texts [items] is made. *)
Definition recorded (E : env) (sites items : list bytes) (w : bytes) : Prop :=
  exists c l, after E (map (Parse false) items ++ DetectBad :: asks_of sites) = Ok c /\
    c_badfp c = Some l /\ In w l.

(** The header that is left is the one of the last region. *)
Theorem C83_last_region_partial : forall E sites fetch unbreak d d' uuid url b,
  generateDataFiles E sites fetch unbreak d = Ok (true, d') ->
  last region_lists (B "", B "") = (uuid, url) -> fetch url = Some b ->
  exists c l, after E (map (Parse false) [b; unbreak] ++ DetectBad :: asks_of sites) = Ok c /\
    c_badfp c = Some l /\ look d' (B "bad_fingerprints.h") = Some (headerText l).
Proof. exact last_header. Qed.
Print Assumptions C83_last_region_partial.

Definition fp_web : fetcher := fun url =>
  if beq url (B "https://easylist-downloads.adblockplus.org/Liste_AR.txt") then Some (B "xabcde")
  else Some [].

Definition sanitized_empty : list bytes := map (fun _ => sanitizeABPInput []) default_lists.

(** The full property: the header defines what was recorded for any of the
    lists. *)
Theorem C83_refuted : ~ (forall E sites fetch unbreak d d' uuid url b w,
  generateDataFiles E sites fetch unbreak d = Ok (true, d') ->
  In (uuid, url) region_lists -> fetch url = Some b -> recorded E sites [b; unbreak] w ->
  exists header, look d' (B "bad_fingerprints.h") = Some header /\
    exists x y, header = x ++ header_entry w ++ y).
Proof.
  intros H.
  destruct (header_spoiled E1 [B "http://q.org/xuvwyz"] fp_web []
    [sanitized_empty; []; [B "xabcde"; []]; [[]; []]] [] (header_entry (B "xuvwyz"))) as (d' & R & N).
  - vm_compute. reflexivity.
  - vm_compute. reflexivity.
  - vm_compute. reflexivity.
  - vm_compute. reflexivity.
  - destruct (H E1 [B "http://q.org/xuvwyz"] fp_web [] [] d'
      (B "9FCEECEC-52B4-4487-8E57-8781E82C91D0")
      (B "https://easylist-downloads.adblockplus.org/Liste_AR.txt") (B "xabcde") (B "xuvwyz") R)
      as (h & L & x & y & X).
    + left. reflexivity.
    + vm_compute. reflexivity.
    + assert (rmap c_badfp (after E1 (map (Parse false) [B "xabcde"; []] ++ DetectBad :: asks_of [B "http://q.org/xuvwyz"]))
            = Ok (Some [B "xuvwyz"])) as C by (vm_compute; reflexivity).
      apply rmap_ok in C as (c & C & Y). exists c, [B "xuvwyz"].
      split; [exact C|]. split; [symmetry; exact Y|left; reflexivity].
    + exact (N h x y L X).
Qed.
Print Assumptions C83_refuted.

Example C82_example :
  all_fetched fp_web /\
  (exists d', generateDataFiles E1 [] fp_web [] [] = Ok (true, d')) /\
  rmap fst (generateDataFiles E1 [] (fun _ => None) [] []) = Ok false.
Proof.
  split; [|split; [|vm_compute; reflexivity]].
  - intros uuid url _. unfold fp_web. destruct (beq url _); eauto.
  - apply (runs_defined E1 [] [sanitized_empty; []; [B "xabcde"; []]; [[]; []]] (all_jobs fp_web []) []);
      vm_compute; reflexivity.
Qed.

(** ** C84 *)

(** Uploading the directory: every file, under its own key. *)
Theorem C84_all_files : forall (prod : bool) (date : bytes) (listing : list bytes) (f : bytes),
  In f listing ->
  In ((if prod then B "4/" else B "test/4/") ++ f, B "out/" ++ f) (uploads prod date None listing).
Proof. exact upload_all. Qed.
Print Assumptions C84_all_files.

Theorem C84_distinct_keys : forall prod date listing, NoDup listing ->
  NoDup (map fst (uploads prod date None listing)).
Proof. exact upload_keys. Qed.
Print Assumptions C84_distinct_keys.

(** Only a production run writes outside the test location. *)
Theorem C84_test_apart : forall prod date dat listing key path,
  In (key, path) (uploads prod date dat listing) -> (prod = false <-> exists k, key = B "test/" ++ k).
Proof. exact upload_place. Qed.
Print Assumptions C84_test_apart.

(** Uploading one file of the directory for production replaces what uploading
    the directory would replace. *)
Theorem C84_single_file_partial : forall (date f : bytes) (listing : list bytes), ~ In "/"%char f -> In f listing ->
  uploads true date (Some (B "out/" ++ f)) listing = uploads true date None [f] /\
  (forall u, In u (uploads true date (Some (B "out/" ++ f)) listing) -> In u (uploads true date None listing)).
Proof. exact upload_one. Qed.
Print Assumptions C84_single_file_partial.

(** In the test location it does not: the version is missing from the key. *)
Theorem C84_refuted : ~ (forall (prod : bool) (date f : bytes) (listing : list bytes), ~ In "/"%char f -> In f listing ->
  forall u, In u (uploads prod date (Some (B "out/" ++ f)) listing) -> In u (uploads prod date None listing)).
Proof.
  intros H. specialize (H false [] (B "a.dat") [B "a.dat"]).
  assert (In (B "test/a.dat", B "out/a.dat") (uploads false [] None [B "a.dat"])) as X.
  { apply H; [now apply notin_ok|left; reflexivity|left; reflexivity]. }
  destruct X as [X|[]]. discriminate.
Qed.
Print Assumptions C84_refuted.

Example C84_example :
  uploads true (B "2019-01-01T00:00:00") None [B "a.dat"; B "default-manifest.json"] =
  [ (B "4/a.dat", B "out/a.dat");
    (B "backups/2019-01-01T00:00:00/a.dat", B "out/a.dat");
    (B "4/default-manifest.json", B "out/default-manifest.json");
    (B "backups/2019-01-01T00:00:00/default-manifest.json", B "out/default-manifest.json") ].
Proof. reflexivity. Qed.
