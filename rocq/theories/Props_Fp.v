(** C04, C41: fingerprints. *)
From Verif Require Import Base Flags Url Sets FilterM ParseM ClientM Spec SpecM
  P_Base P_Fp P_Fp2 Props_List.

(** C41: [getFingerprint] on a text is always defined; it returns the leftmost
    usable window, and nothing exactly when there is none. *)
Theorem C41_text : forall bads s,
  nonul s -> exists o, getFingerprintStr bads (cstr s) = Ok o /\
    match o with
    | Some w => first_fp bads s w
    | None => no_fp bads s
    end.
Proof. exact getFingerprintStr_spec. Qed.
Print Assumptions C41_text.

(** For rules: '||' rules look behind the host first, then at the whole
    pattern; other rules look at the whole pattern. *)
Theorem C41_rule : forall E pres r f b,
  good_rule r ->
  parse_filter pres (cstr (rule_line r)) (length (rule_line r)) = Ok (f, b) ->
  exists o, getFingerprint E f = Ok o /\
    match x_anchor r with
    | HostBars => forall h rest, x_body r = h ++ rest -> body_host (x_body r) h ->
        (exists w, o = Some w /\ first_fp (e_bads E) rest w) \/
        (no_fp (e_bads E) rest /\
         match o with
         | Some w => first_fp (e_bads E) (x_body r) w
         | None => no_fp (e_bads E) (x_body r)
         end)
    | _ => match o with
           | Some w => first_fp (e_bads E) (x_body r) w
           | None => no_fp (e_bads E) (x_body r)
           end
    end.
Proof. exact rule_fp. Qed.
Print Assumptions C41_rule.

(** The first usable window of this text comes after two that contain "http", a
    wildcard and a listed bad fingerprint. *)
Example C41_example :
  getFingerprintStr (e_bads E0) (cstr (B "httpx*ab/banner/")) = Ok (Some (B "ab/ban"))
  /\ getFingerprintStr (e_bads E0) (cstr (B "*/banne^x")) = Ok None.
Proof. vm_compute. auto. Qed.

(** C04 *)
Theorem C04_fingerprint_in_url :
  forall E pres l f r url context dom bf host fp,
  line_text l -> parse_filter pres (cstr l) (length l) = Ok (f, r) ->
  getFingerprint E f = Ok (Some fp) -> nonul url ->
  host = [] \/ url_has_host url host ->
  filter_matches E f (cstr url) (length url) context dom bf host = Ok true ->
  length fp = 6 /\ substring fp url.
Proof.
  intros E pres l f r url context dom bf host fp Hl HP G Hu Hh H. split.
  - apply (line_fp_length E pres l f r fp Hl HP G).
  - eapply line_match_fp; eauto.
Qed.
Print Assumptions C04_fingerprint_in_url.

Example C04_example :
  let l := B "||ads.com^*/banner^x*y" in
  let u := B "http://q.ads.com/z/banner?xy" in
  bind (parse_filter false (cstr l) (length l)) (fun fr =>
  bind (getFingerprint E0 (fst fr)) (fun g =>
  bind (filter_matches E0 (fst fr) (cstr u) (length u) 0 None None []) (fun m =>
  Ok (g, m)))) = Ok (Some (B "banner"), true).
Proof. vm_compute. reflexivity. Qed.
