(** C19-C22: list texts, lines and the two parser passes. *)
From Verif Require Import Base Flags Url Sets FilterM ParseM ClientM Spec SpecM
  P_Base P_Parse P_List P_Props2 P_Props3.

(** An environment for the examples. *)
Definition E0 : env :=
  mkEnv [B "/banne"] [fun s => N.of_nat (length s)]
        [fun s => N_of_ascii (hd NUL s)] (fun s => N.of_nat (length s))
        (fun _ _ => false).

(** C19: after [parse] every array is the old array followed by exactly the
    rules of the lines that belong to it, in line order (no slot is missing,
    left over or default-constructed), and the host-rule counters grow by the
    number of host-only rules. *)
Theorem C19_arrays_exact : forall E pres t c c',
  nonul t -> parse E pres (cstr t) c = Ok c' ->
  exists fs, line_rules pres t fs /\
    (forall k, tget (c_lists c') k =
               tget (c_lists c) k ++ List.filter (goes_to E (CList k)) fs) /\
    c_numHA c' = c_numHA c + length (List.filter (goes_to E (CHost false)) fs) /\
    c_numHAE c' = c_numHAE c + length (List.filter (goes_to E (CHost true)) fs).
Proof. exact parse_lists. Qed.
Print Assumptions C19_arrays_exact.

(** The counting pass counted exactly those slots. *)
Theorem C19_passes_agree : forall E pres t c c' L n,
  nonul t -> parse E pres (cstr t) c = Ok c' ->
  lines_of (cstr t) = Ok L -> foldM (count1 E) counts0 L = Ok n ->
  (forall k, length (tget (c_lists c') k) =
             length (tget (c_lists c) k) + tget (n_tab n) k) /\
  c_numHA c' = c_numHA c + n_ha n /\ c_numHAE c' = c_numHAE c + n_hae n.
Proof. exact parse_counts. Qed.
Print Assumptions C19_passes_agree.

(** Each single line is classified alike with and without [preserveRules] (the
    first pass always runs without). *)
Theorem C19_line_class_agrees : forall E l f f' r r',
  line_text l ->
  parse_filter true (cstr l) (length l) = Ok (f, r) ->
  parse_filter false (cstr l) (length l) = Ok (f', r') ->
  classify E f = classify E f' /\ r = r' /\ set_rule f None = set_rule f' None.
Proof. exact classify_pres. Qed.
Print Assumptions C19_line_class_agrees.

Definition text_ex : bytes :=
  B "||ads.com^" ++ [LF] ++ B "/ad/$script" ++ [CR; LF] ++ B "@@||ok.org/x"
  ++ [LF] ++ B "! note" ++ [LF] ++ B "a.com##.ad" ++ [LF] ++ B "x$domain=a.com".

Example C19_example :
  rmap (fun c' => (map (fun k => length (tget (c_lists c') k))
                       [KNoFp; KException; KCosmetic; KNoFpDom], c_numHA c'))
       (parse E0 true (cstr text_ex) client0) = Ok ([1; 1; 1; 1], 1).
Proof. vm_compute. reflexivity. Qed.

(** C20: the two ways of loading give the very same client (or both are
    undefined). *)
Theorem C20_parse_in_pieces : forall E pres a s b c,
  nonul a -> nonul b -> s = CR \/ s = LF ->
  parse E pres (cstr (a ++ s :: b)) c =
  bind (parse E pres (cstr a) c) (parse E pres (cstr b)).
Proof. exact parse_pieces. Qed.
Print Assumptions C20_parse_in_pieces.

(** C21: inserting a comment or blank line leaves the resulting client
    unchanged, if the comment mark is within the first 2047 bytes. *)
Theorem C21_comments_inert_partial : forall E pres a b s x z c,
  nonul a -> nonul z -> (x = CR \/ x = LF) ->
  (forall y, In y b -> blank y) -> comment_text s -> line_text s ->
  length (b ++ firstn 1 s) < 2048 ->
  parse E pres (cstr (a ++ x :: (b ++ s) ++ x :: z)) c =
  parse E pres (cstr (a ++ x :: z)) c.
Proof. exact parse_comment. Qed.
Print Assumptions C21_comments_inert_partial.

Example C21_example :
  (forall y, In y (B "  " ++ [TAB]) -> blank y) /\
  comment_text (B "# a note ||x^") /\ line_text (B "# a note ||x^") /\
  length ((B "  " ++ [TAB]) ++ firstn 1 (B "# a note ||x^")) < 2048.
Proof.
  split; [|split; [|split]].
  - intros y [<-|[<-|[<-|[]]]]; unfold blank; auto.
  - right. right. right. exists (B "a note ||x^"). reflexivity.
  - intros c I. vm_compute in I.
    repeat (destruct I as [<-|I]; [repeat split; discriminate|]). destruct I.
  - cbn. lia.
Qed.

(** A line of 2048 blanks is stored as a rule. *)
Theorem C21_refuted : exists l, (forall c, In c l -> blank c) /\
  forall E, exists c', parse E false (cstr l) client0 = Ok c' /\
    length (tget (c_lists c') KNoFp) = 1.
Proof. exact long_blank_line. Qed.
Print Assumptions C21_refuted.

(** C22 *)
Theorem C22_line_ends : forall E pres t t' c,
  nonul t -> nonul t' -> same_up_to_line_ends t t' ->
  parse E pres (cstr t) c = parse E pres (cstr t') c.
Proof. exact parse_line_ends. Qed.
Print Assumptions C22_line_ends.

Example C22_example :
  same_up_to_line_ends (B "a" ++ [CR; LF] ++ B "b" ++ [LF])
                       (B "a" ++ [LF; LF; LF] ++ B "b" ++ [CR]).
Proof.
  apply sle_char; [discriminate|discriminate|].
  apply (sle_end [CR; LF] [LF; LF; LF]); try discriminate.
  - intros c [<-|[<-|[]]]; auto.
  - intros c [<-|[<-|[<-|[]]]]; auto.
  - apply sle_char; [discriminate|discriminate|].
    apply (sle_end [LF] [CR] [] []); try discriminate.
    + intros c [<-|[]]; auto.
    + intros c [<-|[]]; auto.
    + constructor.
Qed.
