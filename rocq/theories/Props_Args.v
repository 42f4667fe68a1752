(** C95: the arguments of JavaScript calls.  C96: refused data. *)
From Verif Require Import Base Flags Sets FilterM ParseM ClientM SerialM JsM DataM OwnM OwnT ToolM BindM
  Spec SpecM SpecC SpecT SpecU SpecV SpecB P_Base P_Dec6 P_Bind P_Args Props_List Props_Bind.
From Coq Require Import ZArith.
From Verif Require Import SpecC.

(** ** C95 *)

(** matches() asks for the UTF-8 text of its first argument, with the lowest 32
    bits of the second as types and the text of the third as page, and throws
    exactly if the second or the third cannot be converted. *)
Theorem C95_matches : forall J E c args u mask page,
  to_string (arg args 0) = Some u -> type_given J (arg args 1) mask -> page_given J (arg args 2) page ->
  match matches E c (cstr (utf8 (j_lone J) u)) mask page with
  | UB => invoke J E c MMatches args = UB
  | Ok (v, c') => exists r, invoke J E c MMatches args = Ok (c', r) /\
      (r = RThrows <-> query_throws J args) /\ (r <> RThrows -> r = RBool (v_block v))
  end.
Proof. exact query_matches. Qed.
Print Assumptions C95_matches.

(** findMatchingFilters() the same, and it changes nothing. *)
Theorem C95_find : forall J E c args u mask page,
  to_string (arg args 0) = Some u -> type_given J (arg args 1) mask -> page_given J (arg args 2) page ->
  match findMatchingFilters E c (cstr (utf8 (j_lone J) u)) mask page with
  | UB => invoke J E c MFind args = UB
  | Ok v => forall c' r, invoke J E c MFind args = Ok (c', r) ->
      c' = c /\ (r = RThrows <-> query_throws J args) /\
      (r <> RThrows -> exists fd, r = RFound fd /\ fd_matches fd = v_block v)
  end.
Proof. exact query_find. Qed.
Print Assumptions C95_find.

(** Every argument stands for one combination of types, and a number below 2^32
    for itself: so the exported constants, and all unions of them, arrive. *)
Theorem C95_types : forall J v,
  (exists mask, type_given J v mask /\ forall mask', type_given J v mask' -> mask' = mask) /\
  (forall n, (n < 4294967296)%N -> v = JInt (Z.of_N n) -> type_given J v n).
Proof.
  intros J v. split.
  - exists (to_mask J v). split.
    + unfold type_given, to_mask. destruct (to_number J v) as [z|]; [left|right; auto].
      exists z. split; auto. apply mask_bits.
    + intros mask' T. symmetry. now apply type_mask.
  - intros n L ->. left. exists (Z.of_N n). split; [reflexivity|]. now apply low_bits_id.
Qed.
Print Assumptions C95_types.

Theorem C95_constants : forall J names,
  (forall x, In x names -> In x filterOptions) ->
  type_given J (JInt (Z.of_N (fold_right (fun x m => N.lor (snd x) m) 0%N names)))
    (fold_right (fun x m => N.lor (snd x) m) 0%N names).
Proof.
  intros J names H. apply (proj2 (C95_types J _)); [|reflexivity].
  assert (K : forall a b, (a < 4294967296 -> b < 4294967296 -> N.lor a b < 4294967296)%N).
  { intros a b A B. change 4294967296%N with (2 ^ 32)%N in *.
    destruct (N.eq_dec (N.lor a b) 0) as [->|Z]; [reflexivity|].
    apply N.log2_lt_pow2; [lia|]. rewrite N.log2_lor.
    apply N.max_lub_lt; (destruct a, b; try (cbn; lia); apply N.log2_lt_pow2; lia). }
  induction names as [|x names IH]; cbn [fold_right]; [reflexivity|].
  apply K.
  - assert (In x filterOptions) as I by (apply H; cbn; auto).
    assert (forallb (fun x => snd x <? 4294967296)%N filterOptions = true) as F by (vm_compute; reflexivity).
    rewrite forallb_forall in F. apply N.ltb_lt. now apply F.
  - apply IH. intros y I. apply H. cbn; auto.
Qed.
Print Assumptions C95_constants.

(** parse() keeps the texts of the rules exactly if its second argument is true
    in the sense of JavaScript. *)
Theorem C95_parse : forall J E c args s, to_string (arg args 0) = Some s ->
  exists keep, (keep = false <-> falsy (arg args 1)) /\
    invoke J E c MParse args =
    rmap (fun c' => (c', RUndef)) (parse E keep (cstr (before_nul (utf8 (j_lone J) s))) c).
Proof. exact parse_keep. Qed.
Print Assumptions C95_parse.

(** A number given for a text is its decimal notation. *)
Theorem C95_numbers : forall z, exists s, to_string (JInt z) = Some s /\ decimal z s.
Proof. intros z. exists (int_units z). split; [reflexivity|apply int_decimal]. Qed.
Print Assumptions C95_numbers.

Example C95_example :
  type_given J0 (JInt (-2)) 4294967294 /\ type_given J0 (JInt 4294967298) 2 /\
  type_given J0 symbol 0 /\ page_given J0 JUndef (Some (B "undefined")) /\ page_given J0 symbol None /\
  query_throws J0 [JStr (U "http://a/"); JInt 2; symbol] /\
  falsy (JInt 0) /\ ~ falsy (JInt (-1)) /\ decimal (-17) (U "-17").
Proof.
  assert (T : forall v m, to_mask J0 v = m -> type_given J0 v m).
  { intros v m <-. destruct (proj1 (C95_types J0 v)) as (x & T & Q).
    now rewrite (type_mask _ _ _ T). }
  split; [apply T; vm_compute; reflexivity|]. split; [apply T; vm_compute; reflexivity|].
  split; [apply T; vm_compute; reflexivity|].
  split; [left; exists (B "undefined"); split; [exists (U "undefined"); split; reflexivity|reflexivity]|].
  split; [right; split; reflexivity|]. split; [right; reflexivity|]. split; [constructor|].
  split; [intros F; inversion F|]. exact (int_decimal (-17)).
Qed.

(** ** C96 *)

(** Whether deserialize() succeeds or not: nothing but the tags is left of what
    the client held before. *)
Theorem C96_forgets_partial : forall p c d,
  (forall t, tagExists c t = tagExists d t) ->
  match deserialize p c, deserialize p d with
  | Ok (c', ok), Ok (d', ok') => ok = ok' /\ getParsingStats c' = getParsingStats d' /\
      c_stats c' = c_stats d' /\ forall E, same_answers E c' d'
  | UB, UB => True
  | _, _ => False
  end.
Proof. exact forgets. Qed.
Print Assumptions C96_forgets_partial.

Definition refused_data : bytes :=
  B "0,0,0,0,1,0,0,0,0,0,0,0,0,0,3,3,1,0,0,0" ++ [NUL] ++ B "0,0,0" ++ [NUL] ++ B "ad" ++ [NUL; NUL; NUL]
  ++ B "1" ++ [NUL; NUL] ++ B "1" ++ [NUL; NUL] ++ B "x".

(** But rules of a refused file are there, *)
Theorem C96_refuted : ~ (forall E data d c url context dom v c',
  deserialize data d = Ok (c, false) -> matches E c (cstr url) context dom = Ok (v, c') -> v_block v = false).
Proof.
  intros H.
  assert ((x <- deserialize refused_data client0 ;;
           r <- matches E0 (fst x) (cstr (B "http://x.com/ad")) 0 None ;; Ok (snd x, v_block (fst r))) = Ok (false, true))
    as R by (vm_compute; reflexivity).
  apply bind_ok in R as ([c ok] & D & R). apply bind_ok in R as ([v c'] & M & R). injection R as -> V.
  rewrite (H _ _ _ _ _ _ _ _ _ D M) in V. discriminate V.
Qed.
Print Assumptions C96_refuted.

(** and makeAdBlockClientFromDATFile() delivers such a client like any other. *)
Theorem C96_dat_file : forall data c,
  clientFromDAT data = Ok c <-> exists ok, deserialize data client0 = Ok (c, ok).
Proof.
  intros data c. unfold clientFromDAT. destruct (deserialize data client0) as [[c' ok]|]; cbn [rmap fst].
  - split; [intros [= ->]; eauto|intros (ok' & [= -> ->]); reflexivity].
  - split; [discriminate|intros (ok' & H); discriminate H].
Qed.
Print Assumptions C96_dat_file.

Theorem C96_dat_refuted : ~ (forall data c, clientFromDAT data = Ok c ->
  deserialize data client0 = Ok (c, true)).
Proof.
  intros H.
  assert (rmap snd (deserialize refused_data client0) = Ok false) as R by (vm_compute; reflexivity).
  apply rmap_ok in R as ([c ok] & D & R). cbn [snd] in R. subst ok.
  pose proof (H refused_data c (proj2 (C96_dat_file _ _) (ex_intro _ false D))) as K.
  rewrite D in K. discriminate K.
Qed.
Print Assumptions C96_dat_refuted.

Example C96_example :
  rmap snd (deserialize refused_data client0) = Ok false /\
  rmap (fun x => getParsingStats (fst x)) (deserialize refused_data client0) =
  rmap (fun x => getParsingStats (fst x)) (c <- parse E0 false (cstr (B "x")) client0 ;; deserialize refused_data c).
Proof. split; vm_compute; reflexivity. Qed.
