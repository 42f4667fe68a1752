(** C98: every line is read according to one grammar. *)
From Verif Require Import Base Flags Url Sets FilterM ParseM ClientM Spec SpecM SpecG SpecLine
  P_Base P_Read3 P_Read4 P_Read5.

(** Every line has exactly one reading: empty, a comment, a regular expression,
    bare options, or a rule with a front, a body and an ending. *)
Theorem C98_every_line : forall l, exists m, reads l m /\ forall m', reads l m' -> m' = m.
Proof.
  intros l. destruct (reading_exists l) as (m & R). exists m. split; auto.
  intros m' R'. exact (reading_unique l m' m R' R).
Qed.
Print Assumptions C98_every_line.

(** parseFilter() stores what the reading of the line says, if the reading is
    settled before the 2048th character; otherwise it gives up. *)
Theorem C98_any_length : forall kept l m,
  line_text l -> reads l m ->
  exists f b, parse_filter kept (cstr l) (length l) = Ok (f, b) /\
    (within l m -> agrees kept m f) /\ (~ within l m -> b = false /\ given_up f).
Proof. exact reading_any. Qed.
Print Assumptions C98_any_length.

(** So for every line shorter than 2048 bytes it stores what the reading says. *)
Theorem C98_reading : forall kept l m,
  line_text l -> length l < 2048 -> reads l m ->
  exists f b, parse_filter kept (cstr l) (length l) = Ok (f, b) /\ agrees kept m f.
Proof. exact reading_holds. Qed.
Print Assumptions C98_reading.

(** ** Readings of unusual lines *)

(** An exception although the two '@' are apart; the blank between them becomes
    part of the pattern; the bar before the options anchors the rule on the right. *)
Example read_rule :
  reads (B " @ @||a.b^|$script,tag=x")
    (IsRule true (B " ") HostBars (B "a.b^|$script,tag=x") (B "a.b^|")
       (WithOptions (B "script,tag=x")) (B "@ @||a.b^|$script,tag=x")).
Proof.
  apply (reads_line _ (B " ")).
  - intros c [<-|[]]. now left.
  - reflexivity.
  - intros (_ & a & H & _). discriminate H.
  - apply (op_host (B "@ @")). apply (marks_more (B " ") [] []).
    + intros c [<-|[]]. left. now left.
    + easy.
    + constructor.
  - apply (contents_check (B "a.b^|") (B "$script,tag=x")); [|reflexivity].
    apply (ft_options (B "script,tag=x")). now intros c r [= <- _].
Qed.

Example read_rule_stored : exists f b,
  parse_filter true (cstr (B " @ @||a.b^|$script,tag=x")) 24 = Ok (f, b) /\
  has (f_type f) FTException = true /\ has (f_type f) FTRightAnchored = true /\
  f_data f = Some (B " a.b^", [NUL]) /\ f_host f = Some (B "a.b").
Proof.
  assert (line_text (B " @ @||a.b^|$script,tag=x")) as L.
  { intros c H. cbn in H. repeat (destruct H as [<-|H]; [repeat split; discriminate|]). easy. }
  destruct (C98_reading true _ _ L ltac:(cbn; lia) read_rule) as (f & b & P & (A1 & _) & A2 & _).
  exists f, b. split; [exact P|]. split; [exact A1|].
  vm_compute in P. injection P as <- _. repeat split; reflexivity.
Qed.

(** A bar inside the domains of a cosmetic rule disappears. *)
Example read_cosmetic :
  reads (B "a|b##.c")
    (IsRule false [] NoAnchor (B "a|b##.c") (B "a|b") (WithSelector FTElementHiding (B ".c"))
       (B "a|b##.c")).
Proof.
  apply (reads_line _ []); try easy.
  - intros (_ & a & H & _). discriminate H.
  - apply (op_plain [] (B "a|b##.c")); [constructor| | |].
    + intros _. split; [discriminate|]. intros (v & H). discriminate H.
    + intros c r [= <- _] [[H|H]|[H|H]]; discriminate H.
    + intros _ [H|[(r & H)|[(r & H)|(r & H)]]]; discriminate H.
  - apply (contents_check (B "a|b") (B "##.c")); [|reflexivity]. apply (ft_hide (B ".c")).
Qed.

(** Options alone make no rule. *)
Example read_options : reads (B "$script") (IsOptions (B "script")).
Proof. apply (reads_options _ []); try easy. now intros c r [= <- _]. Qed.

(** A lone '@' or '|' is a rule with an empty pattern, which applies to everything. *)
Example read_at : reads (B "@") (IsRule false [] NoAnchor [] [] AtEnd (B "@")).
Proof.
  apply (reads_line _ []); try easy.
  - intros (_ & a & H & _). discriminate H.
  - apply (op_half [] [] []); try easy. constructor.
  - apply (contents_check [] []); [constructor|reflexivity].
Qed.
Example read_bar : reads (B "|") (IsRule false [] NoAnchor [] [] AtEnd (B "|")).
Proof.
  apply (reads_line _ []); try easy.
  - intros (_ & a & H & _). discriminate H.
  - apply (op_alone []). constructor.
  - apply (contents_check [] []); [constructor|reflexivity].
Qed.

(** A comment behind an exception mark. *)
Example read_comment : reads (B " @@!x/") IsComment.
Proof.
  apply (reads_comment _ (B " ") (B "@@") (B "!x/")); try easy.
  - intros c [<-|[]]. now left.
  - apply (marks_more [] [] []); try easy. constructor.
  - right. left. now exists (B "x/").
Qed.

(** ** Long lines *)
Lemma letters (n : nat) x y :
  repeat "a"%char n = x ++ y -> y <> [] -> exists r, y = "a"%char :: r.
Proof.
  intros Q N. destruct y as [|c r]; [easy|]. exists r. f_equal.
  apply (repeat_spec n "a"%char c). rewrite Q. apply in_or_app. right. now left.
Qed.

Example long_pattern n : 0 < n ->
  reads (repeat "a"%char n)
    (IsRule false [] NoAnchor (repeat "a"%char n) (repeat "a"%char n) AtEnd (repeat "a"%char n)).
Proof.
  intros L.
  assert (exists r, repeat "a"%char n = "a"%char :: r) as (r & Q).
  { apply (letters n []); auto. destruct n; [lia|discriminate]. }
  apply (reads_line _ []); try easy.
  - intros (_ & a & La & b & z & _).
    assert (In "/"%char (repeat "a"%char n)) as I.
    { rewrite (app_removelast_last NUL) by (rewrite Q; discriminate).
      rewrite La. apply in_or_app. right. now left. }
    apply repeat_spec in I. discriminate.
  - apply (op_plain [] (repeat "a"%char n)); [constructor| | |]; rewrite Q.
    + intros _. split; [discriminate|]. intros (v & H). discriminate H.
    + intros c z [= <- _] [[H|H]|[H|H]]; discriminate H.
    + intros _ [H|[(z & H)|[(z & H)|(z & H)]]]; discriminate H.
  - exists []. split; [constructor|]. split; [now rewrite app_nil_r|].
    intros x y E N. apply letters in E as (z & ->); auto.
    repeat split; intros (v & H); discriminate H.
Qed.

(** It is stored up to 2047 bytes, and left without a pattern from 2048 on. *)
Example long_pattern_stored kept n : 0 < n ->
  exists f b, parse_filter kept (cstr (repeat "a"%char n)) (length (repeat "a"%char n)) = Ok (f, b) /\
    (n < 2048 -> f_data f = Some (repeat "a"%char n, [NUL])) /\ (2048 <= n -> f_data f = None).
Proof.
  intros L.
  assert (line_text (repeat "a"%char n)) as T.
  { intros c I. apply repeat_spec in I as ->. repeat split; discriminate. }
  destruct (C98_any_length kept _ _ T (long_pattern n L)) as (f & b & P & A & G).
  exists f, b. split; auto. cbn [within agrees] in A, G. rewrite repeat_length in A, G. split; intros Ln.
  - destruct (A Ln) as (_ & -> & _). do 2 f_equal. cbn [app].
    clear. induction n as [|n IH]; [reflexivity|]. cbn. now f_equal.
  - destruct G as (_ & G & _); [lia|auto].
Qed.
