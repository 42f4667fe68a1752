(** Statements about single lines in the form used by Props_Line.v. *)
From Verif Require Import Base Flags Url Sets FilterM ParseM ClientM Spec SpecM
  P_Base P_Url P_Match P_Rule P_Parse P_List P_Shape P_Fp P_Line P_Props2 P_Props3
  P_Line2 P_Line3 P_Line4.

Lemma blanks_parse_filter pres b l :
  line_text l -> (forall c, In c b -> blank c) -> length b + length l < 2048 ->
  last l NUL <> "/"%char \/ ~ In (hd NUL l) (TAB :: B " @/") ->
  parse_filter pres (cstr (b ++ l)) (length (b ++ l)) =
  parse_filter pres (cstr l) (length l).
Proof.
  intros Hl Hb L HC. rewrite !parse_filter_cstr; auto.
  - f_equal. now apply blanks_pline.
  - apply line_text_app. split; auto. intros c I.
    destruct (Hb c I) as [->| ->]; repeat split; discriminate.
Qed.

Lemma network_text E l f r k :
  line_text l -> length l < 2048 ->
  parse_filter true (cstr l) (length l) = Ok (f, r) ->
  classify E f = Ok k ->
  category_of k = BlockRule \/ category_of k = ExceptionRule ->
  has (f_type f) FTRegex = false ->
  exists t, unblanked l t /\ f_rule f = Some t.
Proof.
  intros Hl L HP HK HC NR. rewrite parse_filter_cstr in HP by auto.
  apply (stored_text E l f r k); auto; try congruence.
  - intros ->. cbn in HC. destruct HC; discriminate.
  - intros ->. cbn in HC. destruct HC; discriminate.
  - intros ->. cbn in HC. destruct HC; discriminate.
Qed.

Lemma exception_class E pres b r f x k :
  line_text (b ++ B "@@" ++ r) -> (forall c, In c b -> blank c) ->
  length b < 2046 -> ~ slash_risk r ->
  parse_filter pres (cstr (b ++ B "@@" ++ r)) (length (b ++ B "@@" ++ r)) = Ok (f, x) ->
  classify E f = Ok k -> category_of k <> BlockRule.
Proof.
  intros Hl Hb L NR HP HK. rewrite parse_filter_cstr in HP by auto.
  pose proof (exception_line pres b r Hl Hb L NR) as NB.
  assert (fst (pline pres (b ++ B "@@" ++ r)) = f) as Ef.
  { assert (pline pres (b ++ B "@@" ++ r) = (f, x)) as -> by congruence. reflexivity. }
  rewrite Ef in NB. pose proof (never_block_class E f k NB HK) as K.
  destruct k as [|[]|[]]; cbn in K |- *; discriminate.
Qed.

Lemma cosmetic_rule E pres d m s :
  domain_list_text d -> line_text s -> length (d ++ m ++ s) < 2048 ->
  m = B "##" \/ m = B "#@" \/ m = B "$$" ->
  exists f, parse_filter pres (cstr (d ++ m ++ s)) (length (d ++ m ++ s)) = Ok (f, true) /\
    classify E f = Ok (CList (if beq m (B "$$") then KHtml else KCosmetic)) /\
    f_type f = (if beq m (B "##") then FTElementHiding
                else if beq m (B "#@") then FTElementHidingException
                else FTHTMLFiltering) /\
    f_data f = Some (s, [NUL]) /\
    f_dom f = match d with [] => None | _ => Some d end.
Proof.
  intros Hd Hs L Hm.
  destruct (cosmetic_pline pres d m s Hd Hm Hs L) as (x & EP).
  eexists. split; [|split; [|split; [|split]]].
  - rewrite parse_filter_cstr, EP; [reflexivity|].
    apply line_text_app. split.
    + intros c I. destruct (Hd c I) as [(_ & _ & _ & A1 & A2 & A3) _]. auto.
    + apply line_text_app. split; auto. intros c I.
      destruct Hm as [->|[->| ->]]; vm_compute in I;
        repeat (destruct I as [<-|I]; [repeat split; discriminate|]); destruct I.
  - destruct Hm as [->|[->| ->]]; reflexivity.
  - reflexivity.
  - reflexivity.
  - reflexivity.
Qed.

Lemma line_text_dec l :
  forallb (fun c => negb (ceq c NUL || ceq c CR || ceq c LF)) l = true -> line_text l.
Proof.
  intros H c I. rewrite forallb_forall in H. apply H in I.
  apply negb_true_iff, orb_false_iff in I as [I I3].
  apply orb_false_iff in I as [I1 I2].
  rewrite ceq_neq in I1, I2, I3. auto.
Qed.

(** A decision procedure for [bars_fine]. *)
Definition sepb (c : ascii) : bool := existsb (ceq c) separators.
Definition leadb (c : ascii) : bool := existsb (ceq c) (TAB :: B "@![/ ").

Fixpoint drop_lead (l : bytes) : bytes :=
  match l with
  | c :: l' => if leadb c then drop_lead l' else l
  | [] => []
  end.

Fixpoint host_bars (t : bytes) : bool :=
  match t with
  | [] => true
  | c :: t' =>
      if sepb c then true
      else if ceq c "|" then match t' with [] => true | x :: _ => sepb x end
      else host_bars t'
  end.

Definition bars_fineb (l : bytes) : bool :=
  match drop_lead l with
  | b1 :: b2 :: t => negb (ceq b1 "|" && ceq b2 "|") || host_bars t
  | _ => true
  end.

Lemma existsb_In c s : existsb (ceq c) s = true <-> In c s.
Proof.
  rewrite existsb_exists. split.
  - intros (x & I & E). apply ceq_eq in E. now subst.
  - intros I. exists c. split; auto. apply ceq_refl.
Qed.

Lemma host_bars_ok h x q :
  host_bars (h ++ "|"%char :: x :: q) = true ->
  (exists c, In c h /\ In c separators) \/ In x separators.
Proof.
  induction h as [|c h IH]; cbn [app host_bars].
  - intros H. right. apply existsb_In. exact H.
  - destruct (sepb c) eqn:Es.
    { left. exists c. split; [cbn; auto|]. now apply existsb_In. }
    destruct (ceq_spec c "|") as [->|N].
    + destruct h as [|y h]; cbn [app].
      * discriminate.
      * intros H. left. exists y. split; [cbn; auto|]. now apply existsb_In.
    + intros H. destruct (IH H) as [(y & I & K)|K]; auto.
      left. exists y. cbn; auto.
Qed.

Lemma bars_fineb_ok l : bars_fineb l = true -> bars_fine l.
Proof.
  intros H p h x q Hp ->. unfold bars_fineb in H.
  assert (drop_lead (p ++ B "||" ++ h ++ B "|" ++ x :: q) =
          B "||" ++ h ++ B "|" ++ x :: q) as E.
  { clear H. induction p as [|c p IH]; [reflexivity|]. cbn [app drop_lead].
    assert (leadb c = true) as ->.
    { apply existsb_In. apply (Hp c). cbn; auto. }
    apply IH. intros; apply Hp; cbn; auto. }
  rewrite E in H. cbn [B list_ascii_of_string app] in H.
  change (ceq "|" "|") with true in H. cbn [andb negb orb] in H.
  now apply host_bars_ok with q.
Qed.

Lemma short_domains l : length l <= 1024 -> domains_fit l.
Proof.
  intros L d (a & b & ->) _ _. rewrite !app_length in L. lia.
Qed.

Lemma safe_short l : length l <= 1024 -> bars_fineb l = true -> safe_line l.
Proof.
  intros L H. split; [lia|]. split; [now apply bars_fineb_ok|now apply short_domains].
Qed.

Lemma unsafe_long_line : exists l, line_text l /\ bars_fine l /\ domains_fit l /\
  2048 <= length l /\ forall E pres c, parse E pres (cstr l) c = UB.
Proof.
  exists long_host_line. split; [|split; [|split; [|split]]].
  - apply line_text_dec. vm_compute. reflexivity.
  - apply bars_fineb_ok. vm_compute. reflexivity.
  - intros d (a & b & E) _ Nc.
    destruct (le_lt_dec (length d) 1024) as [|L]; auto. exfalso. apply Nc.
    assert (nth_error d 4 = nth_error long_host_line (length a + 4)) as E4.
    { rewrite E, nth_error_app2 by lia. replace (length a + 4 - length a) with 4 by lia.
      rewrite nth_error_app1; [reflexivity|lia]. }
    assert (length a + 4 < length long_host_line) as La.
    { rewrite E, !app_length. lia. }
    unfold long_host_line in E4, La. rewrite nth_error_app2 in E4 by (cbn; lia).
    replace (length a + 4 - length (B "||a/")) with (length a) in E4 by (cbn; lia).
    destruct (nth_error (repeat ","%char (N.to_nat 2044)) (length a)) as [x|] eqn:En.
    + apply nth_error_In in E4. apply nth_error_In, repeat_spec in En. now subst x.
    + apply nth_error_None in En. rewrite app_length in La.
      cbn [B list_ascii_of_string length] in La. lia.
  - unfold long_host_line. rewrite app_length, repeat_length. cbn. lia.
  - apply unsafe_long.
Qed.

Lemma unsafe_domain_line : exists l, line_text l /\ length l < 2048 /\ bars_fine l /\
  forall E pres c, parse E pres (cstr l) c = UB.
Proof.
  exists long_domain_line. split; [|split; [|split]].
  - apply line_text_dec. vm_compute. reflexivity.
  - unfold long_domain_line. rewrite app_length, repeat_length. cbn. lia.
  - apply bars_fineb_ok. vm_compute. reflexivity.
  - apply unsafe_domain.
Qed.

Lemma safe_example :
  forall l, In l (text_lines (B "||ads.com|" ++ [LF] ++ B "||a.b/c|d$domain=x.y|~z.x.y"))
            -> safe_line l.
Proof.
  intros l I. vm_compute in I.
  destruct I as [<-|[<-|[]]]; (apply safe_short; [cbn; lia|reflexivity]).
Qed.

Lemma ex_rule_good :
  let r := mkRule true HostBars (B "ads.com^") false (Some (B "script,domain=a.com|b.com")) in
  good_rule r /\ names_only_host r /\
  rule_line r = B "@@||ads.com^$script,domain=a.com|b.com".
Proof.
  cbv zeta. split; [|split].
  - split; [discriminate|]. split.
    { intros c I. vm_compute in I.
      repeat (destruct I as [<-|I]; [unfold body_char; repeat split; discriminate|]). destruct I. }
    split; [discriminate|]. split.
    { intros o [= <-]. split; [|discriminate]. intros c I. vm_compute in I.
      repeat (destruct I as [<-|I]; [repeat split; discriminate|]). destruct I. }
    cbn. lia.
  - split; auto. split; auto. exists (B "ads.com"). split; auto.
    intros c I J. apply existsb_In in J. vm_compute in I.
    repeat (destruct I as [<-|I]; [discriminate J|]). destruct I.
  - reflexivity.
Qed.

Lemma ex_domains : domain_list_text (B "a.com,~b.a.com").
Proof.
  intros c I. vm_compute in I.
  repeat (destruct I as [<-|I]; [split; [unfold body_char; repeat split; discriminate|];
    intros J; apply existsb_In in J; discriminate J|]). destruct I.
Qed.
