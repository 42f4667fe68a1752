(** What any line is read as: the stored rule, and every line has a reading. *)
From Verif Require Import Base Flags Url Sets FilterM ParseM ClientM Spec SpecM SpecG
  P_Base P_Url P_Match P_Rule P_Parse P_List P_Shape P_Fp P_Line P_Props2 P_Props3
  P_Line2 P_Line3 P_Line4 P_Line5 P_Opt P_Abb P_Match2 P_Rx P_End SpecLine P_Read P_Read2.

(** ** The other kinds of lines *)
Lemma read_front pres l b a y :
  length (b ++ a) <= 2047 -> (forall c, In c b -> blank c) -> marks a -> l = b ++ a ++ y ->
  parse_filter pres (cstr l) (length l) =
  bind (pf_loop pres (cstr l) (length l) (length y) (cstr y)
         (mkPs (if nonempty a then FPPastWhitespace else FPStart) (fexc (nonempty a))
               (unmarked a) (length b) (length (b ++ a)) (length (b ++ a)))) (concl pres l).
Proof.
  intros Ll Hb Ma El. rewrite app_length in Ll.
  change (parse_filter pres (cstr l) (length l)) with
    (bind (pf_loop pres (cstr l) (length l) (length l) (cstr l) (mkPs FPStart filter0 [] 0 0 0)) (concl pres l)).
  f_equal.
  assert (length l = length b + (length a + length y) /\ cstr l = b ++ a ++ cstr y) as [K1 K2].
  { rewrite El, !app_length. unfold cstr. now rewrite !app_assoc. }
  transitivity (pf_loop pres (cstr l) (length l) (length b + (length a + length y)) (b ++ a ++ cstr y)
                  (mkPs FPStart (fexc false) [] 0 0 0)); [now rewrite <- K1, <- K2|].
  rewrite read_blanks by (auto; lia). rewrite read_marks; auto.
  - cbn [orb app]. now rewrite app_length, !Nat.add_0_l.
  - cbn; lia.
Qed.

Lemma read_comment pres l b a s :
  length (b ++ a) < 2047 -> (forall c, In c b -> blank c) -> marks a -> l = b ++ a ++ s ->
  s <> [] -> comment_text s ->
  parse_filter pres (cstr l) (length l) = Ok (mkF FTComment 0 0 None None [] None None, false).
Proof.
  intros Ll Hb Ma El Ns C. rewrite (read_front pres l b a s) by (auto; lia). rewrite app_length in Ll.
  assert (length l = length b + (length a + length s)) as Ln by (rewrite El, !app_length; lia).
  destruct C as [->|[(r & ->)|[(r & ->)|(r & ->)]]]; [easy| | |];
    cbn [length] in *;
    [change (cstr ("!"%char :: r)) with ("!"%char :: cstr r)
    |change (cstr ("["%char :: r)) with ("["%char :: cstr r)
    |change (cstr ("#"%char :: " "%char :: r)) with ("#"%char :: " "%char :: cstr r)];
    (rewrite loop_cons by (rewrite app_length; lia); destruct (nonempty a); reflexivity).
Qed.

Lemma read_empty pres l :
  length l < 2048 -> (forall c, In c l -> blank c) ->
  parse_filter pres (cstr l) (length l) = Ok (mkF FTEmpty 0 0 None None [] None None, false).
Proof.
  intros Ll Hb. rewrite (read_front pres l l [] []); auto.
  - rewrite app_nil_r. lia.
  - constructor.
  - cbn [app]. now rewrite app_nil_r.
Qed.

(** ** Options *)
Lemma begins_prefixb p s : begins p s <-> prefixb p s = true.
Proof. unfold begins. symmetry. apply prefixb_spec. Qed.

Lemma seg_tilde s : (exists s', s = B "~" ++ s' /\ seg_split s = (true, s')) \/
  (~ begins (B "~") s /\ seg_split s = (false, s)).
Proof.
  destruct s as [|c s]; [right; split; [intros (? & [=])|reflexivity]|].
  cbn [seg_split]. destruct (ceq_spec c "~") as [->|N].
  - left. exists s. auto.
  - right. split; auto. intros (r & [= -> _]). now apply N.
Qed.

(** A segment carries a value for [name]. *)
Lemma seg_value (name s : bytes) :
  hd NUL name <> "~"%char -> name <> [] ->
  (forall v, prefixb name (snd (seg_split s)) = true /\ skipn (length name) (snd (seg_split s)) = v <->
     (s = name ++ v \/ s = B "~" ++ name ++ v)) /\
  (prefixb name (snd (seg_split s)) = false <-> ~ begins name s /\ ~ begins (B "~" ++ name) s).
Proof.
  intros Nh Nn.
  assert (forall v s', prefixb name s' = true /\ skipn (length name) s' = v <-> s' = name ++ v) as K.
  { intros v s'. rewrite prefixb_spec. split.
    - intros [(r & ->) <-]. now rewrite skipn_app, skipn_all, Nat.sub_diag.
    - intros ->. split; [eauto|]. now rewrite skipn_app, skipn_all, Nat.sub_diag. }
  assert (forall r, name ++ r <> [] /\ hd NUL (name ++ r) <> "~"%char) as Hn.
  { intros r. destruct name as [|x name]; [easy|]. cbn in *. split; [discriminate|auto]. }
  destruct (seg_tilde s) as [(s' & -> & ->)|[N ->]]; cbn [snd].
  - split.
    + intros v. rewrite K. split.
      * intros ->. auto.
      * intros [E|E]; [|now injection E].
        destruct (Hn v) as [_ H]. rewrite <- E in H. now elim H.
    + split.
      * intros F. split; intros (r & E).
        -- destruct (Hn r) as [_ H]. rewrite <- E in H. now elim H.
        -- rewrite <- app_assoc in E. injection E as ->.
           assert (prefixb name (name ++ r) = true) by (apply prefixb_spec; eauto). congruence.
      * intros [_ F]. destruct (prefixb name s') eqn:P; auto. exfalso. apply F.
        apply prefixb_spec in P as (r & ->). exists r. now rewrite <- app_assoc.
  - split.
    + intros v. rewrite K. split; [auto|]. intros [E|E]; auto. exfalso. apply N. now exists (name ++ v).
    + split.
      * intros F. split; intros (r & E).
        -- subst s. assert (prefixb name (name ++ r) = true) by (apply prefixb_spec; eauto). congruence.
        -- apply N. exists (name ++ r). now rewrite E, <- app_assoc.
      * intros [F _]. destruct (prefixb name s) eqn:P; auto. exfalso. apply F.
        apply prefixb_spec in P as (r & ->). now exists r.
Qed.

Lemma domain_not_tag s : prefixb (B "domain=") s = true -> prefixb (B "tag=") s = false.
Proof. intros H. apply prefixb_spec in H as (r & ->). reflexivity. Qed.

Lemma options_read parts f :
  f_opt f = 0%N -> f_anti f = 0%N -> f_dom f = None -> f_tag f = [] ->
  has_options parts (fold_left parseOption parts f).
Proof.
  intros H1 H2 H3 H4. destruct (fold_options parts f) as (F1 & F2 & F3 & F4).
  rewrite H1 in F1. rewrite H2 in F2. rewrite H3 in F3. rewrite H4 in F4.
  unfold has_options. split; [|split; [|split]].
  - intros i. rewrite F1, N.bits_0. cbn [orb]. rewrite existsb_exists. apply pos_bits_denote.
  - intros i. rewrite F2, N.bits_0. cbn [orb]. rewrite existsb_exists. apply neg_bits_denote.
  - rewrite F3. destruct (last_some_split seg_dom None parts) as [[E N]|(a & s & b & x & E & Gs & L & N)].
    + rewrite E. intros s I. apply N in I. unfold seg_dom in I.
      apply (seg_value (B "domain=") s); [discriminate|discriminate|].
      destruct (prefixb (B "domain=") (snd (seg_split s))); [discriminate I|auto].
    + rewrite L. exists a, b, s. split; auto. split.
      * apply (proj1 (seg_value (B "domain=") s ltac:(discriminate) ltac:(discriminate)) x).
        unfold seg_dom in Gs. destruct (prefixb (B "domain=") _); [|discriminate Gs].
        injection Gs as <-. auto.
      * intros s' I. apply N in I. unfold seg_dom in I.
        apply (seg_value (B "domain=") s'); [discriminate|discriminate|].
        destruct (prefixb (B "domain=") (snd (seg_split s'))); [discriminate I|auto].
  - assert (forall s, seg_tag s = None -> prefixb (B "tag=") (snd (seg_split s)) = false) as K.
    { intros s H. unfold seg_tag in H. destruct (prefixb (B "domain=") _) eqn:P.
      - now apply domain_not_tag.
      - destruct (prefixb (B "tag=") _); [discriminate H|auto]. }
    destruct (last_some_split seg_tag (Some []) parts) as [[E N]|(a & s & b & x & E & Gs & L & N)].
    + right. split; [injection (eq_trans F4 E); auto|]. intros s I. apply N, K in I.
      now apply (seg_value (B "tag=") s).
    + left. pose proof (eq_trans F4 L) as F5. injection F5 as ->. exists a, b, s. split; auto. split.
      * apply (proj1 (seg_value (B "tag=") s ltac:(discriminate) ltac:(discriminate)) x).
        unfold seg_tag in Gs. destruct (prefixb (B "domain=") _); [discriminate Gs|].
        destruct (prefixb (B "tag=") _); [|discriminate Gs]. injection Gs as <-. auto.
      * intros s' I. apply N, K in I. now apply (seg_value (B "tag=") s').
Qed.

(** ** Hosts *)
Lemma trim_spec h' : (exists i, h' = i ++ B "|" /\ trim_bar h' = i) \/
  (last h' NUL <> "|"%char /\ trim_bar h' = h').
Proof.
  unfold trim_bar. destruct (ceq_spec (last h' NUL) "|") as [E|N]; [|right; auto].
  left. destruct h' as [|x h'] using rev_ind; [discriminate E|].
  rewrite last_last in E. subst x. exists h'. split; auto. now rewrite removelast_last.
Qed.

Lemma behind_line t : host_behind t (line_host t).
Proof.
  exists (host_prefix t). split; [apply body_host_exists|]. unfold line_host.
  destruct (trim_spec (host_prefix t)) as [(i & E & ->)|[N ->]]; eauto.
Qed.

Lemma behind_unique t h : host_behind t h -> h = line_host t.
Proof.
  intros (h' & BH & H). apply body_host_prefix in BH. subst h'. unfold line_host.
  destruct (trim_spec (host_prefix t)) as [(i & E & ->)|[N ->]]; destruct H as [(j & E' & ->)|[N' ->]]; auto.
  - rewrite E in E'. now apply app_inv_tail in E'.
  - exfalso. apply N'. rewrite E. apply last_last.
  - exfalso. apply N. rewrite E'. apply last_last.
Qed.

Lemma eol_line y r : line_text (y :: r) -> eol_or y = true <-> y = "$"%char.
Proof.
  intros H. apply line_text_cons in H as [(H1 & H2 & H3) _]. unfold eol_or, isEndOfLine.
  rewrite (ceq_f _ _ H1), (ceq_f _ _ H2), (ceq_f _ _ H3). cbn [orb]. rewrite orb_false_r. apply ceq_eq.
Qed.

Lemma hostonly_line t : line_text t ->
  line_hostonly t = true <-> exists h, host_behind t h /\ nothing_else t h.
Proof.
  intros Ht. destruct (line_host_prefix t) as (r & E).
  assert (skipn (length (line_host t)) t = r) as Er
    by (rewrite E at 2; now rewrite skipn_app, skipn_all, Nat.sub_diag).
  assert (line_text r) as Hr by (rewrite E in Ht; now apply line_text_app in Ht as [_ Ht]).
  assert ((exists h, host_behind t h /\ nothing_else t h) <-> nothing_else t (line_host t)) as ->.
  { split; [intros (h & H1 & H2)|intros H].
    - apply behind_unique in H1. now subst h.
    - exists (line_host t). split; auto. apply behind_line. }
  assert (nothing_else t (line_host t) <->
          exists q, (r = q \/ r = B "^" ++ q) /\ (q = [] \/ begins (B "$") q)) as ->.
  { unfold nothing_else. split; intros (q & H & Q); exists q; split; auto.
    - destruct H as [H|H]; rewrite E in H at 1; apply app_inv_head in H; auto.
    - destruct H as [<-|H]; [left; auto|right]. rewrite <- H. auto. }
  unfold line_hostonly. rewrite Er. destruct r as [|x r].
  - split; auto. intros _. exists []. auto.
  - destruct (ceq_spec x "^") as [->|N].
    + destruct r as [|y r].
      * split; auto. intros _. exists []. auto.
      * apply line_text_cons in Hr as [_ Hr]. rewrite (eol_line y r Hr). split.
        -- intros ->. exists ("$"%char :: r). split; auto. right. now exists r.
        -- intros (q & H & Q). destruct H as [H|H].
           ++ subst q. destruct Q as [Q|(z & Q)]; discriminate Q.
           ++ injection H as H. subst q. destruct Q as [Q|(z & Q)]; [discriminate Q|now injection Q].
    + rewrite (eol_line x r Hr). split.
      * intros ->. exists ("$"%char :: r). split; auto. right. now exists r.
      * intros (q & H & Q). destruct H as [H|H].
        -- subst q. destruct Q as [Q|(z & Q)]; [discriminate Q|now injection Q].
        -- injection H as H _. now elim N.
Qed.

(** ** The rule that is stored *)
Lemma rbar_spec body f :
  exists r : bool, rbar body f = (if r then add_type f FTRightAnchored else f) /\ (r = true <-> In "|"%char body).
Proof.
  exists (existsb (fun c => ceq c "|") body). split; [reflexivity|].
  rewrite existsb_exists. split.
  - intros (c & I & E). apply ceq_eq in E. now subst c.
  - intros I. exists "|"%char. auto.
Qed.

Lemma setr_fields pres f x d :
  let g := set_data (setr pres f x) d in
  f_type g = f_type f /\ f_opt g = f_opt f /\ f_anti g = f_anti f /\ f_data g = Some (d, [NUL]) /\
  f_dom g = f_dom f /\ f_tag g = f_tag f /\ f_host g = f_host f /\
  f_rule g = if pres then Some x else f_rule f.
Proof. unfold setr. destruct pres; cbn; auto 9. Qed.

Lemma rule_agrees pres e k a t body fin x :
  line_text t ->
  agrees pres (IsRule e k a t body fin x)
    (finished pres fin (rbar body (fopen e a t)) (k ++ without_bars body) x).
Proof.
  intros Ht. destruct (rbar_spec body (fopen e a t)) as (r & -> & Hr).
  set (f := if r then add_type (fopen e a t) FTRightAnchored else fopen e a t).
  assert (f_opt f = 0%N /\ f_anti f = 0%N /\ f_data f = None /\ f_dom f = None /\ f_tag f = [] /\ f_rule f = None
          /\ host_of a t (f_host f)) as (F1 & F2 & F3 & F4 & F5 & F6 & F7).
  { unfold f, fopen. destruct r, e, a; cbn [host_of]; try (repeat split; reflexivity);
      destruct (line_hostonly t); repeat split; exists (line_host t); (split; [apply behind_line|reflexivity]). }
  assert (has (f_type f) FTException = e /\
       has (f_type f) FTLeftAnchored = (match a with LeftBar => true | _ => false end) /\
       has (f_type f) FTHostAnchored = (match a with HostBars => true | _ => false end) /\
       (has (f_type f) FTRightAnchored = true <-> In "|"%char body) /\
       (has (f_type f) FTHostOnly = true <->
        a = HostBars /\ exists h, host_behind t h /\ nothing_else t h) /\
       forall m, In m [FTRegex; FTElementHiding; FTElementHidingException; FTHTMLFiltering;
                       FTEmpty; FTComment] -> has (f_type f) m = false) as FT.
  { rewrite <- Hr, <- (hostonly_line t Ht). unfold f, fopen.
    assert (forall b m, (In m [FTRegex; FTElementHiding; FTElementHidingException; FTHTMLFiltering;
                       FTEmpty; FTComment]) ->
       forallb (fun m => negb (has b m)) [FTRegex; FTElementHiding; FTElementHidingException; FTHTMLFiltering;
                       FTEmpty; FTComment] = true -> has b m = false) as K.
    { intros b m I H. rewrite forallb_forall in H. apply H in I. now destruct (has b m). }
    destruct r, e, a; try destruct (line_hostonly t);
      (repeat split; try reflexivity; try discriminate; try (intros [? ?]; discriminate);
       intros m I; apply K; auto; reflexivity). }
  destruct fin as [|o|kind s]; cbn [agrees finished].
  - destruct (setr_fields pres f x (k ++ without_bars body)) as (-> & G2 & G3 & -> & G5 & G6 & -> & ->).
    unfold no_options. rewrite G2, G3, G5, G6, F1, F2, F4, F5, F6. auto 9.
  - set (g := fold_left parseOption _ _).
    destruct (setr_fields pres g x (k ++ without_bars body)) as (-> & G2 & G3 & -> & G5 & G6 & -> & ->).
    destruct (options_frame (split_on "," o)
       (mkF (f_type f) 0 0 (f_data f) (f_dom f) (f_tag f) (f_host f) (f_rule f))) as (O1 & O2 & O3 & O4).
    fold g in O1, O2, O3, O4. cbn [f_type f_data f_host f_rule] in *.
    rewrite O1, O3, O4, F6. split; auto. split; auto. split; auto. split; auto.
    exists (split_on "," o). split; [apply split_cut|].
    unfold has_options. rewrite G2, G3, G5, G6. apply options_read; auto.
  - set (g := set_type (take_domains f (k ++ without_bars body)) kind).
    destruct (setr_fields pres g (if N.eqb kind FTHTMLFiltering then x else firstn (length x - 2) x) s)
      as (-> & G2 & G3 & -> & -> & G6 & -> & ->).
    unfold no_options. rewrite G2, G3, G6. unfold g, take_domains.
    destruct (k ++ without_bars body) as [|z d]; cbn [set_type set_dom f_type f_opt f_anti f_tag f_dom f_host f_rule];
      rewrite ?F1, ?F2, ?F4, ?F5, ?F6; auto 9.
Qed.

(** ** Every line has a reading *)
Lemma split_while (P : ascii -> bool) (s : bytes) :
  exists a b, s = a ++ b /\ (forall c, In c a -> P c = true) /\ forall c r, b = c :: r -> P c = false.
Proof.
  induction s as [|c s IH].
  - exists [], []. split; auto. split; [easy|discriminate].
  - destruct (P c) eqn:E.
    + destruct IH as (a & b & -> & H1 & H2). exists (c :: a), b. split; auto. split; auto.
      intros x [<-|I]; auto.
    + exists [], (c :: s). split; auto. split; [easy|]. now intros x r [= <- _].
Qed.

Lemma split_marks n : forall x : bytes, length x <= n -> begins_not blank x ->
  exists a y, marks a /\ x = a ++ y /\ begins_not blank y /\
    (begins_not (fun c => c = "@"%char) y \/
     exists m t, y = B "@" ++ m ++ t /\ (forall c, In c m -> filler c) /\
       begins_not (fun c => filler c \/ c = "@"%char) t).
Proof.
  induction n as [|n IH]; intros x Ln Nb.
  - destruct x; [|cbn in Ln; lia]. exists [], []. split; [constructor|]. split; auto.
    split; [discriminate|]. left. discriminate.
  - destruct x as [|c x].
    { exists [], []. split; [constructor|]. split; auto. split; [discriminate|]. left. discriminate. }
    destruct (ascii_dec c "@") as [->|N].
    2:{ exists [], (c :: x). split; [constructor|]. split; auto. split; auto. left. now intros ? ? [= <- _]. }
    destruct (split_while fillerb x) as (m & t & -> & Hm & Ht).
    assert (forall c, In c m -> filler c) as Hm' by (intros c I; now apply fillerb_ok, Hm).
    destruct t as [|c t].
    { exists [], ("@"%char :: m ++ []). split; [constructor|]. split; auto. split; [now intros ? ? [= <- _] [|]|].
      right. exists m, []. split; auto. split; auto. discriminate. }
    assert (~ filler c) as Nc by (intros F; apply fillerb_ok in F; rewrite (Ht c t eq_refl) in F; discriminate).
    destruct (ascii_dec c "@") as [->|Na].
    2:{ exists [], ("@"%char :: m ++ c :: t). split; [constructor|]. split; auto. split; [now intros ? ? [= <- _] [|]|].
        right. exists m, (c :: t). split; auto. split; auto. intros ? ? [= <- _] [F|F]; auto. }
    destruct (split_while blankb t) as (w & x & -> & Hw & Hx).
    destruct (IH x) as (a & y & Ma & -> & Nby & D).
    { cbn [length] in Ln. rewrite app_length in Ln. cbn [length] in Ln. rewrite app_length in Ln. lia. }
    { intros c r E F. apply blankb_ok in F. rewrite (Hx c r E) in F. discriminate. }
    exists ("@"%char :: m ++ "@"%char :: w ++ a), y. split.
    { constructor; auto. intros c I. now apply blankb_ok, Hw. }
    split; [cbn [app]; repeat (rewrite <- app_assoc; cbn [app]); reflexivity|]. auto.
Qed.

Lemma contents_exist t : exists body e, contents t body e.
Proof.
  induction t as [|c r IH].
  { exists [], AtEnd, []. split; [constructor|]. split; auto.
    intros x y E. symmetry in E. now apply app_eq_nil in E as [_ ->]. }
  assert (forall w e, finish_text e w -> c :: r = w -> exists body e, contents (c :: r) body e) as Hd.
  { intros w e F E. exists [], e, w. split; auto. split; auto.
    intros x y E'. symmetry in E'. now apply app_eq_nil in E' as [_ ->]. }
  assert ((c = "$"%char \/ (c = "#"%char /\ exists d s, r = d :: s /\ (d = "#"%char \/ d = "@"%char))) \/
          (c <> "$"%char /\ forall d s, c = "#"%char -> r = d :: s -> d <> "#"%char /\ d <> "@"%char))
    as [[->|(-> & d & s & -> & D)]|[N1 N2]].
  { destruct (ascii_dec c "$") as [->|N1]; auto. destruct (ascii_dec c "#") as [->|N2].
    2:{ right. split; [exact N1|]. intros ? ? E. now elim N2. }
    destruct r as [|d s]; [right; split; auto; discriminate|].
    destruct (ascii_dec d "#") as [->|N3]; [left; right; eauto 6|].
    destruct (ascii_dec d "@") as [->|N4]; [left; right; eauto 6|].
    right. split; auto. now intros ? ? _ [= <- _]. }
  - destruct r as [|d s].
    { apply (Hd (B "$" ++ []) (WithOptions [])); auto. constructor. discriminate. }
    destruct (ascii_dec d "$") as [->|N].
    + apply (Hd (B "$$" ++ s) (WithSelector FTHTMLFiltering s)); auto. constructor.
    + apply (Hd (B "$" ++ d :: s) (WithOptions (d :: s))); auto. constructor. now intros ? ? [= <- _].
  - destruct D as [-> | ->].
    + apply (Hd (B "##" ++ s) (WithSelector FTElementHiding s)); auto. constructor.
    + apply (Hd (B "#@" ++ s) (WithSelector FTElementHidingException s)); auto. constructor.
  - clear Hd. destruct IH as (body & e & w & F & -> & M). exists (c :: body), e, w.
    split; auto. split; auto. intros [|x0 x] y E Ny.
    + cbn [app] in E. subst y. cbn [app]. repeat split; intros (z & Hz); injection Hz as -> Hz.
      * now apply N1.
      * destruct (N2 "#"%char z eq_refl Hz) as [K _]. now apply K.
      * destruct (N2 "@"%char z eq_refl Hz) as [_ K]. now apply K.
    + injection E as _ E. exact (M x y E Ny).
Qed.

Lemma comment_dec s : comment_text s \/ ~ comment_text s.
Proof.
  unfold comment_text. destruct s as [|c s]; [auto|].
  destruct (ascii_dec c "!") as [->|N1]; [left; eauto|].
  destruct (ascii_dec c "[") as [->|N2]; [left; eauto 6|].
  assert ((exists r, c :: s = "#"%char :: " "%char :: r) \/ ~ (exists r, c :: s = "#"%char :: " "%char :: r)) as [H|H].
  { destruct (ascii_dec c "#") as [->|N3]; [|right; intros (r & E); injection E as E _; now apply N3].
    destruct s as [|d s]; [right; now intros (r & [=])|].
    destruct (ascii_dec d " ") as [->|N4]; [left; eauto|].
    right. intros (r & E). injection E as E _. now apply N4. }
  - left. auto.
  - right. intros [E|[(r & E)|[(r & E)|E]]]; auto; [discriminate|injection E as E _..]; auto.
Qed.

Theorem reading_exists l : exists m, reads l m.
Proof.
  assert (regex_line l \/ ~ regex_line l) as [(L & a & S)|Nr].
  { destruct (ascii_dec (last l NUL) "/") as [La|La].
    2:{ right. intros (_ & a & S & _). now apply La. }
    destruct (Nat.le_gt_cases (length l) 1) as [L|L].
    { right. intros (L' & _). lia. }
    destruct (scan FPStart l 0) as [i|] eqn:R.
    - left. destruct (scan_slashed l i La R) as (a & S & _). split; eauto.
    - right. intros (_ & a & S). rewrite (slashed_scan l a S) in R. discriminate R. }
  { eexists. exact (reads_expression l a L S). }
  destruct (split_while blankb l) as (b & x & El & Hb & Hx).
  assert (forall c, In c b -> blank c) as Hb' by (intros c I; now apply blankb_ok, Hb).
  assert (begins_not blank x) as Nx.
  { intros c r E F. apply blankb_ok in F. rewrite (Hx c r E) in F. discriminate. }
  destruct x as [|c0 x0] eqn:Ex.
  { exists IsEmpty. apply reads_empty. rewrite El, app_nil_r. auto. }
  rewrite <- Ex in *. assert (x <> []) as Nex by (rewrite Ex; discriminate). clear Ex.
  destruct (split_marks (length x) x (le_n _) Nx) as (a & y & Ma & -> & Nby & D).
  assert (forall exc k an t, opening (a ++ y) exc k an t -> exists m, reads l m) as Rule.
  { intros exc k an t O. destruct (contents_exist t) as (body & e & C).
    eexists. exact (reads_line l b (a ++ y) exc k an t body e Hb' El Nr O C). }
  destruct D as [Na|(m & t & -> & Hm & Ht)]; [|exact (Rule _ _ _ _ (op_half a m t Ma Hm Ht))].
  destruct y as [|c y].
  { refine (Rule _ _ _ _ (op_plain a [] Ma _ _ _)); [|discriminate|easy].
    intros ->. now elim Nex. }
  destruct (ascii_dec c "|") as [->|Nbar].
  { destruct y as [|d y]; [exact (Rule _ _ _ _ (op_alone a Ma))|].
    destruct (ascii_dec d "|") as [->|Nd].
    - exact (Rule _ _ _ _ (op_host a y Ma)).
    - refine (Rule _ _ _ _ (op_left a (d :: y) Ma _ _)); [discriminate|]. now intros ? ? [= <- _]. }
  destruct (comment_dec (c :: y)) as [C|NC].
  { exists IsComment. apply (reads_comment l b a (c :: y)); auto. discriminate. }
  assert ((a = [] /\ exists o, c :: y = B "$" ++ o /\ begins_not (fun c => c = "$"%char) o) \/
          (a = [] -> c :: y <> [] /\ (begins (B "$") (c :: y) -> begins (B "$$") (c :: y)))) as [(-> & o & E & Ho)|H].
  { destruct a as [|a0 a]; [|right; discriminate].
    destruct (ascii_dec c "$") as [->|N].
    2:{ right. intros _. split; [discriminate|]. intros (z & E). injection E as E _. now elim N. }
    destruct y as [|d y].
    - left. split; auto. exists []. split; auto. discriminate.
    - destruct (ascii_dec d "$") as [->|Nd].
      + right. intros _. split; [discriminate|]. intros _. now exists y.
      + left. split; auto. exists (d :: y). split; auto. now intros ? ? [= <- _]. }
  { exists (IsOptions o). apply (reads_options l b o); auto. now rewrite El, <- E. }
  refine (Rule _ _ _ _ (op_plain a (c :: y) Ma H _ (fun _ => NC))).
  intros c1 r1 E [F|[F|F]].
  - exact (Nby c1 r1 E F).
  - exact (Na c1 r1 E F).
  - injection E as -> _. auto.
Qed.
