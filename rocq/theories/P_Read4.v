(** A line has one reading. *)
From Verif Require Import Base Flags Url Sets FilterM ParseM ClientM Spec SpecM SpecG
  P_Base P_Rx SpecLine.

Lemma front_unique (P : ascii -> Prop) b : forall b' x x',
  (forall c, In c b -> P c) -> (forall c, In c b' -> P c) ->
  begins_not P x -> begins_not P x' -> b ++ x = b' ++ x' -> b = b' /\ x = x'.
Proof.
  induction b as [|c b IH]; intros [|c' b'] x x' H H' N N' E; cbn [app] in E.
  - auto.
  - elim (N c' (b' ++ x')); auto. apply H'. cbn; auto.
  - symmetry in E. elim (N' c (b ++ x)); auto. apply H. cbn; auto.
  - injection E as <- E. destruct (IH b' x x') as [-> ->]; auto; intros; [apply H|apply H']; cbn; auto.
Qed.

(** What may follow the marks. *)
Definition stuck (y : bytes) : Prop :=
  begins_not blank y /\
  forall m z, (forall c, In c m -> filler c) -> y <> "@"%char :: m ++ "@"%char :: z.

Lemma at_filler : ~ filler "@"%char.
Proof. intros [[H|H]|[H|[H|H]]]; discriminate H. Qed.

Lemma marks_start a y : marks a -> begins_not blank y -> begins_not blank (a ++ y).
Proof.
  intros [|m w a' _ _ _] N; auto. intros c r [= <- _] [H|H]; discriminate H.
Qed.

Lemma marks_unique a : marks a -> forall a' y y',
  marks a' -> stuck y -> stuck y' -> a ++ y = a' ++ y' -> a = a' /\ y = y'.
Proof.
  induction 1 as [|m w a Hm Hw Ma IH]; intros a' y y' Ma' Sy Sy' E.
  - destruct Ma' as [|m w a' Hm Hw Ma']; [auto|].
    cbn [app] in E. destruct Sy as [_ Sy]. elim (Sy m (w ++ a' ++ y')); auto.
    rewrite E. cbn [app]. repeat (rewrite <- app_assoc; cbn [app]). reflexivity.
  - destruct Ma' as [|m' w' a' Hm' Hw' Ma'].
    { cbn [app] in E. destruct Sy' as [_ Sy']. elim (Sy' m (w ++ a ++ y)); auto.
      rewrite <- E. repeat (rewrite <- app_assoc; cbn [app]). reflexivity. }
    cbn [app] in E. injection E as E. repeat (rewrite <- app_assoc in E; cbn [app] in E).
    apply (front_unique filler) in E as [<- E]; auto;
      try (intros c r [= <- _]; apply at_filler).
    injection E as E. apply (front_unique blank) in E as [<- E]; auto.
    + destruct (IH a' y y' Ma' Sy Sy' E) as [<- <-]. auto.
    + apply marks_start; auto. apply Sy.
    + apply marks_start; auto. apply Sy'.
Qed.

Lemma stuck_head c y : ~ blank c -> c <> "@"%char -> stuck (c :: y).
Proof.
  intros N1 N2. split; [now intros ? ? [= <- _]|]. intros m z _ [= H _]. auto.
Qed.

Lemma stuck_nil : stuck [].
Proof. split; [discriminate|]. intros m z _. discriminate. Qed.

Lemma stuck_half m t :
  (forall c, In c m -> filler c) -> begins_not (fun c => filler c \/ c = "@"%char) t ->
  stuck ("@"%char :: m ++ t).
Proof.
  intros Hm Ht. split; [intros c r [= <- _] [H|H]; discriminate H|].
  intros m' z Hm' [= E]. apply (front_unique filler) in E as [_ E]; auto.
  - subst t. elim (Ht "@"%char z); auto.
  - intros c r Ec F. apply (Ht c r Ec). auto.
  - intros c r [= <- _]. apply at_filler.
Qed.

(** Behind the marks. *)
Inductive tail_of : bytes -> bytes -> anchor -> bytes -> Prop :=
| to_plain t :
    begins_not (fun c => blank c \/ c = "@"%char \/ c = "|"%char) t ->
    (t <> [] -> ~ comment_text t) -> tail_of t [] NoAnchor t
| to_half m t :
    (forall c, In c m -> filler c) -> begins_not (fun c => filler c \/ c = "@"%char) t ->
    tail_of (B "@" ++ m ++ t) m NoAnchor t
| to_alone : tail_of (B "|") [] NoAnchor []
| to_left t : t <> [] -> begins_not (fun c => c = "|"%char) t -> tail_of (B "|" ++ t) [] LeftBar t
| to_host t : tail_of (B "||" ++ t) [] HostBars t.

Lemma opening_tail x exc k an t :
  opening x exc k an t -> exists a y m, marks a /\ tail_of y m an t /\
    x = a ++ y /\ exc = nonempty a /\ k = unmarked a ++ m /\
    (a = [] -> y <> [] /\ (begins (B "$") y -> begins (B "$$") y)).
Proof.
  intros [a t' Ma Ha Ht Hc|a m t' Ma Hm Ht|a Ma|a t' Ma Nt Ht|a t' Ma].
  - exists a, t', []. rewrite app_nil_r. do 2 (split; [auto; now constructor|]). auto.
  - exists a, (B "@" ++ m ++ t'), m. do 2 (split; [auto; now constructor|]). do 3 (split; [auto|]).
    intros _. split; [discriminate|]. intros (v & E). discriminate E.
  - exists a, (B "|"), []. rewrite app_nil_r. do 2 (split; [auto; now constructor|]). do 3 (split; [auto|]).
    intros _. split; [discriminate|]. intros (v & E). discriminate E.
  - exists a, (B "|" ++ t'), []. rewrite app_nil_r. do 2 (split; [auto; now constructor|]). do 3 (split; [auto|]).
    intros _. split; [discriminate|]. intros (v & E). discriminate E.
  - exists a, (B "||" ++ t'), []. rewrite app_nil_r. do 2 (split; [auto; now constructor|]). do 3 (split; [auto|]).
    intros _. split; [discriminate|]. intros (v & E). discriminate E.
Qed.

Lemma tail_stuck y m an t : tail_of y m an t -> stuck y.
Proof.
  intros [t' Ht Hc|m' t' Hm Ht| |t' Nt Ht|t'].
  - destruct t' as [|c r]; [apply stuck_nil|]. apply stuck_head.
    + intros F. apply (Ht c r); auto.
    + intros F. apply (Ht c r); auto.
  - apply (stuck_half m' t'); auto.
  - apply stuck_head; [intros [H|H]; discriminate H|discriminate].
  - apply stuck_head; [intros [H|H]; discriminate H|discriminate].
  - apply stuck_head; [intros [H|H]; discriminate H|discriminate].
Qed.

Lemma tail_unique y m an t m' an' t' :
  tail_of y m an t -> tail_of y m' an' t' -> m = m' /\ an = an' /\ t = t'.
Proof.
  intros T. revert m' an' t'.
  assert (forall c r, c = "@"%char \/ c = "|"%char ->
    ~ begins_not (fun c => blank c \/ c = "@"%char \/ c = "|"%char) (c :: r)) as P.
  { intros c r Hc N. apply (N c r); tauto. }
  destruct T as [t Ht Hc|m t Hm Ht| |t Nt Ht|t]; intros m' an' t' T'.
  - inversion T' as [t2 Ht2 Hc2 E|m2 t2 Hm2 Ht2 E|E|t2 Nt2 Ht2 E|t2 E]; subst; auto;
      eapply P in Ht; tauto.
  - inversion T' as [t2 Ht2 Hc2 E|m2 t2 Hm2 Ht2 E|E|t2 Nt2 Ht2 E|t2 E]; subst; try discriminate.
    + eapply P in Ht2; tauto.
    + apply (front_unique filler) in E as [-> ->]; auto; intros c r Ec F; [apply (Ht2 c r Ec)|apply (Ht c r Ec)]; auto.
  - inversion T' as [t2 Ht2 Hc2 E|m2 t2 Hm2 Ht2 E|E|t2 Nt2 Ht2 E|t2 E]; subst; try discriminate; auto.
    + eapply P in Ht2; tauto.
    + now elim Nt2.
  - inversion T' as [t2 Ht2 Hc2 E|m2 t2 Hm2 Ht2 E|E|t2 Nt2 Ht2 E|t2 E]; subst; try discriminate; auto.
    + eapply P in Ht2; tauto.
    + now elim Nt.
    + elim (Ht "|"%char t'); auto.
  - inversion T' as [t2 Ht2 Hc2 E|m2 t2 Hm2 Ht2 E|E|t2 Nt2 Ht2 E|t2 E]; subst; try discriminate; auto.
    + eapply P in Ht2; tauto.
    + elim (Ht2 "|"%char t); auto.
Qed.

Lemma finish_head e w : finish_text e w ->
  w = [] \/ begins (B "$") w \/ begins (B "##") w \/ begins (B "#@") w.
Proof.
  intros [ |o _|s|s|s]; auto; right.
  - left. now exists o.
  - left. now exists ("$"%char :: s).
  - right. left. now exists s.
  - right. right. now exists s.
Qed.

Lemma finish_unique w e e' : finish_text e w -> finish_text e' w -> e = e'.
Proof.
  intros F F'. inversion F; subst; inversion F'; subst; auto.
  - match goal with H : begins_not _ _ |- _ => elim (H "$"%char s eq_refl eq_refl) end.
  - match goal with H : begins_not _ _ |- _ => elim (H "$"%char s eq_refl eq_refl) end.
Qed.

Lemma contents_unique t body e body' e' :
  contents t body e -> contents t body' e' -> body = body' /\ e = e'.
Proof.
  intros (w & F & -> & M) (w' & F' & E & M').
  assert (forall body w e body' w' e' z, finish_text e w -> finish_text e' w' ->
    (forall x y, body' = x ++ y -> y <> [] ->
      ~ begins (B "$") (y ++ w') /\ ~ begins (B "##") (y ++ w') /\ ~ begins (B "#@") (y ++ w')) ->
    body' = body ++ z -> w = z ++ w' -> z = []) as K.
  { clear. intros body w e body' w' e' z F F' M' -> ->. destruct z as [|c z]; auto. exfalso.
    destruct (M' body (c :: z) eq_refl ltac:(discriminate)) as (N1 & N2 & N3).
    apply finish_head in F as [F|[F|[F|F]]]; auto. discriminate. }
  apply app_eq_app in E as (z & [[E1 E2]|[E1 E2]]).
  - assert (z = []) as -> by (eapply (K body' w' e' body w e z); eauto).
    rewrite app_nil_r in E1. cbn [app] in E2. subst. split; auto. eapply finish_unique; eauto.
  - assert (z = []) as -> by (eapply (K body w e body' w' e' z); eauto).
    rewrite app_nil_r in E1. cbn [app] in E2. subst. split; auto. eapply finish_unique; eauto.
Qed.

(** The blanks, the marks and the rest of a line. *)
Lemma parts_unique b a y b' a' y' :
  (forall c, In c b -> blank c) -> (forall c, In c b' -> blank c) -> marks a -> marks a' ->
  stuck y -> stuck y' -> b ++ a ++ y = b' ++ a' ++ y' -> b = b' /\ a = a' /\ y = y'.
Proof.
  intros Hb Hb' Ma Ma' Sy Sy' E.
  apply (front_unique blank) in E as [<- E]; auto.
  - destruct (marks_unique a Ma a' y y') as [<- <-]; auto.
  - apply marks_start; auto. apply Sy.
  - apply marks_start; auto. apply Sy'.
Qed.

Lemma comment_stuck s : s <> [] -> comment_text s -> stuck s.
Proof.
  intros N [E|[(r & ->)|[(r & ->)|(r & ->)]]]; [now elim N|..];
    (apply stuck_head; [intros [H|H]; discriminate H|discriminate]).
Qed.

(** Every reading but the empty one has such parts. *)
Definition parted (l : bytes) (m : reading) (b a y : bytes) : Prop :=
  (forall c, In c b -> blank c) /\ marks a /\ stuck y /\ l = b ++ a ++ y /\
  (a = [] -> y <> []) /\
  match m with
  | IsEmpty => False
  | IsComment => y <> [] /\ comment_text y
  | IsExpression p => regex_line l /\ (exists r, y = "/"%char :: r) /\ p = regex_pattern l a
  | IsOptions o => a = [] /\ y = B "$" ++ o /\ begins_not (fun c => c = "$"%char) o
  | IsRule exc k an t body e x =>
      ~ regex_line l /\ exc = nonempty a /\ x = a ++ y /\
      (a = [] -> begins (B "$") y -> begins (B "$$") y) /\
      contents t body e /\ exists n, k = unmarked a ++ n /\ tail_of y n an t
  end.

Lemma reads_parted l m : reads l m -> m <> IsEmpty -> exists b a y, parted l m b a y.
Proof.
  intros [H|b a s Hb Ma Ns Hs E|a Ll Sl|b o Hb Ho E|b x exc k an t body e Hb E Nr O C] N.
  - now elim N.
  - exists b, a, s. unfold parted. auto 10 using comment_stuck.
  - pose proof Sl as (_ & b & r & Hb & Ma & E). exists b, a, ("/"%char :: r). unfold parted.
    split; auto. split; auto. split; [apply stuck_head; [intros [H|H]; discriminate H|discriminate]|].
    split; auto. split; [discriminate|]. split; [split; eauto|]. split; eauto.
  - exists b, [], (B "$" ++ o). unfold parted.
    split; auto. split; [constructor|]. split; [apply stuck_head; [intros [H|H]; discriminate H|discriminate]|].
    split; auto. split; [discriminate|]. auto.
  - apply opening_tail in O as (a & y & n & Ma & T & -> & -> & -> & Ha).
    exists b, a, y. unfold parted. split; auto. split; auto. split; [eapply tail_stuck; eauto|].
    split; auto. split; [intros Ea; now apply Ha|]. split; auto. split; auto. split; auto.
    split; [intros Ea; now apply Ha|]. split; auto. eauto.
Qed.

Lemma tail_comment y n an t : tail_of y n an t -> y <> [] -> comment_text y -> False.
Proof.
  intros [t' Ht Hc|m' t' Hm Ht| |t' Nt Ht|t'] Ny Hy; [now apply Hc in Hy|..];
    destruct Hy as [H|[(r & H)|[(r & H)|(r & H)]]]; discriminate H.
Qed.

Lemma parted_unique l m m' b a y b' a' y' :
  parted l m b a y -> parted l m' b' a' y' -> m = m'.
Proof.
  intros (Hb & Ma & Sy & E & Ha & K) (Hb' & Ma' & Sy' & E' & Ha' & K').
  destruct (parts_unique b a y b' a' y') as (<- & <- & <-); auto; [congruence|].
  destruct m as [| |p|o|exc k an t body e x], m' as [| |p'|o'|exc' k' an' t' body' e' x'];
    try easy.
  - destruct K as [_ K], K' as (_ & (r & ->) & _). destruct K as [H|[(q & H)|[(q & H)|(q & H)]]]; discriminate H.
  - destruct K as [_ K], K' as (_ & -> & _). destruct K as [H|[(q & H)|[(q & H)|(q & H)]]]; discriminate H.
  - destruct K as [Ny K], K' as (_ & _ & _ & _ & _ & n & _ & T). exfalso. eapply tail_comment; eauto.
  - destruct K' as [_ K'], K as (_ & (r & ->) & _). destruct K' as [H|[(q & H)|[(q & H)|(q & H)]]]; discriminate H.
  - destruct K as (_ & _ & ->), K' as (_ & _ & ->). reflexivity.
  - destruct K as (_ & (r & ->) & _), K' as (_ & [=] & _).
  - destruct K' as [_ K'], K as (_ & -> & _). destruct K' as [H|[(q & H)|[(q & H)|(q & H)]]]; discriminate H.
  - destruct K' as (_ & (r & ->) & _), K as (_ & [=] & _).
  - destruct K as (_ & -> & _), K' as (_ & E2 & _). injection E2 as ->. reflexivity.
  - destruct K as (-> & -> & Ho), K' as (_ & _ & _ & H & _).
    destruct (H eq_refl (ex_intro _ o eq_refl)) as (v & Ev). injection Ev as ->.
    elim (Ho "$"%char v); auto.
  - destruct K' as [Ny K'], K as (_ & _ & _ & _ & _ & n & _ & T). exfalso. eapply tail_comment; eauto.
  - destruct K' as (-> & -> & Ho), K as (_ & _ & _ & H & _).
    destruct (H eq_refl (ex_intro _ o' eq_refl)) as (v & Ev). injection Ev as ->.
    elim (Ho "$"%char v); auto.
  - destruct K as (_ & -> & -> & _ & C & n & -> & T), K' as (_ & -> & -> & _ & C' & n' & -> & T').
    destruct (tail_unique _ _ _ _ _ _ _ T T') as (<- & <- & <-).
    destruct (contents_unique _ _ _ _ _ C C') as (<- & <-). reflexivity.
Qed.

Lemma parted_empty l m b a y : parted l m b a y -> (forall c, In c l -> blank c) -> False.
Proof.
  intros (Hb & Ma & [Sy _] & E & Ha & _) H.
  destruct Ma as [|m' w a' _ _ _].
  - destruct y as [|c y]; [now apply Ha|]. apply (Sy c y eq_refl), H. rewrite E.
    apply in_or_app. cbn; auto.
  - assert (blank "@"%char) as [K|K] by (apply H; rewrite E; apply in_or_app; cbn; auto); discriminate K.
Qed.

Theorem reading_unique l m m' : reads l m -> reads l m' -> m = m'.
Proof.
  intros R R'.
  assert (forall m, reads l m -> m = IsEmpty \/ m <> IsEmpty) as D
    by (intros [] _; auto; right; discriminate).
  assert (forall m, reads l m -> m = IsEmpty -> forall c, In c l -> blank c) as Em
    by (intros q [ ] E2; auto; discriminate E2).
  destruct (D m R) as [->|N], (D m' R') as [->|N']; auto.
  - exfalso. apply reads_parted in R' as (b & a & y & P); auto. eapply parted_empty; eauto.
  - exfalso. apply reads_parted in R as (b & a & y & P); auto. eapply parted_empty; eauto.
  - apply reads_parted in R as (b & a & y & P); auto.
    apply reads_parted in R' as (b' & a' & y' & P'); auto.
    eapply parted_unique; eauto.
Qed.

(** For examples. *)
Fixpoint unfinished (body w : bytes) : bool :=
  match body with
  | [] => true
  | _ :: r =>
      negb (prefixb (B "$") (body ++ w)) && negb (prefixb (B "##") (body ++ w)) &&
      negb (prefixb (B "#@") (body ++ w)) && unfinished r w
  end.

Lemma contents_check body w e :
  finish_text e w -> unfinished body w = true -> contents (body ++ w) body e.
Proof.
  intros F U. exists w. split; auto. split; auto. clear F.
  assert (forall p s, negb (prefixb p s) = true -> ~ begins p s) as K.
  { intros p s H B. apply prefixb_spec in B. now rewrite B in H. }
  induction body as [|c r IH]; intros x y E Ny.
  - symmetry in E. now apply app_eq_nil in E as [_ ->].
  - cbn [unfinished] in U. rewrite !andb_true_iff in U. destruct U as [[[U1 U2] U3] U4].
    destruct x as [|x0 x]; cbn [app] in E.
    + subst y. auto using K.
    + injection E as _ E. eauto.
Qed.
