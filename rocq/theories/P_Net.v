(** Loading lists over the network (C110). *)
From Coq Require Import Lia Permutation.
From Verif Require Import Base Flags FilterM ClientM JsM ManyM NetM ToolM SpecNet P_Base P_Many.

Lemma first_snoc i arr j a : first_answer i (arr ++ [(j, a)]) =
  match first_answer i arr with
  | Some x => Some x
  | None => if Nat.eqb j i then Some a else None
  end.
Proof.
  unfold first_answer. induction arr as [|[k b] arr IH]; cbn [Datatypes.app find fst].
  - now destruct (Nat.eqb j i).
  - destruct (Nat.eqb k i); [reflexivity|exact IH].
Qed.

Lemma first_app i arr more a : first_answer i arr = Some a -> first_answer i (arr ++ more) = Some a.
Proof.
  unfold first_answer. induction arr as [|[k b] arr IH]; cbn [Datatypes.app find fst]; [discriminate|].
  destruct (Nat.eqb k i); auto.
Qed.

Lemma settle_cases f url a :
  (exists body, delivers a body /\ settle f url a = Fulfilled (singleListData f body)) \/
  (exists m, bad_answer url a m /\ settle f url a = Rejected m).
Proof.
  destruct a as [e|st body]; cbn [settle].
  - right. eexists. split; [constructor|reflexivity].
  - destruct (beq st (B "200")) eqn:E.
    + apply beq_eq in E. subst st. left. exists body. split; reflexivity.
    + right. eexists. split; [constructor|reflexivity].
      intros ->. rewrite (proj2 (beq_eq _ _) eq_refl) in E. discriminate.
Qed.

Lemma bad_not url a m body : bad_answer url a m -> ~ delivers a body.
Proof. intros [e|st b N]; unfold delivers; congruence. Qed.

Lemma bad_fun url a m m' : bad_answer url a m -> bad_answer url a m' -> m = m'.
Proof. intros [e|st b N]; inversion 1; reflexivity. Qed.

Definition state_of (f : option (bytes -> bytes)) (url : bytes) (o : option answer) : promise bytes :=
  match o with None => Waiting | Some a => settle f url a end.

Definition value_of (p : promise bytes) : option bytes :=
  match p with Fulfilled v => Some v | _ => None end.

Fixpoint missing {A} (l : list (option A)) : nat :=
  match l with [] => 0 | None :: l' => S (missing l') | Some _ :: l' => missing l' end.

Lemma missing_put {A} (v : A) : forall l i, nth_error l i = Some None ->
  missing l = S (missing (put i (Some v) l)).
Proof.
  induction l as [|o l IH]; intros [|i] E; cbn [nth_error put missing] in *; try discriminate.
  - injection E as ->. reflexivity.
  - destruct o; [apply (IH i E)|now rewrite (IH i E)].
Qed.

Lemma missing_none {A} : forall l : list (option A), missing l = 0 ->
  length (present l) = length l /\
  forall i v, nth_error (present l) i = Some v <-> nth_error l i = Some (Some v).
Proof.
  induction l as [|[x|] l IH]; cbn [missing present length]; intros E; try discriminate.
  - split; [reflexivity|]. intros [|i] v; cbn; easy.
  - destruct (IH E) as [L N]. split; [now rewrite L|]. intros [|i] v; cbn [nth_error]; [|apply N].
    split; congruence.
Qed.

Lemma missing_some {A} : forall l : list (option A), (forall i o, nth_error l i = Some o -> o <> None) ->
  missing l = 0.
Proof.
  induction l as [|[x|] l IH]; intros H; cbn [missing]; auto.
  - apply IH. intros i. exact (H (S i)).
  - now destruct (H 0 None eq_refl).
Qed.

Lemma missing_repeat {A} n : missing (repeat (@None A) n) = n.
Proof. induction n; cbn [repeat missing]; auto. Qed.

Record ginv (f : option (bytes -> bytes)) (urls : list bytes) (arr : list (nat * answer))
    (g : gathering) : Prop := mkGinv {
  g_each : forall i url, nth_error urls i = Some url ->
    nth_error (ga_each g) i = Some (state_of f url (first_answer i arr));
  g_values : forall i url, nth_error urls i = Some url ->
    nth_error (ga_values g) i = Some (value_of (state_of f url (first_answer i arr)));
  g_len : length (ga_values g) = length urls;
  g_left : ga_left g = missing (ga_values g);
  g_all : match ga_all g with
          | Waiting => ga_left g <> 0 /\
              forall i url a m, nth_error urls i = Some url -> first_answer i arr = Some a ->
                ~ bad_answer url a m
          | Fulfilled l => ga_left g = 0 /\ l = present (ga_values g)
          | Rejected m => first_failure urls arr m
          end
}.

Lemma first_failure_more urls arr m more : first_failure urls arr m -> first_failure urls (arr ++ more) m.
Proof.
  intros (b & i & a & c & url & -> & H). exists b, i, a, (c ++ more), url.
  split; [now rewrite <- app_assoc|exact H].
Qed.

Lemma gather_inv f urls : ginv f urls [] (gather (length urls)).
Proof.
  assert (R : forall A (x : A) i url, nth_error urls i = Some url ->
            nth_error (repeat x (length urls)) i = Some x).
  { intros A x. induction urls as [|u us IH]; intros [|i] url; cbn; try discriminate; auto.
    apply IH. }
  split; cbn [gather ga_each ga_values ga_left ga_all].
  - intros i url E. apply (R _ _ i url E).
  - intros i url E. apply (R _ _ i url E).
  - apply repeat_length.
  - symmetry. apply missing_repeat.
  - destruct (Nat.eqb_spec (length urls) 0) as [E|E].
    + rewrite E. split; reflexivity.
    + split; [exact E|]. intros; discriminate.
Qed.

Lemma delivered_value f url a v : value_of (settle f url a) = Some v ->
  exists body, delivers a body /\ v = singleListData f body.
Proof.
  destruct (settle_cases f url a) as [(b & D & E)|(m & D & E)]; rewrite E; cbn [value_of]; [|discriminate].
  intros [= <-]. eauto.
Qed.

Lemma arrive_inv f urls arr g x : ginv f urls arr g -> ginv f urls (arr ++ [x]) (arrive f urls g x).
Proof.
  intros V. destruct x as [i a]. cbn [arrive].
  assert (Same : (nth_error urls i = None \/ exists b, first_answer i arr = Some b) ->
                 ginv f urls (arr ++ [(i, a)]) g).
  { intros H.
    assert (Q : forall j url, nth_error urls j = Some url ->
              first_answer j (arr ++ [(i, a)]) = first_answer j arr).
    { intros j url E. rewrite first_snoc. destruct (first_answer j arr) eqn:Ej; [reflexivity|].
      destruct (Nat.eqb_spec i j); [subst j|reflexivity]. destruct H as [H|[b H]]; congruence. }
    destruct V as [V1 V2 V3 V4 V5]. split; auto.
    - intros j url E. rewrite (Q j url E). now apply V1.
    - intros j url E. rewrite (Q j url E). now apply V2.
    - destruct (ga_all g) as [|l|m]; auto.
      + split; [apply V5|]. intros j url b m E Ej. rewrite (Q j url E) in Ej.
        exact (proj2 V5 j url b m E Ej).
      + now apply first_failure_more. }
  destruct (nth_error urls i) as [url|] eqn:Eu; [|apply Same; now left].
  rewrite (g_each _ _ _ _ V i url Eu).
  destruct (first_answer i arr) as [b|] eqn:Ei.
  - replace (match state_of f url (Some b) with Waiting => _ | _ => g end) with g.
    + apply Same. right. eauto.
    + cbn [state_of]. destruct (settle_cases f url b) as [(w & D & ->)|(m & D & ->)]; reflexivity.
  - cbn [state_of]. clear Same. destruct V as [V1 V2 V3 V4 V5].
    assert (Q : forall j, first_answer j (arr ++ [(i, a)]) =
              if Nat.eqb j i then Some a else first_answer j arr).
    { intros j. rewrite first_snoc. destruct (Nat.eqb_spec j i) as [->|N].
      - rewrite Ei. now rewrite Nat.eqb_refl.
      - rewrite (proj2 (Nat.eqb_neq i j)) by congruence. now destruct (first_answer j arr). }
    assert (Each : forall p, settle f url a = p -> forall j u, nth_error urls j = Some u ->
              nth_error (put i p (ga_each g)) j = Some (state_of f u (first_answer j (arr ++ [(i, a)])))).
    { intros p Ep j u E. rewrite Q. destruct (Nat.eqb_spec j i) as [->|N].
      - rewrite (put_same _ _ _ _ (V1 i url Eu)). cbn [state_of]. congruence.
      - rewrite put_other by congruence. now apply V1. }
    pose proof (V2 i url Eu) as Vi. rewrite Ei in Vi. cbn [state_of value_of] in Vi.
    destruct (settle_cases f url a) as [(body & D & Es)|(m & D & Es)].
    + rewrite Es. pose proof (missing_put (singleListData f body) _ _ Vi) as M.
      assert (Values : forall j u, nth_error urls j = Some u ->
        nth_error (put i (Some (singleListData f body)) (ga_values g)) j =
        Some (value_of (state_of f u (first_answer j (arr ++ [(i, a)]))))).
      { intros j u E. rewrite Q. destruct (Nat.eqb_spec j i) as [->|N].
        - rewrite (put_same _ _ _ _ Vi). assert (u = url) as -> by congruence.
          cbn [state_of]. rewrite Es. reflexivity.
        - rewrite put_other by congruence. now apply V2. }
      split; cbn [ga_each ga_values ga_left ga_all]; auto.
      * now rewrite put_length.
      * rewrite V4, M. lia.
      * destruct (ga_all g) as [|l|m] eqn:Ea; cbn [settle_all].
        -- destruct (Nat.eqb_spec (ga_left g - 1) 0) as [Z|Z].
           ++ split; [exact Z|reflexivity].
           ++ split; [exact Z|]. intros j u b m' E. rewrite Q.
              destruct (Nat.eqb_spec j i) as [->|N].
              ** intros [= <-] K. exact (bad_not _ _ _ _ K D).
              ** apply (proj2 V5 j u b m' E).
        -- exfalso. destruct V5 as [Z _]. rewrite V4, M in Z. discriminate.
        -- destruct (Nat.eqb (ga_left g - 1) 0); now apply first_failure_more.
    + rewrite Es.
      split; cbn [ga_each ga_values ga_left ga_all]; auto.
      * intros j u E. rewrite Q. destruct (Nat.eqb_spec j i) as [->|N]; [|now apply V2].
        rewrite Vi. assert (u = url) as -> by congruence. cbn [state_of]. rewrite Es. reflexivity.
      * destruct (ga_all g) as [|l|m'] eqn:Ea; cbn [settle_all].
        -- exists arr, i, a, [], url. split; [reflexivity|]. split; [exact Eu|]. split; [exact Ei|].
           split; [exact D|]. intros j b Lj Ej.
           destruct (nth_error urls j) as [u|] eqn:E; [|apply nth_error_None in E; lia].
           destruct (settle_cases f u b) as [(w & Dw & _)|(m' & Dm & _)]; [eauto|].
           destruct (proj2 V5 j u b m' E Ej Dm).
        -- exfalso. destruct V5 as [Z _]. rewrite V4 in Z.
           rewrite (missing_put m _ _ Vi) in Z. discriminate.
        -- now apply first_failure_more.
Qed.

Lemma arrive_all f urls arr : forall g pre, ginv f urls pre g ->
  ginv f urls (pre ++ arr) (fold_left (arrive f urls) arr g).
Proof.
  induction arr as [|x arr IH]; intros g pre V; cbn [fold_left].
  - now rewrite app_nil_r.
  - replace (pre ++ x :: arr) with ((pre ++ [x]) ++ arr) by (now rewrite <- app_assoc).
    apply IH. now apply arrive_inv.
Qed.

Lemma failure_seen urls arr m : first_failure urls arr m ->
  exists i url a, nth_error urls i = Some url /\ first_answer i arr = Some a /\ bad_answer url a m.
Proof.
  intros (b & i & a & c & url & -> & U & F & K & _). exists i, url, a. repeat split; auto.
  replace (b ++ (i, a) :: c) with ((b ++ [(i, a)]) ++ c) by (now rewrite <- app_assoc).
  apply first_app. rewrite first_snoc, F. now rewrite Nat.eqb_refl.
Qed.

Lemma failure_unique urls arr m m' : first_failure urls arr m -> first_failure urls arr m' -> m = m'.
Proof.
  assert (W : forall b i a c url b' i' a' c' url' m m',
    b ++ (i, a) :: c = b' ++ (i', a') :: c' ->
    nth_error urls i = Some url -> first_answer i b = None -> bad_answer url a m ->
    nth_error urls i' = Some url' -> bad_answer url' a' m' ->
    (forall j x, j < length urls -> first_answer j b' = Some x -> exists body, delivers x body) ->
    length b <= length b' -> m = m').
  { intros b. induction b as [|y b IH] using rev_ind; clear.
    - intros i a c url b' i' a' c' url' m m' E U F K U' K' G _.
      destruct b' as [|z b']; cbn [Datatypes.app] in E.
      + injection E as -> -> ->. assert (url' = url) as -> by congruence. now apply (bad_fun url a').
      + injection E as <- ->. destruct (G i a) as (body & D).
        * apply nth_error_Some. congruence.
        * unfold first_answer. cbn [find fst]. now rewrite Nat.eqb_refl.
        * destruct (bad_not _ _ _ _ K D).
    - intros i a c url b' i' a' c' url' m m' E U F K U' K' G L.
      assert (S : exists r, b' = (b ++ [y]) ++ r /\ (r = [] \/ exists r', r = (i, a) :: r')).
      { clear -E L. revert b' E L. generalize (b ++ [y]) as q.
        induction q as [|z q IH]; intros b' E L.
        - exists b'. split; [reflexivity|]. destruct b' as [|w b']; [auto|]. right.
          cbn in E. injection E as <- _. eauto.
        - destruct b' as [|w b']; [cbn in L; lia|]. cbn in E, L. injection E as -> E.
          destruct (IH b' E ltac:(lia)) as (r & -> & H). exists r. auto. }
      destruct S as (r & -> & [->|(r' & ->)]).
      + rewrite app_nil_r in E. apply app_inv_head in E. injection E as -> -> ->.
        assert (url' = url) as -> by congruence. now apply (bad_fun url a').
      + destruct (G i a) as (body & D).
        * apply nth_error_Some. congruence.
        * replace ((b ++ [y]) ++ (i, a) :: r') with (((b ++ [y]) ++ [(i, a)]) ++ r')
            by (now rewrite <- app_assoc).
          apply first_app. rewrite first_snoc, F. now rewrite Nat.eqb_refl.
        * destruct (bad_not _ _ _ _ K D). }
  intros (b & i & a & c & url & E & U & F & K & G) (b' & i' & a' & c' & url' & E' & U' & F' & K' & G').
  destruct (Nat.le_ge_cases (length b) (length b')) as [L|L].
  - eapply (W b i a c url b' i' a' c' url'); eauto. congruence.
  - symmetry. eapply (W b' i' a' c' url' b i a c url); eauto. congruence.
Qed.

Lemma present_delivered f urls arr g : ginv f urls arr g -> ga_left g = 0 ->
  exists bodies, all_delivered (length urls) arr bodies /\
    present (ga_values g) = map (singleListData f) bodies.
Proof.
  intros [V1 V2 V3 V4 V5] Z. rewrite V4 in Z. destruct (missing_none _ Z) as [L N].
  assert (K : forall i v, nth_error (present (ga_values g)) i = Some v ->
     exists a body, first_answer i arr = Some a /\ delivers a body /\ v = singleListData f body).
  { intros i v E. assert (Li : i < length urls).
    { rewrite <- V3, <- L. apply nth_error_Some. congruence. }
    destruct (nth_error urls i) as [url|] eqn:Eu; [|apply nth_error_None in Eu; lia].
    apply N in E. rewrite (V2 i url Eu) in E.
    destruct (first_answer i arr) as [a|]; cbn [state_of value_of] in E; [|discriminate].
    injection E as E. destruct (delivered_value f url a v E) as (body & D & ->). eauto. }
  rewrite V3 in L. unfold all_delivered. rewrite <- L. clear -K. 
  assert (W : forall l n, (forall i v, nth_error l i = Some v ->
     exists a body, first_answer (n + i) arr = Some a /\ delivers a body /\ v = singleListData f body) ->
     exists bodies, (length bodies = length l /\
       forall i b, nth_error bodies i = Some b ->
         exists a, first_answer (n + i) arr = Some a /\ delivers a b) /\
       l = map (singleListData f) bodies).
  { induction l as [|v l IH]; intros n H.
    - exists []. repeat split. intros [|i]; discriminate.
    - destruct (H 0 v eq_refl) as (a & body & Ha & D & ->). rewrite Nat.add_0_r in Ha.
      destruct (IH (S n)) as (bs & [Lb Hb] & ->).
      + intros i w E. destruct (H (S i) w E) as (a' & b' & X). exists a', b'.
        now rewrite Nat.add_succ_r in X.
      + exists (body :: bs). split; [|reflexivity]. split; [cbn; now rewrite Lb, map_length|].
        intros [|i] b E; cbn in E.
        * injection E as <-. rewrite Nat.add_0_r. eauto.
        * rewrite Nat.add_succ_r. exact (Hb i b E). }
  destruct (W _ 0 K) as (bs & [Lb Hb] & E). exists bs. repeat split; auto.
Qed.

Lemma delivered_unique n arr bs bs' : all_delivered n arr bs -> all_delivered n arr bs' -> bs = bs'.
Proof.
  intros [L H] [L' H'].
  assert (Q : forall i, nth_error bs i = nth_error bs' i).
  { intros i. destruct (nth_error bs i) as [b|] eqn:E.
    - destruct (nth_error bs' i) as [b'|] eqn:E'; [|apply nth_error_None in E';
        assert (i < length bs) by (apply nth_error_Some; congruence); lia].
      destruct (H i b E) as (a & F & D). destruct (H' i b' E') as (a' & F' & D').
      unfold delivers in *. congruence.
    - apply nth_error_None in E. symmetry. apply nth_error_None. lia. }
  clear -Q. revert bs' Q. induction bs as [|b bs IH]; intros [|b' bs'] Q; auto.
  - discriminate (Q 0).
  - discriminate (Q 0).
  - injection (Q 0) as ->. f_equal. apply IH. intros i. exact (Q (S i)).
Qed.

Lemma load_exactly E keep f urls arr :
  (forall r, loadURLs E keep f urls arr = Fulfilled r <->
     exists bodies, all_delivered (length urls) arr bodies /\
       r = clientFromStrings E keep [listURLsText f bodies]) /\
  (forall m, loadURLs E keep f urls arr = Rejected m <->
     exists why, first_failure urls arr why /\
       m = B "getSingleListDataFromSingleURL error: Error: " ++ why).
Proof.
  pose proof (arrive_all f urls arr _ [] (gather_inv f urls)) as V. cbn [Datatypes.app] in V.
  unfold loadURLs. remember (fold_left (arrive f urls) arr (gather (length urls))) as g eqn:Eg. clear Eg.
  assert (A1 : forall bodies, all_delivered (length urls) arr bodies -> ga_left g = 0).
  { intros bs [L H]. rewrite (g_left _ _ _ _ V). apply missing_some. intros i o Eo.
    assert (Li : i < length urls).
    { rewrite <- (g_len _ _ _ _ V). apply nth_error_Some. congruence. }
    destruct (nth_error urls i) as [url|] eqn:Eu; [|apply nth_error_None in Eu; lia].
    destruct (nth_error bs i) as [b|] eqn:Eb; [|apply nth_error_None in Eb; lia].
    destruct (H i b Eb) as (a & F & D). rewrite (g_values _ _ _ _ V i url Eu), F in Eo.
    injection Eo as <-. unfold delivers in D. subst a. cbn. discriminate. }
  assert (A2 : forall m, first_failure urls arr m -> ga_left g <> 0).
  { intros m F Z. destruct (failure_seen _ _ _ F) as (i & url & a & Eu & Fa & K).
    destruct (present_delivered _ _ _ _ V Z) as (bs & [L H] & _).
    destruct (nth_error bs i) as [b|] eqn:Eb.
    - destruct (H i b Eb) as (a' & Fa' & D). assert (a' = a) as -> by congruence.
      exact (bad_not _ _ _ _ K D).
    - apply nth_error_None in Eb. assert (i < length urls) by (apply nth_error_Some; congruence). lia. }
  pose proof (g_all _ _ _ _ V) as G. destruct (ga_all g) as [|l|m0].
  - destruct G as [Z N]. split; intros x; (split; [discriminate|]).
    + intros (bs & D & _). destruct (Z (A1 bs D)).
    + intros (why & F & _). exfalso. destruct (failure_seen _ _ _ F) as (i & url & a & Eu & Fa & K).
      exact (N i url a why Eu Fa K).
  - destruct G as [Z ->]. destruct (present_delivered _ _ _ _ V Z) as (bs & D & ->). split; intros x.
    + fold (listURLsText f bs). split.
      * intros [= <-]. eauto.
      * intros (bs' & D' & ->). now rewrite (delivered_unique _ _ _ _ D D').
    + split; [discriminate|]. intros (why & F & _). destruct (A2 why F Z).
  - split; intros x.
    + split; [discriminate|]. intros (bs & D & _). destruct (A2 m0 G (A1 bs D)).
    + split.
      * intros [= <-]. eauto.
      * intros (why & F & ->). now rewrite (failure_unique _ _ _ _ G F).
Qed.

(** ** The order of arrival *)

Lemma first_in i a arr : answered_once arr -> (first_answer i arr = Some a <-> In (i, a) arr).
Proof.
  unfold answered_once, first_answer. induction arr as [|[k b] arr IH]; cbn [map find fst In]; intros D.
  - cbn. easy.
  - inversion_clear D. destruct (Nat.eqb_spec k i) as [->|N]; cbn [option_map snd].
    + split.
      * intros [= ->]. now left.
      * intros [[= ->]|I0]; [reflexivity|]. destruct H. apply in_map_iff. now exists (i, a).
    + rewrite IH by assumption. split; [now right|]. intros [[= -> _]|I0]; [contradiction|exact I0].
Qed.

Lemma order_free E keep f urls arr arr' : Permutation arr arr' -> answered_once arr ->
  (forall r, loadURLs E keep f urls arr = Fulfilled r <-> loadURLs E keep f urls arr' = Fulfilled r) /\
  (loadURLs E keep f urls arr = Waiting <-> loadURLs E keep f urls arr' = Waiting) /\
  ((exists m, loadURLs E keep f urls arr = Rejected m) <->
   (exists m, loadURLs E keep f urls arr' = Rejected m)).
Proof.
  intros P O.
  assert (O' : answered_once arr').
  { unfold answered_once in *. eapply Permutation_NoDup; [|exact O]. now apply Permutation_map. }
  assert (Q : forall i a, first_answer i arr = Some a <-> first_answer i arr' = Some a).
  { intros i a. rewrite !first_in by assumption. split; apply Permutation_in; [exact P|].
    now apply Permutation_sym. }
  assert (Fu : forall r, loadURLs E keep f urls arr = Fulfilled r <-> loadURLs E keep f urls arr' = Fulfilled r).
  { intros r. rewrite (proj1 (load_exactly E keep f urls arr)), (proj1 (load_exactly E keep f urls arr')).
    split; intros (bs & [L H] & ->); exists bs; (split; [|reflexivity]); (split; [exact L|]);
      intros i b Eb; destruct (H i b Eb) as (a & F & D); exists a; (split; [|exact D]); now apply Q. }
  assert (Bad : forall ar ar', (forall i a, first_answer i ar = Some a <-> first_answer i ar' = Some a) ->
    (exists m, loadURLs E keep f urls ar = Rejected m) -> exists m, loadURLs E keep f urls ar' = Rejected m).
  { clear. intros ar ar' Q (m & R). apply (proj2 (load_exactly E keep f urls ar)) in R.
    destruct R as (why & F & _). destruct (failure_seen _ _ _ F) as (i & url & a & Eu & Fa & K).
    apply Q in Fa.
    pose proof (arrive_all f urls ar' _ [] (gather_inv f urls)) as V. cbn [Datatypes.app] in V.
    unfold loadURLs. destruct (ga_all (fold_left (arrive f urls) ar' (gather (length urls)))) eqn:Eg.
    - pose proof (g_all _ _ _ _ V) as G. rewrite Eg in G. destruct (proj2 G i url a why Eu Fa K).
    - pose proof (g_all _ _ _ _ V) as G. rewrite Eg in G. destruct G as [Z _].
      destruct (present_delivered _ _ _ _ V Z) as (bs & [L H] & _).
      destruct (nth_error bs i) as [b|] eqn:Eb.
      + destruct (H i b Eb) as (a' & Fa' & D). assert (a' = a) as -> by congruence.
        destruct (bad_not _ _ _ _ K D).
      + apply nth_error_None in Eb. assert (i < length urls) by (apply nth_error_Some; congruence). lia.
    - eauto. }
  assert (Re : (exists m, loadURLs E keep f urls arr = Rejected m) <->
               (exists m, loadURLs E keep f urls arr' = Rejected m)).
  { split; apply Bad; [exact Q|]. intros i a. symmetry. apply Q. }
  split; [exact Fu|]. split; [|exact Re].
  destruct (loadURLs E keep f urls arr) as [|r|m] eqn:E1;
    destruct (loadURLs E keep f urls arr') as [|r'|m'] eqn:E2; try easy.
  - pose proof (proj2 (Fu r') eq_refl). discriminate.
  - destruct (proj2 Re (ex_intro _ m' eq_refl)). discriminate.
  - pose proof (proj1 (Fu r) eq_refl). discriminate.
  - destruct (proj1 Re (ex_intro _ m eq_refl)). discriminate.
Qed.
