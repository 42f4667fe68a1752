From Coq Require Import Lia Permutation.
From Verif Require Import Base Flags FilterM ClientM JsM ManyM NetM ToolM
  Spec SpecM SpecC SpecS SpecJ SpecX SpecT SpecTool SpecNet P_Base P_Many P_Tool P_Net.

Lemma load_client E keep urls arr bodies r : Forall nonul bodies ->
  all_delivered (length urls) arr bodies -> loadURLs E keep None urls arr = Fulfilled r ->
  client_of E keep bodies r.
Proof.
  intros N D L. apply (proj1 (load_exactly E keep None urls arr)) in L. destruct L as (bs & D' & ->).
  rewrite <- (delivered_unique _ _ _ _ D D') in *. now apply lists_client.
Qed.

Lemma load_single E keep f url arr :
  loadURL E keep f url arr = loadURLs E keep f [url] (map (pair 0) arr).
Proof.
  unfold loadURL, loadURLs. destruct arr as [|a arr]; [reflexivity|].
  cbn [map fold_left length].
  assert (S : forall g l, nth_error (ga_each g) 0 <> Some Waiting ->
            fold_left (arrive f [url]) (map (pair 0) l) g = g).
  { intros g. induction l as [|x l IH]; intros N; [reflexivity|]. cbn [map fold_left].
    replace (arrive f [url] g (0, x)) with g; [now apply IH|]. cbn [arrive nth_error].
    cbn [nth_error] in N. destruct (ga_each g) as [|[|v|m] es]; try reflexivity. now destruct N. }
  destruct (settle_cases f url a) as [(body & D & E1)|(m & D & E1)]; rewrite E1.
  - replace (arrive f [url] (gather 1) (0, a)) with
      (mkGa [Fulfilled (singleListData f body)] [Some (singleListData f body)] 0
            (Fulfilled [singleListData f body])).
    + rewrite S by (cbn; discriminate). reflexivity.
    + cbn [arrive nth_error gather repeat ga_each]. rewrite E1. reflexivity.
  - replace (arrive f [url] (gather 1) (0, a)) with (mkGa [Rejected m] [None] 1 (Rejected m)).
    + rewrite S by (cbn; discriminate). reflexivity.
    + cbn [arrive nth_error gather repeat ga_each]. rewrite E1. reflexivity.
Qed.

(** A network that answers every address with the same thing. *)
Lemma load_web E keep f urls fetch arr r :
  (forall i url a, nth_error urls i = Some url -> first_answer i arr = Some a ->
     match fetch url with Some b => delivers a b | None => exists m, bad_answer url a m end) ->
  (forall i, i < length urls -> first_answer i arr <> None) ->
  (loadURLs E keep f urls arr = Fulfilled r <-> makeFromListURLs E keep fetch f urls = Some r).
Proof.
  intros H C. rewrite (proj1 (load_exactly E keep f urls arr)). unfold makeFromListURLs.
  assert (K : forall bs, all_delivered (length urls) arr bs <-> bodies fetch urls bs).
  { assert (W : forall us n, (forall i url a, nth_error us i = Some url -> first_answer (n + i) arr = Some a ->
       match fetch url with Some b => delivers a b | None => exists m, bad_answer url a m end) ->
       (forall i, i < length us -> first_answer (n + i) arr <> None) ->
       forall bs, (length bs = length us /\
         forall i b, nth_error bs i = Some b -> exists a, first_answer (n + i) arr = Some a /\ delivers a b)
       <-> bodies fetch us bs).
    { clear. induction us as [|u us IH]; intros n H C bs.
      - split.
        + intros [L _]. destruct bs; [constructor|discriminate].
        + intros X. inversion X. split; [reflexivity|]. intros [|i]; discriminate.
      - assert (IH' : forall bs', (length bs' = length us /\ forall i b, nth_error bs' i = Some b ->
                  exists a, first_answer (n + S i) arr = Some a /\ delivers a b) <-> bodies fetch us bs').
        { intros bs'. rewrite <- (IH (S n)).
          - split; intros [L Q]; (split; [exact L|]); intros i b Eb; destruct (Q i b Eb) as (a & Fa & D);
              exists a; (split; [|exact D]); [rewrite <- Fa|rewrite <- Fa]; f_equal; lia.
          - intros i url a Eu Fa. apply (H (S i) url a Eu). rewrite <- Fa. f_equal. lia.
          - intros i Li Fa. apply (C (S i)); [cbn; lia|]. rewrite <- Fa. f_equal. lia. }
        destruct (first_answer (n + 0) arr) as [a0|] eqn:F0; [|destruct (C 0 ltac:(cbn; lia) F0)].
        pose proof (H 0 u a0 eq_refl F0) as K0. split.
        + intros [L Q]. destruct bs as [|b bs]; [discriminate|].
          destruct (Q 0 b eq_refl) as (a & Fa & D). assert (a = a0) as -> by congruence.
          constructor.
          * destruct (fetch u) as [b'|]; [unfold delivers in *; congruence|].
            destruct K0 as (m & K0). destruct (bad_not _ _ _ _ K0 D).
          * apply IH'. split; [now injection L|]. intros i b' Eb. exact (Q (S i) b' Eb).
        + intros X. inversion X as [|? b ? bs' Fb X']; subst. apply IH' in X'. destruct X' as [L Q].
          split; [cbn; now rewrite L|]. intros [|i] b' Eb; cbn in Eb.
          * injection Eb as <-. rewrite Fb in K0. eauto.
          * exact (Q i b' Eb). }
    intros bs. apply (W urls 0 H C bs). }
  destruct (all_of_bodies fetch f urls) as [(bs & Fb & ->)|((u & I0 & N) & ->)]; cbn [option_map].
  - split.
    + intros (bs' & D & ->). apply K in D. rewrite (bodies_fun _ _ _ _ D Fb). reflexivity.
    + intros [= <-]. exists bs. split; [now apply K|reflexivity].
  - split; [|discriminate]. intros (bs & D & _). exfalso. apply K in D.
    clear -D I0 N. induction D as [|x b urls bs X F IH]; [destruct I0|].
    destruct I0 as [->|I0]; [congruence|auto].
Qed.
