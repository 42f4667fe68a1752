(** Several JavaScript objects in one process (C109). *)
From Coq Require Import Lia.
From Verif Require Import Base Flags Sets FilterM ParseM ClientM SerialM OwnM OwnT BindM ManyM HostM
  Spec SpecM SpecC SpecO SpecU SpecV SpecHost
  P_Base P_List P_Own P_Own2 P_Own3 P_Own4 P_Own5 P_OwnT P_OwnT2 P_Obj P_Many.

(** ** One object, decided from its calls *)

(** What becomes of an object with rules from [src] and, if [b], a buffer. *)
Fixpoint goes_well (src : option dshape) (es : list oevent) : Prop :=
  match es with
  | [] => True
  | OCall e :: es' =>
      match e with NParse _ => forall d, src = Some d -> textless d | _ => True end /\
      goes_well (restored_now_w src e) es'
  | OCleanup :: es' => es' = []
  end.

Definition restoresb (e : wevent) : bool := match e with NDeserialize _ => true | _ => false end.
Fixpoint leaves (b : bool) (es : list oevent) : nat :=
  match es with
  | [] => if b then 1 else 0
  | OCall e :: es' => lost_in_w e + leaves (b || restoresb e) es'
  | OCleanup :: _ => 0
  end.

Lemma goes_forms es : forall src, goes_well src es <->
  exists ws, parses_fine_w src ws /\ (closes es ws \/ left_open es ws).
Proof.
  unfold closes, left_open. induction es as [|[e|] es IH]; intros src; cbn [goes_well].
  - split; [|auto]. intros _. exists []. cbn. auto.
  - rewrite IH. split.
    + intros (H & ws & F & K). exists (e :: ws). cbn [parses_fine_w map Datatypes.app].
      split; [split; [destruct e; auto|exact F]|]. destruct K as [-> | ->]; auto.
    + intros ([|e' ws] & F & K); [destruct K as [K|K]; discriminate K|].
      cbn [parses_fine_w map Datatypes.app] in *. destruct F as [F1 F2].
      assert (e' = e) as -> by (destruct K as [K|K]; injection K; auto).
      split; [destruct e; auto|]. exists ws. split; [exact F2|].
      destruct K as [K|K]; injection K as ->; auto.
  - split.
    + intros ->. exists []. cbn. auto.
    + intros ([|e ws] & F & [K|K]); cbn in K; try discriminate K. now injection K.
Qed.

Lemma leaves_open ws : forall b, leaves b (map OCall ws) =
  lost_total_w ws + (if b || existsb restoresb ws then 1 else 0).
Proof.
  induction ws as [|e ws IH]; intros b; cbn [map leaves lost_total_w fold_right existsb].
  - now rewrite Bool.orb_false_r.
  - rewrite IH, Bool.orb_assoc. fold (lost_total_w ws). lia.
Qed.

Lemma leaves_closed ws : forall b, leaves b (map OCall ws ++ [OCleanup]) = lost_total_w ws.
Proof.
  induction ws as [|e ws IH]; intros b; cbn [map Datatypes.app leaves lost_total_w fold_right]; auto.
Qed.

Lemma restoresb_ok ws : existsb restoresb ws = true <-> Exists restores ws.
Proof.
  rewrite existsb_exists, Exists_exists.
  split; intros (e & I0 & H); exists e; (split; [exact I0|]); destruct e; cbn in *; easy.
Qed.

Lemma alone_iff es : (exists h, object_life es = Ok h) <-> goes_well None es.
Proof. rewrite object_iff, goes_forms. reflexivity. Qed.

Lemma alone_left es h : object_life es = Ok h -> length (h_live h) = leaves false es.
Proof.
  intros E. destruct (proj1 (object_iff es) (ex_intro _ h E)) as (ws & _ & [K|K]); red in K; subst es.
  - rewrite object_closed in E. rewrite leaves_closed. now apply wrapped_leak in E.
  - rewrite leaves_open. apply open_leak in E as (_ & A & B).
    destruct (existsb restoresb ws) eqn:Ex; cbn [orb].
    + apply A, restoresb_ok, Ex.
    + rewrite B; [lia|]. intros X. apply restoresb_ok in X. congruence.
Qed.

(** ** The invariant *)

Definition ownJ (c : jsobj) : list nat :=
  match c with JLive s => ownW (wr_own s) ++ ownB (wr_buf s) | _ => [] end.

(** What is known of an object: where its rules come from and whether it has a
    buffer; cleaned; taken; not there yet. *)
Inductive ghost := GLive (src : option dshape) (b : bool) | GCleaned | GTaken | GNone.

Definition okJ (c : jsobj) (g : ghost) : Prop :=
  match c, g with
  | JLive s, GLive src b =>
      (exists r, shaped (wr_own s) (cur_of r (wr_buf s))) /\ tracked (wr_own s) src /\
      (b = true <-> wr_buf s <> None)
  | JCleaned, GCleaned => True
  | JTaken, GTaken => True
  | _, _ => False
  end.

Record hinv (p : host) (g : nat -> ghost) (lost : list nat) : Prop := mkHinv {
  n_holds : holds (ho_heap p) (flat_map ownJ (ho_all p) ++ lost);
  n_ok : forall i c, nth_error (ho_all p) i = Some c -> okJ c (g i);
  n_none : forall i, length (ho_all p) <= i -> g i = GNone
}.

Definition gset (g : nat -> ghost) (i : nat) (x : ghost) (j : nat) : ghost :=
  if Nat.eqb j i then x else g j.

Definition gfine (g : ghost) (es : list oevent) : Prop :=
  match g with
  | GLive src _ => goes_well src es
  | GNone => goes_well None es
  | GCleaned => es = []
  | GTaken => True
  end.

Definition gleft (g : ghost) (es : list oevent) : nat :=
  match g with
  | GLive _ b => leaves b es
  | GNone => leaves false es
  | GCleaned | GTaken => 0
  end.

(** Seen from one object, the blocks of the others are lost. *)
Lemma hinv_inv p g lost i s src b : hinv p g lost ->
  nth_error (ho_all p) i = Some (JLive s) -> g i = GLive src b ->
  exists r R, winv (wrap_on (ho_heap p) s) r (R ++ lost) /\
    forall c, (forall x, cnt x (flat_map ownJ (put i c (ho_all p))) = cnt x (ownJ c) + cnt x R).
Proof.
  intros V E G. pose proof (n_ok _ _ _ V _ _ E) as K. rewrite G in K. destruct K as ((r & S) & _).
  destruct (put_split _ _ _ E) as (l1 & l2 & El & P).
  exists r, (flat_map ownJ l1 ++ flat_map ownJ l2). split.
  - unfold winv, wrap_on. cbn [wr_own wr_buf]. apply inv_shaped. split; [|now apply shaped_set].
    cbn [set_heap w_heap]. rewrite set_heap_ownW.
    eapply holds_eq; [|apply (n_holds _ _ _ V)]. rewrite El, flat_map_app. cbn [flat_map ownJ]. cnt.
  - intros c x. rewrite P, flat_map_app. cbn [flat_map]. rewrite !cnt_app. lia.
Qed.

Lemma live_kind p g lost i s : hinv p g lost -> nth_error (ho_all p) i = Some (JLive s) ->
  exists src b, g i = GLive src b /\ tracked (wr_own s) src /\ (b = true <-> wr_buf s <> None).
Proof.
  intros V E. pose proof (n_ok _ _ _ V _ _ E) as K. destruct (g i) as [src b| | |]; try destruct K.
  exists src, b. tauto.
Qed.

Lemma put_inv p g lost i c h x old lost' : hinv p g lost ->
  nth_error (ho_all p) i = Some old -> okJ c x ->
  holds h (flat_map ownJ (put i c (ho_all p)) ++ lost') ->
  hinv (mkHo h (put i c (ho_all p))) (gset g i x) lost'.
Proof.
  intros V E O H. split; cbn [ho_heap ho_all]; [exact H| |].
  - intros j c' Ej. unfold gset. destruct (Nat.eqb j i) eqn:Eji.
    + apply Nat.eqb_eq in Eji. subst j. rewrite (put_same _ _ _ _ E) in Ej. now injection Ej as <-.
    + apply Nat.eqb_neq in Eji. rewrite put_other in Ej by congruence. now apply (n_ok _ _ _ V).
  - intros j L. rewrite put_length in L. unfold gset. destruct (Nat.eqb j i) eqn:Eji.
    + apply Nat.eqb_eq in Eji. subst j. apply nth_error_None in L. congruence.
    + now apply (n_none _ _ _ V).
Qed.

Lemma new_inv p g lost : hinv p g lost ->
  hinv (mkHo (ho_heap p) (ho_all p ++ [JLive (mkWr (own0 (ho_heap p)) None)]))
       (gset g (length (ho_all p)) (GLive None false)) lost.
Proof.
  intros V. split; cbn [ho_heap ho_all].
  - eapply holds_eq; [|apply (n_holds _ _ _ V)]. intro x. rewrite flat_map_app.
    cbn [flat_map ownJ wr_own wr_buf].
    unfold ownW; cbn [w_arrs w_bloom w_ebloom w_host w_ehost w_gates w_bad own0].
    rewrite !ownT_none by reflexivity. cbn [ownA ownB ownG Datatypes.app]. rewrite !cnt_app, cnt_nil. lia.
  - intros j c Ej. unfold gset. destruct (Nat.lt_trichotomy j (length (ho_all p))) as [H|[H|H]].
    + rewrite nth_error_app1 in Ej by exact H. rewrite (proj2 (Nat.eqb_neq _ _)) by lia.
      now apply (n_ok _ _ _ V).
    + subst j. rewrite nth_error_app2, Nat.sub_diag in Ej by lia. injection Ej as <-.
      rewrite Nat.eqb_refl. cbn [okJ wr_own wr_buf]. split; [|split; [apply tracked0|easy]].
      exists false. split; cbn [own0 w_arrs w_host w_ehost w_gates items]; try constructor;
        intro k; rewrite tget_tall; constructor.
    + rewrite nth_error_app2 in Ej by lia. destruct (j - length (ho_all p)) as [|[|n]] eqn:Z;
        [lia|discriminate|discriminate].
  - intros j. rewrite app_length. cbn [length]. intros L. unfold gset.
    rewrite (proj2 (Nat.eqb_neq _ _)) by lia. apply (n_none _ _ _ V). lia.
Qed.

(** A call that is fine. *)
Lemma call_inv p g lost i s src b e : hinv p g lost ->
  nth_error (ho_all p) i = Some (JLive s) -> g i = GLive src b -> tracked (wr_own s) src ->
  (b = true <-> wr_buf s <> None) ->
  match e with NParse _ => ~ pointing (wr_own s) | _ => True end ->
  exists p' X, jstep p (JDo i (OCall e)) = Ok p' /\ length X = lost_in_w e /\
    length (ho_all p') = length (ho_all p) /\
    hinv p' (gset g i (GLive (restored_now_w src e) (b || restoresb e))) (X ++ lost).
Proof.
  intros V E G T B N. cbn [jstep]. rewrite E. cbn [ostep].
  destruct (hinv_inv _ _ _ _ _ _ _ V E G) as (r & R & W & I2).
  destruct (wstep_fine _ r (R ++ lost) e W) as (s' & X & Es & EX & W').
  { destruct e; auto. }
  rewrite Es. cbn [rmap bind stored heap_of]. eexists _, X. split; [reflexivity|]. split; [exact EX|].
  split; [cbn [ho_all]; apply put_length|].
  unfold winv in W'. apply inv_shaped in W'. destruct W' as [H3 S3].
  eapply put_inv; [exact V|exact E| |].
  - cbn [okJ]. split; [eauto|]. split; [eapply wstep_tracked; [exact Es|exact T]|].
    pose proof (wstep_buf _ _ _ Es) as Bf. cbn [wrap_on wr_buf] in Bf. rewrite Bf, <- B.
    rewrite Bool.orb_true_iff. destruct e; cbn; intuition congruence.
  - eapply holds_eq; [|exact H3]. intro x. rewrite !cnt_app, I2. cbn [ownJ]. rewrite !cnt_app. lia.
Qed.

Lemma cleanup_inv p g lost i s src b : hinv p g lost ->
  nth_error (ho_all p) i = Some (JLive s) -> g i = GLive src b ->
  exists p', jstep p (JDo i OCleanup) = Ok p' /\ length (ho_all p') = length (ho_all p) /\
    hinv p' (gset g i GCleaned) lost.
Proof.
  intros V E G. cbn [jstep]. rewrite E. cbn [ostep].
  destruct (hinv_inv _ _ _ _ _ _ _ V E G) as (r & R & W & I2). unfold winv in W. unfold cleanup.
  destruct (drop_buf _ _ _ _ W) as (h & -> & V1). cbn [bind].
  destruct (clear_ok _ _ _ _ V1) as (h1 & -> & H1). cbn [rmap own0 w_heap bind stored heap_of].
  eexists. split; [reflexivity|]. split; [cbn [ho_all]; apply put_length|].
  eapply put_inv; [exact V|exact E|exact I|].
  eapply holds_eq; [|exact H1]. intro x. rewrite !cnt_app, I2. cbn [ownJ]. cbn [Datatypes.app].
  rewrite ?cnt_app, ?cnt_nil. lia.
Qed.

Lemma collect_inv p g lost i s src b : hinv p g lost ->
  nth_error (ho_all p) i = Some (JLive s) -> g i = GLive src b ->
  (b = true <-> wr_buf s <> None) ->
  exists p' X, jstep p (JCollect i) = Ok p' /\ length X = leaves b [] /\
    length (ho_all p') = length (ho_all p) /\ hinv p' (gset g i GTaken) (X ++ lost).
Proof.
  intros V E G B. cbn [jstep]. rewrite E. cbn [collected].
  destruct (hinv_inv _ _ _ _ _ _ _ V E G) as (r & R & W & I2). unfold winv in W.
  destruct (clear_ok _ _ _ _ W) as (h1 & -> & H1). cbn [rmap own0 w_heap bind].
  exists (mkHo h1 (put i JTaken (ho_all p))), (ownB (wr_buf s)). split; [reflexivity|]. split.
  { cbn [leaves]. destruct b, (wr_buf s); cbn [ownB length]; auto.
    - destruct (proj1 B eq_refl). reflexivity.
    - assert (false = true) by (apply B; discriminate). discriminate. }
  split; [cbn [ho_all]; apply put_length|].
  eapply put_inv; [exact V|exact E|exact I|].
  eapply holds_eq; [|exact H1]. intro x. cbn [wrap_on wr_buf]. rewrite !cnt_app, I2. cbn [ownJ].
  rewrite cnt_nil. lia.
Qed.

Lemma collect_gone p g lost i : hinv p g lost -> nth_error (ho_all p) i = Some JCleaned ->
  exists p', jstep p (JCollect i) = Ok p' /\ length (ho_all p') = length (ho_all p) /\
    hinv p' (gset g i GTaken) lost.
Proof.
  intros V E. cbn [jstep]. rewrite E. eexists. split; [reflexivity|].
  split; [cbn [ho_all]; apply put_length|]. eapply put_inv; [exact V|exact E|exact I|].
  destruct (put_split _ _ _ E) as (l1 & l2 & El & P).
  eapply holds_eq; [|apply (n_holds _ _ _ V)]. intro x. rewrite P, El, !flat_map_app.
  cbn [flat_map ownJ]. rewrite !cnt_app. lia.
Qed.
