From Coq Require Import Lia.
From Verif Require Import Base Flags Sets FilterM ParseM ClientM OwnM Spec SpecM SpecO
  P_Base P_List P_Own P_Own2 P_Own3 P_Own4.

(** ** Rules that point into a buffer *)

Definition inner (o : fobj) : Prop := exists b, In (Inside b) (fields o).
Definition pointing (w : own) : Prop :=
  exists k o, In o (items (tget (w_arrs w) k)) /\ inner o.
Definition doomed (w : own) : Prop :=
  exists k o, In o (items (tget (w_arrs w) k)) /\ o_borrowed o = false /\ inner o.

Lemma inner_fields o o' : fields o' = fields o -> inner o -> inner o'.
Proof. intros E (b & I). exists b. now rewrite E. Qed.

Lemma destroy_inner h o : o_borrowed o = false -> inner o -> destroy h o = UB.
Proof.
  intros Bo (b & I). unfold destroy. rewrite Bo.
  destruct (free h (o_domains o)) as [h1|]; [cbn [bind]|reflexivity].
  destruct (free h1 (o_anti o)) as [h2|]; [cbn [bind]|reflexivity].
  cbn [fields In] in I.
  destruct I as [E|I]; [rewrite E; reflexivity|].
  destruct (free h2 (o_data o)) as [h3|]; [cbn [bind]|reflexivity].
  destruct I as [E|I]; [rewrite E; reflexivity|].
  destruct (free h3 (o_rule o)) as [h4|]; [cbn [bind]|reflexivity].
  destruct I as [E|I]; [rewrite E; reflexivity|].
  destruct (free h4 (o_dom o)) as [h5|]; [cbn [bind]|reflexivity].
  destruct I as [E|I]; [rewrite E; reflexivity|].
  destruct (free h5 (o_tag o)) as [h6|]; [cbn [bind]|reflexivity].
  destruct I as [E|[]]. rewrite E. reflexivity.
Qed.

Lemma foldM_ub {A B} (f : B -> A -> res B) l x : In x l -> (forall b, f b x = UB) ->
  forall b, foldM f b l = UB.
Proof.
  intros I H. induction l as [|y l IH]; [easy|]. intro b. cbn [foldM].
  destruct I as [->|I]; [now rewrite H|].
  destruct (f b y); [apply IH, I|reflexivity].
Qed.

Lemma clear_doomed w : doomed w -> oclear w = UB.
Proof.
  intros (k & o & I & Bo & N). unfold oclear, destroyTab.
  rewrite (foldM_ub _ kinds k); [reflexivity|apply kinds_all|].
  intro h. unfold destroyArr. destruct (tget (w_arrs w) k) as [[b l]|]; [|destruct I].
  rewrite (foldM_ub _ l o); [reflexivity|exact I|]. intro. now apply destroy_inner.
Qed.

(** ** Where the rules of the lists come from *)

Lemma ask_if_alike b h o c h' : ask_if b h o = (c, h') -> alike o c.
Proof.
  unfold ask_if, parseDomains.
  destruct b; [|intros E; injection E as <- <-; now split].
  destruct (isNull (o_dom o) || o_parsed o); [intros E; injection E as <- <-; now split|].
  destruct (if isNull (o_anti o) then new_if (o_not o) h else (o_anti o, h)) as [a h1].
  destruct (if isNull (o_domains o) then new_if (o_plain o) h1 else (o_domains o, h1)) as [d h2].
  intros E. injection E as <- <-. now split.
Qed.

Lemma touch_alike l : forall h t l' h', touch h l t = (l', h') -> Forall2 alike l l'.
Proof.
  induction l as [|o l IH]; cbn [touch]; intros h t l' h' E; [injection E as <- <-; constructor|].
  destruct (ask_if (t 0) h o) as [o1 h1] eqn:E1.
  destruct (touch h1 l (fun i => t (S i))) as [l1 h2] eqn:E2.
  injection E as <- <-. constructor; [eapply ask_if_alike; eauto|eauto].
Qed.

Lemma touch_arr_alike h a t a' h' :
  touch_arr h a t = (a', h') -> Forall2 alike (items a) (items a').
Proof.
  destruct a as [[b l]|]; cbn [touch_arr].
  - destruct (touch h l t) as [l1 h1] eqn:E1. intros [= <- <-]. eapply touch_alike; eauto.
  - intros [= <- <-]. constructor.
Qed.

Lemma alike_trans l m n : Forall2 alike l m -> Forall2 alike m n -> Forall2 alike l n.
Proof.
  intros H. revert n. induction H as [|x y l m [A1 A2] F IH]; intros n G;
    inversion G as [|y' z m' n' [B1 B2] G']; subst; constructor; [|auto].
  split; congruence.
Qed.

Lemma touch_tab_alike ks : forall h a t a' h', touch_tab h ks a t = (a', h') ->
  forall k, Forall2 alike (items (tget a k)) (items (tget a' k)).
Proof.
  induction ks as [|k ks IH]; cbn [touch_tab]; intros h a t a' h' E k'.
  - injection E as <- <-. apply alike_refl.
  - destruct (touch_arr h (tget a k) (t k)) as [x h1] eqn:E1.
    specialize (IH _ _ _ _ _ E k'). rewrite tget_tset in IH.
    destruct (kind_eq_dec k k') as [<-|_]; [|exact IH].
    eapply alike_trans; [eapply touch_arr_alike; eauto|exact IH].
Qed.

Lemma alike_sym l m : Forall2 alike l m -> Forall2 alike m l.
Proof. induction 1 as [|x y l m [A1 A2]]; constructor; [split; congruence|auto]. Qed.

Lemma alike_pointing w w' :
  (forall k, Forall2 alike (items (tget (w_arrs w) k)) (items (tget (w_arrs w') k))) ->
  pointing w -> pointing w'.
Proof.
  intros A (k & o & I & N). destruct (alike_in _ _ _ (A k) I) as (o' & I' & _ & E).
  exists k, o'. split; [exact I'|]. eapply inner_fields; eauto.
Qed.
Lemma alike_doomed w w' :
  (forall k, Forall2 alike (items (tget (w_arrs w) k)) (items (tget (w_arrs w') k))) ->
  doomed w -> doomed w'.
Proof.
  intros A (k & o & I & Bo & N). destruct (alike_in _ _ _ (A k) I) as (o' & I' & Eb & E).
  exists k, o'. split; [exact I'|]. split; [congruence|]. eapply inner_fields; eauto.
Qed.

Lemma ask_alike w t w' : oask w t = Ok w' ->
  forall k, Forall2 alike (items (tget (w_arrs w) k)) (items (tget (w_arrs w') k)).
Proof.
  unfold oask. intros E.
  destruct (use_all _ _ kinds) as [[]|]; [cbn [bind] in E|discriminate E].
  destruct (use_all _ _ (items (w_host w))) as [[]|]; [cbn [bind] in E|discriminate E].
  destruct (use_all _ _ (items (w_ehost w))) as [[]|]; [cbn [bind] in E|discriminate E].
  destruct (use_all _ _ gated) as [[]|]; [cbn [bind] in E|discriminate E].
  destruct (touch_tab (w_heap w) kinds (w_arrs w) (t_arrs t)) as [a h1] eqn:E1.
  destruct (touch_arr h1 (w_host w) (t_host t)) as [x h2].
  destruct (touch_arr h2 (w_ehost w) (t_ehost t)) as [y h3].
  injection E as <-. cbn [w_arrs]. intro k. eapply touch_tab_alike; eauto.
Qed.

(** parse(): every old rule is moved, every new one owns its text. *)
Definition moved (w w' : own) : Prop :=
  (forall k o, In o (items (tget (w_arrs w) k)) ->
     exists o', In o' (items (tget (w_arrs w') k)) /\ o_borrowed o' = false /\
                fields o' = fields o) /\
  (forall k o', In o' (items (tget (w_arrs w') k)) ->
     (exists o, In o (items (tget (w_arrs w) k)) /\ fields o' = fields o) \/ ~ inner o').

Lemma new_if_at c h p h' : new_if c h = (p, h') -> forall b, p <> Inside b.
Proof. destruct c; cbn; intros [= <- <-] b; discriminate. Qed.

Lemma read_line_outer h s o h' :
  read_line h s = (o, h') -> o_borrowed o = false /\ ~ inner o.
Proof.
  unfold read_line.
  destruct (new_if (l_data s) _) as [d h1] eqn:E1.
  destruct (new_if (l_rule s) h1) as [r h2] eqn:E2.
  destruct (new_if (l_dom s) h2) as [m h3] eqn:E3.
  destruct (new_if (l_tag s) h3) as [t h4] eqn:E4.
  destruct (new_if (l_host s) h4) as [x h5] eqn:E5.
  intros [= <- <-]. split; [reflexivity|]. intros (b & I).
  cbn [fields o_data o_rule o_dom o_tag o_host In] in I.
  apply new_if_at with (b := b) in E1, E2, E3, E4, E5. tauto.
Qed.

Lemma regrow_all_moved ks : forall h t news olds news' olds' h',
  NoDup ks -> regrow_all h ks t news olds = (news', olds', h') ->
  (forall k, ~ In k ks -> tget news' k = tget news k) /\
  (forall k, In k ks -> exists b, tget news' k = Some (b, map taken (items (tget t k)))).
Proof.
  induction ks as [|k ks IH]; cbn [regrow_all]; intros h t news olds news' olds' h' D E.
  - injection E as <- <- <-. split; [auto|easy].
  - apply NoDup_cons_iff in D. destruct D as [N D].
    destruct (regrow h (tget t k)) as [[n o] h1] eqn:E1.
    destruct (IH _ _ _ _ _ _ _ D E) as [K1 K2]. split.
    + intros k' I. rewrite K1 by (intros ?; apply I; now right).
      apply tget_tset_other. intros ->. apply I. now left.
    + intros k' [<-|I]; [|now apply K2]. rewrite (K1 k N), tget_tset_same.
      unfold regrow in E1. destruct (alloc h) as [b h0]. injection E1 as <- <- <-.
      exists b. rewrite map_map. reflexivity.
Qed.

Lemma taken_fields o : fields (taken o) = fields o /\ o_borrowed (taken o) = false.
Proof. now split. Qed.

Lemma pass2_moved w s w' : pass2 w s = Ok w' -> (forall k, tget (w_arrs w) k <> None) ->
  (forall k, tget (w_arrs w') k <> None) /\
  forall k, exists l, items (tget (w_arrs w') k) = items (tget (w_arrs w) k) ++ l /\
                      Forall (fun o => ~ inner o) l.
Proof.
  unfold pass2. intros E F.
  destruct (read_line (w_heap w) s) as [o h1] eqn:E1.
  destruct (read_line_outer _ _ _ _ E1) as [Bo No].
  destruct (insert_host h1 o (l_insert s) (w_host w) (w_ehost w)) as [[x y] h2].
  destruct (ask_if (l_asks s) h2 o) as [o3 h3] eqn:E3.
  destruct (ask_if_alike _ _ _ _ _ E3) as [B3 F3].
  destruct (l_dest s) as [k|].
  - match type of E with (let '(_, _) := ?g in _) = _ => destruct g as [gates h4] end.
    destruct (swapData obj0 o3) as [slot o4] eqn:E4.
    destruct (destroy h4 o4) as [h5|]; [cbn [bind] in E|discriminate E].
    injection E as <-. cbn [w_arrs].
    assert (Es : fields slot = fields o).
    { rewrite <- F3. unfold swapData in E4. injection E4 as <- _. reflexivity. }
    split.
    + intro k'. rewrite tget_tset. destruct (kind_eq_dec k k') as [<-|]; [|apply F].
      apply push_some, F.
    + intro k'. rewrite tget_tset. destruct (kind_eq_dec k k') as [<-|].
      * exists [slot]. rewrite push_items by apply F. split; [reflexivity|].
        constructor; [|constructor]. intros N. apply No. eapply inner_fields; [|exact N]. now symmetry.
      * exists []. rewrite app_nil_r. auto.
  - destruct (destroy h3 o3) as [h4|]; [cbn [bind] in E|discriminate E].
    injection E as <-. cbn [w_arrs]. split; [exact F|].
    intro k. exists []. rewrite app_nil_r. auto.
Qed.

Lemma pass2_all_moved ls : forall w w', foldM pass2 w ls = Ok w' ->
  (forall k, tget (w_arrs w) k <> None) ->
  forall k, exists l, items (tget (w_arrs w') k) = items (tget (w_arrs w) k) ++ l /\
                      Forall (fun o => ~ inner o) l.
Proof.
  induction ls as [|s ls IH]; cbn [foldM]; intros w w' E F k.
  - injection E as <-. exists []. rewrite app_nil_r. auto.
  - destruct (pass2 w s) as [w1|] eqn:E1; [cbn [bind] in E|discriminate E].
    destruct (pass2_moved _ _ _ E1 F) as [F1 M1].
    destruct (M1 k) as (l1 & Q1 & O1). destruct (IH _ _ E F1 k) as (l2 & Q2 & O2).
    exists (l1 ++ l2). rewrite Q2, Q1, app_assoc. split; [reflexivity|].
    apply Forall_app. auto.
Qed.

Lemma parse_moved w ls w' : oparse w ls = Ok w' -> moved w w'.
Proof.
  unfold oparse. intros E.
  destruct (new_blk (w_bloom w) (w_heap w)) as [b1 h1].
  destruct (new_blk (w_ebloom w) h1) as [b2 h2].
  destruct (new_opt (w_host w) h2) as [[n1 l1] h3].
  destruct (new_opt (w_ehost w) h3) as [[n2 l2] h4].
  destruct (new_gates h4 gated (w_gates w)) as [gs h5].
  destruct (foldM pass1 h5 ls) as [h6|]; [cbn [bind] in E|discriminate E].
  destruct (regrow_all h6 kinds (w_arrs w) (tall None) (tall None)) as [[news olds] h7] eqn:E7.
  destruct (destroyTab destroy h7 olds kinds) as [h8|]; [cbn [bind] in E|discriminate E].
  destruct (regrow_all_moved kinds _ _ _ _ _ _ _ kinds_nodup E7) as [_ K].
  assert (M : forall k, exists l, items (tget (w_arrs w') k) =
                map taken (items (tget (w_arrs w) k)) ++ l /\ Forall (fun o => ~ inner o) l).
  { intro k. destruct (pass2_all_moved _ _ _ E) with (k := k) as (l & Q & O).
    - intro k'. cbn [w_arrs]. destruct (K k' (kinds_all k')) as (b & ->). discriminate.
    - cbn [w_arrs] in Q. destruct (K k (kinds_all k)) as (b & Eb). rewrite Eb in Q.
      exists l. auto. }
  split; intros k o I; destruct (M k) as (l & Q & O).
  - exists (taken o). rewrite Q. split; [apply in_or_app; left; now apply in_map|]. now split.
  - rewrite Q in I. apply in_app_or in I. destruct I as [I|I].
    + left. apply in_map_iff in I. destruct I as (o1 & <- & I). exists o1. now split.
    + right. rewrite Forall_forall in O. now apply O.
Qed.

Lemma moved_pointing w w' : moved w w' -> (pointing w' <-> pointing w).
Proof.
  intros [M1 M2]. split.
  - intros (k & o & I & N). destruct (M2 k o I) as [(o1 & I1 & E)|C]; [|now destruct C].
    exists k, o1. split; [exact I1|]. eapply inner_fields; [|exact N]. now symmetry.
  - intros (k & o & I & N). destruct (M1 k o I) as (o1 & I1 & _ & E).
    exists k, o1. split; [exact I1|]. eapply inner_fields; eauto.
Qed.

Lemma moved_doomed w w' : moved w w' -> pointing w -> doomed w'.
Proof.
  intros [M1 _] (k & o & I & N). destruct (M1 k o I) as (o1 & I1 & Bo & E).
  exists k, o1. split; [exact I1|]. split; [exact Bo|]. eapply inner_fields; eauto.
Qed.

Lemma doomed_pointing w : doomed w -> pointing w.
Proof. intros (k & o & I & _ & N). exists k, o. auto. Qed.

(** deserialize(): the rules are those of the buffer. *)
Lemma new_arrs_items b f ks : forall h t t' h', NoDup ks -> new_arrs h ks b f t = (t', h') ->
  (forall k, ~ In k ks -> tget t' k = tget t k) /\
  (forall k, In k ks -> items (tget t' k) = map (obj_in b) (f k)).
Proof.
  induction ks as [|k ks IH]; cbn [new_arrs]; intros h t t' h' D E.
  - injection E as <- <-. split; [auto|easy].
  - apply NoDup_cons_iff in D. destruct D as [N D]. destruct (alloc h) as [n h1].
    destruct (IH _ _ _ _ D E) as [K1 K2]. split.
    + intros k' I. rewrite K1 by (intros ?; apply I; now right).
      apply tget_tset_other. intros ->. apply I. now left.
    + intros k' [<-|I]; [|now apply K2]. now rewrite (K1 k N), tget_tset_same.
Qed.

Definition member (s : fshape) : bool := s_data s || s_dom s || s_tag s || s_host s.

Lemma inner_obj_in b s : inner (obj_in b s) <-> member s = true.
Proof.
  unfold inner, member, obj_in; cbn [fields o_data o_rule o_dom o_tag o_host].
  destruct s as [d m t h x y z]; cbn [s_data s_dom s_tag s_host]; split.
  - intros (b' & I). destruct d, m, t, h; auto. cbn in I.
    repeat (destruct I as [I|I]; [discriminate I|]). destruct I.
  - intros E. exists b.
    destruct d; [now left|]. destruct m; [do 2 right; now left|].
    destruct t; [do 3 right; now left|]. destruct h; [do 4 right; now left|]. discriminate E.
Qed.

Lemma deserialize_pointing w b d w' : odeserialize w b d = Ok w' ->
  (pointing w' <-> exists k s, In s (d_arrs d k) /\ member s = true).
Proof.
  unfold odeserialize. intros E.
  destruct (oclear w) as [w1|]; [cbn [bind] in E|discriminate E].
  destruct (use (w_heap w1) (Inside b)) as [[]|]; [cbn [bind] in E|discriminate E].
  destruct (new_arrs (w_heap w1) kinds b (d_arrs d) (tall None)) as [a h1] eqn:E1.
  destruct (new_oblk (d_bloom d) h1) as [b1 h2].
  destruct (new_oblk (d_ebloom d) h2) as [b2 h3].
  destruct (new_set h3 (option_map (map (obj_in b)) (d_host d))) as [x h4].
  destruct (new_set h4 (option_map (map (obj_in b)) (d_ehost d))) as [y h5].
  destruct (new_sets h5 gated b (d_gates d) (tall None)) as [g h6].
  injection E as <-.
  destruct (new_arrs_items _ _ _ _ _ _ _ kinds_nodup E1) as [_ K].
  unfold pointing; cbn [w_arrs]. split.
  - intros (k & o & I & N). rewrite (K k (kinds_all k)) in I. apply in_map_iff in I.
    destruct I as (s & <- & I). exists k, s. split; [exact I|]. now apply inner_obj_in in N.
  - intros (k & s & I & N). exists k, (obj_in b s). rewrite (K k (kinds_all k)).
    split; [now apply in_map|]. now apply inner_obj_in.
Qed.

Lemma textless_dec d : textless d \/ exists k s, In s (d_arrs d k) /\ member s = true.
Proof.
  destruct (existsb (fun k => existsb member (d_arrs d k)) kinds) eqn:E.
  - right. apply existsb_exists in E. destruct E as (k & _ & E).
    apply existsb_exists in E. destruct E as (s & I & E). eauto.
  - left. intros k s I.
    assert (N : member s = false).
    { apply Bool.not_true_is_false. intros C.
      assert (X : existsb (fun k => existsb member (d_arrs d k)) kinds = true).
      { apply existsb_exists. exists k. split; [apply kinds_all|].
        apply existsb_exists. eauto. }
      congruence. }
    unfold member in N. destruct (s_data s), (s_dom s), (s_tag s), (s_host s); auto; discriminate N.
Qed.

Lemma textless_not d : textless d -> ~ exists k s, In s (d_arrs d k) /\ member s = true.
Proof.
  intros T (k & s & I & M). destruct (T k s I) as (A & B & C & D).
  unfold member in M. rewrite A, B, C, D in M. discriminate M.
Qed.

(** ** One step *)

Lemma clear_pointing w w' : oclear w = Ok w' -> ~ pointing w'.
Proof.
  intros E (k & o & I & _). unfold oclear in E.
  repeat match type of E with
    | bind ?x _ = _ => destruct x; [cbn [bind] in E|discriminate E]
    end.
  injection E as <-. cbn [own0 w_arrs] in I. rewrite tget_tall in I. destruct I.
Qed.

Definition tracked (w : own) (src : option dshape) : Prop :=
  pointing w <-> exists d, src = Some d /\ ~ textless d.

Lemma step_arrs w app e w' app' : step (w, app) e = Ok (w', app') ->
  match e with
  | EParse _ => moved w w'
  | EClear | EDeserialize _ _ => True
  | _ => forall k, Forall2 alike (items (tget (w_arrs w) k)) (items (tget (w_arrs w') k))
  end.
Proof.
  destruct e as [ls| |t| |b d| | |b]; cbn [step]; intros E; auto.
  - destruct (oparse w ls) as [w1|] eqn:E1; [|discriminate E]. injection E as <- <-.
    eapply parse_moved; eauto.
  - destruct (oask w t) as [w1|] eqn:E1; [|discriminate E]. injection E as <- <-.
    eapply ask_alike; eauto.
  - unfold oserialize in E.
    destruct (oask w _) as [w1|] eqn:E1; [cbn [bind] in E|discriminate E].
    destruct (alloc (w_heap w)) as [b h]. injection E as <- <-. intro. apply alike_refl.
  - injection E as <- <-. unfold oenable. destruct (w_bad w); [intro; apply alike_refl|].
    destruct (alloc (w_heap w)) as [b h]. intro. apply alike_refl.
  - destruct (alloc (w_heap w)) as [b h]. injection E as <- <-. intro. apply alike_refl.
  - destruct (free (w_heap w) (At b)) as [h|]; [cbn [bind] in E|discriminate E].
    injection E as <- <-. intro. apply alike_refl.
Qed.

Lemma step_tracked w app e w' app' src :
  step (w, app) e = Ok (w', app') -> tracked w src -> tracked w' (restored_now src e).
Proof.
  intros E T. pose proof (step_arrs _ _ _ _ _ E) as A. unfold tracked in *.
  assert (Z : (forall k, Forall2 alike (items (tget (w_arrs w) k)) (items (tget (w_arrs w') k))) ->
              (pointing w' <-> exists d, src = Some d /\ ~ textless d)).
  { intros Al. rewrite <- T. split; apply alike_pointing; [|exact Al].
    intro k. apply alike_sym, Al. }
  destruct e as [ls| |t| |b d| | |b]; cbn [restored_now]; try (apply Z, A).
  - rewrite <- T. now apply moved_pointing.
  - cbn [step] in E. destruct (oclear w) as [w1|] eqn:E1; [|discriminate E]. injection E as <- <-.
    split; [intros P; now destruct (clear_pointing _ _ E1)|intros (d & X & _); discriminate X].
  - cbn [step] in E. destruct (odeserialize w b d) as [w1|] eqn:E1; [|discriminate E].
    injection E as <- <-. rewrite (deserialize_pointing _ _ _ _ E1). split.
    + intros P. exists d. split; [reflexivity|]. intros C. now apply textless_not in C.
    + intros (d' & X & N). injection X as <-. destruct (textless_dec d); [contradiction|assumption].
Qed.

Lemma step_doomed w app e : doomed w ->
  step (w, app) e = UB \/ exists w' app', step (w, app) e = Ok (w', app') /\ doomed w'.
Proof.
  intros D. destruct (step (w, app) e) as [[w' app']|] eqn:E; [|now left]. right.
  exists w', app'. split; [reflexivity|].
  pose proof (step_arrs _ _ _ _ _ E) as A.
  destruct e as [ls| |t| |b d| | |b]; try (eapply alike_doomed; eauto; fail).
  - eapply moved_doomed; [exact A|now apply doomed_pointing].
  - cbn [step] in E. rewrite clear_doomed in E by exact D. discriminate E.
  - cbn [step] in E. unfold odeserialize in E. rewrite clear_doomed in E by exact D. discriminate E.
Qed.

Lemma life_doomed es : forall w app, doomed w ->
  (s <- foldM step (w, app) es ;; step s EClear) = UB.
Proof.
  induction es as [|e es IH]; intros w app D.
  - cbn [foldM bind step]. now rewrite clear_doomed.
  - cbn [foldM]. destruct (step_doomed w app e D) as [->|(w' & app' & -> & D')]; [reflexivity|].
    cbn [bind]. now apply IH.
Qed.

Lemma outer_ok cur o : okO cur o -> ~ inner o -> okO None o.
Proof.
  intros (A & B & C) N. split; [exact A|]. split; [exact B|].
  destruct (o_borrowed o); [|exact C].
  rewrite Forall_forall in *. intros p I. specialize (C p I).
  destruct p; cbn in *; auto. destruct N. exists b. exact I.
Qed.

Lemma step_fine s cur lost e :
  inv s cur lost -> polite (snd s) cur e ->
  match e with EParse _ => ~ pointing (fst s) | _ => True end ->
  exists s' X, step s e = Ok s' /\ length X = lost_in e /\
    inv s' (buffer_after cur e) (X ++ lost).
Proof.
  intros V P N. destruct e as [ls| |t| |b d| | |b];
    try (apply step_ok; [exact V|exact P|exact I]).
  destruct s as [w app]. cbn [fst snd step buffer_after lost_in] in *.
  destruct (parse_over_ok cur w app lost ls V) as (w' & X & -> & E & V').
  - intro k. apply Forall_forall. intros o I. apply (outer_ok cur).
    + pose proof (i_arrs _ _ _ V k) as A. rewrite Forall_forall in A. now apply A.
    + intros Q. apply N. exists k, o. auto.
  - exists (w', app), X. auto.
Qed.

Lemma life_iff es : forall s cur lost src,
  inv s cur lost -> tracked (fst s) src -> used_well s cur es ->
  (parses_fine src es ->
     exists w app X, (s <- foldM step s es ;; step s EClear) = Ok (w, app) /\
       length X = lost_total es /\ holds (w_heap w) (app ++ X ++ lost)) /\
  (forall s', (s <- foldM step s es ;; step s EClear) = Ok s' -> parses_fine src es).
Proof.
  induction es as [|e es IH]; intros s cur lost src V T U.
  - cbn [foldM bind parses_fine]. split; [|auto]. intros _. destruct s as [w app].
    cbn [step]. destruct (clear_ok _ _ _ _ V) as (h & -> & H). cbn [rmap].
    exists (own0 h), app, []. auto.
  - cbn [used_well] in U. destruct U as [P U]. cbn [foldM parses_fine lost_total fold_right].
    fold (lost_total es). destruct s as [w app]. cbn [fst snd] in *.
    assert (D : pointing w \/ ~ pointing w).
    { unfold tracked in T. destruct src as [d|].
      - destruct (textless_dec d) as [Y|Y].
        + right. rewrite T. intros (d' & [= <-] & N). now apply N.
        + left. rewrite T. exists d. split; [reflexivity|]. intros C. now apply textless_not in C.
      - right. rewrite T. intros (d' & X & _). discriminate X. }
    assert (G : match e with EParse _ => ~ pointing w | _ => True end ->
       (match e with EParse _ => forall d, src = Some d -> textless d | _ => True end) /\
       ((match e with EParse _ => forall d, src = Some d -> textless d | _ => True end) /\
        parses_fine (restored_now src e) es ->
        exists w' app' X, (s <- (s1 <- step (w, app) e ;; foldM step s1 es) ;; step s EClear) =
                          Ok (w', app') /\
          length X = lost_in e + lost_total es /\ holds (w_heap w') (app' ++ X ++ lost)) /\
       (forall s', (s <- (s1 <- step (w, app) e ;; foldM step s1 es) ;; step s EClear) = Ok s' ->
          parses_fine (restored_now src e) es)).
    { intros N.
      destruct (step_fine (w, app) cur lost e V P N) as ([w1 app1] & X & E & EX & V1).
      rewrite E. cbn [bind].
      destruct (IH (w1, app1) _ _ (restored_now src e) V1) as [A1 A2].
      - cbn [fst]. eapply step_tracked; eauto.
      - apply U, E.
      - split; [|split].
        + destruct e; auto. intros d ->. destruct (textless_dec d) as [Y|Y]; [exact Y|].
          destruct N. apply T. exists d. split; [reflexivity|]. intros C. now apply textless_not in C.
        + intros [_ F]. destruct (A1 F) as (w2 & app2 & Y & E2 & EY & H2).
          exists w2, app2, (Y ++ X). split; [exact E2|]. split; [rewrite app_length; lia|].
          eapply holds_eq; [|exact H2]. cnt.
        + exact A2. }
    destruct e as [ls| |t| |b d| | |b];
      try (destruct (G I) as (G1 & G2 & G3); split; [exact G2|]; intros s' Es; split; [exact I|];
           exact (G3 s' Es)).
    destruct D as [D|D].
    + split.
      * intros [F _]. exfalso. apply T in D. destruct D as (d & E & N). apply N, F, E.
      * intros s' Es. exfalso. cbn [step] in Es.
        destruct (oparse w ls) as [w1|] eqn:E1; [cbn [rmap bind] in Es|discriminate Es].
        rewrite life_doomed in Es; [discriminate Es|].
        eapply moved_doomed; [eapply parse_moved; eauto|exact D].
    + destruct (G D) as (G1 & G2 & G3). split; [exact G2|]. intros s' Es. split; [exact G1|].
      exact (G3 s' Es).
Qed.

Lemma tracked0 h : tracked (own0 h) None.
Proof.
  split; [|intros (d & X & _); discriminate X].
  intros (k & o & I & _). cbn [own0 w_arrs] in I. rewrite tget_tall in I. destruct I.
Qed.

Lemma whole_iff es : used_well life0 None es ->
  ((exists s, whole_life es = Ok s) <-> parses_fine None es).
Proof.
  intros U. unfold whole_life, live_through.
  destruct (life_iff es life0 None [] None inv0 (tracked0 _) U) as [A B]. split.
  - intros (s & E). exact (B s E).
  - intros F. destruct (A F) as (w & app & X & E & _). eauto.
Qed.

Lemma leak_exact es w app :
  used_well life0 None es -> whole_life es = Ok (w, app) ->
  exists lost, length lost = lost_total es /\ NoDup (app ++ lost) /\
    NoDup (h_live (w_heap w)) /\
    forall b, In b (h_live (w_heap w)) <-> In b (app ++ lost).
Proof.
  intros U E0. unfold whole_life, live_through in E0.
  destruct (life_iff es life0 None [] None inv0 (tracked0 _) U) as [A B].
  destruct (A (B _ E0)) as (w1 & app1 & X & E & EX & H).
  rewrite E0 in E. injection E as <- <-. rewrite app_nil_r in H.
  exists X. split; [exact EX|]. destruct H as (H1 & H2 & _).
  split; [|split].
  - apply (NoDup_count_occ Nat.eq_dec). intro x. rewrite <- H1. apply H2.
  - apply (NoDup_count_occ Nat.eq_dec). exact H2.
  - intro b. rewrite !(count_occ_In Nat.eq_dec), H1. reflexivity.
Qed.

(** ** The binding *)

Lemma wstep_arrs s e s' : wstep s e = Ok s' ->
  match e with
  | NParse _ => moved (wr_own s) (wr_own s')
  | NClear | NDeserialize _ => True
  | _ => forall k, Forall2 alike (items (tget (w_arrs (wr_own s)) k))
                                 (items (tget (w_arrs (wr_own s')) k))
  end.
Proof.
  destruct s as [w b]. destruct e as [ls| |t| |d|]; cbn [wstep wr_own wr_buf]; intros E; auto.
  - destruct (oparse w ls) as [w1|] eqn:E1; [|discriminate E]. injection E as <-.
    eapply parse_moved; eauto.
  - destruct (oask w t) as [w1|] eqn:E1; [|discriminate E]. injection E as <-.
    eapply ask_alike; eauto.
  - unfold oserialize in E.
    destruct (oask w _) as [w1|] eqn:E1; [cbn [bind] in E|discriminate E].
    destruct (alloc (w_heap w)) as [n h]. cbn [bind fst snd w_heap] in E.
    destruct (free h (At n)) as [h1|]; [cbn [bind] in E|discriminate E]. injection E as <-.
    intro. apply alike_refl.
  - injection E as <-. unfold oenable. cbn [wr_own]. destruct (w_bad w); [intro; apply alike_refl|].
    destruct (alloc (w_heap w)) as [n h]. intro. apply alike_refl.
Qed.

Lemma wstep_tracked s e s' src :
  wstep s e = Ok s' -> tracked (wr_own s) src -> tracked (wr_own s') (restored_now_w src e).
Proof.
  intros E T. pose proof (wstep_arrs _ _ _ E) as A. unfold tracked in *.
  assert (Z : (forall k, Forall2 alike (items (tget (w_arrs (wr_own s)) k))
                                       (items (tget (w_arrs (wr_own s')) k))) ->
              (pointing (wr_own s') <-> exists d, src = Some d /\ ~ textless d)).
  { intros Al. rewrite <- T. split; apply alike_pointing; [|exact Al].
    intro k. apply alike_sym, Al. }
  destruct s as [w b].
  destruct e as [ls| |t| |d|]; cbn [restored_now_w wr_own] in *; try (apply Z, A).
  - rewrite <- T. now apply moved_pointing.
  - cbn [wstep wr_own] in E. destruct (oclear w) as [w1|] eqn:E1; [|discriminate E].
    injection E as <-. cbn [wr_own].
    split; [intros P; now destruct (clear_pointing _ _ E1)|intros (d & X & _); discriminate X].
  - cbn [wstep wr_own wr_buf] in E.
    destruct (destroyOpt (w_heap w) b) as [h|]; [cbn [bind] in E|discriminate E].
    destruct (alloc h) as [n h1].
    destruct (odeserialize (set_heap w h1) n d) as [w1|] eqn:E1; [|discriminate E].
    injection E as <-. cbn [wr_own]. rewrite (deserialize_pointing _ _ _ _ E1). split.
    + intros P. exists d. split; [reflexivity|]. intros C. now apply textless_not in C.
    + intros (d' & X & N). injection X as <-. destruct (textless_dec d); [contradiction|assumption].
Qed.

Lemma doomed_set_heap w h : doomed w -> doomed (set_heap w h).
Proof. intros D. exact D. Qed.

Lemma wlife_doomed es : forall s, doomed (wr_own s) ->
  (s <- foldM wstep s es ;; cleanup s) = UB.
Proof.
  induction es as [|e es IH]; intros s D.
  - cbn [foldM bind]. unfold cleanup.
    destruct (destroyOpt (w_heap (wr_own s)) (wr_buf s)) as [h|]; [cbn [bind]|reflexivity].
    rewrite clear_doomed; [reflexivity|now apply doomed_set_heap].
  - cbn [foldM]. destruct (wstep s e) as [s'|] eqn:E; [cbn [bind]|reflexivity].
    apply IH. pose proof (wstep_arrs _ _ _ E) as A. destruct s as [w b].
    destruct e as [ls| |t| |d|]; cbn [wr_own] in *; try (eapply alike_doomed; eauto; fail).
    + eapply moved_doomed; [exact A|now apply doomed_pointing].
    + cbn [wstep wr_own] in E. rewrite clear_doomed in E by exact D. discriminate E.
    + cbn [wstep wr_own wr_buf] in E.
      destruct (destroyOpt (w_heap w) b) as [h|]; [cbn [bind] in E|discriminate E].
      destruct (alloc h) as [n h1]. unfold odeserialize in E.
      rewrite clear_doomed in E by now apply doomed_set_heap. discriminate E.
Qed.

Lemma wstep_fine s r lost e :
  winv s r lost -> match e with NParse _ => ~ pointing (wr_own s) | _ => True end ->
  exists s' X, wstep s e = Ok s' /\ length X = lost_in_w e /\
    winv s' (restored_after r e) (X ++ lost).
Proof.
  intros V N. destruct e as [ls| |t| |d|]; try (apply wstep_ok; [exact V|exact I]).
  destruct s as [w b]. unfold winv in *; cbn [wr_own wr_buf wstep restored_after lost_in_w] in *.
  destruct (parse_over_ok _ w _ lost ls V) as (w' & X & -> & E & V').
  - intro k. apply Forall_forall. intros o I. apply (outer_ok (cur_of r b)).
    + pose proof (i_arrs _ _ _ V k) as A. rewrite Forall_forall in A. now apply A.
    + intros Q. apply N. exists k, o. auto.
  - eexists _, X. split; [reflexivity|]. auto.
Qed.

Lemma wlife_iff es : forall s r lost src,
  winv s r lost -> tracked (wr_own s) src ->
  (parses_fine_w src es ->
     exists h X, (s <- foldM wstep s es ;; cleanup s) = Ok h /\
       length X = lost_total_w es /\ holds h (X ++ lost)) /\
  (forall h, (s <- foldM wstep s es ;; cleanup s) = Ok h -> parses_fine_w src es).
Proof.
  induction es as [|e es IH]; intros s r lost src V T.
  - cbn [foldM bind parses_fine_w]. split; [|auto]. intros _. unfold cleanup.
    destruct (drop_buf _ _ _ _ V) as (h & -> & V1). cbn [bind].
    destruct (clear_ok _ _ _ _ V1) as (h1 & -> & H1). cbn [rmap own0 w_heap].
    exists h1, []. auto.
  - cbn [foldM parses_fine_w lost_total_w fold_right]. fold (lost_total_w es).
    assert (D : pointing (wr_own s) \/ ~ pointing (wr_own s)).
    { unfold tracked in T. destruct src as [d|].
      - destruct (textless_dec d) as [Y|Y].
        + right. rewrite T. intros (d' & [= <-] & N). now apply N.
        + left. rewrite T. exists d. split; [reflexivity|]. intros C. now apply textless_not in C.
      - right. rewrite T. intros (d' & X & _). discriminate X. }
    assert (G : match e with NParse _ => ~ pointing (wr_own s) | _ => True end ->
       (match e with NParse _ => forall d, src = Some d -> textless d | _ => True end) /\
       ((match e with NParse _ => forall d, src = Some d -> textless d | _ => True end) /\
        parses_fine_w (restored_now_w src e) es ->
        exists h X, (s <- (s1 <- wstep s e ;; foldM wstep s1 es) ;; cleanup s) = Ok h /\
          length X = lost_in_w e + lost_total_w es /\ holds h (X ++ lost)) /\
       (forall h, (s <- (s1 <- wstep s e ;; foldM wstep s1 es) ;; cleanup s) = Ok h ->
          parses_fine_w (restored_now_w src e) es)).
    { intros N.
      destruct (wstep_fine s r lost e V N) as (s1 & X & E & EX & V1).
      rewrite E. cbn [bind].
      destruct (IH s1 _ _ (restored_now_w src e) V1) as [A1 A2].
      - eapply wstep_tracked; eauto.
      - split; [|split].
        + destruct e; auto. intros d ->. destruct (textless_dec d) as [Y|Y]; [exact Y|].
          destruct N. apply T. exists d. split; [reflexivity|]. intros C. now apply textless_not in C.
        + intros [_ F]. destruct (A1 F) as (h2 & Y & E2 & EY & H2).
          exists h2, (Y ++ X). split; [exact E2|]. split; [rewrite app_length; lia|].
          now rewrite <- app_assoc.
        + exact A2. }
    destruct e as [ls| |t| |d|];
      try (destruct (G I) as (G1 & G2 & G3); split; [exact G2|]; intros s' Es; split; [exact I|];
           exact (G3 s' Es)).
    destruct D as [D|D].
    + split.
      * intros [F _]. exfalso. apply T in D. destruct D as (d & E & N). apply N, F, E.
      * intros h Es. exfalso. destruct s as [w b]. cbn [wstep wr_own wr_buf] in *.
        destruct (oparse w ls) as [w1|] eqn:E1; [cbn [rmap bind] in Es|discriminate Es].
        rewrite wlife_doomed in Es; [discriminate Es|]. cbn [wr_own].
        eapply moved_doomed; [eapply parse_moved; eauto|exact D].
    + destruct (G D) as (G1 & G2 & G3). split; [exact G2|]. intros h Es. split; [exact G1|].
      exact (G3 h Es).
Qed.

Lemma wrapped_iff es : (exists h, wrapped_life es = Ok h) <-> parses_fine_w None es.
Proof.
  unfold wrapped_life.
  destruct (wlife_iff es wrap0 false [] None inv0 (tracked0 _)) as [A B]. split.
  - intros (h & E). exact (B h E).
  - intros F. destruct (A F) as (h & X & E & _). eauto.
Qed.

Lemma wrapped_leak es h : wrapped_life es = Ok h ->
  NoDup (h_live h) /\ length (h_live h) = lost_total_w es.
Proof.
  unfold wrapped_life. intros E0.
  destruct (wlife_iff es wrap0 false [] None inv0 (tracked0 _)) as [A B].
  destruct (A (B _ E0)) as (h1 & X & E & EX & H). rewrite E0 in E. injection E as <-.
  rewrite app_nil_r in H. destruct H as (H1 & H2 & _).
  assert (D1 : NoDup (h_live h)) by (apply (NoDup_count_occ Nat.eq_dec); exact H2).
  assert (D2 : NoDup X).
  { apply (NoDup_count_occ Nat.eq_dec). intro x. rewrite <- H1. apply H2. }
  split; [exact D1|]. rewrite <- EX.
  apply Nat.le_antisymm; apply NoDup_incl_length; auto;
    intros b; rewrite !(count_occ_In Nat.eq_dec), H1; auto.
Qed.

Lemma leak_number : forall es w app,
  used_well life0 None es -> whole_life es = Ok (w, app) ->
  NoDup app /\ length (h_live (w_heap w)) = length app + lost_total es.
Proof.
  intros es w app U E. destruct (leak_exact es w app U E) as (lost & <- & N & N' & K).
  split.
  { clear -N. induction app as [|a app IH]; constructor; inversion_clear N; auto.
    intro I1. apply H, in_or_app. now left. }
  rewrite <- app_length. apply Nat.le_antisymm; apply NoDup_incl_length; auto;
    intros b; apply K.
Qed.
