(** The memory blocks of the ownership model are those of the rules held. *)
From Coq Require Import Lia Permutation.
From Verif Require Import Base Flags Sets FilterM ParseM ClientM SerialM OwnM OwnT
  Spec SpecM SpecC SpecE SpecO SpecU SpecMem P_Base P_Parse P_List P_Set P_OwnT P_Own P_Own2 P_Own3
  P_Own4 P_Own5 P_OwnT2.

(** ** A tag is set by an option *)

Lemma option_tag f seg : f_tag (parseOption f seg) <> f_tag f -> sets_tag seg = true.
Proof.
  unfold parseOption, sets_tag, sets_domains, unnegated.
  destruct seg as [|c s].
  - cbn. congruence.
  - destruct (ceq c "~"); cbv beta iota zeta.
    + destruct (prefixb (B "domain=") s); cbn [f_tag negb andb]; [congruence|].
      destruct (prefixb (B "tag=") s); cbn [f_tag]; congruence.
    + destruct (prefixb (B "domain=") (c :: s)); cbn [f_tag negb andb]; [congruence|].
      destruct (prefixb (B "tag=") (c :: s)); cbn [f_tag]; congruence.
Qed.

Lemma options_tags segs : forall f, f_tag (fold_left parseOption segs f) <> f_tag f ->
  exists seg, In seg segs /\ sets_tag seg = true.
Proof.
  induction segs as [|s segs IH]; cbn [fold_left]; intros f N; [congruence|].
  destruct (list_eq_dec ascii_dec (f_tag (parseOption f s)) (f_tag f)) as [E|E].
  - destruct (IH (parseOption f s)) as (x & I & X); [congruence|]. exists x. split; [now right|exact X].
  - exists s. split; [now left|]. eapply option_tag; eauto.
Qed.

Definition tag_of (o : pout) : bytes :=
  match o with PReturn f => f_tag f | PEnd s => f_tag (s_f s) end.

Lemma put_tag st f c s a : put st f c s = Ok a -> exists s', a = ANext1 s' /\ s_f s' = f.
Proof. unfold put. destruct (_ <? _); intros [= <-]. eexists. split; reflexivity. Qed.

Lemma step_tag pres input ilen n1 c p1 s a : pf_step pres input ilen n1 c p1 s = Ok a ->
  match a with
  | ANext1 s' | ANext2 s' => f_tag (s_f s') = f_tag (s_f s)
  | AReturn f => f_tag f = f_tag (s_f s)
  | ABreak s' => exists txt, option_text p1 = Ok txt /\
      exists g, f_tag g = f_tag (s_f s) /\ s_f s' = fold_left parseOption (split_on "," txt) g
  end.
Proof.
  unfold pf_step.
  assert (P : forall st f c' a, f_tag f = f_tag (s_f s) -> put st f c' s = Ok a ->
    match a with
    | ANext1 s' | ANext2 s' => f_tag (s_f s') = f_tag (s_f s)
    | AReturn f => f_tag f = f_tag (s_f s)
    | ABreak s' => exists txt, option_text p1 = Ok txt /\
        exists g, f_tag g = f_tag (s_f s) /\ s_f s' = fold_left parseOption (split_on "," txt) g
    end).
  { intros st f c' a' T H. destruct (put_tag _ _ _ _ _ H) as (s' & -> & E). congruence. }
  destruct (is_dataonly (s_st s)); [apply P; reflexivity|].
  cbv zeta. set (lb := is_onebar (s_st s) && negb (ceq c "|")).
  set (st := if lb then FPData else s_st s). set (f := if lb then _ else _).
  assert (T : f_tag f = f_tag (s_f s)) by (unfold f; now destruct lb).
  clearbody f st. clear lb.
  destruct (ceq c "|").
  { destruct (is_start_or_past st); [intros [= <-]; exact T|].
    destruct (is_onebar st).
    - intros H. apply bind_ok in H as (hh & _ & [= <-]). cbn [skip1 s_f]. now destruct (snd hh).
    - intros [= <-]. exact T. }
  destruct (ceq c "@").
  { destruct (is_start_or_past st); [intros [= <-]; exact T|].
    destruct (is_oneat st); [intros [= <-]; exact T|now apply P]. }
  destruct (ceq c "!" || ceq c "[").
  { destruct (is_start_or_past st); [intros [= <-]; exact T|now apply P]. }
  destruct (_ || ceq c " ").
  { destruct (is_start st); [intros [= <-]; exact T|now apply P]. }
  destruct (ceq c "/").
  { destruct (is_start_or_past st); [|now apply P].
    intros H. apply bind_ok in H as (x & _ & H).
    destruct (_ && _); [|revert H; now apply P].
    destruct (_ =? 0); [discriminate H|]. injection H as <-. now destruct pres. }
  destruct (ceq c "$").
  { intros H. apply bind_ok in H as (y & _ & H). destruct (ceq y "$").
    - injection H as <-. cbn [s_f]. unfold take_domains. now destruct (ParseM.s_data s).
    - apply bind_ok in H as (rest & _ & H). apply bind_ok in H as (f1 & H1 & [= <-]).
      unfold parseOptions in H1. apply bind_ok in H1 as (txt & E & H1).
      exists txt. split; [exact E|].
      injection H1 as <-. eexists. split; [|cbn [s_f]; reflexivity]. exact T. }
  destruct (ceq c "#").
  { intros H. apply bind_ok in H as (y & _ & H).
    destruct (_ && ceq y " "); [injection H as <-; exact T|].
    destruct (_ || _); [|revert H; now apply P].
    injection H as <-. cbn [s_f]. unfold take_domains. now destruct (ParseM.s_data s). }
  now apply P.
Qed.

Lemma loop_tag pres input ilen n : forall m p s op o, m <= n ->
  pf_opts pres input ilen m p s = Ok op -> pf_loop pres input ilen m p s = Ok o ->
  tag_of o <> f_tag (s_f s) ->
  exists seg, In seg (segments op) /\ sets_tag seg = true.
Proof.
  induction n as [|n IH]; intros m p s op o L A H N.
  - destruct m; [|lia]. cbn in H. injection H as <-. now destruct N.
  - destruct m as [|m]; [cbn in H; injection H as <-; now destruct N|].
    cbn [pf_opts pf_loop] in A, H.
    destruct (_ <=? s_pos s); [injection H as <-; now destruct N|].
    destruct p as [|c p1]; [discriminate A|].
    destruct (pf_step pres input ilen m c p1 s) as [a|] eqn:S0; cbn [bind] in A, H; [|discriminate A].
    pose proof (step_tag _ _ _ _ _ _ _ _ S0) as T. destruct a as [s'|s'|f|s'].
    + apply (IH m p1 s' op o); auto; [lia|]. now rewrite T.
    + destruct m as [|m]; [discriminate A|]. destruct p1 as [|c2 p2]; [discriminate A|].
      apply (IH m p2 s' op o); auto; [lia|]. now rewrite T.
    + injection H as <-. now destruct N.
    + injection H as <-. destruct T as (txt & E & g & Tg & F). rewrite E in A. cbn [rmap] in A.
      injection A as <-. cbn [segments tag_of] in *. rewrite F in N. rewrite <- Tg in N.
      now apply options_tags in N.
Qed.

Lemma parsed_tag pres p n f reached op :
  parse_filter pres p n = Ok (f, reached) -> options_read pres (p, n) = Ok op ->
  f_tag f <> [] -> nonempty (List.filter sets_tag (segments op)) = true.
Proof.
  unfold parse_filter, options_read. cbn [fst snd]. intros H A N.
  apply bind_ok in H as (o & H1 & H).
  destruct (loop_tag pres p n n n p _ op o (le_n _) A H1) as (seg & I & X).
  - cbn [s_f filter0 f_tag]. destruct o as [g|s]; cbn [tag_of].
    + congruence.
    + destruct (is_start (s_st s)); [injection H as <- <-; exact N|].
      apply bind_ok in H as (r & _ & H). injection H as <- <-. now destruct pres.
  - assert (J : In seg (List.filter sets_tag (segments op))) by (apply filter_In; auto).
    destruct (List.filter sets_tag (segments op)); [destruct J|reflexivity].
Qed.

(** ** One rule *)

Definition stored (f : filter) (o : fobj) : Prop :=
  (isNull (o_data o) = negb (isSome (f_data f)) /\ isNull (o_rule o) = negb (isSome (f_rule f)) /\
   isNull (o_dom o) = negb (isSome (f_dom f)) /\ isNull (o_host o) = negb (isSome (f_host f))) /\
  (o_tagged o = nonempty (f_tag f) /\ (o_tagged o = true -> isNull (o_tag o) = false)) /\
  (o_plain o = some_plain f /\ o_not o = some_not f) /\
  (isNull (o_domains o) = false -> some_plain f = true) /\
  (isNull (o_anti o) = false -> some_not f = true).

Lemma new_if_null c h p h' : new_if c h = (p, h') -> isNull p = negb c.
Proof. destruct c; cbn; intros [= <- _]; reflexivity. Qed.

Lemma stored_taken f o : stored f o -> stored f (taken o).
Proof. unfold stored, taken, swapData; cbn [fst o_data o_rule o_dom o_tag o_host o_domains o_anti o_tagged o_plain o_not]. tauto. Qed.

Lemma stored_copy f o h o' h' : o_borrowed o = false -> stored f o -> copyObj h o = (o', h') ->
  stored (copyFilter f) o' /\ o_borrowed o' = false.
Proof.
  intros Bo ((A1 & A2 & A3 & A4) & (T1 & T2) & (P1 & P2) & D1 & D2) H. unfold copyObj in H. rewrite Bo in H.
  destruct (new_if (negb (isNull (o_data o))) h) as [d h1] eqn:E1.
  destruct (new_if (negb (isNull (o_dom o))) h1) as [m h2] eqn:E2.
  destruct (new_if (o_tagged o) h2) as [t h3] eqn:E3.
  destruct (new_if (negb (isNull (o_host o))) h3) as [s h4] eqn:E4.
  destruct (new_if (negb (isNull (o_rule o))) h4) as [r h5] eqn:E5.
  injection H as <- _. apply new_if_null in E1, E2, E3, E4, E5. rewrite negb_involutive in *.
  split; [|reflexivity]. unfold stored, copyFilter, some_plain, some_not, f_domains, f_antiDomains;
    cbn [o_data o_rule o_dom o_tag o_host o_domains o_anti o_tagged o_plain o_not f_data f_rule f_dom f_host f_tag isNull].
  repeat split; try congruence; try discriminate.
  - rewrite E1, A1. now destruct (f_data f) as [[? ?]|].
  - intros Q. now rewrite E3, Q.
  - exact P1.
  - exact P2.
Qed.

Lemma stored_ask f o b h o' h' : stored f o -> ask_if b h o = (o', h') -> stored f o' /\ o_borrowed o' = o_borrowed o.
Proof.
  intros S H. unfold ask_if in H. destruct b; [|injection H as <- _; auto].
  unfold parseDomains in H. destruct (_ || _); [injection H as <- _; auto|].
  destruct S as (A & T & (P1 & P2) & D1 & D2).
  destruct (if isNull (o_anti o) then new_if (o_not o) h else (o_anti o, h)) as [a h1] eqn:E1.
  destruct (if isNull (o_domains o) then new_if (o_plain o) h1 else (o_domains o, h1)) as [d h2] eqn:E2.
  injection H as <- _. split; [|reflexivity].
  unfold stored; cbn [o_data o_rule o_dom o_tag o_host o_domains o_anti o_tagged o_plain o_not].
  split; [exact A|]. split; [exact T|]. split; [auto|]. split; intros Q.
  - destruct (isNull (o_domains o)) eqn:N; [|apply D1; congruence].
    apply new_if_null in E2. rewrite E2, P1 in Q. now destruct (some_plain f).
  - destruct (isNull (o_anti o)) eqn:N; [|apply D2; congruence].
    apply new_if_null in E1. rewrite E1, P2 in Q. now destruct (some_not f).
Qed.

Lemma stored_in b f s : fits f s -> f_rule f = None -> stored f (obj_in b s).
Proof.
  intros (A1 & A2 & A3 & A4 & A5 & A6 & A7) R. unfold stored, obj_in;
    cbn [o_data o_rule o_dom o_tag o_host o_domains o_anti o_tagged o_plain o_not isNull].
  assert (W : forall c, isNull (within c b) = negb c) by (now intros []).
  rewrite !W, A1, A2, A3, R, A5. repeat split; auto; try discriminate.
  intros Q. rewrite A4; [reflexivity|]. now destruct (f_tag f).
Qed.

(** The line that is read *)
Lemma stored_line E pres s pn l x s' f reached h o h' :
  is_line pn l -> parse_filter pres (fst pn) (snd pn) = Ok (f, reached) ->
  line_shape E pres s pn = Ok (x, s') -> read_line h x = (o, h') ->
  stored f o /\ o_borrowed o = false.
Proof.
  intros L P H R. destruct (is_line_read pres pn l L) as (op & EO).
  unfold line_shape in H. rewrite P, EO in H. cbn [bind] in H.
  apply bind_ok in H as (k & _ & H). apply bind_ok in H as (s1 & _ & H). apply bind_ok in H as (s2 & _ & H).
  injection H as <- _. unfold read_line in R.
  cbn [l_data l_rule l_dom l_tag l_host l_tagged l_plain l_not l_lost] in R.
  destruct (new_if (isSome (f_data f)) _) as [d h1] eqn:E1.
  destruct (new_if (isSome (f_rule f)) h1) as [r h2] eqn:E2.
  destruct (new_if (isSome (f_dom f)) h2) as [m h3] eqn:E3.
  destruct (new_if (nonempty (List.filter sets_tag (segments op))) h3) as [t h4] eqn:E4.
  destruct (new_if (isSome (f_host f)) h4) as [q h5] eqn:E5.
  injection R as <- _. apply new_if_null in E1, E2, E3, E4, E5.
  split; [|reflexivity].
  unfold stored; cbn [o_data o_rule o_dom o_tag o_host o_domains o_anti o_tagged o_plain o_not isNull].
  assert (T : f_tag f <> [] -> nonempty (List.filter sets_tag (segments op)) = true).
  { destruct pn as [p n]. eapply parsed_tag; eauto. }
  repeat split; auto; try discriminate.
  - destruct (f_tag f); [reflexivity|]. now rewrite T.
  - intros Q. apply andb_true_iff in Q as [_ Q]. now rewrite E4, Q.
Qed.

(** ** Sets *)

Lemma upd_perm {A} (s : hset A) i g x : i < length s -> g (nth i s []) = nth i s [] ++ [x] ->
  Permutation (concat s ++ [x]) (concat (upd s i g)).
Proof.
  revert i. induction s as [|b s IH]; intros i L H; cbn in L; [lia|].
  destruct i as [|i]; cbn [upd nth concat] in *.
  - rewrite H, <- !app_assoc. apply Permutation_app_head. apply Permutation_app_comm.
  - rewrite <- app_assoc. apply Permutation_app_head. apply IH; [lia|exact H].
Qed.

Lemma upd_id {A} (s : hset A) i g : g (nth i s []) = nth i s [] -> upd s i g = s.
Proof.
  revert i. induction s as [|b s IH]; intros i H; [reflexivity|].
  destruct i as [|i]; cbn [upd nth] in *; [now rewrite H|]. f_equal. now apply IH.
Qed.

Lemma existsb_find {A} (P : A -> bool) l : existsb P l = isSome (find P l).
Proof. induction l as [|a l IH]; cbn; [reflexivity|]. destruct (P a); [reflexivity|exact IH]. Qed.

Lemma hs_add_perm {A} key hash (s : hset A) x : s <> [] ->
  if isSome (hs_find key hash s (key x)) then hs_add key hash s x = s
  else Permutation (concat s ++ [x]) (concat (hs_add key hash s x)).
Proof.
  intros N. assert (L : 0 < length s) by (destruct s; [congruence|cbn; lia]).
  unfold hs_find, hs_add. rewrite <- existsb_find.
  destruct (existsb _ _) eqn:X.
  - apply upd_id. now rewrite X.
  - apply upd_perm; [now apply hs_index_lt|]. now rewrite X.
Qed.

Lemma hs_add_some {A} key hash (s : hset A) x : s <> [] -> hs_add key hash s x <> [].
Proof.
  intros N C. apply (f_equal (@length _)) in C. rewrite hs_add_length in C. destruct s; [easy|discriminate].
Qed.

Lemma hs_add_more {A} key hash (s : hset A) x :
  length (concat s) <= length (concat (hs_add key hash s x)).
Proof.
  destruct s as [|b s]; [apply le_n|].
  pose proof (hs_add_perm key hash (b :: s) x ltac:(discriminate)) as P.
  destruct (isSome _); [rewrite P; lia|]. apply Permutation_length in P. rewrite <- P, app_length. lia.
Qed.

Lemma addDomain_grows E s d s' : addDomain E s d = Ok s' ->
  length (concat s) <= length (concat s') /\ (s <> [] -> s' <> []).
Proof.
  unfold addDomain. destruct d as [|c d]; [intros [= <-]; auto|].
  cbv zeta. destruct (_ <? _); [discriminate|]. intros [= <-].
  split; [apply hs_add_more|apply hs_add_some].
Qed.

Lemma addDomains_grow E l : forall s s', foldM (addDomain E) s l = Ok s' ->
  length (concat s) <= length (concat s') /\ (s <> [] -> s' <> []).
Proof.
  induction l as [|d l IH]; cbn [foldM]; intros s s' H; [injection H as <-; auto|].
  apply bind_ok in H as (s1 & H1 & H). apply addDomain_grows in H1 as [A1 B1].
  apply IH in H as [A2 B2]. split; [lia|auto].
Qed.

Lemma addFilter_grows E f s s' : addFilterDomains E f s = Ok s' ->
  length (concat s) <= length (concat s') /\ (s <> [] -> s' <> []) /\ (f_dom f = None -> s' = s).
Proof.
  unfold addFilterDomains. destruct (f_dom f) as [dl|].
  - intros H. apply addDomains_grow in H as [A B]. repeat split; auto; discriminate.
  - intros [= <-]. auto.
Qed.

(** ** The second pass *)

Definition gate (k : kind) (s : sets) : hset bytes :=
  match k with
  | KNoFpDom => x_nfd s | KNoFpAnti => x_nfa s
  | KNoFpDomExc => x_nfdexc s | KNoFpAntiExc => x_nfaexc s
  | _ => []
  end.

Lemma entries_gate k s : entries k s = length (concat (gate k s)).
Proof. reflexivity. Qed.

Definition full_sets (s : sets) : Prop :=
  x_host s <> [] /\ x_ehost s <> [] /\ forall k, is_gated k = true -> gate k s <> [].

Lemma add_gate_grows E f k s s' : add_gate E f k s = Ok s' -> full_sets s ->
  full_sets s' /\ x_host s' = x_host s /\ x_ehost s' = x_ehost s /\
  (forall k', k' <> k -> gate k' s' = gate k' s) /\
  length (concat (gate k s)) <= length (concat (gate k s')) /\
  (f_dom f = None -> gate k s' = gate k s).
Proof.
  intros H (F1 & F2 & F3).
  destruct k; cbn [add_gate] in H;
    try (injection H as <-; unfold full_sets; repeat split; auto; fail);
    apply bind_ok in H as (d & H & [= <-]); apply addFilter_grows in H as (A & N & Z);
    unfold full_sets; cbn [gate x_host x_ehost x_nfd x_nfa x_nfdexc x_nfaexc];
    (split; [split; [exact F1|split; [exact F2|]];
             intros k' G; destruct k'; try discriminate G;
             cbn [gate x_nfd x_nfa x_nfdexc x_nfaexc];
             first [apply N; match goal with |- ?x <> [] =>
                      first [exact (F3 KNoFpDom eq_refl)|exact (F3 KNoFpAnti eq_refl)
                            |exact (F3 KNoFpDomExc eq_refl)|exact (F3 KNoFpAntiExc eq_refl)] end
                   |exact (F3 KNoFpDom eq_refl)|exact (F3 KNoFpAnti eq_refl)
                   |exact (F3 KNoFpDomExc eq_refl)|exact (F3 KNoFpAntiExc eq_refl)]
            |split; [reflexivity|split; [reflexivity|split; [|split; [exact A|exact Z]]]]]);
    intros k' Ne; destruct k'; try reflexivity; congruence.
Qed.

Definition tied_set (s : hset filter) (a : arr fobj) : Prop :=
  exists b l fs, a = Some (b, l) /\ Permutation fs (concat s) /\ Forall2 stored fs l /\
    Forall (fun o => o_borrowed o = false) l.

Definition tied_gate (s : hset bytes) (a : arr gobj) : Prop :=
  exists b l, a = Some (b, l) /\ length l = length (concat s).

Definition tied_arr (l : list filter) (a : arr fobj) : Prop :=
  exists b os, a = Some (b, os) /\ Forall2 stored l os /\ Forall (fun o => o_borrowed o = false) os.

Record tied2 (s : sets) (w : tab (list filter)) (o : own) : Prop := mkT2 {
  t2_full : full_sets s;
  t2_arrs : forall k, tied_arr (tget w k) (tget (w_arrs o) k);
  t2_host : tied_set (x_host s) (w_host o);
  t2_ehost : tied_set (x_ehost s) (w_ehost o);
  t2_gates : forall k, is_gated k = true -> tied_gate (gate k s) (tget (w_gates o) k);
  t2_others : forall k, is_gated k = false -> tget (w_gates o) k = None
}.

Lemma tied_add E s x a b l f c : s <> [] ->
  tied_set s a -> a = Some (b, l) -> hkey x = hkey f ->
  stored x c -> o_borrowed c = false ->
  tied_set (hs_add hkey (e_hash E) s x)
    (if negb (isSome (hs_find hkey (e_hash E) s (hkey f))) then push a c else a).
Proof.
  intros N (b0 & l0 & fs & E0 & P & F & Bo) -> K S0 Bc. injection E0 as <- <-.
  pose proof (hs_add_perm hkey (e_hash E) s x N) as Q. rewrite K in Q.
  destruct (isSome _); cbn [negb].
  - rewrite Q. exists b, l, fs. auto.
  - exists b, (l ++ [c]), (fs ++ [x]). split; [reflexivity|]. split.
    + eapply perm_trans; [apply Permutation_app_tail, P|exact Q].
    + split; [apply Forall2_app; auto|]. apply Forall_app; auto.
Qed.

Lemma insert_tied E s f o h (reached : bool) x y h' s1 X Y :
  full_sets s -> tied_set (x_host s) X -> tied_set (x_ehost s) Y ->
  stored f o -> o_borrowed o = false ->
  (if reached then insert2 E f s else Ok s) = Ok s1 ->
  insert_host h o (insertion E f reached s) X Y = (x, y, h') ->
  full_sets s1 /\ tied_set (x_host s1) x /\ tied_set (x_ehost s1) y /\
  (forall k, gate k s1 = gate k s).
Proof.
  intros (F1 & F2 & F3) TX TY S0 Bo I H. unfold insertion in H.
  destruct reached; cbn [andb] in H.
  2:{ cbn [insert_host] in H. assert (s1 = s) as -> by congruence. injection H as <- <- _.
      repeat split; auto. }
  unfold insert2 in I. destruct (is_cosmetic f); cbn [negb andb] in H.
  { cbn [insert_host] in H. assert (s1 = s) as -> by congruence. injection H as <- <- _.
    repeat split; auto. }
  destruct (has (f_type f) FTHostOnly).
  - destruct TX as (bx & lx & fx & EX & PX). destruct TY as (by_ & ly & fy & EY & PY).
    destruct (has (f_type f) FTException); cbn [andb] in I.
    + assert (s1 = mkS (x_bloom s) (x_ebloom s) (x_host s)
            (hs_add hkey (e_hash E) (x_ehost s) (copyFilter f))
            (x_nfd s) (x_nfa s) (x_nfdexc s) (x_nfaexc s)) as -> by congruence.
      unfold full_sets. cbn [x_host x_ehost].
      split; [split; [exact F1|split; [now apply hs_add_some|exact F3]]|].
      unfold insert_host in H. cbv beta iota zeta in H.
      destruct (copyObj h o) as [c h1] eqn:Ec. destruct (stored_copy _ _ _ _ _ Bo S0 Ec) as [Sc Bc].
      assert (T : tied_set (hs_add hkey (e_hash E) (x_ehost s) (copyFilter f))
                (if negb (isSome (hs_find hkey (e_hash E) (x_ehost s) (hkey f))) then push Y c else Y)).
      { eapply tied_add; eauto. exists by_, ly, fy. auto. }
      destruct (negb _); injection H as <- <- _; (split; [exists bx, lx, fx; auto|split; [exact T|reflexivity]]).
    + assert (s1 = mkS (x_bloom s) (x_ebloom s)
            (hs_add hkey (e_hash E) (x_host s) (copyFilter f)) (x_ehost s)
            (x_nfd s) (x_nfa s) (x_nfdexc s) (x_nfaexc s)) as -> by congruence.
      unfold full_sets. cbn [x_host x_ehost].
      split; [split; [now apply hs_add_some|split; [exact F2|exact F3]]|].
      unfold insert_host in H. cbv beta iota zeta in H.
      destruct (copyObj h o) as [c h1] eqn:Ec. destruct (stored_copy _ _ _ _ _ Bo S0 Ec) as [Sc Bc].
      assert (T : tied_set (hs_add hkey (e_hash E) (x_host s) (copyFilter f))
                (if negb (isSome (hs_find hkey (e_hash E) (x_host s) (hkey f))) then push X c else X)).
      { eapply tied_add; eauto. exists bx, lx, fx. auto. }
      destruct (negb _); injection H as <- <- _; (split; [exact T|split; [exists by_, ly, fy; auto|reflexivity]]).
  - rewrite andb_false_r in I. apply bind_ok in I as (g & _ & I).
    cbn [insert_host] in H. injection H as <- <- _.
    destruct g as [fp|]; [destruct (has (f_type f) FTException)|]; injection I as <-;
      unfold full_sets; cbn [x_host x_ehost]; repeat split; auto.
Qed.

Lemma pass2_tied E pres cap s w o pn l x s' w' s'' o' :
  is_line pn l -> tied2 s w o -> line2 E pres cap (s, w) pn = Ok (s', w') ->
  line_shape E pres s pn = Ok (x, s'') -> pass2 o x = Ok o' ->
  s'' = s' /\ tied2 s' w' o'.
Proof.
  intros L T H2 HS HP.
  unfold line2, parse2 in H2.
  destruct (parse_filter pres (fst pn) (snd pn)) as [[f reached]|] eqn:P; [cbn [bind] in H2|discriminate H2].
  unfold pass2 in HP.
  destruct (read_line (w_heap o) x) as [ob h1] eqn:R.
  destruct (stored_line _ _ _ _ _ _ _ _ _ _ _ _ L P HS R) as [S0 B0].
  destruct (insert_host h1 ob (l_insert x) (w_host o) (w_ehost o)) as [[hx hy] h2] eqn:I.
  destruct (ask_if (l_asks x) h2 ob) as [ob2 h3] eqn:A.
  destruct (stored_ask _ _ _ _ _ _ S0 A) as [S1 B1]. rewrite B0 in B1.
  unfold line_shape in HS. rewrite P in HS. cbn [bind] in HS.
  apply bind_ok in HS as (op & _ & HS). apply bind_ok in HS as (k & K & HS).
  apply bind_ok in HS as (s1 & I1 & HS). apply bind_ok in HS as (s2 & G & HS).
  assert (EX : x = mkL (isSome (f_data f)) (isSome (f_rule f)) (isSome (f_dom f))
          (nonempty (List.filter sets_tag (segments op))) (isSome (f_host f))
          (nonempty (f_tag f)) (some_plain f) (some_not f)
          (lost_by_options op) (asks_domains k) (insertion E f reached s)
          (match k with CList k => entries k s2 - entries k s1 | _ => 0 end)
          (match k with CList k => Some k | _ => None end)) by congruence.
  assert (s'' = s2) as -> by congruence. clear HS.
  destruct T as [TF TA TX TY TG TO].
  assert (EI : l_insert x = insertion E f reached s) by now rewrite EX.
  rewrite EI in I.
  destruct (insert_tied E s f ob h1 reached hx hy h2 s1 _ _ TF TX TY S0 B0 I1 I)
    as (F1 & X1 & Y1 & GE).
  assert (H2' : (k0 <- classify E f ;;
     match k0 with
     | CSkip | CHost _ => Ok (s1, w)
     | CList k1 => s3 <- add_gate E f k1 s1 ;;
         (if length (tget w k1) <? tget cap k1 then Ok (s3, tset w k1 (tget w k1 ++ [f])) else UB)
     end) = Ok (s', w')).
  { destruct reached.
    - rewrite I1 in H2. exact H2.
    - assert (s1 = s) as -> by congruence. exact H2. }
  clear H2. rewrite K in H2'. cbn [bind] in H2'.
  assert (ED : l_dest x = match k with CList k => Some k | _ => None end) by now rewrite EX.
  assert (EE : l_entries x = match k with CList k => entries k s2 - entries k s1 | _ => 0 end)
    by now rewrite EX.
  rewrite ED in HP. clear EX ED EI.
  destruct k as [|e|k].
  1,2: assert (s2 = s1) as -> by congruence; assert (s' = s1 /\ w' = w) as [-> ->] by (split; congruence);
    apply bind_ok in HP as (h4 & _ & HP); injection HP as <-;
    (split; [reflexivity|]); constructor; cbn [w_arrs w_host w_ehost w_gates]; auto;
    intros k' Q; rewrite GE; auto.
  rewrite G in H2'. cbn [bind] in H2'.
  destruct (_ <? _); [|discriminate H2'].
  assert (s' = s2 /\ w' = tset w k (tget w k ++ [f])) as [-> ->] by (split; congruence). clear H2'.
  split; [reflexivity|].
  destruct (add_gate_grows _ _ _ _ _ G F1) as (F2 & EX2 & EY2 & GO & GL & GN).
  set (n := if isNull (o_dom ob2) then 0 else l_entries x) in HP.
  assert (EN : n + length (concat (gate k s1)) = length (concat (gate k s2))).
  { unfold n. rewrite EE, !entries_gate. destruct S1 as ((_ & _ & D & _) & _). rewrite D.
    destruct (f_dom f) eqn:FD; cbn [isSome negb]; [lia|]. now rewrite (GN eq_refl). }
  set (gs := if is_gated k
             then tset (w_gates o) k (set_items (tget (w_gates o) k)
                    (items (tget (w_gates o) k) ++ repeat (gobj_of (o_dom ob2)) n))
             else w_gates o).
  assert (Eg : (if is_gated k
       then let '(l, h) := add_entries h3 n (o_dom ob2) (items (tget (w_gates o) k)) in
            (tset (w_gates o) k (set_items (tget (w_gates o) k) l), h)
       else (w_gates o, h3)) = (gs, h3)).
  { unfold gs. destruct (is_gated k); [|reflexivity]. now rewrite add_entries_ok. }
  rewrite Eg in HP. destruct (swapData obj0 ob2) as [slot ob3] eqn:SW.
  apply bind_ok in HP as (h4 & _ & HP). injection HP as <-.
  assert (slot = taken ob2) as -> by (unfold taken; now rewrite SW).
  constructor; cbn [w_arrs w_host w_ehost w_gates]; auto.
  - intros k'. rewrite !tget_tset. destruct (kind_eq_dec k k') as [<-|]; [|apply TA].
    destruct (TA k) as (b & os & -> & F & Bo). exists b, (os ++ [taken ob2]).
    split; [reflexivity|]. split.
    + apply Forall2_app; [exact F|]. constructor; [now apply stored_taken|constructor].
    + apply Forall_app. split; [exact Bo|]. constructor; [reflexivity|constructor].
  - now rewrite EX2.
  - now rewrite EY2.
  - intros k' Q. destruct (kind_eq_dec k k') as [<-|Ne].
    + unfold gs. rewrite Q, tget_tset_same. destruct (TG k Q) as (b & l0 & -> & Len).
      exists b, (l0 ++ repeat (gobj_of (o_dom ob2)) n). split; [reflexivity|].
      rewrite app_length, repeat_length, Len, <- EN, GE. lia.
    + rewrite (GO k') by congruence. rewrite GE.
      unfold gs. destruct (is_gated k); [rewrite tget_tset_other by congruence|]; now apply TG.
  - intros k' Q. unfold gs. destruct (is_gated k) eqn:Qk; [|now apply TO].
    rewrite tget_tset_other by congruence. now apply TO.
Qed.

Lemma pass2_all_tied E pres cap L ls : Forall2 is_line L ls ->
  forall s w o s' w' xs o', tied2 s w o -> foldM (line2 E pres cap) (s, w) L = Ok (s', w') ->
  line_shapes E pres s L = Ok xs -> foldM pass2 o xs = Ok o' -> tied2 s' w' o'.
Proof.
  induction 1 as [|pn l L ls H F IH]; intros s w o s' w' xs o' T A X P; cbn [foldM line_shapes] in *.
  - assert (s' = s /\ w' = w) as [-> ->] by (split; congruence).
    assert (xs = []) as -> by congruence. cbn [foldM] in P. assert (o' = o) as -> by congruence. exact T.
  - apply bind_ok in A as ([s1 w1] & A1 & A). apply bind_ok in X as ([x s2] & X1 & X).
    apply rmap_ok in X as (ys & X2 & ->). cbn [fst snd] in *. cbn [foldM] in P.
    apply bind_ok in P as (o1 & P1 & P).
    destruct (pass2_tied _ _ _ _ _ _ _ _ _ _ _ _ _ H T A1 X1 P1) as [-> T1].
    eapply IH; eauto.
Qed.
