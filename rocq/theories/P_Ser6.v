(** The serialization properties. *)
From Verif Require Import Base Flags Protocol Url Sets FilterM ParseM ClientM SerialM Spec SpecM
  SpecC SpecS P_Base P_Protocol P_Url P_Match P_Rule P_Parse P_List P_Shape P_Fp P_Line P_Line2
  P_Fp2 P_Props1 P_Props2 P_Props3 P_Opt P_Opt2 P_Set P_Client P_Decide P_Hist
  P_Ser1 P_Ser2 P_Ser3 P_Ser4 P_Ser5.

Lemma some_rule_arr f : some_rule f -> arr_rule f /\ ends_nul f.
Proof.
  intros (p & l & L & [b H]). rewrite parse_filter_cstr in H by auto.
  pose proof (pline_ok p l L) as R. pose proof (pline_tag p l L) as T.
  destruct (pline p l) as [g b']. injection H as <- <-. now apply (rule_ok_arr g b').
Qed.

Lemma ext_fields f g : ext f g -> same_fields f g.
Proof.
  intros (E1 & E2 & E3 & E4 & E5 & E6 & E7). unfold same_fields, pattern. repeat split; auto.
  destruct (f_data f) as [[d t]|], (f_data g) as [[d' t']|]; try easy.
  destruct E4 as [-> _]. reflexivity.
Qed.

Lemma ext_report x y : orel ext x y -> same_report x y.
Proof. destruct x, y; cbn; auto using ext_fields. Qed.

Lemma vrel_same v w : vrel v w -> same_verdict v w.
Proof. intros (H1 & H2 & H3). repeat split; auto using ext_report. Qed.

Lemma list_roundtrip fs :
  Forall some_rule fs ->
  exists buf, sf_size fs = Ok (length buf) /\
    sf_write (zeros (length buf)) 0 (length buf) fs = Ok (buf, length buf) /\
    forall r, Forall storable fs ->
      exists gs, df_read (length fs) (buf ++ r) = Ok (gs, r) /\ Forall2 same_fields fs gs.
Proof.
  intros F.
  assert (Forall arr_rule fs) as A by (eapply Forall_impl; [|exact F]; intros f H; now apply some_rule_arr).
  exists (flat_map rule_record fs). split; [now apply sf_size_ok|]. split.
  - change (zeros (length (flat_map rule_record fs)))
      with ([] ++ zeros (length (flat_map rule_record fs))).
    pose proof (sf_write_ok fs [] (length (flat_map rule_record fs)) (length (flat_map rule_record fs)) A
      (le_n _) (le_n _)) as W. change (length (@nil ascii)) with 0 in W. rewrite W.
    rewrite Nat.sub_diag. cbn [zeros repeat app]. now rewrite app_nil_r.
  - intros r St. destruct (df_read_ok fs r A St) as (gs & D & R & _).
    + intros f d t I. rewrite Forall_forall in F. apply (some_rule_arr f); auto.
    + exists gs. split; auto. clear -R. induction R; constructor; auto using ext_fields, restored_ext.
Qed.

Lemma item_roundtrip f :
  some_rule f -> pattern f <> None ->
  exists buf, fi_size (copyFilter f) = Ok (length buf) /\
    fi_write (zeros (length buf)) 0 (copyFilter f) = Ok (buf, length buf) /\
    (storable f -> forall r size, length buf <= size ->
      exists g, fi_read (buf ++ r) size = Ok (Some (g, length buf)) /\ same_fields f g).
Proof.
  intros H D. destruct (some_rule_arr f H) as [(_ & A2 & A3 & A4 & A5) _].
  assert (item_ok (copyFilter f)) as IO.
  { split; [|auto]. cbn [copyFilter f_data]. unfold pattern in D.
    destruct (f_data f) as [[d t]|]; [discriminate|easy]. }
  exists (item_record (copyFilter f)). split; [now apply fi_size_ok|]. split.
  - pose proof (fi_write_ok [] _ (copyFilter f) IO (le_n _)) as W.
    change (length (@nil ascii)) with 0 in W. cbn [app] in W. rewrite W.
    rewrite Nat.sub_diag. cbn [zeros repeat app]. now rewrite app_nil_r.
  - intros (S1 & S2 & S3) r size L.
    destruct (fi_read_ok (copyFilter f) r size IO (conj S2 S3) L) as (g & Hg & (E1 & E2 & E3 & E4 & E5 & E6 & E7 & _)).
    exists g. split; auto. unfold same_fields.
    cbn [copyFilter f_type f_opt f_anti f_dom f_tag f_host] in *. repeat split; auto.
    rewrite <- E4. unfold pattern. cbn [copyFilter f_data]. now destruct (f_data f) as [[]|].
Qed.

Lemma written_ser c nc nh : ser_lists c nc nh = written (c_lists c) nc nh.
Proof. unfold ser_lists, written. destruct (c_lists c), nc, nh; reflexivity. Qed.

Section Client.
  Context (E : env) (calls : list call) (c : client)
          (Hc : history calls) (A : after E calls = Ok c).

  Lemma hist_shaped : shaped (of_line calls) c.
  Proof.
    split; [|split].
    - intros k. apply Forall_forall. intros f I. apply (hist_lists E calls c Hc A k f I).
    - now apply (hist_fine E).
    - intros f [_ H]. exact H.
  Qed.

  Lemma ser_lists_in nc nh k f : In f (tget (ser_lists c nc nh) k) -> In f (tget (c_lists c) k).
  Proof.
    destruct (ser_lists_get c nc nh k) as [->| ->]; auto. now intros [].
  Qed.

  Lemma roundtrip nc nh buf d r :
    all_storable calls -> serialize c nc nh = Ok buf ->
    exists c', deserialize (buf ++ r) d = Ok (c', true) /\ restores c (ser_lists c nc nh) d c'.
  Proof.
    intros St S1. rewrite (serialize_ok _ _ nc nh hist_shaped) in S1. injection S1 as <-.
    apply (deserialize_ok (of_line calls)).
    - apply (ser_lists_arr (of_line calls)), hist_shaped.
    - intros k. apply Forall_forall. intros f I. apply ser_lists_in in I.
      destruct (hist_lists E calls c Hc A k f I) as [(p & l & J & PT) _]. now apply (St p l).
    - intros k f I. apply ser_lists_in in I. apply (hist_lists E calls c Hc A k f I).
    - apply hist_shaped.
    - intros f [(p & l & J & PT) AR]. split; auto. now apply (St p l).
  Qed.

  Lemma serialize_size_exact nc nh :
    exists blobs buf, client_blobs c = Ok blobs /\ length blobs = 8 /\
      serialize c nc nh = Ok buf /\ serialize_size c nc nh = Ok (length buf) /\
      buf = layout (written (c_lists c) nc nh) [N.of_nat (c_numHA c); N.of_nat (c_numHAE c)] blobs.
  Proof.
    exists (blobs_of c), (buffer c (ser_lists c nc nh)).
    split; [exact (client_blobs_ok _ _ hist_shaped)|]. split; [reflexivity|].
    split; [exact (serialize_ok _ _ nc nh hist_shaped)|].
    split; [exact (serialize_size_ok _ _ nc nh hist_shaped)|].
    rewrite <- written_ser. unfold buffer, layout, header_of. f_equal. f_equal. unfold body, recs.
    generalize ser_order. intros ks. induction ks as [|k ks IH]; auto.
    cbn [flat_map]. now rewrite flat_map_app, IH.
  Qed.

  Lemma lists_restored nc nh buf d r :
    all_storable calls -> serialize c nc nh = Ok buf ->
    exists c', deserialize (buf ++ r) d = Ok (c', true) /\
      (forall k, Forall2 same_fields (tget (written (c_lists c) nc nh) k) (tget (c_lists c') k)) /\
      c_numHA c' = c_numHA c /\ c_numHAE c' = c_numHAE c /\ c_tags c' = c_tags d.
  Proof.
    intros St S1. destruct (roundtrip nc nh buf d r St S1) as (c' & D & R). exists c'. split; auto.
    destruct R as (R1 & R2 & R3 & _ & _ & _ & _ & _ & _ & _ & _ & _ & _ & R14).
    split; [|auto]. intros k. destruct (R1 k) as [F _]. rewrite written_ser in F. clear -F.
    induction F; constructor; auto using ext_fields, restored_ext.
  Qed.

  Lemma restored_decides nc nh buf d r :
    all_storable calls -> serialize c nc nh = Ok buf ->
    (forall t, tagExists d t = tagExists c t) ->
    exists c', deserialize (buf ++ r) d = Ok (c', true) /\
      forall more c1, history more -> continue E c more = Ok c1 ->
        exists c1', continue E c' more = Ok c1' /\
          (forall url context dom v c2, matches E c1 url context dom = Ok (v, c2) ->
             exists w c2', matches E c1' url context dom = Ok (w, c2') /\ same_verdict v w) /\
          (forall url context dom v, findMatchingFilters E c1 url context dom = Ok v ->
             exists w, findMatchingFilters E c1' url context dom = Ok w /\ same_verdict v w).
  Proof.
    intros St S1 T. destruct (roundtrip nc nh buf d r St S1) as (c' & D & R). exists c'. split; auto.
    assert (mates c c') as M.
    { apply (restores_mates (of_line calls) c nc nh d c'); auto. apply hist_shaped. }
    intros more c1 Hm C1. destruct (fold_perform_ref E more c c' Hm M c1 C1) as (c1' & C1' & M1).
    exists c1'. split; [exact C1'|]. split.
    - intros url context dom v c2 Q.
      destruct (matches_ref E c1 c1' url context dom M1 (v, c2) Q) as ([w c2'] & Q' & V & _).
      exists w, c2'. split; auto. now apply vrel_same.
    - intros url context dom v Q.
      destruct (find_ref E c1 c1' url context dom M1 v Q) as (w & Q' & V).
      exists w. split; auto. now apply vrel_same.
  Qed.

  Lemma stable nc nh buf d r c' ok :
    all_storable calls -> serialize c nc nh = Ok buf ->
    deserialize (buf ++ r) d = Ok (c', ok) -> ok = true /\ serialize c' false false = Ok buf.
  Proof.
    intros St S1 D. destruct (roundtrip nc nh buf d r St S1) as (c0 & D' & R).
    rewrite D in D'. injection D' as <- ->. split; auto.
    rewrite (serialize_ok _ _ nc nh hist_shaped) in S1. injection S1 as <-.
    apply (reserialize_ok (of_line calls) c _ d c'); auto.
    - intros f [_ H]. exact H.
    - apply hist_shaped.
  Qed.
End Client.

(** Computed instances, for examples and counterexamples. *)
Definition restored (E : env) (calls : list call) : res client :=
  c <- after E calls ;; b <- serialize c false false ;; r <- deserialize b client0 ;;
  if snd r then Ok (fst r) else UB.
Definition blocks_now (E : env) (c : res client) url context dom : res bool :=
  c <- c ;; r <- matches E c (cstr url) context dom ;; Ok (v_block (fst r)).

Lemma restored_parts E calls c' : restored E calls = Ok c' ->
  exists c b, after E calls = Ok c /\ serialize c false false = Ok b /\
    deserialize b client0 = Ok (c', true).
Proof.
  intros H. apply bind_ok in H as (c & A & H). apply bind_ok in H as (b & S1 & H).
  apply bind_ok in H as ([c1 ok] & D & H). destruct ok; [|discriminate]. injection H as <-.
  eauto.
Qed.

Definition storableb (f : filter) : bool :=
  (match pattern f with Some [] => false | _ => true end) &&
  (match f_dom f with
   | Some [] => false
   | Some (a :: b :: _) => negb (ceq a "~" && ceq b "#" && match f_tag f with [] => true | _ => false end)
   | _ => true end).

Lemma storableb_ok f : storableb f = true -> storable f.
Proof.
  unfold storableb, storable. intros H. apply andb_true_iff in H as [H1 H2].
  split; [|split].
  - intros E. now rewrite E in H1.
  - intros E. now rewrite E in H2.
  - intros T r E. rewrite E, T in H2. discriminate H2.
Qed.

Lemma blocks_now_parts E o url context dom b : blocks_now E o url context dom = Ok b ->
  exists c v c2, o = Ok c /\ matches E c (cstr url) context dom = Ok (v, c2) /\ v_block v = b.
Proof.
  unfold blocks_now. intros H. apply bind_ok in H as (c & -> & H).
  apply bind_ok in H as ([v c2] & M & H). injection H as H. eauto 6.
Qed.

(** The answers of a client and of its restored copy differ. *)
Lemma restored_differs E calls url context dom b b' :
  blocks_now E (after E calls) url context dom = Ok b ->
  blocks_now E (restored E calls) url context dom = Ok b' -> b <> b' ->
  rmap c_tags (after E calls) = Ok [] ->
  exists c buf c' v c2 w c2', after E calls = Ok c /\ serialize c false false = Ok buf /\
    (forall t, tagExists client0 t = tagExists c t) /\ deserialize buf client0 = Ok (c', true) /\
    matches E c (cstr url) context dom = Ok (v, c2) /\
    matches E c' (cstr url) context dom = Ok (w, c2') /\ v_block v <> v_block w.
Proof.
  intros N Y D T. apply blocks_now_parts in N as (c & v & c2 & A & M & <-).
  apply blocks_now_parts in Y as (c' & w & c2' & R & M' & <-).
  destruct (restored_parts _ _ _ R) as (c0 & buf & A' & S1 & De).
  rewrite A in A', T. injection A' as <-. injection T as T.
  exists c, buf, c', v, c2, w, c2'. split; auto. split; auto. split; [|auto].
  intros t. unfold tagExists. now rewrite T.
Qed.

(** The bytes of a client and of its restored copy differ. *)
Definition twice (E : env) (calls : list call) : res (N * N) :=
  c <- after E calls ;; b <- serialize c false false ;;
  c' <- restored E calls ;; b' <- serialize c' false false ;; Ok (N.of_nat (length b), N.of_nat (length b')).

Lemma twice_parts E calls n m : twice E calls = Ok (n, m) -> n <> m ->
  exists c b c', after E calls = Ok c /\ serialize c false false = Ok b /\
    deserialize b client0 = Ok (c', true) /\ serialize c' false false <> Ok b.
Proof.
  intros K D. apply bind_ok in K as (c & A & K). apply bind_ok in K as (b & S1 & K).
  apply bind_ok in K as (c' & R & K). apply bind_ok in K as (b' & S2 & K). injection K as <- <-.
  destruct (restored_parts _ _ _ R) as (c0 & b0 & A' & S1' & De).
  rewrite A in A'. injection A' as <-. rewrite S1 in S1'. injection S1' as <-.
  exists c, b, c'. repeat split; auto. rewrite S2. congruence.
Qed.
