(** Which memos a question consults. *)
From Verif Require Import Base Flags Protocol Url Sets FilterM ParseM ClientM Spec SpecM
  SpecC SpecT ConcM SpecConc P_Base P_Protocol P_Set P_List P_Client P_Decide P_Stat P_Conc.

Lemma rule_needs r f context dom m : In m (rule_memos r f context dom) <-> needs r f context dom m.
Proof.
  unfold rule_memos, needs. rewrite in_app_iff. split.
  - intros [I|I].
    + right. destruct (f_dom f); [|destruct I]. destruct dom; [|destruct I].
      destruct (reaches_domains f context); [|destruct I]. destruct I as [<-|[]]. repeat split; congruence.
    + left. destruct r as [k n|]; [|destruct I]. destruct (f_data f); [|destruct I].
      destruct (matchesOptions f context dom); [|destruct I]. destruct I as [<-|[]].
      repeat split; eauto; congruence.
  - intros [(-> & (k & n & ->) & D & O)|(-> & D & O & R)].
    + right. destruct (f_data f); [|congruence]. rewrite O. now left.
    + left. destruct (f_dom f); [|congruence]. destruct dom; [|congruence]. rewrite R. now left.
Qed.

Section Q.
Context (E : env) (c : client) (q : query).

Lemma array_sound k bf m : forall fs n, In m (array_memos E c k fs n q bf) ->
  exists j f, nth_error fs j = Some f /\ needs (Listed k (n + j)) f (q_context q) (q_dom q) m.
Proof.
  induction fs as [|f fs IH]; intros n I; cbn [array_memos] in I; [destruct I|].
  apply in_app_or in I as [I|I].
  - exists 0, f. split; auto. rewrite Nat.add_0_r. now apply rule_needs.
  - destruct (filter_matches _ _ _ _ _ _ _ _) as [b|]; [|destruct I].
    destruct (b && tag_ok c f); [destruct I|].
    destruct (IH (S n) I) as (j & g & H1 & H2). exists (S j), g. split; auto.
    now rewrite Nat.add_succ_r.
Qed.

Lemma array_complete k bf m : forall fs n,
  hasMatchingFilters E c fs (q_input q) (q_len q) (q_context q) (q_dom q) bf (q_host q) = Ok None ->
  forall j f, nth_error fs j = Some f -> needs (Listed k (n + j)) f (q_context q) (q_dom q) m ->
  In m (array_memos E c k fs n q bf).
Proof.
  induction fs as [|f fs IH]; intros n H j g Hj Hn; [destruct j; discriminate|].
  cbn [hasMatchingFilters] in H. apply bind_ok in H as (b & Hb & H). cbn [array_memos]. rewrite Hb.
  destruct (b && tag_ok c f); [discriminate|]. apply in_or_app. destruct j as [|j].
  - left. apply rule_needs. injection Hj as ->. now rewrite Nat.add_0_r in Hn.
  - right. apply (IH (S n) H j g Hj). now rewrite Nat.add_succ_r in Hn.
Qed.

Definition sound (m : memo) : Prop :=
  exists r f, stored_at E c r f /\ needs r f (q_context q) (q_dom q) m.

Lemma scan_sound k bf m : In m (scan_memos E c k q bf) -> sound m.
Proof.
  intros I. apply array_sound in I as (j & f & H1 & H2). exists (Listed k j), f. auto.
Qed.

Lemma probe_sound (exc : bool) s h m : (if exc then c_ehost c else c_host c) = Some s ->
  In m (probe_memos E exc s h q) -> sound m.
Proof.
  intros Hs I. unfold probe_memos in I. destruct (hs_find hkey (e_hash E) s h) as [f|] eqn:F; [|destruct I].
  exists (Hosted exc h), f. split; [exists s; auto|]. now apply rule_needs.
Qed.

Lemma walk_sound (exc : bool) s h m : (if exc then c_ehost c else c_host c) = Some s ->
  forall k, In m (walk_memos E c exc s h k q) -> sound m.
Proof.
  intros Hs. induction k as [|k IH]; cbn [walk_memos]; intros I.
  - eapply probe_sound; eauto.
  - destruct (ceq _ _); auto. apply in_app_or in I as [I|I]; [eapply probe_sound; eauto|].
    destruct (host_probe _ _ _ _ _ _ _ _) as [[g|]|]; try (now destruct I). auto.
Qed.

Lemma lookup_sound (exc : bool) m : In m (lookup_memos E c exc (if exc then c_ehost c else c_host c) q) -> sound m.
Proof.
  unfold lookup_memos. destruct (if exc then c_ehost c else c_host c) as [s|] eqn:Hs; intros I; [|destruct I].
  eapply walk_sound; eauto.
Qed.

Lemma or_sound r a b m : (In m a -> sound m) -> (In m b -> sound m) -> In m (or_memos r a b) -> sound m.
Proof.
  intros Ha Hb I. unfold or_memos in I. apply in_app_or in I as [I|I]; auto.
  destruct r as [[g|]|]; auto; destruct I.
Qed.

Lemma if_sound (b : bool) l m : (In m l -> sound m) -> In m (if b then l else []) -> sound m.
Proof. intros H. destruct b; auto. intros []. Qed.

Lemma block_sound bf m : In m (block_memos E c q bf) -> sound m.
Proof.
  unfold block_memos. cbv zeta.
  repeat (apply or_sound; [try apply if_sound; apply scan_sound|]).
  intros I. apply in_app_or in I as [I|I]; [now apply (lookup_sound false)|].
  destruct (lookup _ _ _ _) as [[| |g]|]; try (now destruct I).
  destruct (bloomMiss _ _ _); [destruct I|]. eapply scan_sound; eauto.
Qed.

Lemma exc_sound bf m : In m (exc_memos E c q bf) -> sound m.
Proof.
  unfold exc_memos. cbv zeta.
  repeat (apply or_sound; [try apply if_sound; apply scan_sound|]).
  intros I. apply in_app_or in I as [I|I]; [now apply (lookup_sound true)|].
  destruct (lookup _ _ _ _) as [[| |g]|]; try (now destruct I).
  destruct (bloomMiss _ _ _); [destruct I|]. eapply scan_sound; eauto.
Qed.

(** If nothing applies. *)
Lemma scan_all k bf m n f : scan E c k q bf = Ok None -> stored_at E c (Listed k n) f ->
  needs (Listed k n) f (q_context q) (q_dom q) m -> In m (scan_memos E c k q bf).
Proof. intros H1 H2 H3. exact (array_complete k bf m _ 0 H1 n f H2 H3). Qed.
End Q.

Lemma mkQuery_fields i n x d q : mkQuery i n x d = Ok q ->
  exists host, getUrlHost i = Ok host /\ q_context q = party_context x d host /\ q_dom q = d.
Proof.
  unfold mkQuery. intros H. apply bind_ok in H as (host & H & K). exists host. split; auto.
  assert (q = mkQ i n (firstn n i) (party_context x d host) d host) as -> by congruence. auto.
Qed.

Theorem consults_sound E c q m : consults E c q m ->
  exists host r f, getUrlHost (cstr (url_of q)) = Ok host /\ stored_at E c r f /\
    needs r f (party_context (context_of q) (dom_of q) host) (dom_of q) m.
Proof.
  intros (ms & I & H).
  assert (G : forall q0 n, mkQuery (cstr (url_of q)) n (context_of q) (dom_of q) = Ok q0 -> sound E c q0 m ->
    exists host r f, getUrlHost (cstr (url_of q)) = Ok host /\ stored_at E c r f /\
      needs r f (party_context (context_of q) (dom_of q) host) (dom_of q) m).
  { intros q0 n Q (r & f & S1 & S2). apply mkQuery_fields in Q as (host & Q1 & Q2 & Q3).
    rewrite Q2, Q3 in S2. eauto 10. }
  destruct q as [u x d|u x d]; cbn [url_of context_of dom_of] in *.
  - unfold matches_memos in H. apply bind_ok in H as (n & Hn & H). apply bind_ok in H as (w & _ & H).
    destruct w; cbn [negb] in H; [|assert (ms = []) as -> by congruence; destruct I].
    apply bind_ok in H as (q0 & Q & H). cbv zeta in H. apply bind_ok in H as ([[hit mf] c1] & B & H).
    apply (G q0 n Q). injection H as <-. apply in_app_or in I as [I|I].
    + eapply block_sound; eauto.
    + destruct hit; [|destruct I]. eapply exc_sound; eauto.
  - unfold find_memos in H. apply bind_ok in H as (n & Hn & H).
    apply bind_ok in H as (q0 & Q & H). apply bind_ok in H as (mf & B & H).
    apply (G q0 n Q). injection H as <-. apply in_app_or in I as [I|I].
    + revert I. repeat (apply or_sound; [apply scan_sound|]). apply (lookup_sound E c q0 false).
    + destruct mf; [|destruct I]. revert I. repeat (apply or_sound; [apply scan_sound|]).
      apply or_sound; [apply (lookup_sound E c q0 true)|apply scan_sound].
Qed.

Theorem find_consults E c url context dom v k n m :
  findMatchingFilters E c (cstr url) context dom = Ok v -> v_filter v = None ->
  m = Length (Listed k n) \/ m = Domains (Listed k n) ->
  (consults E c (Finds url context dom) m <->
   In k block_kinds /\
   exists host f, getUrlHost (cstr url) = Ok host /\ nth_error (tget (c_lists c) k) n = Some f /\
     needs (Listed k n) f (party_context context dom host) dom m).
Proof.
  intros H V Hm. unfold findMatchingFilters in H. apply bind_ok in H as (len & Hn & H).
  apply bind_ok in H as (q0 & Q & H). apply bind_ok in H as (mf & B & H).
  destruct mf as [g|].
  { exfalso. apply bind_ok in H as (x & _ & H). injection H as <-. discriminate. }
  pose proof (mkQuery_fields _ _ _ _ _ Q) as (host & Q1 & Q2 & Q3).
  assert (FM : find_memos E c (cstr url) context dom = Ok
    (or_memos (scan E c KNoFp q0 None) (scan_memos E c KNoFp q0 None)
     (or_memos (scan E c KNoFpDom q0 None) (scan_memos E c KNoFpDom q0 None)
     (or_memos (scan E c KNoFpAnti q0 None) (scan_memos E c KNoFpAnti q0 None)
     (or_memos (scan E c KFilters q0 None) (scan_memos E c KFilters q0 None)
               (lookup_memos E c false (c_host c) q0)))) ++ [])).
  { unfold find_memos. rewrite Hn. cbn [bind]. rewrite Q. cbn [bind]. rewrite B. reflexivity. }
  assert (O : forall a b, orelse a b = Ok None -> a = Ok None /\ b = Ok None).
  { intros [[a|]|] b X; cbn in X; try discriminate. auto. }
  apply O in B as [B1 B]. apply O in B as [B2 B]. apply O in B as [B3 B]. apply O in B as [B4 B].
  rewrite B1, B2, B3, B4 in FM. unfold or_memos in FM. rewrite app_nil_r in FM.
  assert (AR : forall k', scan E c k' q0 None = Ok None -> In m (scan_memos E c k' q0 None) ->
    k' = k /\ exists f, nth_error (tget (c_lists c) k) n = Some f /\
     needs (Listed k n) f (party_context context dom host) dom m).
  { intros k' _ I. apply array_sound in I as (j & f & F & N). rewrite Nat.add_0_l in N. rewrite Q2, Q3 in N.
    assert (Listed k' j = Listed k n) as X.
    { destruct N as [(-> & _)|(-> & _)], Hm; congruence. }
    assert (k' = k) as -> by congruence. assert (j = n) as -> by congruence. eauto. }
  split.
  - intros (ms & I & K). rewrite FM in K. injection K as <-.
    repeat (apply in_app_or in I as [I|I];
      [apply AR in I as (<- & f & F & N); auto; split; [cbn; tauto|eauto]|]).
    exfalso. assert (exists h f, needs (Hosted false h) f (q_context q0) (q_dom q0) m) as (h & f & N).
    { clear -I. unfold lookup_memos in I. destruct (c_host c) as [s|]; [|destruct I].
      revert I. generalize (skip_tld (q_host q0) (length (q_host q0))).
      assert (P : forall h, In m (probe_memos E false s h q0) ->
        exists h f, needs (Hosted false h) f (q_context q0) (q_dom q0) m).
      { intros h I. unfold probe_memos in I. destruct (hs_find _ _ _ _) as [f|]; [|destruct I].
        apply rule_needs in I. eauto. }
      induction n as [|n IH]; cbn [walk_memos]; intros I; eauto.
      destruct (ceq _ _); auto. apply in_app_or in I as [I|I]; eauto.
      destruct (host_probe _ _ _ _ _ _ _ _) as [[g|]|]; try (now destruct I). auto. }
    destruct N as [(-> & (a & b & X) & _)|(-> & _)]; [discriminate|]. destruct Hm; discriminate.
  - intros [Ik (host' & f & H1 & F & N)]. rewrite Q1 in H1. injection H1 as <-.
    eexists. split; [|exact FM]. rewrite <- Q2 in N. rewrite <- Q3 in N. rewrite !in_app_iff.
    cbn in Ik. destruct Ik as [<-|[<-|[<-|[<-|[]]]]].
    + left. eapply scan_all; eauto.
    + right; left. eapply scan_all; eauto.
    + right; right; left. eapply scan_all; eauto.
    + right; right; right; left. eapply scan_all; eauto.
Qed.

(** The counters do not matter. *)
Lemma lookup_filter_any E c s b h q : lookup_filter E (set_stats c s b) h q = lookup_filter E c h q.
Proof. unfold lookup_filter. now rewrite lookup_any. Qed.

Lemma scan_memos_any E c s b k q bf : scan_memos E (set_stats c s b) k q bf = scan_memos E c k q bf.
Proof.
  unfold scan_memos. change (tget (c_lists (set_stats c s b)) k) with (tget (c_lists c) k).
  generalize 0. induction (tget (c_lists c) k) as [|f fs IH]; intros n; cbn [array_memos]; auto.
  change (tag_ok (set_stats c s b) f) with (tag_ok c f). now rewrite IH.
Qed.

Lemma lookup_memos_any E c s b exc h q : lookup_memos E (set_stats c s b) exc h q = lookup_memos E c exc h q.
Proof.
  destruct h as [t|]; auto. cbn [lookup_memos].
  induction (skip_tld (q_host q) (length (q_host q))) as [|k IH]; cbn [walk_memos]; auto.
  change (host_probe E (set_stats c s b)) with (host_probe E c). now rewrite IH.
Qed.

Lemma consults_any E c s q m : c_badfp c = None ->
  (consults E (set_stats c s None) q m <-> consults E c q m).
Proof.
  intros Nb. unfold consults. destruct q as [u x d|u x d].
  - assert (matches_memos E (set_stats c s None) (cstr u) x d = matches_memos E c (cstr u) x d) as ->; [|easy].
    unfold matches_memos. destruct (strlen (cstr u)) as [n|]; cbn [bind]; auto.
    destruct (isBlockableProtocol (cstr u) n) as [w|]; cbn [bind]; auto.
    destruct w; cbn [negb]; auto. destruct (mkQuery (cstr u) n x d) as [q|]; cbn [bind]; auto. cbv zeta.
    unfold block_memos, exc_memos. cbv zeta. rewrite !scan_any, !scan_memos_any.
    cbn [set_stats c_nfd c_nfa c_nfdexc c_nfaexc c_host c_ehost c_bloom c_ebloom].
    rewrite !lookup_any, !lookup_memos_any.
    destruct (block_bumps E c q (Some (inputBloom E (q_url q)))) as [U|(hit & mf & ks & _ & _ & F)].
    + rewrite U. specialize (U (c_stats c)). rewrite <- Nb, set_same in U. now rewrite U.
    + rewrite F. specialize (F (c_stats c)). rewrite <- Nb, set_same in F. now rewrite F.
  - assert (find_memos E (set_stats c s None) (cstr u) x d = find_memos E c (cstr u) x d) as ->; [|easy].
    unfold find_memos. rewrite ?scan_any, ?scan_memos_any.
    cbn [set_stats c_host c_ehost].
    destruct (strlen (cstr u)) as [n|]; cbn [bind]; auto.
    destruct (mkQuery (cstr u) n x d) as [q|]; cbn [bind]; auto.
    now rewrite !scan_any, !scan_memos_any, !lookup_filter_any, !lookup_memos_any.
Qed.

(** ** matches() *)
Section M.
Context (E : env) (c : client) (q : query) (bf : option bloom).

Lemma array_place k m fs n : In m (array_memos E c k fs n q bf) ->
  exists j, m = Length (Listed k j) \/ m = Domains (Listed k j).
Proof.
  intros I. apply array_sound in I as (j & f & _ & N). exists (n + j).
  destruct N as [(-> & _)|(-> & _)]; auto.
Qed.

Lemma walk_place exc s h m : forall k, In m (walk_memos E c exc s h k q) ->
  exists h', m = Domains (Hosted exc h').
Proof.
  assert (P : forall h', In m (probe_memos E exc s h' q) -> exists h', m = Domains (Hosted exc h')).
  { intros h' I. unfold probe_memos in I. destruct (hs_find _ _ _ _) as [f|]; [|destruct I].
    apply rule_needs in I as [(_ & (a & b & X) & _)|(-> & _)]; [discriminate|eauto]. }
  induction k as [|k IH]; cbn [walk_memos]; intros I; eauto.
  destruct (ceq _ _); auto. apply in_app_or in I as [I|I]; eauto.
  destruct (host_probe _ _ _ _ _ _ _ _) as [[g|]|]; try (now destruct I). auto.
Qed.

Lemma lookup_place exc s m : In m (lookup_memos E c exc s q) -> exists h, m = Domains (Hosted exc h).
Proof. unfold lookup_memos. destruct s; [apply walk_place|intros []]. Qed.

(** The memos of the array [k] at [n]. *)
Definition at_place (m : memo) (k : kind) (n : nat) : Prop :=
  m = Length (Listed k n) \/ m = Domains (Listed k n).

Definition wanted (m : memo) (k : kind) (n : nat) : Prop :=
  exists f, nth_error (tget (c_lists c) k) n = Some f /\
    needs (Listed k n) f (q_context q) (q_dom q) m.

Lemma scan_iff k k' n m : at_place m k n -> scan E c k' q bf = Ok None ->
  (In m (scan_memos E c k' q bf) <-> k' = k /\ wanted m k n).
Proof.
  intros Hm H. split.
  - intros I. apply array_sound in I as (j & f & F & N). rewrite Nat.add_0_l in N.
    assert (Listed k' j = Listed k n) as X.
    { destruct N as [(-> & _)|(-> & _)], Hm; congruence. }
    assert (k' = k) as -> by congruence. assert (j = n) as -> by congruence. split; auto. exists f. auto.
  - intros [-> (f & F & N)]. eapply scan_all; eauto.
Qed.

Lemma lookup_out k n m exc s : at_place m k n -> ~ In m (lookup_memos E c exc s q).
Proof. intros Hm I. apply lookup_place in I as (h & ->). destruct Hm; discriminate. Qed.

Lemma orelse_none a b : orelse a b = Ok None -> a = Ok None /\ b = Ok None.
Proof. destruct a as [[a|]|]; cbn; try discriminate. auto. Qed.

Lemma block_none c1 mf : block_phase E c q bf = Ok (false, mf, c1) ->
  forall k n m, at_place m k n ->
  (In m (block_memos E c q bf) <->
   In k block_kinds /\ searched E c k (q_url q) (q_dom q) /\ wanted m k n).
Proof.
  intros H k n m Hm. unfold block_phase in H. apply bind_ok in H as ([g|] & O & H); [discriminate|].
  cbv zeta in H. apply bind_ok in H as (h & L & H).
  apply orelse_none in O as [O1 O]. apply orelse_none in O as [O2 O3].
  unfold block_memos. cbv zeta. rewrite O1, O2, O3, L. unfold or_memos.
  assert (HS : h = HMiss) by (destruct h; [discriminate| |discriminate]; auto). subst h.
  rewrite !in_app_iff.
  assert (Q1 : In m (if negb (nfMiss E (c_nfd c) (q_dom q)) then scan_memos E c KNoFpDom q bf else []) <->
    k = KNoFpDom /\ searched E c k (q_url q) (q_dom q) /\ wanted m k n).
  { destruct (nfMiss E (c_nfd c) (q_dom q)) eqn:G; cbn [negb when] in *.
    - split; [intros []|]. intros (-> & X & _). cbn in X. congruence.
    - rewrite (scan_iff k KNoFpDom n m Hm O1). split.
      + intros [<- W]. cbn. auto. + intros (-> & _ & W). auto. }
  assert (Q2 : In m (if nfMiss E (c_nfa c) (q_dom q) then scan_memos E c KNoFpAnti q bf else []) <->
    k = KNoFpAnti /\ searched E c k (q_url q) (q_dom q) /\ wanted m k n).
  { destruct (nfMiss E (c_nfa c) (q_dom q)) eqn:G; cbn [negb when] in *.
    - rewrite (scan_iff k KNoFpAnti n m Hm O2). split.
      + intros [<- W]. cbn. auto. + intros (-> & _ & W). auto.
    - split; [intros []|]. intros (-> & X & _). cbn in X. congruence. }
  assert (Q3 : In m (scan_memos E c KNoFp q bf) <->
    k = KNoFp /\ searched E c k (q_url q) (q_dom q) /\ wanted m k n).
  { rewrite (scan_iff k KNoFp n m Hm O3). split.
    + intros [<- W]. cbn. auto. + intros (-> & _ & W). auto. }
  assert (Q4 : In m (if bloomMiss E (c_bloom c) (q_url q) then [] else scan_memos E c KFilters q bf) <->
    k = KFilters /\ searched E c k (q_url q) (q_dom q) /\ wanted m k n).
  { destruct (bloomMiss E (c_bloom c) (q_url q)) eqn:G.
    - split; [intros []|]. intros (-> & X & _). cbn in X. congruence.
    - apply bind_ok in H as ([g|] & R & H); [discriminate|].
      rewrite (scan_iff k KFilters n m Hm R). split.
      + intros [<- W]. cbn. auto. + intros (-> & _ & W). auto. }
  pose proof (lookup_out k n m false (c_host c) Hm) as Q5.
  unfold block_kinds. cbn [In]. rewrite Q1, Q2, Q3, Q4. split; [|intuition congruence].
  intuition congruence.
Qed.

Lemma exc_none c1 me : exc_phase E c q bf = Ok (true, me, c1) ->
  forall k n m, at_place m k n ->
  (In m (exc_memos E c q bf) <->
   In k exception_kinds /\ searched E c k (q_url q) (q_dom q) /\ wanted m k n).
Proof.
  intros H k n m Hm. unfold exc_phase in H. apply bind_ok in H as ([g|] & O & H); [discriminate|].
  cbv zeta in H. apply bind_ok in H as (h & L & H).
  apply orelse_none in O as [O1 O]. apply orelse_none in O as [O2 O3].
  unfold exc_memos. cbv zeta. rewrite O1, O2, O3, L. unfold or_memos.
  assert (HS : h = HMiss) by (destruct h; [discriminate| |discriminate]; auto). subst h.
  rewrite !in_app_iff.
  assert (Q1 : In m (if negb (nfMiss E (c_nfdexc c) (q_dom q)) then scan_memos E c KNoFpDomExc q bf else []) <->
    k = KNoFpDomExc /\ searched E c k (q_url q) (q_dom q) /\ wanted m k n).
  { destruct (nfMiss E (c_nfdexc c) (q_dom q)) eqn:G; cbn [negb when] in *.
    - split; [intros []|]. intros (-> & X & _). cbn in X. congruence.
    - rewrite (scan_iff k KNoFpDomExc n m Hm O1). split.
      + intros [<- W]. cbn. auto. + intros (-> & _ & W). auto. }
  assert (Q2 : In m (if nfMiss E (c_nfaexc c) (q_dom q) then scan_memos E c KNoFpAntiExc q bf else []) <->
    k = KNoFpAntiExc /\ searched E c k (q_url q) (q_dom q) /\ wanted m k n).
  { destruct (nfMiss E (c_nfaexc c) (q_dom q)) eqn:G; cbn [negb when] in *.
    - rewrite (scan_iff k KNoFpAntiExc n m Hm O2). split.
      + intros [<- W]. cbn. auto. + intros (-> & _ & W). auto.
    - split; [intros []|]. intros (-> & X & _). cbn in X. congruence. }
  assert (Q3 : In m (scan_memos E c KNoFpExc q bf) <->
    k = KNoFpExc /\ searched E c k (q_url q) (q_dom q) /\ wanted m k n).
  { rewrite (scan_iff k KNoFpExc n m Hm O3). split.
    + intros [<- W]. cbn. auto. + intros (-> & _ & W). auto. }
  assert (Q4 : In m (if bloomMiss E (c_ebloom c) (q_url q) then [] else scan_memos E c KException q bf) <->
    k = KException /\ searched E c k (q_url q) (q_dom q) /\ wanted m k n).
  { destruct (bloomMiss E (c_ebloom c) (q_url q)) eqn:G.
    - split; [intros []|]. intros (-> & X & _). cbn in X. congruence.
    - apply bind_ok in H as ([g|] & R & H); [discriminate|].
      rewrite (scan_iff k KException n m Hm R). split.
      + intros [<- W]. cbn. auto. + intros (-> & _ & W). auto. }
  pose proof (lookup_out k n m true (c_ehost c) Hm) as Q5.
  unfold exception_kinds. cbn [In]. rewrite Q1, Q2, Q3, Q4. intuition congruence.
Qed.

(** Blocking rules and exceptions are kept apart. *)
Lemma block_place m : In m (block_memos E c q bf) ->
  (exists k n, at_place m k n /\ In k block_kinds) \/ exists h, m = Domains (Hosted false h).
Proof.
  assert (SP : forall k, In k block_kinds -> In m (scan_memos E c k q bf) ->
    (exists k n, at_place m k n /\ In k block_kinds) \/ exists h, m = Domains (Hosted false h)).
  { intros k Ik I. apply array_place in I as (j & I). left. exists k, j. auto. }
  assert (OP : forall r a b, (In m a -> (exists k n, at_place m k n /\ In k block_kinds) \/ exists h, m = Domains (Hosted false h)) ->
    (In m b -> (exists k n, at_place m k n /\ In k block_kinds) \/ exists h, m = Domains (Hosted false h)) ->
    In m (or_memos r a b) -> (exists k n, at_place m k n /\ In k block_kinds) \/ exists h, m = Domains (Hosted false h)).
  { intros r a b Ha Hb I. unfold or_memos in I. apply in_app_or in I as [I|I]; auto.
    destruct r as [[g|]|]; auto; destruct I. }
  unfold block_memos. cbv zeta.
  apply OP; [destruct (negb _); [apply SP; cbn; auto|intros []]|].
  apply OP; [destruct (nfMiss _ _ _); [apply SP; cbn; auto|intros []]|].
  apply OP; [apply SP; cbn; auto|].
  intros I. apply in_app_or in I as [I|I]; [right; eapply lookup_place; eauto|].
  destruct (lookup _ _ _ _) as [[| |g]|]; try (now destruct I).
  destruct (bloomMiss _ _ _); [destruct I|]. revert I. apply SP. cbn. auto.
Qed.

Lemma exc_place m : In m (exc_memos E c q bf) ->
  (exists k n, at_place m k n /\ In k exception_kinds) \/ exists h, m = Domains (Hosted true h).
Proof.
  assert (SP : forall k, In k exception_kinds -> In m (scan_memos E c k q bf) ->
    (exists k n, at_place m k n /\ In k exception_kinds) \/ exists h, m = Domains (Hosted true h)).
  { intros k Ik I. apply array_place in I as (j & I). left. exists k, j. auto. }
  assert (OP : forall r a b, (In m a -> (exists k n, at_place m k n /\ In k exception_kinds) \/ exists h, m = Domains (Hosted true h)) ->
    (In m b -> (exists k n, at_place m k n /\ In k exception_kinds) \/ exists h, m = Domains (Hosted true h)) ->
    In m (or_memos r a b) -> (exists k n, at_place m k n /\ In k exception_kinds) \/ exists h, m = Domains (Hosted true h)).
  { intros r a b Ha Hb I. unfold or_memos in I. apply in_app_or in I as [I|I]; auto.
    destruct r as [[g|]|]; auto; destruct I. }
  unfold exc_memos. cbv zeta.
  apply OP; [destruct (negb _); [apply SP; cbn; auto|intros []]|].
  apply OP; [destruct (nfMiss _ _ _); [apply SP; cbn; auto|intros []]|].
  apply OP; [apply SP; cbn; auto|].
  intros I. apply in_app_or in I as [I|I]; [right; eapply lookup_place; eauto|].
  destruct (lookup _ _ _ _) as [[| |g]|]; try (now destruct I).
  destruct (bloomMiss _ _ _); [destruct I|]. revert I. apply SP. cbn. auto.
Qed.
End M.

Lemma kinds_apart k : In k block_kinds -> In k exception_kinds -> False.
Proof. destruct k; cbn; intuition congruence. Qed.

Lemma at_kind m k n k' n' : at_place m k n -> at_place m k' n' -> k = k'.
Proof. intros [->| ->] [H|H]; congruence. Qed.

Lemma exc_any E c s q bf : exc_memos E (set_stats c s None) q bf = exc_memos E c q bf.
Proof.
  unfold exc_memos. cbv zeta. rewrite !scan_any, !scan_memos_any.
  cbn [set_stats c_nfdexc c_nfaexc c_ehost c_ebloom]. now rewrite !lookup_any, !lookup_memos_any.
Qed.

Lemma matches_open E c url context dom v c' :
  nonul url -> web_url url -> matches E c (cstr url) context dom = Ok (v, c') ->
  exists host q hit mf c1,
    getUrlHost (cstr url) = Ok host /\
    q = mkQ (cstr url) (length url) url (party_context context dom host) dom host /\
    let bf := Some (inputBloom E (q_url q)) in
    block_phase E c q bf = Ok (hit, mf, c1) /\
    matches_memos E c (cstr url) context dom
      = Ok (block_memos E c q bf ++ if hit then exc_memos E c q bf else []) /\
    (hit = false -> v = mkV false mf None) /\
    (hit = true -> exists b me c2, exc_phase E c1 q bf = Ok (b, me, c2) /\ v = mkV b mf me).
Proof.
  intros Hu W H. destruct (isBlockableProtocol_spec url Hu) as (w & E1 & E2).
  apply E2 in W. subst w. unfold matches in H. unfold matches_memos.
  rewrite strlen_cstr in * by auto. cbn [bind] in *. rewrite E1 in *. cbn [bind negb] in *.
  apply bind_ok in H as (q & Q & H). rewrite Q. cbn [bind]. cbv zeta in *.
  apply bind_ok in H as ([[hit mf] c1] & B & H). rewrite B. cbn [bind].
  unfold mkQuery in Q. apply bind_ok in Q as (host & Hh & Q).
  assert (firstn (length url) (cstr url) = url) as Ef by (unfold cstr; apply firstn_app_exact).
  rewrite Ef in Q. exists host, q, hit, mf, c1. split; auto. split; [congruence|]. split; auto. split; auto.
  split.
  - intros ->. cbn [negb] in H. congruence.
  - intros ->. cbn [negb] in H. apply bind_ok in H as ([[b me] c2] & X & H). exists b, me, c2.
    split; auto. congruence.
Qed.

(** A matches() that finds no rule that blocks. *)
Theorem matches_consults_block E c url context dom v c' k n m :
  c_badfp c = None -> c_host c <> None -> nonul url -> web_url url ->
  matches E c (cstr url) context dom = Ok (v, c') -> v_filter v = None ->
  m = Length (Listed k n) \/ m = Domains (Listed k n) ->
  (consults E c (Matches url context dom) m <->
   In k block_kinds /\ searched E c k url dom /\
   exists host f, getUrlHost (cstr url) = Ok host /\ nth_error (tget (c_lists c) k) n = Some f /\
     needs (Listed k n) f (party_context context dom host) dom m).
Proof.
  intros Nb Nh Hu W H V Hm.
  destruct (matches_open E c url context dom v c' Hu W H) as (host & q & hit & mf & c1 & Hh & Eq & B & FM & H0 & H1).
  assert (hit = false) as ->.
  { destruct hit; auto. exfalso. destruct (H1 eq_refl) as (b & me & c2 & _ & ->). cbn in V. subst mf.
    clear -B Nh. unfold block_phase in B. apply bind_ok in B as ([g|] & _ & B); [discriminate|].
    cbv zeta in B. apply bind_ok in B as (h & L & B). destruct h as [| |g]; [| |discriminate].
    - unfold lookup, hostLookup in L. destruct (c_host c); [|easy]. apply bind_ok in L as (x & _ & L).
      destruct x; discriminate.
    - destruct (bloomMiss _ _ _); [discriminate|]. apply bind_ok in B as ([g|] & _ & B); [discriminate|].
      apply bind_ok in B as (x & _ & B). discriminate. }
  pose proof (block_none E c q _ c1 mf B k n m Hm) as K. rewrite Eq in K. cbn [q_url q_dom] in K.
  split.
  - intros (ms & I & M). rewrite FM in M. injection M as <-. rewrite app_nil_r in I. rewrite Eq in I.
    apply K in I as (Ik & S1 & f & F & N). split; auto. split; auto. exists host, f. auto.
  - intros (Ik & S1 & host' & f & Hh' & F & N). rewrite Hh in Hh'. injection Hh' as <-.
    eexists. split; [|exact FM]. rewrite app_nil_r, Eq. apply K. split; auto. split; auto. exists f. auto.
Qed.

(** A matches() that blocks, and the exceptions. *)
Theorem matches_consults_exc E c url context dom v c' k n m :
  c_badfp c = None -> nonul url -> web_url url ->
  matches E c (cstr url) context dom = Ok (v, c') -> v_block v = true ->
  In k exception_kinds -> m = Length (Listed k n) \/ m = Domains (Listed k n) ->
  (consults E c (Matches url context dom) m <->
   searched E c k url dom /\
   exists host f, getUrlHost (cstr url) = Ok host /\ nth_error (tget (c_lists c) k) n = Some f /\
     needs (Listed k n) f (party_context context dom host) dom m).
Proof.
  intros Nb Hu W H V Ik Hm.
  destruct (matches_open E c url context dom v c' Hu W H) as (host & q & hit & mf & c1 & Hh & Eq & B & FM & H0 & H1).
  destruct hit; [|rewrite (H0 eq_refl) in V; discriminate].
  destruct (H1 eq_refl) as (b & me & c2 & X & Ev). subst v. cbn in V. subst b.
  assert (exists s, c1 = set_stats c s None) as (s & ->).
  { destruct (block_bumps E c q (Some (inputBloom E (q_url q)))) as [U|(hit & mf' & ks & _ & _ & F)].
    - specialize (U (c_stats c)). rewrite <- Nb, set_same in U. congruence.
    - specialize (F (c_stats c)). rewrite <- Nb, set_same in F. rewrite B in F. rewrite Nb in F.
      exists (bumps (c_stats c) ks). congruence. }
  pose proof (exc_none E _ q _ c2 me X k n m Hm) as K. rewrite exc_any in K.
  assert (Sd : searched E (set_stats c s None) k (q_url q) (q_dom q) <-> searched E c k url dom)
    by (rewrite Eq; destruct k; reflexivity).
  rewrite Sd in K. unfold wanted in K. cbn [set_stats c_lists] in K.
  assert (Eqc : q_context q = party_context context dom host) by now rewrite Eq.
  assert (Eqd : q_dom q = dom) by now rewrite Eq.
  rewrite Eqc, Eqd in K.
  split.
  - intros (ms & I & M). rewrite FM in M. injection M as <-. apply in_app_or in I as [I|I].
    + exfalso. apply block_place in I as [(k' & n' & P & Ik')|(h & ->)]; [|destruct Hm; discriminate].
      assert (k = k') as <- by (eapply at_kind; eauto). now apply (kinds_apart k).
    + apply K in I as (_ & S1 & f & F & N). split; auto. exists host, f. auto.
  - intros (S1 & host' & f & Hh' & F & N). rewrite Hh in Hh'. injection Hh' as <-.
    eexists. split; [|exact FM]. apply in_or_app. right. apply K. split; auto. split; auto. exists f. auto.
Qed.

(** A findMatchingFilters() that says "block", and the exceptions. *)
Theorem find_consults_exc E c url context dom v k n m :
  findMatchingFilters E c (cstr url) context dom = Ok v -> v_block v = true ->
  In k exception_kinds -> m = Length (Listed k n) \/ m = Domains (Listed k n) ->
  (consults E c (Finds url context dom) m <->
   exists host f, getUrlHost (cstr url) = Ok host /\ nth_error (tget (c_lists c) k) n = Some f /\
     needs (Listed k n) f (party_context context dom host) dom m).
Proof.
  intros H V Ik Hm. unfold findMatchingFilters in H. apply bind_ok in H as (len & Hn & H).
  apply bind_ok in H as (q & Q & H). apply bind_ok in H as (mf & B & H).
  destruct mf as [g|]; [|injection H as <-; discriminate].
  apply bind_ok in H as ([x|] & X & H); [injection H as <-; discriminate|].
  pose proof (mkQuery_fields _ _ _ _ _ Q) as (host & Q1 & Q2 & Q3).
  apply orelse_none in X as [X1 X]. apply orelse_none in X as [X2 X]. apply orelse_none in X as [X3 X].
  apply orelse_none in X as [X4 X5].
  assert (FM : exists l, find_memos E c (cstr url) context dom = Ok
    (l ++ scan_memos E c KNoFpExc q None ++ scan_memos E c KNoFpDomExc q None ++
     scan_memos E c KNoFpAntiExc q None ++ lookup_memos E c true (c_ehost c) q ++
     scan_memos E c KException q None) /\
    (In m l -> False)).
  { unfold find_memos. rewrite Hn. cbn [bind]. rewrite Q. cbn [bind]. rewrite B. cbn [bind].
    rewrite X1, X2, X3, X4. unfold or_memos at 5 6 7 8. eexists. split; [reflexivity|].
    assert (SP : forall k', In k' block_kinds -> In m (scan_memos E c k' q None) -> False).
    { intros k' Ik' I. apply array_place in I as (j & P).
      assert (k = k') as <- by (eapply at_kind; eauto). now apply (kinds_apart k). }
    assert (OP : forall r a b, (In m a -> False) -> (In m b -> False) -> In m (or_memos r a b) -> False).
    { intros r a b Ha Hb I. unfold or_memos in I. apply in_app_or in I as [I|I]; auto.
      destruct r as [[y|]|]; auto. }
    repeat (apply OP; [apply SP; cbn; tauto|]). exact (lookup_out E c q k n m false (c_host c) Hm). }
  destruct FM as (l & FM & Out).
  pose proof (fun k' => scan_iff E c q None k k' n m Hm) as K. unfold wanted in K. rewrite Q2, Q3 in K.
  pose proof (lookup_out E c q k n m true (c_ehost c) Hm) as Lo.
  split.
  - intros (ms & I & M). rewrite FM in M. injection M as <-. exists host. rewrite !in_app_iff in I.
    destruct I as [I|[I|[I|[I|[I|I]]]]]; try contradiction;
      [apply (K KNoFpExc X1) in I|apply (K KNoFpDomExc X2) in I|apply (K KNoFpAntiExc X3) in I
      |apply (K KException X5) in I]; destruct I as (_ & f & F & N); eauto.
  - intros (host' & f & Hh' & F & N). rewrite Q1 in Hh'. injection Hh' as <-.
    eexists. split; [|exact FM]. rewrite !in_app_iff.
    assert (Y : exists f, nth_error (tget (c_lists c) k) n = Some f /\
      needs (Listed k n) f (party_context context dom host) dom m) by eauto.
    cbn in Ik. destruct Ik as [<-|[<-|[<-|[<-|[]]]]].
    + right; left. now apply (K KNoFpExc X1).
    + right; right; left. now apply (K KNoFpDomExc X2).
    + right; right; right; left. now apply (K KNoFpAntiExc X3).
    + right; right; right; right; right. now apply (K KException X5).
Qed.

(** ** Host rules *)
Lemma walk_iff E c q exc s h m : forall k, k <= length h ->
  host_walk E c s h k (q_input q) (q_len q) (q_context q) (q_dom q) = Ok None ->
  (In m (walk_memos E c exc s h k q) <-> exists x, walked h k x /\ In m (probe_memos E exc s x q)).
Proof.
  induction k as [|k IH]; cbn [host_walk walk_memos]; intros L H.
  - split.
    + intros I. exists h. split; auto. now left.
    + intros (x & [->|(j & J & _)] & I); auto. lia.
  - apply bind_ok in H as (r & H1 & H). destruct r as [g|]; [discriminate|].
    destruct (nth_error h k) as [c0|] eqn:N.
    2:{ apply nth_error_None in N. lia. }
    rewrite (nth_error_nth h k NUL N) in *. specialize (IH ltac:(lia) H).
    assert (Up : (exists x, walked h (S k) x /\ In m (probe_memos E exc s x q)) <->
      (c0 = "."%char /\ In m (probe_memos E exc s (skipn (S k) h) q)) \/
      exists x, walked h k x /\ In m (probe_memos E exc s x q)).
    { split.
      - intros (x & [->|(j & J & Hd & ->)] & I).
        + right. exists h. split; auto. now left.
        + destruct (Nat.eq_dec j k) as [->|Nj].
          * left. split; auto. congruence.
          * right. exists (skipn (S j) h). split; auto. right. exists j. split; [lia|auto].
      - intros [[-> I]|(x & [->|(j & J & Hd & ->)] & I)].
        + exists (skipn (S k) h). split; auto. right. exists k. auto.
        + exists h. split; auto. now left.
        + exists (skipn (S j) h). split; auto. right. exists j. split; [lia|auto]. }
    rewrite Up. destruct (ceq c0 "."%char) eqn:C0.
    + rewrite H1, in_app_iff, IH. apply ceq_eq in C0. tauto.
    + rewrite IH. assert (c0 <> "."%char) by (intros ->; discriminate C0). tauto.
Qed.

Lemma lookup_iff E c q exc s h :
  lookup E c (Some s) q = Ok HMiss ->
  (In (Domains (Hosted exc h)) (lookup_memos E c exc (Some s) q) <->
   looked_up (q_host q) h /\
   exists f, hs_find hkey (e_hash E) s h = Some f /\
     needs (Hosted exc h) f (q_context q) (q_dom q) (Domains (Hosted exc h))).
Proof.
  intros H. unfold lookup, hostLookup in H. apply bind_ok in H as ([g|] & W & H); [discriminate|].
  cbn [lookup_memos]. rewrite walk_iff; auto.
  2:{ destruct (skip_tld_spec (q_host q) (length (q_host q))) as [(X & _)|[X _]]; lia. }
  split.
  - intros (x & X & I). unfold probe_memos in I. destruct (hs_find hkey (e_hash E) s x) as [f|] eqn:F; [|destruct I].
    apply rule_needs in I.
    assert (x = h) as ->.
    { destruct I as [(? & _)|(Y & _)]; [discriminate|congruence]. }
    apply walked_probed in X. split; [exact X|]. exists f. auto.
  - intros (X & f & F & N). exists h. split; [apply walked_probed; exact X|].
    unfold probe_memos. rewrite F. now apply rule_needs.
Qed.

Lemma array_no_host E c q bf k exc h : ~ In (Domains (Hosted exc h)) (scan_memos E c k q bf).
Proof. intros I. apply array_place in I as (j & [X|X]); discriminate. Qed.

Theorem hosts_consulted E c url context dom h :
  nonul url -> web_url url -> c_host c <> None ->
  (exists v c', matches E c (cstr url) context dom = Ok (v, c') /\ v_filter v = None) ->
  (consults E c (Matches url context dom) (Domains (Hosted false h)) <->
   exists host f, getUrlHost (cstr url) = Ok host /\ looked_up host h /\
     stored_at E c (Hosted false h) f /\
     needs (Hosted false h) f (party_context context dom host) dom (Domains (Hosted false h))).
Proof.
  intros Hu W Nh (v & c' & H & V).
  destruct (matches_open E c url context dom v c' Hu W H) as (host & q & hit & mf & c1 & Hh & Eq & B & FM & H0 & H1).
  destruct (c_host c) as [s|] eqn:Es; [|easy].
  pose proof B as B'. unfold block_phase in B'. apply bind_ok in B' as ([g|] & O & B').
  { exfalso. assert (hit = true) by congruence. assert (mf = Some g) by congruence. subst.
    destruct (H1 eq_refl) as (? & ? & ? & _ & ->). discriminate. }
  cbv zeta in B'. apply bind_ok in B' as (x & L & B'). rewrite Es in L.
  assert (x = HMiss /\ hit = false) as [-> ->].
  { destruct x as [| |g].
    - exfalso. clear -L. unfold lookup, hostLookup in L. apply bind_ok in L as ([y|] & _ & L); discriminate.
    - split; auto. destruct (bloomMiss _ _ _); [congruence|]. apply bind_ok in B' as ([g|] & _ & B').
      + exfalso. assert (hit = true) by congruence. assert (mf = Some g) by congruence. subst.
        destruct (H1 eq_refl) as (? & ? & ? & _ & ->). discriminate.
      + apply bind_ok in B' as (y & _ & B'). congruence.
    - exfalso. assert (hit = true) by congruence. assert (mf = Some g) by congruence. subst.
      destruct (H1 eq_refl) as (? & ? & ? & _ & ->). discriminate. }
  apply orelse_none in O as [O1 O]. apply orelse_none in O as [O2 O3].
  pose proof (lookup_iff E c q false s h L) as K. unfold stored_at. rewrite Es.
  assert (BM : In (Domains (Hosted false h)) (block_memos E c q (Some (inputBloom E (q_url q)))) <->
               In (Domains (Hosted false h)) (lookup_memos E c false (Some s) q)).
  { unfold block_memos. cbv zeta. rewrite O1, O2, O3, Es, L. unfold or_memos. rewrite !in_app_iff.
    assert (NS : forall (b : bool) k, ~ In (Domains (Hosted false h))
      (if b then scan_memos E c k q (Some (inputBloom E (q_url q))) else [])).
    { intros [|] k; [apply array_no_host|intros []]. }
    pose proof (NS (negb (nfMiss E (c_nfd c) (q_dom q))) KNoFpDom).
    pose proof (NS (nfMiss E (c_nfa c) (q_dom q)) KNoFpAnti). pose proof (NS true KNoFp).
    assert (~ In (Domains (Hosted false h))
      (if bloomMiss E (c_bloom c) (q_url q) then [] else scan_memos E c KFilters q (Some (inputBloom E (q_url q)))))
      by (destruct (bloomMiss _ _ _); [intros []|apply array_no_host]).
    tauto. }
  cbn [orb] in BM. rewrite K in BM. clear K.
  assert (Eqc : q_context q = party_context context dom host) by now rewrite Eq.
  assert (Eqd : q_dom q = dom) by now rewrite Eq.
  assert (Eqh : q_host q = host) by now rewrite Eq.
  rewrite Eqc, Eqd, Eqh in BM.
  split.
  - intros (ms & I & M). rewrite FM in M. injection M as <-. rewrite app_nil_r in I.
    apply BM in I as (X & f & F & N). exists host, f. repeat split; auto. exists s. auto.
  - intros (host' & f & Hh' & X & (s' & Es' & F) & N). rewrite Hh in Hh'. injection Hh' as <-.
    assert (s' = s) as -> by congruence.
    eexists. split; [|exact FM]. rewrite app_nil_r. apply BM. split; auto. exists f. auto.
Qed.

(** A thread that never has its turn stays as it was. *)
Lemma turn_other E c s i s' j : turn E c s i = Ok s' -> j <> i -> sc_thread s' j = sc_thread s j.
Proof.
  unfold turn. intros T N. destruct (t_due (sc_thread s i)) as [|[m|k] ks].
  - destruct (t_todo (sc_thread s i)); [congruence|]. apply bind_ok in T as (r & _ & T).
    injection T as <-. cbn [sc_thread with_thread]; now rewrite (proj2 (Nat.eqb_neq j i) N).
  - destruct (t_loaded (sc_thread s i)); [|destruct (in_dec _ _ _)]; injection T as <-; cbn [sc_thread with_thread]; now rewrite (proj2 (Nat.eqb_neq j i) N).
  - destruct (t_loaded (sc_thread s i)); injection T as <-; cbn [sc_thread with_thread]; now rewrite (proj2 (Nat.eqb_neq j i) N).
Qed.

Lemma run_other E c filled prog turns s j : run E c filled prog turns = Ok s -> ~ In j turns ->
  sc_thread s j = mkThread (prog j) [] None [].
Proof.
  unfold run. change (mkThread (prog j) [] None []) with (sc_thread (begin c filled prog) j).
  generalize (begin c filled prog). induction turns as [|i turns IH]; intros s0 R N; cbn [foldM] in R.
  - congruence.
  - apply bind_ok in R as (s1 & T & R). rewrite (IH s1 R) by (cbn in N; tauto).
    apply (turn_other _ _ _ _ _ _ T). cbn in N. intuition.
Qed.
