(** Proofs about threads that query one client. *)
From Verif Require Import Base Flags Protocol Url Sets FilterM ParseM ClientM Spec SpecM
  SpecC SpecT ConcM SpecConc P_Base P_List P_Client P_Decide P_Stat.

Definition bump (s : stats) (k : counter) : stats := with_count s k (count_of s k + 1).
Definition bumps (s : stats) (ks : list counter) : stats := fold_left bump ks s.

Lemma counter_dec (a b : counter) : {a = b} + {a <> b}.
Proof. decide equality. Defined.

Lemma count_with_same s k n : count_of (with_count s k n) k = n.
Proof. now destruct k. Qed.
Lemma count_with_other s k k' n : k <> k' -> count_of (with_count s k n) k' = count_of s k'.
Proof. destruct k, k'; easy. Qed.

Lemma stats_ext s s' : (forall k, count_of s k = count_of s' k) -> s = s'.
Proof.
  intros H. destruct s, s'. pose proof (H FalsePositives). pose proof (H ExceptionFalsePositives).
  pose proof (H BloomSaves). pose proof (H ExceptionBloomSaves). pose proof (H HashSaves).
  pose proof (H ExceptionHashSaves). cbn in *. congruence.
Qed.

Lemma count_bumps ks : forall s k,
  count_of (bumps s ks) k = (count_of s k + N.of_nat (count_occ counter_dec ks k))%N.
Proof.
  induction ks as [|a ks IH]; intros s k; cbn [bumps fold_left count_occ].
  - lia.
  - fold (bumps (bump s a) ks). rewrite IH. unfold bump. destruct (counter_dec a k) as [->|N].
    + rewrite count_with_same. lia.
    + now rewrite count_with_other.
Qed.

(** ** One question *)
Definition shapes : list (list counter) :=
  [[]; [BloomSaves; HashSaves]; [FalsePositives]; [ExceptionBloomSaves; ExceptionHashSaves];
   [ExceptionHashSaves]; [ExceptionFalsePositives]].

Lemma shape_incremented ks s : In ks shapes -> incremented s (bumps s ks) = ks.
Proof.
  intros H. cbn in H.
  repeat (destruct H as [<-|H]; [unfold incremented, bumps, bump; destruct s; cbn;
    repeat match goal with
    | |- context [(?x + 1 =? ?x)%N] => replace (x + 1 =? x)%N with false by (symmetry; apply N.eqb_neq; lia)
    | |- context [(?x =? ?x)%N] => rewrite (N.eqb_refl x)
    end; reflexivity|]).
  destruct H.
Qed.

Lemma block_bumps E c q bf :
  (forall s, block_phase E (set_stats c s None) q bf = UB) \/
  exists hit mf ks, (hit = true -> ks = []) /\ In ks shapes /\
    forall s, block_phase E (set_stats c s None) q bf = Ok (hit, mf, set_stats c (bumps s ks) None).
Proof.
  pose (O := orelse (when (negb (nfMiss E (c_nfd c) (q_dom q))) (scan E c KNoFpDom q bf))
      (orelse (when (nfMiss E (c_nfa c) (q_dom q)) (scan E c KNoFpAnti q bf)) (scan E c KNoFp q bf))).
  assert (Q : forall s, block_phase E (set_stats c s None) q bf =
    m <- O ;;
    match m with
    | Some f => Ok (true, Some f, set_stats c s None)
    | None =>
        h <- lookup E c (c_host c) q ;;
        match h with
        | HHit f => Ok (true, Some f, set_stats c s None)
        | HNoSet => Ok (true, None, set_stats c s None)
        | HMiss =>
            if bloomMiss E (c_bloom c) (q_url q)
            then Ok (false, None, set_stats c (bumps s [BloomSaves; HashSaves]) None)
            else
              r <- scan E c KFilters q bf ;;
              match r with
              | Some f => Ok (true, Some f, set_stats c s None)
              | None => Ok (false, None, set_stats c (bumps s [FalsePositives]) None)
              end
        end
    end).
  { intros s. unfold block_phase.
    cbn [set_stats c_nfd c_nfa c_bloom c_host c_stats c_badfp discover]. rewrite !scan_any, lookup_any.
    fold O. reflexivity. }
  setoid_rewrite Q.
  destruct O as [[g|]|]; cbn [bind].
  - right. exists true, (Some g), []. cbn. auto 10.
  - destruct (lookup E c (c_host c) q) as [[| |g]|]; cbn [bind].
    + right. exists true, None, []. cbn. auto 10.
    + destruct (bloomMiss E (c_bloom c) (q_url q)).
      * right. exists false, None, [BloomSaves; HashSaves]. cbn. split; [easy|]. auto 10.
      * destruct (scan E c KFilters q bf) as [[g|]|]; cbn [bind].
        -- right. exists true, (Some g), []. cbn. auto 10.
        -- right. exists false, None, [FalsePositives]. cbn. split; [easy|]. auto 10.
        -- auto.
    + right. exists true, (Some g), []. cbn. auto 10.
    + auto.
  - auto.
Qed.

Lemma exc_bumps E c q bf :
  (forall s, exc_phase E (set_stats c s None) q bf = UB) \/
  exists block me ks, In ks shapes /\
    forall s, exc_phase E (set_stats c s None) q bf = Ok (block, me, set_stats c (bumps s ks) None).
Proof.
  pose (O := orelse (when (negb (nfMiss E (c_nfdexc c) (q_dom q))) (scan E c KNoFpDomExc q bf))
      (orelse (when (nfMiss E (c_nfaexc c) (q_dom q)) (scan E c KNoFpAntiExc q bf)) (scan E c KNoFpExc q bf))).
  assert (Q : forall s, exc_phase E (set_stats c s None) q bf =
    m <- O ;;
    match m with
    | Some f => Ok (false, Some f, set_stats c s None)
    | None =>
        h <- lookup E c (c_ehost c) q ;;
        match h with
        | HHit f => Ok (false, Some f, set_stats c (bumps s [ExceptionHashSaves]) None)
        | HNoSet => Ok (false, None, set_stats c (bumps s [ExceptionHashSaves]) None)
        | HMiss =>
            if bloomMiss E (c_ebloom c) (q_url q)
            then Ok (true, None, set_stats c (bumps s [ExceptionBloomSaves; ExceptionHashSaves]) None)
            else
              r <- scan E c KException q bf ;;
              match r with
              | Some f => Ok (false, Some f, set_stats c s None)
              | None => Ok (true, None, set_stats c (bumps s [ExceptionFalsePositives]) None)
              end
        end
    end).
  { intros s. unfold exc_phase.
    cbn [set_stats c_nfdexc c_nfaexc c_ebloom c_ehost c_stats c_badfp discover].
    rewrite !scan_any, lookup_any. fold O. reflexivity. }
  setoid_rewrite Q.
  destruct O as [[g|]|]; cbn [bind].
  - right. exists false, (Some g), []. cbn. auto 10.
  - destruct (lookup E c (c_ehost c) q) as [[| |g]|]; cbn [bind].
    + right. exists false, None, [ExceptionHashSaves]. cbn. auto 10.
    + destruct (bloomMiss E (c_ebloom c) (q_url q)).
      * right. exists true, None, [ExceptionBloomSaves; ExceptionHashSaves]. cbn. auto 10.
      * destruct (scan E c KException q bf) as [[g|]|]; cbn [bind].
        -- right. exists false, (Some g), []. cbn. auto 10.
        -- right. exists true, None, [ExceptionFalsePositives]. cbn. auto 10.
        -- auto.
    + right. exists false, (Some g), [ExceptionHashSaves]. cbn. auto 10.
    + auto.
  - auto.
Qed.

Lemma matches_bumps E c i x d v c' :
  c_badfp c = None -> matches E c i x d = Ok (v, c') ->
  exists ks, In ks shapes /\
    forall s, matches E (set_stats c s None) i x d = Ok (v, set_stats c (bumps s ks) None).
Proof.
  intros Nb H. assert (c = set_stats c (c_stats c) None) as Ec by (rewrite <- Nb; now rewrite set_same).
  rewrite Ec in H. unfold matches in *.
  destruct (strlen i) as [n|]; cbn [bind] in *; [|discriminate].
  destruct (isBlockableProtocol i n) as [w|]; cbn [bind] in *; [|discriminate].
  destruct w; cbn [negb] in *.
  2:{ injection H as <- _. exists []. cbn. auto. }
  destruct (mkQuery i n x d) as [q|]; cbn [bind] in *; [|discriminate]. cbv zeta in *.
  destruct (block_bumps E c q (Some (inputBloom E (q_url q)))) as [U|(hit & mf & ks & K & I & F)].
  { rewrite U in H. discriminate. }
  setoid_rewrite F. rewrite F in H. cbn [bind] in *. destruct hit; cbn [negb] in *.
  - rewrite K in * by auto. cbn [bumps fold_left] in *.
    destruct (exc_bumps E c q (Some (inputBloom E (q_url q)))) as [U|(bl & me & ks' & I' & F')].
    { rewrite U in H. discriminate. }
    setoid_rewrite F'. rewrite F' in H. cbn [bind] in *. injection H as <- _. eauto.
  - injection H as <- _. eauto.
Qed.

(** The memos of a question are defined if its answer is. *)
Lemma matches_memos_ok E c i x d r : matches E c i x d = Ok r -> exists ms, matches_memos E c i x d = Ok ms.
Proof.
  unfold matches, matches_memos. intros H.
  destruct (strlen i) as [n|]; cbn [bind] in *; [|discriminate].
  destruct (isBlockableProtocol i n) as [w|]; cbn [bind] in *; [|discriminate].
  destruct w; cbn [negb] in *; [|eauto].
  destruct (mkQuery i n x d) as [q|]; cbn [bind] in *; [|discriminate]. cbv zeta in *.
  destruct (block_phase _ _ _ _) as [[[hit mf] c1]|]; cbn [bind] in *; [eauto|discriminate].
Qed.

Lemma find_memos_ok E c i x d v : findMatchingFilters E c i x d = Ok v -> exists ms, find_memos E c i x d = Ok ms.
Proof.
  unfold findMatchingFilters, find_memos. intros H.
  destruct (strlen i) as [n|]; cbn [bind] in *; [|discriminate].
  destruct (mkQuery i n x d) as [q|]; cbn [bind] in *; [|discriminate].
  destruct (orelse _ _) as [m|]; cbn [bind] in *; [eauto|discriminate].
Qed.

(** The counters among the accesses. *)
Definition incs (l : list access) : list counter :=
  flat_map (fun a => match a with Inc k => [k] | Memo _ => [] end) l.

Lemma incs_app a b : incs (a ++ b) = incs a ++ incs b.
Proof. apply flat_map_app. Qed.
Lemma incs_map ms ks : incs (map Memo ms ++ map Inc ks) = ks.
Proof.
  rewrite incs_app. replace (incs (map Memo ms)) with (@nil counter).
  - induction ks as [|k ks IH]; auto. cbn. now rewrite <- IH at 2.
  - induction ms; auto.
Qed.

(** What a question costs. *)
Definition costs E c (q : question) (v : verdict) (ks : list access) : Prop :=
  answer E c q = Ok (v, ks) /\
  (forall m, In (Memo m) ks <-> consults E c q m) /\
  match q with
  | Matches u x d =>
      forall s, matches E (set_stats c s None) (cstr u) x d = Ok (v, set_stats c (bumps s (incs ks)) None)
  | Finds _ _ _ => incs ks = []
  end.

Lemma memo_in ms ks m : In (Memo m) (map Memo ms ++ map Inc ks) <-> In m ms.
Proof.
  rewrite in_app_iff, !in_map_iff. split.
  - intros [(x & [= ->] & I)|(x & [=] & _)]; auto.
  - intros I. left. eauto.
Qed.

Lemma says_costs E c q v : c_badfp c = None -> says E c q v -> exists ks, costs E c q v ks.
Proof.
  intros Nb H. destruct q as [u x d|u x d]; cbn [says] in H.
  - destruct H as (c' & H). destruct (matches_bumps E c _ x d v c' Nb H) as (ks & I & F).
    destruct (matches_memos_ok E c _ x d _ H) as (ms & M).
    exists (map Memo ms ++ map Inc ks). split; [|split].
    + cbn [answer]. rewrite H, M. cbn [bind fst snd].
      specialize (F (c_stats c)). rewrite <- Nb, set_same in F.
      assert (c' = set_stats c (bumps (c_stats c) ks) (c_badfp c)) as -> by congruence.
      cbn [set_stats c_stats]. now rewrite shape_incremented.
    + intros m. rewrite memo_in. unfold consults. split; [eauto|].
      intros (ms' & I' & M'). rewrite M in M'. assert (ms' = ms) as -> by congruence. auto.
    + now rewrite incs_map.
  - destruct (find_memos_ok E c _ x d _ H) as (ms & M).
    exists (map Memo ms ++ map Inc []). split; [|split].
    + cbn [answer]. rewrite H, M. cbn [bind map]. now rewrite app_nil_r.
    + intros m. rewrite memo_in. unfold consults. split; [eauto|].
      intros (ms' & I' & M'). rewrite M in M'. assert (ms' = ms) as -> by congruence. auto.
    + now rewrite incs_map.
Qed.

Lemma costs_changes E c q v ks k :
  c_badfp c = None -> costs E c q v ks -> (In (Inc k) ks <-> changes E c q k).
Proof.
  intros Nb (A & _ & F).
  assert (Q : In (Inc k) ks <-> In k (incs ks)).
  { unfold incs. rewrite in_flat_map. split.
    - intros I. exists (Inc k). split; auto. now left.
    - intros ([m|k'] & I & J); [destruct J|]. destruct J as [->|[]]. auto. }
  rewrite Q. clear Q. destruct q as [u x d|u x d]; cbn [changes].
  2:{ rewrite F. split; intros []. }
  specialize (F (c_stats c)). rewrite <- Nb, set_same in F.
  rewrite (count_occ_In counter_dec).
  split.
  - intros I. exists v, (set_stats c (bumps (c_stats c) (incs ks)) (c_badfp c)). split; auto.
    cbn [set_stats c_stats]. rewrite count_bumps. lia.
  - intros (v' & c' & H & N). rewrite F in H.
    assert (c' = set_stats c (bumps (c_stats c) (incs ks)) (c_badfp c)) as -> by congruence.
    cbn [set_stats c_stats] in N. rewrite count_bumps in N. lia.
Qed.

(** The accesses of a list of questions. *)
Definition price E c (q : question) : list access :=
  match answer E c q with Ok r => snd r | UB => [] end.
Definition prices E c (qs : list question) : list access := flat_map (price E c) qs.

Lemma price_costs E c q v ks : costs E c q v ks -> price E c q = ks.
Proof. intros [A _]. unfold price. now rewrite A. Qed.

Lemma asks_run E c qs : c_badfp c = None -> (forall q, In q qs -> exists v, says E c q v) ->
  forall s, foldM (perform E) (set_stats c s None) (asks_of qs)
            = Ok (set_stats c (bumps s (incs (prices E c qs))) None).
Proof.
  intros Nb. induction qs as [|q qs IH]; intros A s; [reflexivity|].
  destruct (A q) as (v & Sv); [now left|].
  destruct (says_costs E c q v Nb Sv) as (ks & K). pose proof (price_costs _ _ _ _ _ K) as P.
  unfold asks_of, prices. cbn [flat_map]. fold (asks_of qs). fold (prices E c qs). rewrite P.
  rewrite incs_app. unfold bumps. rewrite fold_left_app. fold (bumps s (incs ks)). destruct K as (_ & _ & K).
  assert (forall q, In q qs -> exists v, says E c q v) as A' by (intros; apply A; now right).
  destruct q as [u x d|u x d].
  - cbn [app foldM perform]. rewrite K. cbn [rmap bind snd]. apply (IH A').
  - rewrite K. apply (IH A').
Qed.
