(** Proofs about [Filter::matches]. *)
From Verif Require Import Base Flags Url Sets FilterM ParseM ClientM Spec P_Base
  P_Url P_Match.

(** ** split_on *)
Lemma split_on_nonempty c s : split_on c s <> [].
Proof.
  destruct s as [|x s]; cbn; [easy|]. destruct (ceq x c); [easy|].
  now destruct (split_on c s).
Qed.

Lemma split_on_In c s p x : In p (split_on c s) -> In x p -> In x s /\ x <> c.
Proof.
  revert p; induction s as [|y s IH]; intros p; cbn [split_on].
  - intros [<-|[]] [].
  - destruct (ceq_spec y c) as [->|N].
    + intros [<-|I] J; [easy|]. destruct (IH p I J). cbn; auto.
    + destruct (split_on c s) as [|w ws] eqn:E.
      * intros [<-|[]] [<-|[]]. cbn; auto.
      * intros [<-|I] J.
        -- destruct J as [<-|J]; [cbn; auto|].
           destruct (IH w (or_introl eq_refl) J). cbn; auto.
        -- destruct (IH p (or_intror I) J). cbn; auto.
Qed.

Lemma split_on_nonul c s p : nonul s -> In p (split_on c s) -> nonul p.
Proof. intros H I J. now apply (split_on_In c s p NUL I) in J as [J _]. Qed.

Lemma split_on_none c s : ~ In c s -> split_on c s = [s].
Proof.
  induction s as [|x s IH]; cbn; auto. intros H.
  destruct (ceq_spec x c) as [->|N]; [exfalso; auto|]. rewrite IH; auto.
Qed.

Lemma split_on_app c a s :
  ~ In c a -> split_on c (a ++ c :: s) = a :: split_on c s.
Proof.
  induction a as [|x a IH]; intros H; cbn [app split_on].
  - now rewrite ceq_refl.
  - destruct (ceq_spec x c) as [->|N]; [exfalso; apply H; cbn; auto|].
    rewrite IH; auto. intros I; apply H; cbn; auto.
Qed.

Lemma split_pieces_of pat : pieces_of pat (split_on "*" pat).
Proof.
  split; [apply split_on_nonempty|]. split.
  - induction pat as [|x s IH]; auto. cbn [split_on].
    destruct (ceq_spec x "*") as [->|N].
    + destruct (split_on "*" s) as [|w ws] eqn:E; [now apply split_on_nonempty in E|].
      change (star_join ([] :: w :: ws)) with ("*"%char :: star_join (w :: ws)).
      now rewrite <- IH.
    + destruct (split_on "*" s) as [|w ws] eqn:E; [now apply split_on_nonempty in E|].
      rewrite IH. now destruct ws.
  - intros p I J. now apply (split_on_In "*"%char pat p "*"%char I) in J.
Qed.

Lemma pieces_of_unique pat pieces :
  pieces_of pat pieces -> pieces = split_on "*" pat.
Proof.
  intros (N & -> & H). induction pieces as [|p more IH]; [easy|].
  destruct more as [|q more].
  - cbn [star_join]. rewrite split_on_none; auto. apply H; cbn; auto.
  - cbn [star_join]. cbn [B list_ascii_of_string app].
    rewrite split_on_app by (apply H; cbn; auto). f_equal. apply IH; [easy|].
    intros; apply H; cbn; auto.
Qed.

(** ** The host of a URL inside the URL *)
Lemma hostOf_substring url : substring (hostOf url) url.
Proof.
  destruct (in_dec ascii_dec ":"%char url) as [I|N].
  - destruct (hostOf_exists url I) as (s & sl & rest & E & _).
    exists (s ++ B ":" ++ sl), rest. rewrite E at 1. now rewrite <- !app_assoc.
  - unfold hostOf.
    assert (after_colon url = []) as ->.
    { clear -N. induction url as [|c u IH]; auto. cbn.
      destruct (ceq_spec c ":") as [->|]; [exfalso; apply N; cbn; auto|].
      apply IH. intros I; apply N; cbn; auto. }
    exists [], url. reflexivity.
Qed.

Definition hostchk (f : filter) (url : bytes) : bool :=
  negb (has (f_type f) FTHostAnchored)
  || negb (isThirdPartyHost (hkey f) (hostOf url)).

(** The pattern part of [Filter::matches], without memory. *)
Definition patb (E : env) (f : filter) (d url : bytes) : bool :=
  if has (f_type f) FTRegex then e_regex E d url
  else if has (f_type f) FTLeftAnchored && has (f_type f) FTRightAnchored
  then beq d url
  else if has (f_type f) FTRightAnchored then endsWith url d
  else if has (f_type f) FTLeftAnchored then prefixb d url
  else hostchk f url && wildb url (split_on "*" d) 0.

Definition tmatch (E : env) (f : filter) (url : bytes) : bool :=
  match f_data f with Some (d, _) => patb E f d url | None => false end.

Definition unanchored (f : filter) : Prop :=
  has (f_type f) FTRegex = false /\ has (f_type f) FTLeftAnchored = false /\
  has (f_type f) FTRightAnchored = false.

(** The bytes after the pattern are as in a parsed or restored rule, or are
    never looked at. *)
Definition tail_fine (f : filter) (d t : bytes) : Prop :=
  tail_ok t \/
  (~ ends_star (split_on "*" d) /\ has (f_type f) FTRightAnchored = false).

Definition caret_free (f : filter) (d : bytes) : Prop :=
  unanchored f -> forall p, In p (split_on "*" d) -> caret_safe p = true.

Lemma bind_Ok_eq {A C} (r : res A) (k : A -> res C) a :
  r = Ok a -> bind r k = k a.
Proof. intros ->. reflexivity. Qed.

Lemma getUrlHost_cstr url : nonul url -> getUrlHost (cstr url) = Ok (hostOf url).
Proof. intros H. apply (getUrlHost_pure url []); auto. Qed.

Lemma endsWith_skipn url d :
  endsWith url d = true <-> length d <= length url /\
                           skipn (length url - length d) url = d.
Proof.
  unfold endsWith. destruct (Nat.ltb_spec (length url) (length d)).
  - split; [easy|]. lia.
  - rewrite beq_eq. tauto.
Qed.

Lemma filter_matches_eval E f url context dom host d t :
  nonul url -> f_data f = Some (d, t) -> nonul d -> tail_fine f d t ->
  (host = [] \/ host = hostOf url) ->
  match filter_matches E f (cstr url) (length url) context dom None host with
  | Ok b => b = matchesOptions f context dom && patb E f d url
  | UB => unanchored f /\
          exists p, In p (split_on "*" d) /\ caret_safe p = false
  end.
Proof.
  intros Hu Hd Nd T Hh. unfold filter_matches, patb. rewrite Hd.
  destruct (matchesOptions f context dom); cbn [negb andb]; auto.
  destruct (has (f_type f) FTRegex) eqn:R.
  { rewrite strlen_cstr by auto. cbn [bind]. now rewrite firstn_cstr. }
  destruct (has (f_type f) FTRightAnchored) eqn:RA.
  - destruct T as [[t' ->]|[_ T]]; [|congruence].
    rewrite andb_true_r.
    destruct (has (f_type f) FTLeftAnchored).
    + unfold cstr. now rewrite strcmp_eq_app by auto.
    + unfold endsWith.
      destruct (Nat.ltb_spec (length url) (length d)); [reflexivity|].
      rewrite skipn_cstr by lia.
      unfold cstr. rewrite strcmp_eq_app; auto. now apply nonul_skipn.
  - rewrite andb_false_r.
    destruct (has (f_type f) FTLeftAnchored) eqn:LA.
    { unfold cstr. now rewrite strncmp_eq_app by auto. }
    assert (
      (if has (f_type f) FTHostAnchored
       then cur <- match host with [] => getUrlHost (cstr url) | _ => Ok host end;;
            (if negb (host_pairs_ok (e_hash2 E) None
                       match f_host f with Some h => h | None => [] end)
             then Ok false
             else Ok (negb (isThirdPartyHost
                       match f_host f with Some h => h | None => [] end cur)))
       else Ok true) = Ok (hostchk f url)) as G.
    { unfold hostchk. destruct (has (f_type f) FTHostAnchored); auto.
      cbn [negb orb]. unfold hkey.
      replace (match host with [] => getUrlHost (cstr url) | _ => Ok host end)
        with (Ok (hostOf url)); auto.
      destruct Hh as [->| ->]; [now rewrite getUrlHost_cstr|].
      destruct (hostOf url) eqn:E1; auto. now rewrite getUrlHost_cstr, E1. }
    cbv zeta.
    rewrite (bind_Ok_eq _ _ _ G).
    destruct (hostchk f url); cbn [negb andb]; auto.
    pose proof (wild_spec (e_hash2 E) url (split_on "*" d) t 0 Hu) as W.
    assert (forall p, In p (split_on "*" d) -> nonul p) as Np
      by (intros p; now apply split_on_nonul).
    specialize (W Np). destruct (wild _ _ _ _ _ _ _).
    + apply W. intros ES. destruct T as [|[? _]]; auto. easy.
    + split; [repeat split; auto|].
      destruct W as [[ES ->]|]; auto.
      destruct T as [[? [=]]|[? _]]; easy.
Qed.

Lemma filter_matches_null E f input n context dom bf host :
  f_data f = None ->
  filter_matches E f input n context dom bf host = Ok false.
Proof.
  intros H. unfold filter_matches. rewrite H.
  now destruct (negb _).
Qed.

Lemma filter_matches_host E f url n context dom bf host :
  nonul url -> host = [] \/ host = hostOf url ->
  filter_matches E f (cstr url) n context dom bf host =
  filter_matches E f (cstr url) n context dom bf [].
Proof.
  intros Hu [->| ->]; auto. unfold filter_matches.
  destruct (negb _); auto. destruct (f_data f) as [[d t]|]; auto.
  destruct (has (f_type f) FTRegex); auto. destruct (has _ _ && _); auto.
  destruct (has (f_type f) FTRightAnchored); auto.
  destruct (has (f_type f) FTLeftAnchored); auto.
  destruct (has (f_type f) FTHostAnchored); auto. cbv zeta.
  destruct (hostOf url) eqn:E1; auto. rewrite getUrlHost_cstr, E1 by auto. auto.
Qed.

(** ** Bloom filter of the URL *)
Lemma host_pairs_covered hs b host url :
  covers hs b url -> isThirdPartyHost host (hostOf url) = false ->
  host_pairs_ok hs (Some b) host = true.
Proof.
  intros C H. apply isThirdPartyHost_spec in H.
  apply forallb_forall. intros p I. apply C.
  destruct (hostOf_substring url) as (a & r & ->).
  destruct H as [->|[sub ->]].
  - now apply pairs_app_mid.
  - rewrite <- !app_assoc. rewrite app_assoc. rewrite (app_assoc (a ++ sub)).
    now apply pairs_app_mid.
Qed.

Lemma covers_inputBloom E url : covers (e_hash2 E) (inputBloom E url) url.
Proof. intros p I. now apply bl_fold_in. Qed.

Lemma filter_matches_bloom E f url context dom b host r :
  nonul url -> (forall d t, f_data f = Some (d, t) -> nonul d) ->
  host = [] \/ host = hostOf url -> covers (e_hash2 E) b url ->
  filter_matches E f (cstr url) (length url) context dom None host = Ok r ->
  filter_matches E f (cstr url) (length url) context dom (Some b) host = Ok r.
Proof.
  intros Hu Hd Hh C. unfold filter_matches.
  destruct (negb (matchesOptions f context dom)); auto.
  destruct (f_data f) as [[d t]|] eqn:Ed; auto.
  destruct (has (f_type f) FTRegex); auto.
  destruct (has (f_type f) FTLeftAnchored && _); auto.
  destruct (has (f_type f) FTRightAnchored); auto.
  destruct (has (f_type f) FTLeftAnchored); auto. cbv zeta.
  set (h := match f_host f with Some h => h | None => [] end).
  assert (match host with [] => getUrlHost (cstr url) | _ => Ok host end
          = Ok (hostOf url)) as Eh.
  { destruct Hh as [->| ->]; [now rewrite getUrlHost_cstr|].
    destruct (hostOf url) eqn:E1; auto. now rewrite getUrlHost_cstr, E1. }
  intros H. apply bind_ok in H as (go & G & H).
  rewrite bind_Ok_eq with (a := go).
  { destruct (negb go); auto.
    apply wild_bloom; auto. intros p. apply split_on_nonul. eapply Hd; eauto. }
  destruct (has (f_type f) FTHostAnchored); auto.
  rewrite (bind_Ok_eq _ _ _ Eh) in G.
  rewrite (bind_Ok_eq _ _ _ Eh).
  cbn [host_pairs_ok negb] in G. injection G as <-.
  destruct (isThirdPartyHost h (hostOf url)) eqn:T3.
  - now destruct (negb (host_pairs_ok _ _ _)).
  - now rewrite (host_pairs_covered _ _ _ url).
Qed.

Lemma filter_matches_bloom_true E f input n context dom b host :
  filter_matches E f input n context dom (Some b) host = Ok true ->
  filter_matches E f input n context dom None host = Ok true.
Proof.
  unfold filter_matches.
  destruct (negb (matchesOptions f context dom)); auto.
  destruct (f_data f) as [[d t]|] eqn:Ed; auto.
  destruct (has (f_type f) FTRegex); auto.
  destruct (has (f_type f) FTLeftAnchored && _); auto.
  destruct (has (f_type f) FTRightAnchored); auto.
  destruct (has (f_type f) FTLeftAnchored); auto. cbv zeta.
  destruct (has (f_type f) FTHostAnchored).
  - destruct (match host with [] => _ | _ => _ end); cbn [bind]; auto.
    destruct (host_pairs_ok (e_hash2 E) (Some b) _); cbn [negb]; [|easy].
    cbn [host_pairs_ok negb bind]. destruct (negb (negb _)); auto.
    apply wild_bloom_true.
  - cbn [bind negb]. apply wild_bloom_true.
Qed.
