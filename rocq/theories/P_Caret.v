(** Proof for C78: a rule with a '^' in the middle does make requests fail. *)
From Verif Require Import Base Flags Protocol Url Sets FilterM ParseM ClientM Spec SpecM SpecC SpecR SpecQ
  P_Base P_Url P_Match P_Rule P_Parse P_Shape P_Fp2 P_Line4 P_Line5 P_Match2 P_Over P_Client P_Decide P_Dec2
  P_List P_Line2 P_Line3 P_Hist P_Opt2 P_Props2 P_Dec3 P_Dec4 P_End.

(** The end of the URL is [a]; in front of it [mid], and a run of [z]. *)
Definition fault_url (z : ascii) (p mid a : bytes) : bytes :=
  B "http://" ++ repeat z (length p) ++ mid ++ a.

Section Url.
Context (z : ascii) (p mid a b : bytes).
Context (Hp : p = a ++ B "^" ++ b) (Na : a <> []) (Nb : b <> []).
Context (Zs : ~ In z separators) (Zp : ~ In z p).
Context (Mid : forall m x, In m mid -> hd_error p = Some x -> ~ char_fits x (Some m)).
Context (Pre : forall i, i + length p <= 7 -> ~ piece_at p (B "http://") i).
Notation url := (fault_url z p mid a).

Lemma fault_length : length url = 7 + length p + length mid + length a.
Proof. unfold fault_url. rewrite !app_length, repeat_length. change (length (B "http://")) with 7. lia. Qed.

Lemma fault_z i : i < length p -> nth_error url (7 + i) = Some z.
Proof.
  intros L. unfold fault_url. rewrite nth_error_app2 by (cbn; lia).
  replace (7 + i - length (B "http://")) with i by (cbn; lia).
  rewrite nth_error_app1 by (rewrite repeat_length; lia).
  apply nth_error_repeat. lia.
Qed.

Lemma fault_mid i : nth_error url (7 + length p + i) = nth_error (mid ++ a) i.
Proof.
  unfold fault_url. rewrite nth_error_app2 by (cbn; lia).
  rewrite nth_error_app2 by (rewrite repeat_length; cbn; lia). rewrite repeat_length.
  f_equal. cbn. lia.
Qed.

Lemma fault_pre i : i < 7 -> nth_error url i = nth_error (B "http://") i.
Proof. intros L. unfold fault_url. now rewrite nth_error_app1 by (cbn; lia). Qed.

Lemma z_unfit c : In c p -> ~ char_fits c (Some z).
Proof. intros I [->|[_ J]]; auto. Qed.

Lemma first_unfit j x : 7 <= j -> j < 7 + length p + length mid -> hd_error p = Some x ->
  ~ char_fits x (nth_error url j).
Proof.
  intros G L X F. destruct (le_lt_dec (7 + length p) j) as [M|M].
  - replace j with (7 + length p + (j - 7 - length p)) in F by lia.
    rewrite fault_mid, nth_error_app1 in F by lia.
    destruct (nth_error mid (j - 7 - length p)) as [m|] eqn:Q.
    + apply nth_error_In in Q. now apply (Mid m x).
    + apply nth_error_None in Q. lia.
  - replace j with (7 + (j - 7)) in F by lia. rewrite fault_z in F by lia.
    apply (z_unfit x); auto. clear -X. destruct p; [discriminate|]. injection X as ->. now left.
Qed.

Lemma fault_overread : overread url 0 p.
Proof.
  assert (0 < length a) as La by (destruct a; [congruence|cbn; lia]).
  assert (0 < length p) as Lp by (rewrite Hp, app_length; lia).
  split; [rewrite fault_length; lia|]. exists (7 + length p + length mid), a, b. split; [lia|]. split.
  { split; [exact Hp|]. split; [rewrite fault_length; lia|]. split; [rewrite fault_length; lia|].
    split; [rewrite fault_length; lia|]. intros j pc Hj.
    assert (nth_error url (7 + length p + length mid + j) = Some pc) as ->; [|now left].
    rewrite <- Nat.add_assoc, fault_mid, nth_error_app2 by lia.
    now replace (length mid + j - length mid) with j by lia. }
  split; [exact Nb|]. intros j _ Lj. split.
  - intros (Q & F). destruct (le_lt_dec 7 j) as [G|G].
    + assert (exists x, hd_error p = Some x) as (x & X).
      { clear -Lp. destruct p; [cbn in Lp; lia|]. eexists. reflexivity. }
      apply (first_unfit j x); auto.
      replace j with (j + 0) by lia. apply F. clear -X. now destruct p.
    + destruct (le_lt_dec (j + length p) 7) as [M|M].
      * apply (Pre j M). split; [cbn; lia|]. intros k pc Hk. specialize (F k pc Hk).
        assert (k < length p) by (apply nth_error_Some; congruence).
        now rewrite fault_pre in F by lia.
      * destruct (nth_error p (7 - j)) as [x|] eqn:X.
        2:{ apply nth_error_None in X. lia. }
        specialize (F _ _ X). replace (j + (7 - j)) with (7 + 0) in F by lia.
        rewrite fault_z in F by lia. apply (z_unfit x); auto. now apply nth_error_In in X.
  - intros a' c b' (Q & L1 & L2 & _ & F). exfalso. rewrite fault_length in *.
    assert (length a' < length p) as La'.
    { rewrite Q, app_length. cbn. lia. }
    destruct (le_lt_dec 7 j) as [G|G]; [|lia].
    destruct a' as [|x a']; [cbn in L2; lia|]. specialize (F 0 x eq_refl).
    replace (j + 0) with j in F by lia. apply (first_unfit j x); auto. rewrite Q. reflexivity.
Qed.

Lemma fault_web : web_url url.
Proof.
  split; [rewrite fault_length; lia|]. exists [], (B "http"), (repeat z (length p) ++ mid ++ a).
  split; [reflexivity|]. split; [now left|]. left. repeat constructor.
Qed.

Lemma fault_nonul : z <> NUL -> ~ In NUL mid -> nonul p -> nonul url.
Proof.
  intros Zn Nm Np I. unfold fault_url in I. apply in_app_or in I as [I|I].
  - cbn in I. intuition discriminate.
  - apply in_app_or in I as [I|I].
    + apply repeat_spec in I. congruence.
    + apply in_app_or in I as [I|I]; [auto|].
      apply Np. rewrite Hp. apply in_or_app. now left.
Qed.
End Url.

Lemma scan_ub E c k q f fs : tget (c_lists c) k = f :: fs ->
  filter_matches E f (q_input q) (q_len q) (q_context q) (q_dom q) None (q_host q) = UB ->
  scan E c k q None = UB.
Proof. intros L U. unfold scan. rewrite L. cbn [hasMatchingFilters]. now rewrite U. Qed.

Lemma scan_empty E c k q bf : tget (c_lists c) k = [] -> scan E c k q bf = Ok None.
Proof. intros L. unfold scan. now rewrite L. Qed.

(** A client with one rule that names more than a host. *)
Lemma lone_faults E pres r c url context dom :
  good_rule r -> x_exception r = false -> ~ names_only_host r -> unrestricted r context ->
  nonul url -> after E [Parse pres (rule_line r)] = Ok c ->
  (forall f b, parse_filter pres (cstr (rule_line r)) (length (rule_line r)) = Ok (f, b) ->
     matchesOptions f (ctx_of url context dom) dom = true ->
     filter_matches E f (cstr url) (length url) (ctx_of url context dom) dom None (hostOf url) = UB) ->
  findMatchingFilters E c (cstr url) context dom = UB.
Proof.
  intros G X NO Un Hu A U.
  assert (line_text (rule_line r)) as Hl by now apply good_rule_line.
  assert (history [Parse pres (rule_line r)]) as H.
  { constructor; [|constructor]. cbn. now apply line_text_nonul. }
  destruct (hist_view E _ c H A) as (rs & V). pose proof (w_rep _ _ _ _ V) as RP.
  pose proof (w_lines _ _ _ _ V) as F. unfold loaded_lines in F. cbn [loaded_from app] in F.
  rewrite text_lines_single in F by exact Hl. cbn [map] in F.
  inversion F as [|x y xs ys LR F' E1 E2]; subst. inversion F'; subst. clear F F'.
  destruct y as [[f b0] k].
  pose proof (line_rule_ok E _ _ LR) as [_ C].
  assert (parses_to pres (rule_line r) f) as [b1 HP]
    by (apply (line_rule_parses E (pres, rule_line r) (f, b0, k) f LR); reflexivity).
  pose proof (unrestricted_options pres r f b1 (ctx_of url context dom) dom G HP) as MO.
  assert (unrestricted r (ctx_of url context dom)) as Un'.
  { destruct Un as [O D]. split; auto. unfold ctx_of, party_context. destruct dom as [d|]; auto.
    destruct (has context (N.lor FOThirdParty FONotThirdParty)); auto.
    destruct (isThirdPartyHost _ _); rewrite has_lor_l, D; reflexivity. }
  specialize (MO Un'). specialize (U f b1 HP MO).
  destruct (rule_category E pres r f b1 G HP) as (k' & C' & K). rewrite C in C'. injection C' as <-.
  assert (hasUnsupportedOptions f = false) as Us.
  { unfold matchesOptions in MO. destruct (hasUnsupportedOptions f); [discriminate|reflexivity]. }
  rewrite Us, X in K.
  assert (k <> CSkip) as Nk by (intros ->; discriminate).
  destruct (rule_collection E pres r f b1 k G HP C Nk) as [KH _].
  assert (forall j, tget (c_lists c) j = rules_in j [(f, b0, k)]) as L by (intros; now apply (rep_lists E)).
  unfold findMatchingFilters. rewrite strlen_cstr by exact Hu. cbn [bind].
  rewrite mkQuery_cstr by exact Hu. cbn [bind].
  set (q := the_query url context dom) in *.
  destruct k as [|e|j]; [congruence|exfalso; apply NO, KH; eauto|].
  assert (scan E c j q None = UB) as SU.
  { apply (scan_ub E c j q f []); [|exact U]. rewrite L. now destruct j. }
  assert (forall i, i <> j -> scan E c i q None = Ok None) as SE.
  { intros i N. apply scan_empty. rewrite L. destruct i, j; try reflexivity; congruence. }
  destruct j; try discriminate; repeat rewrite SE by discriminate; cbn [orelse bind]; rewrite SU; reflexivity.
Qed.

Lemma body_nonul r : good_rule r -> nonul (x_body r).
Proof. intros (_ & G & _) I. apply G in I. unfold body_char in I. intuition congruence. Qed.

(** ** Patterns of several pieces *)
Section Gap.
Context (z : ascii) (n : nat) (u v q : bytes) (from : nat).
Notation url := (u ++ repeat z n ++ v).
Context (Zs : ~ In z separators) (Zq : ~ In z q) (Nq : q <> []) (Lq : length q <= n).
Context (Fu : from <= length u).
Context (Pre : forall j, from <= j -> j + length q <= length u -> ~ piece_at q url j).

Lemma gap_length : length url = length u + n + length v.
Proof. rewrite !app_length, repeat_length. lia. Qed.

Lemma gap_z j : length u <= j -> j < length u + n -> nth_error url j = Some z.
Proof.
  intros G L. rewrite nth_error_app2 by lia. rewrite nth_error_app1 by (rewrite repeat_length; lia).
  apply nth_error_repeat. lia.
Qed.

Lemma gap_v j : nth_error url (length u + n + j) = nth_error v j.
Proof.
  rewrite nth_error_app2 by lia. rewrite nth_error_app2 by (rewrite repeat_length; lia).
  rewrite repeat_length. f_equal. lia.
Qed.

Lemma gap_unfit c : In c q -> ~ char_fits c (Some z).
Proof. intros I [->|[_ J]]; auto. Qed.

Lemma gap_size : 0 < length q.
Proof. destruct q; [congruence|cbn; lia]. Qed.

Lemma gap_before j : from <= j -> j < length u + n -> ~ piece_at q url j.
Proof.
  intros G L (Q & F). pose proof gap_size as Sq.
  destruct (le_lt_dec (j + length q) (length u)) as [M|M]; [now apply (Pre j G M)|].
  destruct (nth_error q (length u - j)) as [x|] eqn:X.
  2:{ apply nth_error_None in X. lia. }
  specialize (F _ _ X). rewrite gap_z in F by lia. apply (gap_unfit x); auto. now apply nth_error_In in X.
Qed.

Lemma gap_found v' : v = q ++ v' -> q <> B "^" -> first_found url from q (length u + n).
Proof.
  intros V C. pose proof gap_size as Sq. pose proof gap_length as Lu.
  assert (length v = length q + length v') as Lv by (now rewrite V, app_length).
  split.
  - split; [lia|]. split; [lia|]. split; [|split; [exact C|lia]].
    split; [lia|]. intros j pc Hj. rewrite gap_v, V.
    assert (j < length q) by (apply nth_error_Some; congruence).
    rewrite nth_error_app1 by lia. rewrite Hj. now left.
  - intros j (G & _ & P & _). destruct (le_lt_dec (length u + n) j) as [|L]; auto.
    exfalso. now apply (gap_before j).
Qed.

Lemma gap_overread b : q = v ++ B "^" ++ b -> v <> [] -> b <> [] -> overread url from q.
Proof.
  intros Q Nv Nb. pose proof gap_size as Sq. pose proof gap_length as Lu.
  assert (0 < length v) as Lv by (destruct v; [congruence|cbn; lia]).
  split; [lia|]. exists (length u + n), v, b. split; [lia|]. split.
  { split; [exact Q|]. split; [lia|]. split; [lia|]. split; [lia|].
    intros j pc Hj. rewrite gap_v, Hj. now left. }
  split; [exact Nb|]. intros j G L. split; [now apply gap_before|].
  intros a' c b' (Q' & L1 & L2 & _ & F). exfalso.
  assert (length a' < length q) as La' by (rewrite Q', app_length; cbn; lia).
  destruct a' as [|x a']; [cbn in L2; lia|]. specialize (F 0 x eq_refl).
  replace (j + 0) with j in F by lia. rewrite gap_z in F by lia.
  apply (gap_unfit x); auto. rewrite Q'. now left.
Qed.
End Gap.

Definition gaps (z : ascii) (n : nat) (qs : list bytes) (a : bytes) : bytes :=
  flat_map (fun q => repeat z n ++ q) qs ++ repeat z n ++ a.

Lemma gaps_overread (sch : bytes -> Prop) z n a p b more :
  (forall q, sch q) -> p = a ++ B "^" ++ b -> a <> [] -> b <> [] -> ~ In z separators ->
  forall qs u from, from <= length u ->
  (forall q, In q (qs ++ [p]) -> q <> [] /\ q <> B "^" /\ ~ In z q /\ length q <= n) ->
  (forall q j, hd_error (qs ++ [p]) = Some q -> from <= j -> j + length q <= length u ->
     ~ piece_at q (u ++ gaps z n qs a) j) ->
  overreads sch (u ++ gaps z n qs a) from (qs ++ p :: more).
Proof.
  intros Sc Hp Na Nb Zs. induction qs as [|q qs IH]; intros u from Fu Hq Pre.
  - unfold gaps. cbn [flat_map app]. destruct (Hq p) as (Q1 & Q2 & Q3 & Q4); [now left|].
    apply or_here; [apply Sc|]. apply (gap_overread z n u a p from) with (b := b); auto.
  - destruct (Hq q) as (Q1 & Q2 & Q3 & Q4); [now left|].
    assert (u ++ gaps z n (q :: qs) a = u ++ repeat z n ++ (q ++ gaps z n qs a)) as R.
    { unfold gaps. cbn [flat_map]. now rewrite <- !app_assoc. }
    cbn [app]. apply (or_next _ _ _ _ (length u + n)).
    + rewrite R. apply (gap_found z n u (q ++ gaps z n qs a) q from) with (v' := gaps z n qs a); auto.
      rewrite <- R. intros j. apply (Pre q j eq_refl).
    + rewrite R. rewrite !app_assoc.
      replace (length u + n + length q) with (length ((u ++ repeat z n) ++ q))
        by (rewrite !app_length, repeat_length; lia).
      apply IH; auto.
      * intros q' I. apply Hq. now right.
      * intros q' j X G L. destruct (Hq q') as (Q & _).
        { right. destruct (qs ++ [p]); [discriminate|]. injection X as ->. now left. }
        destruct q'; [congruence|]. cbn in L. lia.
Qed.

Lemma star_join_part pieces q x : In q pieces -> In x q -> In x (star_join pieces).
Proof.
  induction pieces as [|p ps IH]; intros I J; [destruct I|]. cbn [star_join].
  destruct ps as [|p' ps]; [destruct I as [->|[]]; auto|].
  destruct I as [->|I]; apply in_or_app; [now left|]. right. apply in_or_app. right. now apply IH.
Qed.

Lemma star_join_length pieces q : In q pieces -> length q <= length (star_join pieces).
Proof.
  induction pieces as [|p ps IH]; intros I; [destruct I|]. cbn [star_join].
  destruct ps as [|p' ps]; [destruct I as [->|[]]; auto|].
  rewrite !app_length. destruct I as [->|I]; [lia|]. specialize (IH I). lia.
Qed.

Lemma piece_caret_faults E pres r qs a b more z c context dom :
  good_rule r -> x_exception r = false -> x_anchor r = NoAnchor -> x_right r = false ->
  unrestricted r context ->
  pieces_of (x_body r) (qs ++ (a ++ B "^" ++ b) :: more) -> a <> [] -> b <> [] ->
  (forall q, In q qs -> q <> [] /\ q <> B "^") ->
  z <> NUL -> ~ In z separators -> ~ In z (x_body r) ->
  (forall q i, hd_error (qs ++ [a ++ B "^" ++ b]) = Some q -> i + length q <= 7 ->
     ~ piece_at q (B "http://") i) ->
  after E [Parse pres (rule_line r)] = Ok c ->
  exists url, nonul url /\ web_url url /\ findMatchingFilters E c (cstr url) context dom = UB.
Proof.
  intros G X An R Un Pc Na Nb Qs Zn Zs Zp Pre A.
  pose proof (body_nonul r G) as Np. set (p := a ++ B "^" ++ b) in *.
  set (n := length (x_body r)). set (url := B "http://" ++ gaps z n qs a).
  pose proof Pc as (_ & Pj & _).
  assert (forall q x, In q (qs ++ p :: more) -> In x q -> In x (x_body r)) as Part.
  { intros q x I J. rewrite Pj. now apply (star_join_part _ q). }
  assert (In p (qs ++ p :: more)) as Ip by (apply in_or_app; right; now left).
  assert (nonul url) as Hu.
  { unfold url, gaps. intros I. apply in_app_or in I as [I|I]; [cbn in I; intuition discriminate|].
    apply in_app_or in I as [I|I].
    - apply in_flat_map in I as (q & I & J). apply in_app_or in J as [J|J].
      + apply repeat_spec in J. congruence.
      + apply Np. apply (Part q); auto. apply in_or_app. now left.
    - apply in_app_or in I as [I|I]; [apply repeat_spec in I; congruence|].
      apply Np. apply (Part p); auto. apply in_or_app. now left. }
  assert (web_url url) as Hw.
  { split.
    - unfold url. rewrite app_length. change (length (B "http://")) with 7. lia.
    - exists [], (B "http"), (gaps z n qs a). split; [reflexivity|]. split; [now left|].
      left. repeat constructor. }
  exists url. split; [exact Hu|]. split; [exact Hw|].
  apply (lone_faults E pres r c url context dom); auto.
  { intros (Q & _). congruence. }
  intros f b1 HP MO.
  apply (rule_ub E pres r f b1 url (hostOf url) (host_prefix (x_body r)) (qs ++ p :: more) _ dom None _ G HP); auto.
  - apply body_host_exists.
  - apply hostOf_exists, web_colon, Hw.
  - right. apply hostOf_exists, web_colon, Hw.
  - discriminate.
  - split; auto. split; [congruence|]. split; auto. split; [congruence|].
    apply (gaps_overread _ z n a p b more); auto; [discriminate|cbn; lia| |].
    + intros q I. apply in_app_or in I as [I|[<-|[]]].
      * destruct (Qs q I) as [Q1 Q2]. assert (In q (qs ++ p :: more)) as J by (apply in_or_app; now left).
        repeat split; auto; [intros K; apply Zp; now apply (Part q)|].
        unfold n. rewrite Pj. now apply star_join_length.
      * repeat split.
        -- unfold p. destruct a; discriminate.
        -- unfold p. intros Q. destruct a as [|a0 a1]; [congruence|]. cbn in Q. injection Q as _ Q.
           destruct a1; discriminate.
        -- intros K. apply Zp. now apply (Part p).
        -- unfold n. rewrite Pj. now apply star_join_length.
    + intros q j Q _ L (B1 & F). change (length (B "http://")) with 7 in L.
      apply (Pre q j Q L). split; [cbn; lia|]. intros k pc Hk. specialize (F k pc Hk).
      assert (k < length q) by (apply nth_error_Some; congruence).
      unfold url in F. rewrite nth_error_app1 in F by (change (length (B "http://")) with 7; lia). exact F.
Qed.

Lemma host_caret_faults E pres r h b z c context dom :
  good_rule r -> x_exception r = false -> x_anchor r = HostBars -> x_right r = false ->
  unrestricted r context ->
  x_body r = h ++ B "^" ++ b -> h <> [] -> hd_error h <> Some "."%char ->
  (forall x, In x h -> ~ In x separators) -> b <> [] -> ~ In "*"%char (x_body r) ->
  z <> NUL -> ~ In z separators -> ~ In z (x_body r) ->
  (forall i, i + length (x_body r) <= 7 -> ~ piece_at (x_body r) (B "http://") i) ->
  after E [Parse pres (rule_line r)] = Ok c ->
  exists url, nonul url /\ web_url url /\ findMatchingFilters E c (cstr url) context dom = UB.
Proof.
  intros G X An R Un Hb Nh Hd Hs Nb St Zn Zs Zp Pre A.
  pose proof (body_nonul r G) as Np. set (p := x_body r) in *.
  set (url := fault_url z p (B ".") h).
  assert (nonul url) as Hu by (apply (fault_nonul z p (B ".") h b); auto; cbn; intuition discriminate).
  assert (web_url url) as Hw by apply fault_web.
  exists url. split; [exact Hu|]. split; [exact Hw|].
  apply (lone_faults E pres r c url context dom); auto.
  { intros (_ & _ & h' & N' & [Q|Q]); fold p in Q; rewrite Hb in Q.
    - apply (N' "^"%char); [|cbn; auto 10]. rewrite <- Q. apply in_or_app. right. now left.
    - destruct (exists_last Nb) as (b' & l & ->).
      assert (h' = h ++ B "^" ++ b') as ->.
      { rewrite !app_assoc in Q. apply app_inj_tail in Q as [Q _]. rewrite <- Q. now rewrite <- app_assoc. }
      apply (N' "^"%char); [|cbn; auto 10]. apply in_or_app. right. now left. }
  assert (url_has_host url (repeat z (length p) ++ B "." ++ h)) as Hh.
  { exists (B "http"), (B "//"), []. split; [|split; [|split; [|split]]].
    - unfold url, fault_url. rewrite app_nil_r. reflexivity.
    - cbn. intuition discriminate.
    - cbn. intuition congruence.
    - intros x I. apply in_app_or in I as [I|I]; [apply repeat_spec in I; congruence|].
      apply in_app_or in I as [I|I]; [|auto]. destruct I as [<-|[]]. cbn. intuition discriminate.
    - split; [|now left]. intros Q. apply app_eq_nil in Q as [_ Q]. discriminate. }
  intros f b1 HP MO.
  apply (rule_ub E pres r f b1 url (repeat z (length p) ++ B "." ++ h) h [p] _ dom None _ G HP); auto.
  - exists (B "^" ++ b). split; [exact Hb|]. split; [exact Hs|]. right. exists "^"%char, b.
    split; [reflexivity|]. cbn. auto 10.
  - split; [discriminate|]. split; [reflexivity|]. intros p' [<-|[]]. exact St.
  - right. apply hostOf_exists, web_colon, Hw.
  - discriminate.
  - split; auto. split; [congruence|]. split; auto. split.
    + intros _. right. now exists (repeat z (length p)).
    + apply or_here; [discriminate|]. apply (fault_overread z p (B ".") h b); auto.
      intros m x [<-|[]] Q. rewrite Hb in Q. destruct h as [|h0 h']; [congruence|].
      injection Q as <-. intros [Q|[Q _]]; subst h0.
      * now apply Hd.
      * apply (Hs "^"%char); cbn; auto 10.
Qed.
