(** The size of saved data in terms of what was loaded. *)
From Verif Require Import Base Flags Protocol Url Sets FilterM ParseM ClientM SerialM Spec SpecM
  SpecC SpecS SpecD P_Base P_Protocol P_Url P_Match P_Rule P_Parse P_List P_Shape P_Fp P_Line P_Line2
  P_Fp2 P_Props1 P_Props2 P_Props3 P_Opt P_Opt2 P_Set P_Client P_Decide P_Hist P_Ser1 P_Ser2 P_Ser3
  P_Ser4 P_Ser6 P_Size.

Lemma saved_size E calls c nc nh buf :
  history calls -> after E calls = Ok c -> serialize c nc nh = Ok buf ->
  (N.of_nat (length buf) <= 37 * N.of_nat (loaded_bytes calls) + 200000)%N.
Proof. exact (P_Size.saved_size E calls c nc nh buf). Qed.

Lemma in_total (b : bytes) bs : In b bs -> length b <= total bs.
Proof.
  unfold total. induction bs as [|x bs IH]; [easy|]. intros [-> |I]; cbn [map list_sum fold_right];
    change (fold_right Nat.add 0) with list_sum.
  - unfold bytes in *. lia.
  - specialize (IH I). unfold bytes in *. lia.
Qed.

Lemma nlists_get w k : length (tget w k) <= nlists w.
Proof.
  unfold nlists, ser_order. destruct w, k; cbn [tget map list_sum fold_right]; lia.
Qed.

Lemma saved_fits E calls c nc nh :
  history calls -> after E calls = Ok c -> (N.of_nat (loaded_bytes calls) <= 58000000)%N ->
  exists buf blobs, serialize c nc nh = Ok buf /\ serialize_size c nc nh = Ok (length buf) /\
    client_blobs c = Ok blobs /\ (N.of_nat (length buf) < 2 ^ 31)%N /\
    (forall b, In b blobs -> (N.of_nat (length b) < 2 ^ 31)%N) /\
    (forall k, (N.of_nat (length (tget (c_lists c) k)) < 2 ^ 31)%N) /\
    (N.of_nat (c_numHA c) < 2 ^ 31)%N /\ (N.of_nat (c_numHAE c) < 2 ^ 31)%N.
Proof.
  intros Hc A L.
  destruct (serialize_size_exact E calls c Hc A nc nh) as (blobs & buf & B1 & _ & S1 & S2 & S3).
  pose proof (saved_size E calls c nc nh buf Hc A S1) as K.
  pose proof (hist_sized E calls c Hc A) as (_ & NS & _).
  change (bytes_of (loaded_lines calls)) with (loaded_bytes calls) in NS.
  unfold nst, st_of, st_w in NS. cbn [fst snd] in NS.
  change (2 ^ 31)%N with 2147483648%N.
  exists buf, blobs. split; auto. split; auto. split; auto. split; [lia|]. split.
  { intros b I. apply in_total in I. rewrite <- concat_total in I.
    assert (length (concat blobs) <= length buf).
    { rewrite S3. unfold layout. rewrite !app_length. lia. }
    lia. }
  split; [|split; lia]. intros k. pose proof (nlists_get (c_lists c) k). lia.
Qed.

(** ** The texts printed into local buffers *)

Lemma hex31 n : (n < 2 ^ 31)%N -> length (hex n) <= 8.
Proof. intros H. apply (hex_aux_pow 7). eapply N.lt_trans; [exact H|reflexivity]. Qed.

Lemma fields31 l : Forall (fun n => (n < 2 ^ 31)%N) l -> length (fields l) <= 9 * length l.
Proof.
  intros F. unfold fields. pose proof (join_length "," (map hex l)) as J. rewrite map_length in J.
  assert (total (map hex l) <= 8 * length l) as K.
  { clear J. unfold total. induction F as [|n l H F IH]; [cbn; lia|].
    cbn [map list_sum fold_right length]. change (fold_right Nat.add 0) with list_sum.
    pose proof (hex31 n H). lia. }
  lia.
Qed.

Lemma header_fits E calls c nc nh buf :
  history calls -> after E calls = Ok c -> (N.of_nat (loaded_bytes calls) <= 58000000)%N ->
  serialize c nc nh = Ok buf ->
  exists h r, buf = h ++ NUL :: r /\ nonul h /\ length h < 512.
Proof.
  intros Hc A L S1.
  destruct (saved_fits E calls c nc nh Hc A L) as (b & blobs & S2 & _ & CB & _ & K1 & K2 & K3 & K4).
  rewrite S1 in S2. injection S2 as <-.
  destruct (serialize_size_exact E calls c Hc A nc nh) as (bs & b2 & B1 & LB & T1 & _ & T3).
  rewrite S1 in T1. injection T1 as <-. rewrite CB in B1. injection B1 as <-.
  rewrite T3. unfold layout. rewrite cstr_app. eexists _, _. split; [reflexivity|].
  split; [apply fields_nonul|].
  match goal with |- length (fields ?l) < _ =>
    assert (Forall (fun n => (n < 2 ^ 31)%N) l) as F; [|pose proof (fields31 l F) as H] end.
  - apply Forall_app. split; [|apply Forall_app; split].
    + apply Forall_forall. intros n I. apply in_map_iff in I as (k & <- & _).
      eapply N.le_lt_trans; [|apply (K2 k)].
      enough (length (tget (written (c_lists c) nc nh) k) <= length (tget (c_lists c) k)) by lia.
      unfold written. destruct nc, nh, k; cbn [tget t_filters t_cosmetic t_html t_exc t_nf t_nfexc t_nfd t_nfa t_nfdexc t_nfaexc]; cbn [length]; lia.
    + constructor; [exact K3|]. constructor; [exact K4|constructor].
    + apply Forall_forall. intros n I. apply in_map_iff in I as (b & <- & I). auto.
  - rewrite !app_length, !map_length in H. change (length ser_order) with 10 in H. cbn [length] in H.
    unfold bytes in *. rewrite LB in H. lia.
Qed.

Lemma heads_fit p l f :
  line_text l -> (N.of_nat (length l) < 2 ^ 31)%N -> parses_to p l f ->
  length (fields [f_type f; f_opt f; f_anti f]) < 256 /\
  (forall d, pattern f = Some d -> length (item_head f d) < 64) /\
  (forall d, length d <= length l -> length (nd_head d) < 64).
Proof.
  intros L N1 [b H]. rewrite parse_filter_cstr in H by auto. pose proof (pline_len p l L) as (P1 & P2 & P3).
  pose proof (pline_ok p l L) as RO. destruct (pline p l) as [g b']. injection H as <- <-.
  cbn [fst snd] in *. pose proof (rule_type _ _ RO) as T. destruct P3 as [B1 B2].
  assert (f_type g < 2 ^ 31)%N as T' by (eapply N.lt_trans; [exact T|reflexivity]).
  assert (f_opt g < 2 ^ 31)%N as B1' by (eapply N.lt_trans; [exact B1|reflexivity]).
  assert (f_anti g < 2 ^ 31)%N as B2' by (eapply N.lt_trans; [exact B2|reflexivity]).
  split; [|split].
  - pose proof (fields31 [f_type g; f_opt g; f_anti g]) as F. cbn [length] in F.
    apply (Nat.le_lt_trans _ (9 * 3)); [apply F; auto|lia].
  - intros d D. unfold item_head.
    pose proof (fields31 [N.of_nat (length d); f_type g; f_opt g; f_anti g]) as F. cbn [length] in F.
    apply (Nat.le_lt_trans _ (9 * 4)); [apply F|lia]. constructor; [|auto].
    unfold plen in P1. rewrite D in P1. cbn [str] in P1. lia.
  - intros d D. unfold nd_head, hexn. rewrite app_length. cbn [length B list_ascii_of_string].
    assert (N.of_nat (length d) < 2 ^ 31)%N as K by lia. pose proof (hex31 _ K). lia.
Qed.
