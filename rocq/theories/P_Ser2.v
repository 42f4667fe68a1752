(** Serialization: hash sets and Bloom filters. *)
From Verif Require Import Base Flags Url Sets FilterM ParseM ClientM SerialM Spec SpecM SpecC SpecS
  P_Base P_Url P_Match P_Rule P_Parse P_List P_Line P_Line2 P_Ser1.

(** ** Framing *)
Section Frame.
  Context {A : Type} (isize : A -> res nat)
          (iwrite : bytes -> nat -> A -> res (bytes * nat))
          (iread : bytes -> nat -> res (option (A * nat)))
          (enc : A -> bytes) (ok : A -> Prop) (rel : A -> A -> Prop)
          (H_size : forall x, ok x -> isize x = Ok (length (enc x)))
          (H_write : forall pre n x, ok x -> length (enc x) <= n ->
             iwrite (pre ++ zeros n) (length pre) x =
             Ok ((pre ++ enc x) ++ zeros (n - length (enc x)), length pre + length (enc x)))
          (H_first : forall x, ok x -> exists c r, enc x = c :: r /\ c <> NUL)
          (H_read : forall x r size, ok x -> length (enc x) <= size ->
             exists y, iread (enc x ++ r) size = Ok (Some (y, length (enc x))) /\ rel x y).

  Definition bucket_bytes (b : list A) : bytes := flat_map enc b ++ [NUL].
  Definition set_bytes (s : hset A) : bytes :=
    cstr (hexn (length s)) ++ flat_map bucket_bytes s.

  Lemma items_size_ok b : Forall ok b -> items_size isize b = Ok (length (flat_map enc b)).
  Proof using H_size.
    induction 1 as [|x b H F IH]; [reflexivity|]. cbn [items_size flat_map].
    rewrite H_size by auto. cbn [bind]. rewrite IH. cbn [bind]. now rewrite app_length.
  Qed.

  Lemma buckets_size_ok s : Forall (Forall ok) s ->
    buckets_size isize s = Ok (length (flat_map bucket_bytes s)).
  Proof using H_size.
    induction 1 as [|b s H F IH]; [reflexivity|]. cbn [buckets_size flat_map].
    rewrite items_size_ok by auto. cbn [bind]. rewrite IH. cbn [bind].
    rewrite app_length. unfold bucket_bytes at 2. rewrite app_length. cbn. f_equal.
  Qed.

  Lemma items_write_ok b : forall pre n, Forall ok b -> length (flat_map enc b) <= n ->
    items_write iwrite (pre ++ zeros n) (length pre) b =
    Ok ((pre ++ flat_map enc b) ++ zeros (n - length (flat_map enc b)),
        length pre + length (flat_map enc b)).
  Proof using H_write.
    induction b as [|x b IH]; intros pre n F L; cbn [items_write flat_map] in *.
    - cbn [length]. now rewrite app_nil_r, Nat.sub_0_r, Nat.add_0_r.
    - inversion F; subst. rewrite app_length in *. rewrite H_write by (auto; lia). cbn [bind].
      rewrite <- app_length. rewrite IH by (auto; lia). f_equal. f_equal.
      + rewrite <- !app_assoc. do 4 f_equal. lia.
      + rewrite app_length. lia.
  Qed.

  Lemma buckets_write_ok s : forall pre n, Forall (Forall ok) s ->
    length (flat_map bucket_bytes s) <= n ->
    buckets_write iwrite (pre ++ zeros n) (length pre) s =
    Ok ((pre ++ flat_map bucket_bytes s) ++ zeros (n - length (flat_map bucket_bytes s)),
        length pre + length (flat_map bucket_bytes s)).
  Proof using H_write.
    induction s as [|b s IH]; intros pre n F L; cbn [buckets_write flat_map] in *.
    - cbn [length]. now rewrite app_nil_r, Nat.sub_0_r, Nat.add_0_r.
    - inversion F; subst. rewrite app_length in *.
      assert (length (bucket_bytes b) = length (flat_map enc b) + 1) as LB
        by (unfold bucket_bytes; now rewrite app_length).
      rewrite items_write_ok by (auto; lia). cbn [bind].
      replace (n - length (flat_map enc b)) with (1 + (n - length (bucket_bytes b))) by lia.
      rewrite zeros_app. change (zeros 1) with [NUL]. rewrite app_assoc.
      replace (S (length pre + length (flat_map enc b))) with (length (pre ++ bucket_bytes b))
        by (rewrite app_length; lia).
      replace ((pre ++ flat_map enc b) ++ [NUL]) with (pre ++ bucket_bytes b)
        by (unfold bucket_bytes; now rewrite app_assoc).
      rewrite IH by (auto; lia). f_equal. f_equal.
      + rewrite <- !app_assoc. do 4 f_equal. lia.
      + rewrite app_length. lia.
  Qed.

  Lemma hs_serialize_ok s : Forall (Forall ok) s ->
    hs_serialize isize iwrite s = Ok (set_bytes s).
  Proof using H_size H_write.
    intros F. unfold hs_serialize. rewrite buckets_size_ok by auto. cbn [bind].
    pose proof (wr_zeros [] (length (cstr (hexn (length s))) + length (flat_map bucket_bytes s))
                  (cstr (hexn (length s)))) as W.
    cbn [app length] in W. rewrite W by lia. cbn [bind]. clear W.
    rewrite buckets_write_ok by (auto; lia). cbn [bind fst].
    rewrite Nat.add_comm, Nat.add_sub, Nat.sub_diag. cbn [zeros repeat]. now rewrite app_nil_r.
  Qed.

  Lemma enc_pos x : ok x -> 0 < length (enc x).
  Proof using H_first. intros H. destruct (H_first x H) as (c & r & -> & _). cbn. lia. Qed.

  Lemma items_read_ok size b r : forall fuel pos,
    Forall ok b -> length b <= fuel -> pos + length (flat_map enc b) < size ->
    exists l, items_read iread fuel (flat_map enc b ++ NUL :: r) pos size =
      Ok (l, Some (NUL :: r, pos + length (flat_map enc b))) /\ Forall2 rel b l.
  Proof using H_first H_read.
    induction b as [|x b IH]; intros fuel pos F L1 L2.
    - exists []. split; [|constructor]. destruct fuel; cbn; now rewrite Nat.add_0_r.
    - inversion F as [|? ? Hx Fb]; subst. destruct fuel as [|fuel]; [cbn in L1; lia|].
      cbn [flat_map] in *. rewrite app_length in *. rewrite <- app_assoc.
      destruct (H_first x Hx) as (c & q & Ex & Nc).
      destruct (H_read x (flat_map enc b ++ NUL :: r) (size - pos) Hx) as (y & Ry & Rel); [lia|].
      destruct (IH fuel (pos + length (enc x)) Fb) as (l & Rl & Fl);
        [cbn in L1; lia|lia|].
      exists (y :: l). split; [|now constructor].
      cbn [items_read]. rewrite Ry.
      assert (deref (enc x ++ flat_map enc b ++ NUL :: r) = Ok c) as -> by (rewrite Ex; reflexivity).
      cbn [bind]. apply ceq_neq in Nc. rewrite Nc.
      destruct (Nat.leb_spec size pos); [lia|].
      pose proof (enc_pos x Hx).
      destruct (Nat.leb_spec size (pos + length (enc x))); [lia|].
      destruct (Nat.eqb_spec (length (enc x)) 0); [lia|]. cbn [orb].
      rewrite skipn_app_exact, Rl. cbn [bind]. do 4 f_equal. lia.
  Qed.

  Lemma items_count b : Forall ok b -> length b <= length (flat_map enc b).
  Proof using H_first.
    induction 1 as [|x b H F IH]; auto. cbn [flat_map length]. rewrite app_length.
    pose proof (enc_pos x H). lia.
  Qed.

  Lemma buckets_read_ok size r s : forall pos,
    Forall (Forall ok) s -> pos + length (flat_map bucket_bytes s) <= size ->
    exists s', buckets_read iread (length s) (flat_map bucket_bytes s ++ r) pos size =
      Ok (s', true) /\ Forall2 (Forall2 rel) s s'.
  Proof using H_first H_read.
    induction s as [|b s IH]; intros pos F L.
    - exists []. split; [reflexivity|constructor].
    - inversion F as [|? ? Hb Fs]; subst. cbn [flat_map length] in *. rewrite app_length in L.
      assert (length (bucket_bytes b) = length (flat_map enc b) + 1) as LB
        by (unfold bucket_bytes; now rewrite app_length).
      assert (((bucket_bytes b ++ flat_map bucket_bytes s) ++ r) =
              flat_map enc b ++ NUL :: flat_map bucket_bytes s ++ r) as ->.
      { unfold bucket_bytes at 1. rewrite <- !app_assoc. reflexivity. }
      destruct (items_read_ok size b (flat_map bucket_bytes s ++ r) size pos Hb) as (l & Rl & Fl).
      { pose proof (items_count b Hb). lia. }
      { lia. }
      destruct (IH (S (pos + length (flat_map enc b))) Fs) as (s' & Rs & Fs'); [lia|].
      exists (l :: s'). split; [|now constructor].
      cbn [buckets_read]. rewrite Rl. cbn [bind skipn]. rewrite Rs. reflexivity.
  Qed.

  Lemma nulBefore_ok s r n : nonul s -> length s < n -> nulBefore (s ++ NUL :: r) n = Ok true.
  Proof using.
    revert n; induction s as [|c s IH]; intros [|n] H L; cbn in L; try lia; cbn [app nulBefore].
    - reflexivity.
    - apply nonul_cons in H as [Hc H]. apply ceq_neq in Hc. rewrite Hc. apply IH; auto. lia.
  Qed.

  Lemma hs_deserialize_ok s r : s <> [] -> Forall (Forall ok) s ->
    exists s', hs_deserialize iread (set_bytes s ++ r) (length (set_bytes s)) = Ok (s', true) /\
      Forall2 (Forall2 rel) s s'.
  Proof using H_first H_read.
    intros N1 F. unfold hs_deserialize.
    assert (length (set_bytes s) = length (hexn (length s)) + 1 + length (flat_map bucket_bytes s)) as L.
    { unfold set_bytes. now rewrite app_length, cstr_len. }
    assert (0 < length (flat_map bucket_bytes s)) as L0.
    { destruct s as [|b s]; [easy|]. cbn [flat_map]. unfold bucket_bytes at 1.
      rewrite !app_length. cbn [length]. lia. }
    assert (nonul (hexn (length s))) as Nh by apply digits_nonul, hex_digits.
    assert (set_bytes s ++ r = hexn (length s) ++ NUL :: flat_map bucket_bytes s ++ r) as E.
    { unfold set_bytes. rewrite <- app_assoc. apply cstr_app. }
    rewrite E. rewrite nulBefore_ok by (auto; lia). cbn [bind negb].
    rewrite cstring_app by auto. cbn [bind].
    rewrite (scan_hex_hex (N.of_nat (length s)) (NUL :: _) eq_refl :
      scan_hex (hexn (length s) ++ NUL :: _) = _), Nat2N.id.
    destruct (Nat.leb_spec (length (set_bytes s)) (length (hexn (length s)) + 1)); [lia|].
    rewrite <- cstr_app, skipn_cstr_app. apply buckets_read_ok; auto. lia.
  Qed.

  Lemma set_bytes_pos s : 0 < length (set_bytes s).
  Proof using. unfold set_bytes. rewrite app_length, cstr_len. lia. Qed.
End Frame.

(** ** Items *)
Definition item_record (f : filter) : bytes :=
  cstr (item_head f (str (pattern f))) ++ str (pattern f) ++ cstr (str (f_host f)) ++
  tag_block (f_tag f) ++ cstr (str (f_dom f)).

Definition item_ok (f : filter) : Prop :=
  f_data f <> None /\ nonul (str (f_dom f)) /\ nonul (f_tag f) /\ ~ In ","%char (f_tag f) /\
  nonul (str (f_host f)).

Lemma fi_size_ok f : item_ok f -> fi_size f = Ok (length (item_record f)).
Proof.
  intros (H & _). unfold fi_size, item_record, pattern.
  destruct (f_data f) as [[d t]|]; [|easy]. cbn [option_map fst str].
  rewrite !app_length, !cstr_len, tag_block_length, !olen_str. f_equal.
  destruct (f_tag f); lia.
Qed.

Lemma wr_opt_zeros pre n o : length (str o) < n ->
  match o with Some h => wr (pre ++ zeros n) (length pre) (cstr h) | None => Ok (pre ++ zeros n) end =
  Ok ((pre ++ cstr (str o)) ++ zeros (n - length (cstr (str o)))).
Proof.
  intros L. destruct o as [h|]; cbn [str] in *.
  - apply wr_zeros. rewrite cstr_len. lia.
  - unfold cstr. cbn [app length]. f_equal. rewrite <- app_assoc. f_equal.
    destruct n; [lia|]. cbn. now rewrite Nat.sub_0_r.
Qed.

Lemma fi_write_ok pre n f : item_ok f -> length (item_record f) <= n ->
  fi_write (pre ++ zeros n) (length pre) f =
  Ok ((pre ++ item_record f) ++ zeros (n - length (item_record f)),
      length pre + length (item_record f)).
Proof.
  intros (H & _) L. unfold fi_write. unfold item_record, pattern in *.
  destruct (f_data f) as [[d t]|]; [|easy]. cbn [option_map fst str] in *.
  set (hd := item_head f d) in *. rewrite !app_length, !cstr_len in L.
  rewrite wr_zeros by (rewrite cstr_len; lia). cbn [bind]. rewrite cstr_len.
  replace (length pre + length hd + 1) with (length (pre ++ cstr hd))
    by (rewrite app_length, cstr_len; lia).
  rewrite wr_zeros by lia. cbn [bind].
  rewrite <- app_length. set (p2 := (pre ++ cstr hd) ++ d).
  erewrite bind_Ok_eq by (apply wr_opt_zeros; lia). cbv beta. rewrite olen_str, cstr_len.
  set (p3 := p2 ++ cstr (str (f_host f))).
  replace (length p2 + length (str (f_host f)) + 1) with (length p3)
    by (unfold p3; rewrite app_length, cstr_len; lia).
  set (m := n - (length hd + 1) - length d - (length (str (f_host f)) + 1)).
  rewrite (bind_Ok_eq _ _
    ((p3 ++ tag_block (f_tag f)) ++ zeros (m - length (tag_block (f_tag f))),
     length (p3 ++ tag_block (f_tag f)))).
  2:{ pose proof (tag_block_length (f_tag f)) as TL. destruct (f_tag f) as [|c u] eqn:ET.
    - cbn [tag_block length]. now rewrite app_nil_r, Nat.sub_0_r.
    - change (B "~#" ++ (c :: u) ++ B ",") with (tag_block (c :: u)).
      rewrite wr_zeros by (unfold m; lia). cbn [bind]. f_equal. f_equal.
      rewrite app_length. lia. }
  cbn [bind].
  erewrite bind_Ok_eq by (apply wr_opt_zeros; unfold m; lia). rewrite olen_str, cstr_len.
  f_equal. f_equal.
  - unfold p3, p2. rewrite <- !app_assoc. do 5 f_equal. f_equal. f_equal.
    rewrite !app_length, !cstr_len. unfold m. lia.
  - unfold p3, p2. rewrite !app_length, !cstr_len. lia.
Qed.

(** What becomes of a stored host rule. *)
Definition host_restored (f g : filter) : Prop :=
  f_type f = f_type g /\ f_opt f = f_opt g /\ f_anti f = f_anti g /\
  pattern f = pattern g /\
  f_dom f = f_dom g /\ f_tag f = f_tag g /\ str (f_host f) = str (f_host g) /\
  (f_host f <> Some [] -> f_host f = f_host g).

Definition item_storable (f : filter) : Prop :=
  f_dom f <> Some [] /\ (f_tag f = [] -> forall r, f_dom f <> Some (B "~#" ++ r)).

Lemma item_first f : exists c r, item_record f = c :: r /\ c <> NUL.
Proof.
  unfold item_record, item_head.
  destruct (fields_first [N.of_nat (length (str (pattern f))); f_type f; f_opt f; f_anti f])
    as (c & r & -> & H); [discriminate|].
  eexists c, _. split; [reflexivity|]. intros ->. now apply H.
Qed.

Lemma fi_read_ok f r size : item_ok f -> item_storable f -> length (item_record f) <= size ->
  exists g, fi_read (item_record f ++ r) size = Ok (Some (g, length (item_record f))) /\
            host_restored f g.
Proof.
  intros (A1 & A2 & A3 & A4 & A5) (S2 & S3) L. unfold fi_read.
  assert (exists d, pattern f = Some d) as [d Ed].
  { unfold pattern. destruct (f_data f) as [[d t]|]; [|easy]. exists d. reflexivity. }
  assert (item_record f ++ r = cstr (item_head f d) ++ d ++ cstr (str (f_host f)) ++
            tag_block (f_tag f) ++ cstr (str (f_dom f)) ++ r) as E.
  { unfold item_record. rewrite Ed. cbn [str]. now rewrite <- !app_assoc. }
  assert (length (item_record f) = length (item_head f d) + 1 + length d +
     (length (str (f_host f)) + 1) + length (tag_block (f_tag f)) + (length (str (f_dom f)) + 1)) as LR.
  { unfold item_record. rewrite Ed. cbn [str]. rewrite !app_length, !cstr_len. lia. }
  rewrite E. set (q := d ++ _).
  assert (nonul (item_head f d)) as Nh by apply fields_nonul.
  rewrite cstr_app. rewrite nulBefore_ok by (auto; lia). cbn [bind negb].
  rewrite cstring_app by auto. cbn [bind].
  assert (scan_fields 4 (item_head f d ++ NUL :: q) =
          [N.of_nat (length d); f_type f; f_opt f; f_anti f]) as ->.
  { apply (scan_fields_spec [N.of_nat (length d); f_type f; f_opt f; f_anti f]).
    - discriminate.
    - reflexivity. }
  cbn [nthN nth]. rewrite Nat2N.id.
  destruct (Nat.leb_spec size (length (item_head f d) + 1 + length d)); [lia|].
  rewrite <- cstr_app, skipn_cstr_app.
  destruct (Nat.ltb_spec (length q) (length d)) as [X|_].
  { unfold q in X. rewrite app_length in X. lia. }
  unfold q. rewrite skipn_app_exact, firstn_app_exact.
  rewrite take_str_ok by auto. cbn [bind].
  rewrite take_tag_ok; auto.
  2:{ intros Et w X. destruct (f_dom f) as [s|] eqn:Edm; cbn [str] in X; [|discriminate].
      apply (S3 Et w). exact (f_equal Some X). }
  cbn [bind]. rewrite take_str_ok by auto. cbn [bind].
  eexists. split.
  - f_equal. f_equal. f_equal. rewrite <- E, app_length. lia.
  - split; [reflexivity|]. split; [reflexivity|]. split; [reflexivity|]. split.
    { rewrite Ed. reflexivity. }
    split.
    { cbn [f_dom]. destruct (f_dom f) as [[|c s]|]; try easy. }
    split; [reflexivity|]. split.
    { cbn [f_host]. destruct (f_host f) as [[|c s]|]; easy. }
    cbn [f_host]. destruct (f_host f) as [[|c s]|]; easy.
Qed.

(** Domains *)
Definition dom_record (d : bytes) : bytes := cstr (nd_head d) ++ cstr d.

Lemma nd_size_ok d : nd_size d = Ok (length (dom_record d)).
Proof. unfold nd_size, dom_record. rewrite app_length, !cstr_len. f_equal. lia. Qed.

Lemma nd_write_ok pre n d : length (dom_record d) <= n ->
  nd_write (pre ++ zeros n) (length pre) d =
  Ok ((pre ++ dom_record d) ++ zeros (n - length (dom_record d)),
      length pre + length (dom_record d)).
Proof.
  intros L. unfold nd_write, dom_record in *. rewrite app_length, !cstr_len in L.
  rewrite wr_zeros by (rewrite cstr_len; lia). cbn [bind]. rewrite cstr_len.
  replace (length pre + length (nd_head d) + 1) with (length (pre ++ cstr (nd_head d)))
    by (rewrite app_length, cstr_len; lia).
  rewrite wr_zeros by lia. cbn [bind]. rewrite app_length, !cstr_len. f_equal. f_equal.
  - replace (n - (length (nd_head d) + 1) - length d)
      with (1 + (n - (length (nd_head d) + 1 + (length d + 1)))) by lia.
    rewrite zeros_app. change (zeros 1) with [NUL]. change (cstr d) with (d ++ [NUL]).
    rewrite (app_length (cstr (nd_head d))), cstr_len, (app_length d). cbn [length].
    now rewrite <- !app_assoc.
  - rewrite !app_length, !cstr_len. lia.
Qed.

Lemma nd_first d : exists c r, dom_record d = c :: r /\ c <> NUL.
Proof.
  unfold dom_record, nd_head, hexn.
  pose proof (hex_nonempty (N.of_nat (length d))) as H1.
  pose proof (hex_digits (N.of_nat (length d))) as H2.
  destruct (hex (N.of_nat (length d))) as [|c h]; [easy|].
  eexists c, _. split; [reflexivity|]. intros ->. apply (H2 NUL); [now left|reflexivity].
Qed.

Lemma nd_read_ok d r size : length (dom_record d) <= size ->
  nd_read (dom_record d ++ r) size = Ok (Some (d, length (dom_record d))).
Proof.
  intros L. unfold dom_record, nd_read in *. rewrite app_length, !cstr_len in *.
  rewrite <- app_assoc, cstr_app.
  assert (nonul (nd_head d)) as Nh.
  { unfold nd_head. apply nonul_app. split; [apply digits_nonul, hex_digits|].
    now apply nonulb_ok. }
  rewrite cstring_app by auto. cbn [bind].
  assert (exists q, scan_hex (nd_head d ++ NUL :: cstr d ++ r) = Some (N.of_nat (length d), q)) as [q ->].
  { unfold nd_head, hexn. rewrite <- app_assoc. apply (scan_hex_x _ (NUL :: cstr d ++ r)). reflexivity. }
  rewrite Nat2N.id.
  destruct (Nat.leb_spec size (length (nd_head d) + 1 + length d)); [lia|].
  rewrite <- cstr_app, skipn_cstr_app, cstr_app.
  destruct (Nat.ltb_spec (length (d ++ NUL :: r)) (length d)) as [X|_].
  { rewrite app_length in X. lia. }
  rewrite firstn_app_exact. do 3 f_equal. lia.
Qed.

(** ** The two kinds of set *)
Lemma hostset_bytes_ok s : Forall (Forall item_ok) s ->
  hostset_bytes s = Ok (set_bytes item_record s).
Proof.
  intros F. unfold hostset_bytes.
  apply (hs_serialize_ok fi_size fi_write item_record item_ok); auto.
  - apply fi_size_ok.
  - intros. now apply fi_write_ok.
Qed.

Lemma domset_bytes_ok s : domset_bytes s = Ok (set_bytes dom_record s).
Proof.
  unfold domset_bytes.
  apply (hs_serialize_ok nd_size nd_write dom_record (fun _ => True)); auto.
  - intros x _. apply nd_size_ok.
  - intros. now apply nd_write_ok.
  - apply Forall_forall. intros b _. apply Forall_forall. auto.
Qed.

Lemma hostset_read_ok s r : s <> [] -> Forall (Forall (fun f => item_ok f /\ item_storable f)) s ->
  exists s', hs_deserialize fi_read (set_bytes item_record s ++ r) (length (set_bytes item_record s))
             = Ok (s', true) /\ Forall2 (Forall2 host_restored) s s'.
Proof.
  intros N1 F.
  apply (hs_deserialize_ok fi_read item_record (fun f => item_ok f /\ item_storable f)); auto.
  - intros x _. apply item_first.
  - intros x q size [H1 H2] L. now apply fi_read_ok.
Qed.

Lemma Forall2_eq {A} (l m : list A) : Forall2 eq l m -> l = m.
Proof. induction 1; congruence. Qed.

Lemma domset_read_ok s r : s <> [] ->
  hs_deserialize nd_read (set_bytes dom_record s ++ r) (length (set_bytes dom_record s))
  = Ok (s, true).
Proof.
  intros N1.
  destruct (hs_deserialize_ok nd_read dom_record (fun _ => True) eq) with (s := s) (r := r)
    as (s' & H & F); auto.
  - intros x _. apply nd_first.
  - intros x q size _ L. exists x. split; auto. now apply nd_read_ok.
  - apply Forall_forall. intros b _. apply Forall_forall. auto.
  - assert (s = s') as ->; auto.
    clear H N1. induction F as [|x y s s' H F IH]; auto. f_equal; auto. now apply Forall2_eq.
Qed.

(** ** Bloom filters *)
Definition fits (b : bloom) : Prop :=
  (0 < bl_size b)%N /\ forall i, (8 * bl_size b <= i)%N -> N.testbit (bl_bits b) i = false.

Lemma le_num_bytes n : forall x,
  (forall i, (8 * N.of_nat n <= i)%N -> N.testbit x i = false) ->
  le_num (le_bytes n x) = x.
Proof.
  induction n as [|n IH]; intros x H.
  - cbn. symmetry. apply N.bits_inj_0. intros i. apply H. lia.
  - cbn [le_bytes le_num]. rewrite IH.
    2:{ intros i Hi. rewrite N.shiftr_spec'. apply H. lia. }
    rewrite N_ascii_embedding.
    2:{ change 255%N with (N.ones 8). rewrite N.land_ones. apply N.mod_lt. discriminate. }
    apply N.bits_inj. intros i. rewrite N.lor_spec, N.land_spec.
    change 255%N with (N.ones 8).
    destruct (N.lt_ge_cases i 8) as [L|L].
    + rewrite N.ones_spec_low by auto. rewrite N.shiftl_spec_low by auto.
      now rewrite andb_true_r, orb_false_r.
    + rewrite N.ones_spec_high by auto. rewrite N.shiftl_spec_high' by auto.
      rewrite N.shiftr_spec'. rewrite andb_false_r. cbn [orb]. f_equal. lia.
Qed.

Lemma le_bytes_length n x : length (le_bytes n x) = n.
Proof. revert x; induction n as [|n IH]; intros x; cbn; auto. Qed.

Lemma bloom_bytes_length b : length (bloom_bytes b) = N.to_nat (bl_size b).
Proof. apply le_bytes_length. Qed.

Lemma bloom_roundtrip b : fits b -> bloom_of (bloom_bytes b) = b.
Proof.
  intros [_ H]. unfold bloom_of. rewrite bloom_bytes_length, N2Nat.id. unfold bloom_bytes.
  rewrite le_num_bytes.
  - now destruct b.
  - rewrite N2Nat.id. exact H.
Qed.

Lemma initBloom_ok b r : fits b ->
  initBloom (bloom_bytes b ++ r) (length (bloom_bytes b)) = Ok (Some b).
Proof.
  intros F. pose proof (bloom_bytes_length b) as L. unfold initBloom.
  destruct (length (bloom_bytes b)) as [|n] eqn:E.
  { destruct F as [F _]. lia. }
  rewrite <- E. destruct (Nat.ltb_spec (length (bloom_bytes b ++ r)) (length (bloom_bytes b))) as [X|_].
  { rewrite app_length in X. lia. }
  now rewrite firstn_app_exact, bloom_roundtrip.
Qed.

Lemma fits_new p e : fits (bl_new p e).
Proof. unfold fits, bl_new. cbn [bl_size bl_bits]. split; [rewrite N.add_1_r; apply N.lt_0_succ|]. intros. apply N.bits_0. Qed.

Lemma fits_add hs b s : fits b -> fits (bl_add hs b s).
Proof.
  intros [H1 H2]. split; [exact H1|]. unfold bl_add. cbn [bl_size bl_bits].
  intros i Hi. revert H2. generalize (bl_bits b) as x. intros x H2.
  revert x H2. induction hs as [|h hs IH]; intros x H2; cbn [fold_left]; auto.
  apply IH. intros j Hj. rewrite N.setbit_neq; auto.
  unfold bl_pos. assert (h s mod (8 * bl_size b) < 8 * bl_size b)%N by (apply N.mod_lt; lia). lia.
Qed.
