(** UTF-8 and UTF-16. *)
From Verif Require Import Base BindM SpecV.

(** ** Codes that synchronize *)
Section Code.
Context {A C : Type} (code : A -> list C) (lead : C -> bool) (good : A -> Prop).
Context (code_lead : forall a, good a -> exists c r, code a = c :: r /\ lead c = true /\
                                         forall x, In x r -> lead x = false).
Context (code_prefix : forall a b x y, good a -> good b -> code a ++ x = code b ++ y ->
                                       a = b /\ x = y).

Lemma code_inj xs : Forall good xs -> forall ys, Forall good ys ->
  flat_map code xs = flat_map code ys -> xs = ys.
Proof.
  induction 1 as [|x xs Gx Gs IH]; intros ys Gy E.
  - destruct ys as [|y ys]; [reflexivity|]. inversion Gy; subst.
    destruct (code_lead y) as (c & r & Ec & _); auto. cbn [flat_map] in E. rewrite Ec in E. discriminate E.
  - destruct ys as [|y ys].
    + destruct (code_lead x Gx) as (c & r & Ec & _). cbn [flat_map] in E. rewrite Ec in E. discriminate E.
    + inversion Gy; subst. cbn [flat_map] in E. apply code_prefix in E as [-> E]; auto. f_equal; auto.
Qed.

Lemma code_after xs : Forall good xs -> forall ys b, Forall good ys ->
  flat_map code ys = flat_map code xs ++ b -> exists zs, ys = xs ++ zs /\ b = flat_map code zs.
Proof.
  induction 1 as [|x xs Gx Gs IH]; intros ys b Gy E.
  - exists ys. auto.
  - destruct ys as [|y ys].
    + destruct (code_lead x Gx) as (c & r & Ec & _). cbn [flat_map] in E. rewrite Ec in E. discriminate E.
    + inversion Gy; subst. cbn [flat_map] in E. rewrite <- app_assoc in E.
      apply code_prefix in E as [-> E]; auto. destruct (IH _ _ H2 E) as (zs & -> & ->).
      exists zs. auto.
Qed.

Lemma app_cut {T} (a b c d : list T) : a ++ b = c ++ d ->
  (exists m, a = c ++ m /\ d = m ++ b) \/ (exists m x, c = a ++ x :: m /\ b = x :: m ++ d).
Proof.
  revert c; induction a as [|x a IH]; intros c E.
  - destruct c as [|y c]; [left; exists []; auto|]. right. exists c, y. auto.
  - destruct c as [|y c]; cbn [app] in E.
    + left. exists (x :: a). auto.
    + injection E as -> E. destruct (IH c E) as [(m & -> & ->)|(m & z & -> & ->)].
      * left. exists m. auto.
      * right. exists m, z. auto.
Qed.

Lemma code_occurs ys : Forall good ys -> forall xs a b, Forall good xs -> xs <> [] ->
  flat_map code ys = a ++ flat_map code xs ++ b ->
  exists us vs, ys = us ++ xs ++ vs /\ a = flat_map code us /\ b = flat_map code vs.
Proof.
  induction 1 as [|y ys Gy Gs IH]; intros xs a b Gx Nx E.
  - destruct xs as [|x xs]; [easy|]. inversion Gx; subst.
    destruct (code_lead x) as (c & r & Ec & _); auto. cbn [flat_map] in E. rewrite Ec in E.
    destruct a; discriminate E.
  - destruct a as [|c a].
    + destruct (code_after xs Gx (y :: ys) b) as (zs & -> & ->); [constructor; auto|exact E|].
      exists [], zs. auto.
    + cbn [flat_map] in E. change (code y ++ flat_map code ys = (c :: a) ++ flat_map code xs ++ b) in E.
      apply app_cut in E as [(m & E1 & E2)|(m & x & E1 & E2)].
      * destruct m as [|x m].
        { rewrite app_nil_r in E1. cbn [app] in E2.
          destruct (code_after xs Gx ys b) as (zs & -> & ->); auto.
          exists [y], zs. split; [reflexivity|]. split; [|reflexivity]. cbn. now rewrite app_nil_r. }
        exfalso. destruct (code_lead y Gy) as (l & r & Ec & _ & R). rewrite Ec in E1.
        injection E1 as -> ->. destruct xs as [|x0 xs]; [easy|]. inversion Gx; subst.
        destruct (code_lead x0) as (l0 & r0 & Ec0 & L0 & _); auto. cbn [flat_map] in E2.
        rewrite Ec0 in E2. cbn [app] in E2. injection E2 as -> _.
        rewrite R in L0; [discriminate|]. apply in_or_app. right. now left.
      * rewrite E1. change (x :: m ++ flat_map code xs ++ b) with ((x :: m) ++ flat_map code xs ++ b) in E2.
        destruct (IH xs (x :: m) b Gx Nx E2) as (us & vs & -> & Eu & ->).
        exists (y :: us), vs. split; [reflexivity|]. split; [|reflexivity].
        cbn [flat_map]. now rewrite Eu.
Qed.
End Code.

(** ** UTF-8 *)

Definition byte_lead (c : ascii) : bool :=
  let n := N_of_ascii c in ((n <? 128) || (192 <=? n))%N.

Lemma byte_val n : (n < 256)%N -> N_of_ascii (ascii_of_N n) = n.
Proof. apply N_ascii_embedding. Qed.

Ltac dm := zify; Z.to_euclidean_division_equations; lia.

Lemma encode_lead p : scalar p -> exists c r, encode p = c :: r /\ byte_lead c = true /\
  forall x, In x r -> byte_lead x = false.
Proof.
  intros H. unfold scalar in H. unfold encode.
  assert (T : forall q, (q < 64)%N -> byte_lead (ascii_of_N (128 + q)) = false).
  { intros q Hq. unfold byte_lead. rewrite byte_val by lia.
    apply orb_false_iff. split; [apply N.ltb_ge|apply N.leb_gt]; lia. }
  assert (L : forall q, (q < 64)%N -> byte_lead (ascii_of_N (192 + q)) = true).
  { intros q Hq. unfold byte_lead. rewrite byte_val by lia.
    apply orb_true_iff. right. apply N.leb_le. lia. }
  assert (M : forall q, (q mod 64 < 64)%N) by (intros q; apply N.mod_lt; discriminate).
  destruct (N.ltb_spec p 128).
  { eexists _, _. split; [reflexivity|]. split; [|easy]. unfold byte_lead. rewrite byte_val by lia.
    apply orb_true_iff. left. apply N.ltb_lt. lia. }
  destruct (N.ltb_spec p 2048).
  { eexists _, _. split; [reflexivity|]. split; [apply L; dm|].
    intros x [<-|[]]. auto. }
  destruct (N.ltb_spec p 65536).
  { eexists _, _. split; [reflexivity|]. split.
    - replace (224 + p / 4096)%N with (192 + (32 + p / 4096))%N by lia. apply L. dm.
    - intros x [<-|[<-|[]]]; auto. }
  eexists _, _. split; [reflexivity|]. split.
  - replace (240 + p / 262144)%N with (192 + (48 + p / 262144))%N by lia. apply L. dm.
  - intros x [<-|[<-|[<-|[]]]]; auto.
Qed.

(** Reading one character back. *)
Definition decode1 (b : bytes) : option (N * bytes) :=
  (match b with
   | [] => None
   | x :: r =>
       let n := N_of_ascii x in
       if n <? 128 then Some (n, r)
       else if n <? 224 then
         match r with y :: r => Some ((n - 192) * 64 + (N_of_ascii y - 128), r) | _ => None end
       else if n <? 240 then
         match r with
         | y :: z :: r => Some ((n - 224) * 4096 + (N_of_ascii y - 128) * 64 + (N_of_ascii z - 128), r)
         | _ => None end
       else
         match r with
         | y :: z :: w :: r =>
             Some ((n - 240) * 262144 + (N_of_ascii y - 128) * 4096 + (N_of_ascii z - 128) * 64
                   + (N_of_ascii w - 128), r)
         | _ => None end
   end)%N.

Lemma decode_encode p r : scalar p -> decode1 (encode p ++ r) = Some (p, r).
Proof.
  intros H. unfold scalar in H. unfold encode.
  assert (M : forall q, (q mod 64 < 64)%N) by (intros q; apply N.mod_lt; discriminate).
  destruct (N.ltb_spec p 128).
  { cbn [app decode1]. cbv zeta. rewrite byte_val by lia. now rewrite (proj2 (N.ltb_lt p 128)). }
  destruct (N.ltb_spec p 2048).
  { cbn [app decode1]. cbv zeta. rewrite !byte_val by (pose proof (M p); dm).
    rewrite (proj2 (N.ltb_ge _ 128)), (proj2 (N.ltb_lt _ 224)) by dm. do 2 f_equal. dm. }
  destruct (N.ltb_spec p 65536).
  { cbn [app decode1]. cbv zeta. rewrite !byte_val by (pose proof (M p); pose proof (M (p / 64)%N); dm).
    rewrite (proj2 (N.ltb_ge _ 128)), (proj2 (N.ltb_ge _ 224)), (proj2 (N.ltb_lt _ 240)) by dm.
    do 2 f_equal. dm. }
  cbn [app decode1]. cbv zeta.
  rewrite !byte_val by (pose proof (M p); pose proof (M (p / 64)%N); pose proof (M (p / 4096)%N); dm).
  rewrite (proj2 (N.ltb_ge _ 128)), (proj2 (N.ltb_ge _ 224)), (proj2 (N.ltb_ge _ 240)) by dm.
  do 2 f_equal. dm.
Qed.

Lemma encode_prefix p q x y : scalar p -> scalar q -> encode p ++ x = encode q ++ y -> p = q /\ x = y.
Proof.
  intros Hp Hq E. apply (f_equal decode1) in E. rewrite !decode_encode in E by auto.
  injection E as -> ->. auto.
Qed.

(** ** UTF-16 *)

Definition unit_lead (u : N) : bool := negb (low u).

Lemma low_spec u : low u = true <-> (56320 <= u < 57344)%N.
Proof. unfold low. rewrite andb_true_iff, N.leb_le, N.ltb_lt. lia. Qed.
Lemma high_spec u : high u = true <-> (55296 <= u < 56320)%N.
Proof. unfold high. rewrite andb_true_iff, N.leb_le, N.ltb_lt. lia. Qed.

Lemma utf16_lead p : scalar p -> exists c r, utf16 p = c :: r /\ unit_lead c = true /\
  forall x, In x r -> unit_lead x = false.
Proof.
  intros H. unfold scalar in H. unfold utf16, unit_lead. destruct (N.ltb_spec p 65536).
  - exists p, []. split; [reflexivity|]. split; [|easy]. apply negb_true_iff.
    apply not_true_iff_false. rewrite low_spec. lia.
  - eexists _, _. split; [reflexivity|]. split.
    + apply negb_true_iff, not_true_iff_false. rewrite low_spec. dm.
    + intros x [<-|[]]. apply negb_false_iff. rewrite low_spec. dm.
Qed.

Lemma points_utf16 lone p r : scalar p -> points lone (utf16 p ++ r) = p :: points lone r.
Proof.
  intros H. unfold scalar in H. unfold utf16. destruct (N.ltb_spec p 65536).
  - cbn [app points]. destruct (high p) eqn:X; [apply high_spec in X; lia|].
    destruct (low p) eqn:Y; [apply low_spec in Y; lia|reflexivity].
  - cbn [app points]. rewrite (proj2 (high_spec _)), (proj2 (low_spec _)) by dm.
    f_equal. dm.
Qed.

Lemma points_text lone s ps : text s ps -> points lone s = ps.
Proof.
  intros [F ->]. induction F as [|p ps Hp F IH]; [reflexivity|].
  cbn [flat_map]. rewrite points_utf16 by auto. now rewrite IH.
Qed.

Lemma utf16_prefix p q x y : scalar p -> scalar q -> utf16 p ++ x = utf16 q ++ y -> p = q /\ x = y.
Proof.
  intros Hp Hq E. unfold scalar, utf16 in *.
  destruct (N.ltb_spec p 65536), (N.ltb_spec q 65536); cbn [app] in E.
  - injection E as -> ->. auto.
  - exfalso. apply (f_equal (hd 0%N)) in E. cbn [hd] in E. dm.
  - exfalso. apply (f_equal (hd 0%N)) in E. cbn [hd] in E. dm.
  - pose proof (f_equal (hd 0%N) E) as E1. pose proof (f_equal (fun l => hd 0%N (tl l)) E) as E2.
    pose proof (f_equal (fun l => tl (tl l)) E) as E3. cbn [hd tl] in E1, E2, E3.
    split; [dm|exact E3].
Qed.

(** ** Strings *)

Lemma utf8_text lone s ps : text s ps -> utf8 lone s = flat_map encode ps.
Proof. intros T. unfold utf8. now rewrite (points_text lone s ps T). Qed.

Lemma utf8_injective lone s t : well_formed s -> well_formed t ->
  utf8 lone s = utf8 lone t -> s = t.
Proof.
  intros (ps & Ps) (qs & Qs) E. rewrite (utf8_text _ _ _ Ps), (utf8_text _ _ _ Qs) in E.
  destruct Ps as [Fp ->], Qs as [Fq ->].
  apply (code_inj encode byte_lead scalar encode_lead encode_prefix) in E; auto. now subst.
Qed.

Lemma utf8_occurs lone s t : well_formed s -> well_formed t ->
  (occurs (utf8 lone s) (utf8 lone t) <-> occurs s t).
Proof.
  intros (ps & Ps) (qs & Qs). rewrite (utf8_text _ _ _ Ps), (utf8_text _ _ _ Qs).
  destruct Ps as [Fp ->], Qs as [Fq ->].
  destruct ps as [|p ps].
  { split; intros _; [exists [], (flat_map utf16 qs)|exists [], (flat_map encode qs)]; reflexivity. }
  split; intros (a & b & E).
  - apply (code_occurs encode byte_lead scalar encode_lead encode_prefix) in E
      as (us & vs & -> & _ & _); auto; [|discriminate].
    exists (flat_map utf16 us), (flat_map utf16 vs). now rewrite !flat_map_app.
  - apply (code_occurs utf16 unit_lead scalar utf16_lead utf16_prefix) in E
      as (us & vs & -> & _ & _); auto; [|discriminate].
    exists (flat_map encode us), (flat_map encode vs). now rewrite !flat_map_app.
Qed.

Lemma ascii_points lone s : ascii_text s -> points lone s = s.
Proof.
  induction 1 as [|u s H F IH]; [reflexivity|]. cbn [points].
  destruct (high u) eqn:X; [apply high_spec in X; lia|].
  destruct (low u) eqn:Y; [apply low_spec in Y; lia|]. now rewrite IH.
Qed.

Lemma ascii_well_formed s : ascii_text s -> text s s.
Proof.
  intros F. split.
  - eapply Forall_impl; [|exact F]. intros u H. cbn in H. left. lia.
  - induction F as [|u s H F IH]; [reflexivity|]. cbn [flat_map]. rewrite <- IH.
    unfold utf16. now rewrite (proj2 (N.ltb_lt u 65536)) by lia.
Qed.

Lemma utf8_ascii lone s : ascii_text s -> utf8 lone s = map ascii_of_N s.
Proof.
  intros F. unfold utf8. rewrite ascii_points by auto.
  induction F as [|u s H F IH]; [reflexivity|]. cbn [flat_map map]. rewrite IH.
  unfold encode. now rewrite (proj2 (N.ltb_lt u 128)).
Qed.

Lemma utf8_app lone s t : well_formed s -> well_formed t ->
  utf8 lone (s ++ t) = utf8 lone s ++ utf8 lone t.
Proof.
  intros (ps & Ps) (qs & Qs).
  rewrite (utf8_text _ _ _ Ps), (utf8_text _ _ _ Qs), (utf8_text _ (s ++ t) (ps ++ qs)).
  - apply flat_map_app.
  - destruct Ps as [Fp ->], Qs as [Fq ->]. split; [now apply Forall_app|]. now rewrite flat_map_app.
Qed.
