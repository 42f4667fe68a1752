(** Cutting, comparing and joining commute with the encodings. *)
From Verif Require Import Base FilterM ParseM ClientM JsM BindM Spec SpecM SpecV P_Base P_Utf.

Fixpoint cuts {T} (sep : T -> bool) (s : list T) : list (list T) :=
  match s with
  | [] => [[]]
  | c :: r =>
      if sep c then [] :: cuts sep r
      else match cuts sep r with [] => [[c]] | w :: ws => (c :: w) :: ws end
  end.

Lemma cuts_nonempty {T} (sep : T -> bool) s : cuts sep s <> [].
Proof. destruct s as [|c s]; cbn; [easy|]. destruct (sep c); [easy|]. now destruct (cuts sep s). Qed.

Lemma cuts_word {T} (sep : T -> bool) w s : (forall c, In c w -> sep c = false) ->
  cuts sep (w ++ s) = match cuts sep s with x :: xs => (w ++ x) :: xs | [] => [w] end.
Proof.
  induction w as [|c w IH]; intros H; cbn [app cuts].
  - destruct (cuts sep s) eqn:X; [now apply cuts_nonempty in X|reflexivity].
  - rewrite H by (now left). rewrite IH by (intros x I; apply H; now right).
    now destruct (cuts sep s).
Qed.

Lemma cuts_flat {A C} (code : A -> list C) (good : A -> Prop) (sa : A -> bool) (sc : C -> bool) xs :
  (forall a, good a -> sa a = true -> exists c, code a = [c] /\ sc c = true) ->
  (forall a c, good a -> sa a = false -> In c (code a) -> sc c = false) ->
  Forall good xs -> cuts sc (flat_map code xs) = map (flat_map code) (cuts sa xs).
Proof.
  intros H1 H2. induction 1 as [|x xs G F IH]; [reflexivity|]. cbn [flat_map cuts].
  destruct (sa x) eqn:X.
  - destruct (H1 x G X) as (c & -> & Hc). cbn [app cuts]. rewrite Hc, IH. reflexivity.
  - rewrite cuts_word by (intros c I; now apply (H2 x)). rewrite IH.
    destruct (cuts sa xs) eqn:Y; [now apply cuts_nonempty in Y|]. reflexivity.
Qed.

Lemma cuts_good {A} (good : A -> Prop) sa xs l : Forall good xs -> In l (cuts sa xs) -> Forall good l.
Proof.
  intros F. revert l. induction F as [|x xs G F IH]; intros l I; cbn [cuts] in I.
  - destruct I as [<-|[]]. constructor.
  - destruct (sa x).
    + destruct I as [<-|I]; [constructor|auto].
    + destruct (cuts sa xs) as [|w ws] eqn:Y; [now apply cuts_nonempty in Y|].
      destruct I as [<-|I]; [constructor; auto; apply IH; now left|apply IH; now right].
Qed.

Lemma cuts_sub {A} sa (xs : list A) l x : In l (cuts sa xs) -> In x l -> In x xs.
Proof.
  intros I J. assert (F : Forall (fun x => In x xs) xs) by now apply Forall_forall.
  apply (cuts_good _ sa xs l F) in I. rewrite Forall_forall in I. auto.
Qed.

Lemma text_lines_cuts t : text_lines t = cuts (fun c => ceq c CR || ceq c LF) t.
Proof. induction t as [|c t IH]; cbn; [reflexivity|]. now rewrite IH. Qed.
Lemma js_lines_cuts s : js_lines s = cuts (fun u => N.eqb u 13 || N.eqb u 10) s.
Proof. induction s as [|c t IH]; cbn; [reflexivity|]. now rewrite IH. Qed.
Lemma split_on_cuts c t : split_on c t = cuts (fun x => ceq x c) t.
Proof. induction t as [|x t IH]; cbn; [reflexivity|]. now rewrite IH. Qed.
Lemma split_units_cuts c s : split_units c s = cuts (fun x => N.eqb x c) s.
Proof. induction s as [|x t IH]; cbn; [reflexivity|]. now rewrite IH. Qed.

(** ** Which characters appear in an encoding *)

Lemma encode_char p c : scalar p -> In c (encode p) -> (p < 128 /\ encode p = [c] /\ c = ascii_of_N p)%N \/
  (128 <= p /\ 128 <= N_of_ascii c)%N.
Proof.
  intros H I. unfold scalar in H. unfold encode in *.
  destruct (N.ltb_spec p 128).
  { left. destruct I as [<-|[]]. auto. }
  right. split; [lia|].
  assert (M : forall q, (q mod 64 < 64)%N) by (intros q; apply N.mod_lt; discriminate).
  assert (T : forall q, (q < 128)%N -> (128 <= N_of_ascii (ascii_of_N (128 + q)))%N).
  { intros q Hq. rewrite byte_val; lia. }
  assert (M' : forall q, (q mod 64 < 128)%N) by (intros q; specialize (M q); lia).
  destruct (N.ltb_spec p 2048).
  { destruct I as [<-|[<-|[]]]; [|now apply T].
    replace (192 + p / 64)%N with (128 + (64 + p / 64))%N by lia. apply T. dm. }
  destruct (N.ltb_spec p 65536).
  { destruct I as [<-|[<-|[<-|[]]]]; [|now apply T|now apply T].
    replace (224 + p / 4096)%N with (128 + (96 + p / 4096))%N by lia. apply T. dm. }
  destruct I as [<-|[<-|[<-|[<-|[]]]]]; [|now apply T|now apply T|now apply T].
  replace (240 + p / 262144)%N with (128 + (112 + p / 262144))%N by lia. apply T. dm.
Qed.

Lemma encode_ascii p : (p < 128)%N -> encode p = [ascii_of_N p].
Proof. intros H. unfold encode. now rewrite (proj2 (N.ltb_lt p 128)). Qed.

Lemma utf16_char p u : scalar p -> In u (utf16 p) -> (utf16 p = [p] /\ u = p) \/
  (65536 <= p /\ 55296 <= u < 57344)%N.
Proof.
  intros H I. unfold scalar in H. unfold utf16 in *. destruct (N.ltb_spec p 65536).
  - left. destruct I as [<-|[]]. auto.
  - right. split; [lia|]. destruct I as [<-|[<-|[]]]; dm.
Qed.

Lemma utf16_small p : (p < 65536)%N -> utf16 p = [p].
Proof. intros H. unfold utf16. now rewrite (proj2 (N.ltb_lt p 65536)). Qed.

(** an ASCII character appears in the UTF-8 form exactly where it is *)
Lemma ascii_in p (c : ascii) : scalar p -> (N_of_ascii c < 128)%N -> In c (encode p) ->
  p = N_of_ascii c /\ encode p = [c].
Proof.
  intros H L I. destruct (encode_char p c H I) as [(P & E & ->)|(_ & P)]; [|lia].
  rewrite byte_val by lia. auto.
Qed.

Lemma ascii_in_text ps (c : ascii) : Forall scalar ps -> (N_of_ascii c < 128)%N ->
  (In c (flat_map encode ps) <-> In (N_of_ascii c) ps).
Proof.
  intros F L. rewrite in_flat_map. split.
  - intros (p & I & J). rewrite Forall_forall in F. apply ascii_in in J as [-> _]; auto.
  - intros I. exists (N_of_ascii c). split; auto. rewrite encode_ascii by lia.
    rewrite ascii_N_embedding. now left.
Qed.

Lemma unit_in_text ps u : Forall scalar ps -> (u < 55296)%N ->
  (In u (flat_map utf16 ps) <-> In u ps).
Proof.
  intros F L. rewrite in_flat_map. split.
  - intros (p & I & J). rewrite Forall_forall in F.
    destruct (utf16_char p u (F p I) J) as [[_ ->]|[_ H]]; [auto|lia].
  - intros I. exists u. split; auto. rewrite utf16_small by lia. now left.
Qed.

(** ** Lines *)

Lemma ceq_byte (c : ascii) p : (p < 128)%N -> ceq (ascii_of_N p) c = N.eqb p (N_of_ascii c).
Proof.
  intros H. destruct (ceq_spec (ascii_of_N p) c) as [<-|N].
  - rewrite byte_val by lia. now rewrite N.eqb_refl.
  - symmetry. apply N.eqb_neq. intros ->. now rewrite ascii_N_embedding in N.
Qed.

Lemma encode_cuts (seps : list ascii) ps : Forall scalar ps ->
  (forall c, In c seps -> (N_of_ascii c < 128)%N) ->
  cuts (fun c => existsb (ceq c) seps) (flat_map encode ps)
  = map (flat_map encode) (cuts (fun p => existsb (fun c => N.eqb p (N_of_ascii c)) seps) ps).
Proof.
  intros F L. apply (cuts_flat encode scalar); auto.
  - intros p H E. apply existsb_exists in E as (c & I & E). apply N.eqb_eq in E. subst p.
    exists c. rewrite encode_ascii, ascii_N_embedding by auto. split; [reflexivity|].
    apply existsb_exists. exists c. split; auto. now apply ceq_eq.
  - intros p c H E I. apply not_true_iff_false. intros K.
    apply existsb_exists in K as (c' & J & K). apply ceq_eq in K. subst c'.
    apply ascii_in in I as [-> _]; auto.
    assert (existsb (fun c' => N.eqb (N_of_ascii c) (N_of_ascii c')) seps = true) as X; [|congruence].
    apply existsb_exists. exists c. split; auto. apply N.eqb_refl.
Qed.

Lemma utf16_cuts (seps : list N) ps : Forall scalar ps ->
  (forall c, In c seps -> (c < 55296)%N) ->
  cuts (fun c => existsb (N.eqb c) seps) (flat_map utf16 ps)
  = map (flat_map utf16) (cuts (fun p => existsb (N.eqb p) seps) ps).
Proof.
  intros F L. apply (cuts_flat utf16 scalar); auto.
  - intros p H E. exists p. pose proof E as E'. apply existsb_exists in E' as (c & I & E').
    apply N.eqb_eq in E'. subst c. rewrite utf16_small; [auto|]. specialize (L p I). lia.
  - intros p c H E I. apply not_true_iff_false. intros K.
    pose proof K as K'. apply existsb_exists in K' as (c' & J & K'). apply N.eqb_eq in K'. subst c'.
    destruct (utf16_char p c H I) as [[_ ->]|[_ X]]; [congruence|]. specialize (L c J). lia.
Qed.

Lemma cuts_ext {A} (f g : A -> bool) s : (forall x, f x = g x) -> cuts f s = cuts g s.
Proof. intros H. induction s as [|x s IH]; cbn; [reflexivity|]. now rewrite H, IH. Qed.

Lemma lines_utf8 ps : Forall scalar ps ->
  text_lines (flat_map encode ps) = map (flat_map encode) (js_lines ps).
Proof.
  intros F. rewrite text_lines_cuts, js_lines_cuts.
  rewrite (cuts_ext _ (fun c => existsb (ceq c) [CR; LF])) by (intros x; cbn; now rewrite orb_false_r).
  rewrite encode_cuts; auto.
  - f_equal. apply cuts_ext. intros x. cbn. now rewrite orb_false_r.
  - intros c [<-|[<-|[]]]; reflexivity.
Qed.

Lemma lines_utf16 ps : Forall scalar ps ->
  js_lines (flat_map utf16 ps) = map (flat_map utf16) (js_lines ps).
Proof.
  intros F. rewrite !js_lines_cuts.
  rewrite !(cuts_ext (fun u => N.eqb u 13 || N.eqb u 10) (fun c => existsb (N.eqb c) [13; 10]%N))
    by (intros x; cbn; now rewrite orb_false_r).
  apply utf16_cuts; auto. intros c [<-|[<-|[]]]; reflexivity.
Qed.

Lemma js_lines_scalar ps l : Forall scalar ps -> In l (js_lines ps) -> Forall scalar l.
Proof. rewrite js_lines_cuts. apply cuts_good. Qed.

Lemma utf8_lines lone s : well_formed s ->
  text_lines (utf8 lone s) = map (utf8 lone) (js_lines s) /\
  forall l, In l (js_lines s) -> well_formed l.
Proof.
  intros (ps & T). rewrite (utf8_text _ _ _ T). destruct T as [F ->].
  rewrite lines_utf8, lines_utf16 by auto. split.
  - rewrite map_map. apply map_ext_in. intros l I. symmetry. apply utf8_text. split; auto.
    now apply (js_lines_scalar ps).
  - intros l I. apply in_map_iff in I as (w & <- & I). exists w. split; auto.
    now apply (js_lines_scalar ps).
Qed.

(** ** lib/filtering.js *)

Lemma ueq_eq a b : ueq a b = true <-> a = b.
Proof.
  revert b; induction a as [|x a IH]; intros [|y b]; cbn; try easy.
  rewrite andb_true_iff, N.eqb_eq, IH. split; [intros [-> ->]; reflexivity|intros [= -> ->]; auto].
Qed.

Lemma flat_literal (t : bytes) : forallb (fun c => N_of_ascii c <? 128)%N t = true ->
  flat_map encode (map N_of_ascii t) = t /\ flat_map utf16 (map N_of_ascii t) = map N_of_ascii t /\
  Forall scalar (map N_of_ascii t).
Proof.
  induction t as [|c t IH]; intros H; [cbn; auto|].
  cbn [forallb] in H. apply andb_true_iff in H as [H1 H2]. apply N.ltb_lt in H1.
  destruct (IH H2) as (A & B & C). cbn [map flat_map].
  rewrite encode_ascii, ascii_N_embedding, utf16_small, A, B by lia.
  split; [reflexivity|]. split; [reflexivity|]. constructor; auto. left. lia.
Qed.

Lemma beq_literal ps t : Forall scalar ps -> forallb (fun c => N_of_ascii c <? 128)%N t = true ->
  beq (flat_map encode ps) t = ueq ps (map N_of_ascii t).
Proof.
  intros F H. destruct (flat_literal t H) as (A & _ & S). apply eq_true_iff_eq. rewrite beq_eq, ueq_eq.
  split.
  - intros E. rewrite <- A in E.
    now apply (code_inj encode byte_lead scalar encode_lead encode_prefix) in E.
  - intros ->. exact A.
Qed.

Lemma ueq_literal ps t : Forall scalar ps -> forallb (fun c => N_of_ascii c <? 128)%N t = true ->
  ueq (flat_map utf16 ps) (map N_of_ascii t) = ueq ps (map N_of_ascii t).
Proof.
  intros F H. destruct (flat_literal t H) as (_ & A & S). apply eq_true_iff_eq. rewrite !ueq_eq.
  split.
  - intros E. rewrite <- A in E.
    now apply (code_inj utf16 unit_lead scalar utf16_lead utf16_prefix) in E.
  - intros ->. exact A.
Qed.

Lemma mapRule_points ps : Forall scalar ps ->
  mapRule (flat_map encode ps) = flat_map encode (mapRule_js ps) /\
  mapRule_js (flat_map utf16 ps) = flat_map utf16 (mapRule_js ps) /\
  Forall scalar (mapRule_js ps).
Proof.
  intros F. unfold mapRule, mapRule_js.
  rewrite (beq_literal ps ima_host), (beq_literal ps ima_file),
          (ueq_literal ps ima_host), (ueq_literal ps ima_file) by (auto; reflexivity).
  destruct (ueq ps (map N_of_ascii ima_host)).
  { destruct (flat_literal (B "||imasdk.googleapis.com^$third-party,explicitcancel") eq_refl)
      as (X & Y & Z). unfold U. now rewrite X, Y. }
  destruct (ueq ps (map N_of_ascii ima_file)).
  { destruct (flat_literal (B "/ima3.js$explicitcancel") eq_refl) as (X & Y & Z).
    unfold U. now rewrite X, Y. }
  auto.
Qed.

Lemma join_encode ls : join_lf (map (flat_map encode) ls) = flat_map encode (join_units ls).
Proof.
  induction ls as [|l ls IH]; [reflexivity|]. destruct ls as [|l' ls]; [reflexivity|].
  change (map (flat_map encode) (l :: l' :: ls)) with (flat_map encode l :: map (flat_map encode) (l' :: ls)).
  cbn [join_lf join_units] in *. rewrite flat_map_app. cbn [map] in *. rewrite IH. reflexivity.
Qed.

Lemma join_utf16 ls : join_units (map (flat_map utf16) ls) = flat_map utf16 (join_units ls).
Proof.
  induction ls as [|l ls IH]; [reflexivity|]. destruct ls as [|l' ls]; [reflexivity|].
  cbn [map join_units] in *. rewrite flat_map_app, IH. reflexivity.
Qed.

Lemma join_scalar ls : Forall (Forall scalar) ls -> Forall scalar (join_units ls).
Proof.
  induction 1 as [|l ls H F IH]; [constructor|]. destruct ls as [|l' ls]; [exact H|].
  cbn [join_units] in *. apply Forall_app. split; auto. constructor; auto. left. lia.
Qed.

Lemma filter_flat {C} (code : N -> list C) ls :
  (forall p, scalar p -> code p <> []) -> Forall (Forall scalar) ls ->
  List.filter (fun l => match l with [] => false | _ => true end) (map (flat_map code) ls)
  = map (flat_map code) (List.filter (fun l => match l with [] => false | _ => true end) ls).
Proof.
  intros N. induction 1 as [|l ls H F IH]; [reflexivity|]. cbn [map List.filter].
  destruct l as [|p l]; [exact IH|]. inversion H; subst. cbn [flat_map].
  destruct (code p) eqn:X; [now apply N in X|]. cbn [app map]. cbn [flat_map].
  now rewrite IH, X.
Qed.

Lemma sanitize_points ps : Forall scalar ps ->
  sanitizeABPInput (flat_map encode ps) = flat_map encode (sanitize_js ps) /\
  sanitize_js (flat_map utf16 ps) = flat_map utf16 (sanitize_js ps) /\
  Forall scalar (sanitize_js ps).
Proof.
  intros F. unfold sanitizeABPInput, sanitizeWith, sanitize_js.
  rewrite split_on_cuts, !split_units_cuts.
  set (L := cuts (fun x => N.eqb x 10) ps).
  assert (FL : Forall (Forall scalar) L).
  { apply Forall_forall. intros l I. now apply (cuts_good scalar) in I. }
  assert (cuts (fun x => ceq x LF) (flat_map encode ps) = map (flat_map encode) L) as ->.
  { rewrite (cuts_ext _ (fun c => existsb (ceq c) [LF])) by (intros x; cbn; now rewrite orb_false_r).
    rewrite encode_cuts; auto.
    - f_equal. apply cuts_ext. intros x. cbn. now rewrite orb_false_r.
    - intros c [<-|[]]; reflexivity. }
  assert (cuts (fun x => N.eqb x 10) (flat_map utf16 ps) = map (flat_map utf16) L) as ->.
  { unfold L.
    rewrite !(cuts_ext (fun x => N.eqb x 10) (fun c => existsb (N.eqb c) [10]%N))
      by (intros x; cbn; now rewrite orb_false_r).
    apply utf16_cuts; auto. intros c [<-|[]]; reflexivity. }
  change truthy with (fun l : bytes => match l with [] => false | _ => true end).
  rewrite (filter_flat encode), (filter_flat utf16); auto.
  2:{ intros p H E. destruct (utf16_lead p H) as (c & r & X & _). congruence. }
  2:{ intros p H E. destruct (encode_lead p H) as (c & r & X & _). congruence. }
  set (K := List.filter _ L).
  assert (FK : Forall (Forall scalar) K).
  { apply Forall_forall. intros l I. apply filter_In in I as [I _]. rewrite Forall_forall in FL. auto. }
  set (X := map (map N_of_ascii) extraConcatRules).
  assert (FX : Forall (Forall scalar) X).
  { repeat constructor; unfold scalar; cbn; left; lia. }
  assert (map mapRule (map (flat_map encode) K) = map (flat_map encode) (map mapRule_js K)) as ->.
  { rewrite !map_map. apply map_ext_in. intros l I. rewrite Forall_forall in FK.
    now apply mapRule_points, FK. }
  assert (map mapRule_js (map (flat_map utf16) K) = map (flat_map utf16) (map mapRule_js K)) as ->.
  { rewrite !map_map. apply map_ext_in. intros l I. rewrite Forall_forall in FK.
    now apply mapRule_points, FK. }
  split; [|split].
  - etransitivity; [|apply (join_encode (map mapRule_js K ++ X))]. rewrite map_app. reflexivity.
  - etransitivity; [|apply (join_utf16 (map mapRule_js K ++ X))]. rewrite map_app. reflexivity.
  - apply join_scalar, Forall_app. split; [|exact FX].
    apply Forall_forall. intros l I. apply in_map_iff in I as (w & <- & I).
    rewrite Forall_forall in FK. now apply mapRule_points, FK.
Qed.

Lemma utf8_sanitize lone s : well_formed s ->
  utf8 lone (sanitize_js s) = sanitizeABPInput (utf8 lone s) /\ well_formed (sanitize_js s).
Proof.
  intros (ps & T). rewrite (utf8_text _ _ _ T). destruct T as [F ->].
  destruct (sanitize_points ps F) as (A & B & C). rewrite A, B. split.
  - apply utf8_text. split; auto.
  - exists (sanitize_js ps). split; auto.
Qed.
