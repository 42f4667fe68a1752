(** Behavioural options (C59); preparing downloaded lists (C55, C56). *)
From Coq Require Import Permutation.
From Verif Require Import Base Flags Protocol Url Sets FilterM ParseM ClientM JsM Spec SpecM
  P_Base P_Protocol P_Url P_Match P_Rule P_Parse P_List P_Shape P_Fp P_Line P_Line2
  P_Line3 P_Line4 P_Line5 P_Fp2 P_Match2 P_Props1 P_Props2 P_Props3 P_Opt P_Opt2 SpecC SpecJ
  P_Set P_Client P_Decide P_Hist P_Dec2 P_Dec3 P_Dec4 P_Dec5 P_Dec8 P_Like.

(** ** C59 *)
Lemma behavioural_bit w :
  behavioural_option w ->
  exists b, N.land b quietBits = b /\ split_on "," w = [w] /\
    forall f, parseOption f w =
      mkF (f_type f) (N.lor (f_opt f) b) (f_anti f) (f_data f) (f_dom f) (f_tag f) (f_host f) (f_rule f).
Proof.
  intros [->|[->|(name & -> & N)]].
  - exists FOImportant. split; [reflexivity|]. split; [reflexivity|]. intros f. reflexivity.
  - exists FOExplicitCancel. split; [reflexivity|]. split; [reflexivity|]. intros f. reflexivity.
  - exists FORedirect. split; [reflexivity|]. split.
    + apply split_on_none. intros I. apply in_app_or in I as [I|I]; [|auto].
      cbn in I. repeat destruct I as [I|I]; try discriminate; auto.
    + intros f. reflexivity.
Qed.

Lemma ldiff_lor a b : N.land b quietBits = b -> N.ldiff (N.lor a b) quietBits = N.ldiff a quietBits.
Proof.
  intros H. apply N.bits_inj. intros i. rewrite !N.ldiff_spec, N.lor_spec.
  apply (f_equal (fun n => N.testbit n i)) in H. rewrite N.land_spec in H.
  destruct (N.testbit a i), (N.testbit b i), (N.testbit quietBits i); auto.
Qed.

Lemma shape_more pres r o1 o2 b :
  N.land b quietBits = b ->
  (let f1 := apply_options o1 (shape_base r) in
   apply_options o2 (shape_base r) =
   mkF (f_type f1) (N.lor (f_opt f1) b) (f_anti f1) (f_data f1) (f_dom f1) (f_tag f1) (f_host f1) (f_rule f1)) ->
  like (shape pres (with_options r o1)) (shape pres (with_options r o2)).
Proof.
  intros Hb H. cbn zeta in H.
  assert (forall o, shape pres (with_options r o) =
    set_data (if pres then set_rule (apply_options o (shape_base r)) (Some (rule_line (with_options r o)))
              else apply_options o (shape_base r)) (x_body r)) as S by reflexivity.
  rewrite !S, H.
  destruct (apply_options o1 (shape_base r)).
  destruct pres; constructor; cbn; auto; symmetry; now apply ldiff_lor.
Qed.

Lemma edit_like pres l l' : behavioural_edit l l' ->
  l = l' \/ (line_text l /\ line_text l' /\ likeL (pres, l) (pres, l') /\
             snd (pline pres l) = snd (pline pres l')).
Proof.
  intros [l0|r w G1 G2 Hw|r o w G1 G2 Hw]; [now left| |];
    right; (split; [now apply good_rule_line|split; [now apply good_rule_line|]]);
    unfold likeL, rl; cbn [fst snd]; rewrite !parse_rule_line by auto; cbn [fst snd];
    (split; [|reflexivity]); destruct (behavioural_bit w Hw) as (b & Hb & Sp & HO);
    apply (shape_more pres r _ _ b Hb); cbn zeta.
  - cbn [apply_options]. rewrite Sp. cbn [fold_left]. apply HO.
  - cbn [apply_options].
    assert (split_on "," (o ++ B "," ++ w) = split_on "," o ++ [w]) as ->.
    { symmetry. rewrite <- Sp at 1. clear.
      induction o as [|c o IH]; [reflexivity|].
      cbn [app split_on]. destruct (ceq c ","); cbn [app]; [now rewrite IH|].
      cbn [app] in IH. rewrite <- IH. pose proof (split_on_nonempty "," o) as N.
      now destruct (split_on "," o). }
    rewrite fold_left_app. cbn [fold_left]. apply HO.
Qed.

Lemma F2_hostlines (R : bool * bytes -> bool * bytes -> Prop) e L1 L2 :
  (forall x y, R x y -> likeL x y) -> Forall2 R L1 L2 ->
  Forall2 likeL (hostlines e L1) (hostlines e L2).
Proof.
  intros H. induction 1 as [|x y L1 L2 Rx F IH]; [constructor|].
  unfold hostlines in *. cbn [List.filter].
  assert (hostb e (rl x) = hostb e (rl y)) as ->.
  { unfold hostb. destruct (H x y Rx). now rewrite lk_type, lk_data. }
  destruct (hostb e (rl y)); auto.
Qed.

Lemma F2_corr E L1 L2 : Forall2 likeL L1 L2 -> corr E L1 L2.
Proof.
  intros F. constructor.
  - intros x I. right. destruct (F2_in_l _ _ _ _ F I) as (y & J & R). eauto.
  - intros y I. right. destruct (F2_in _ _ _ _ F I) as (x & J & R). exists x. split; auto. now apply likeL_sym.
  - intros e. eapply F2_hostlines; eauto.
Qed.

Lemma edits_like p ls ls' :
  Forall2 behavioural_edit ls ls' -> Forall2 likeL (map (pair p) ls) (map (pair p) ls').
Proof.
  induction 1 as [|l l' ls ls' H F IH]; constructor; auto.
  destruct (edit_like p l l' H) as [->|(_ & _ & K & _)]; auto. apply like_refl.
Qed.

Lemma history_parse pre p t rest :
  history (pre ++ Parse p t :: rest) <-> history pre /\ nonul t /\ history rest.
Proof.
  unfold history. rewrite Forall_app. split.
  - intros [A B0]. inversion B0; subst. auto.
  - intros (A & B0 & C). split; auto.
Qed.

Lemma edits_decide E pre rest p t t' c1 c2 :
  history pre -> history rest -> nonul t -> nonul t' ->
  Forall2 behavioural_edit (text_lines t) (text_lines t') ->
  after E (pre ++ Parse p t :: rest) = Ok c1 -> after E (pre ++ Parse p t' :: rest) = Ok c2 ->
  same_decisions E c1 c2.
Proof.
  intros Hp Hr Ht Ht' F A1 A2 url context dom Hu.
  apply (corr_decisions E (pre ++ [Parse p t] ++ rest) (pre ++ [Parse p t'] ++ rest)); auto.
  - now apply history_parse.
  - now apply history_parse.
  - apply corr_around. intros L. cbn [loaded_from]. apply corr_app; [apply corr_refl|].
    now apply F2_corr, edits_like.
  - intros u. cbn [app]. rewrite !tag_enabled_parse. reflexivity.
Qed.

(** ** Texts *)
Lemma join_split t : join_lf (split_on LF t) = t.
Proof.
  induction t as [|c t IH]; [reflexivity|]. cbn [split_on].
  pose proof (split_on_nonempty LF t) as N.
  destruct (ceq_spec c LF) as [->|D].
  - destruct (split_on LF t) as [|w ws]; [easy|]. cbn [join_lf app].
    rewrite <- IH. reflexivity.
  - destruct (split_on LF t) as [|w ws]; [easy|].
    rewrite <- IH. cbn [join_lf]. now destruct ws.
Qed.

Lemma text_lines_join ls :
  ls <> [] -> text_lines (join_lf ls) = flat_map text_lines ls.
Proof.
  induction ls as [|l ls IH]; intros N; [easy|]. destruct ls as [|m ls].
  - cbn. now rewrite app_nil_r.
  - cbn [join_lf]. rewrite text_lines_app by auto. cbn [flat_map]. f_equal. apply IH. discriminate.
Qed.

Lemma text_lines_split t : text_lines t = flat_map text_lines (split_on LF t).
Proof.
  rewrite <- (join_split t) at 1. apply text_lines_join. apply split_on_nonempty.
Qed.

Lemma nonul_join ls : Forall nonul ls -> nonul (join_lf ls).
Proof.
  induction 1 as [|l ls H F IH]; [now apply nonulb_ok|]. cbn [join_lf]. destruct ls as [|m ls]; auto.
  intros I. apply in_app_or in I as [I|[I|I]]; [auto|discriminate|auto].
Qed.

Lemma nonul_split t : nonul t -> Forall nonul (split_on LF t).
Proof.
  intros H. apply Forall_forall. intros p I J. apply H. now apply (split_on_In LF t p NUL).
Qed.

Lemma mapRule_marked l : marked l (mapRule l).
Proof.
  unfold marked, mapRule. destruct (beq_spec l ima_host) as [->|N1]; [left; split; reflexivity|].
  destruct (beq_spec l ima_file) as [->|N2]; [right; left; split; reflexivity|].
  right. right. auto.
Qed.

Lemma mapRule_nonul l : nonul l -> nonul (mapRule l).
Proof.
  intros H. destruct (mapRule_marked l) as [[_ ->]|[[_ ->]|(_ & _ & ->)]]; auto; now apply nonulb_ok.
Qed.

Lemma sanitize_nonul pred t : nonul t -> nonul (sanitizeWith pred t).
Proof.
  intros H. apply nonul_join. apply Forall_app. split.
  - apply Forall_forall. intros x I. apply in_map_iff in I as (l & <- & I).
    apply filter_In in I as [I _]. apply mapRule_nonul.
    pose proof (nonul_split t H) as F. rewrite Forall_forall in F. auto.
  - repeat constructor; now apply nonulb_ok.
Qed.

Lemma no_eol_single l : ~ In CR l -> ~ In LF l -> text_lines l = [l].
Proof.
  induction l as [|c l IH]; intros H1 H2; [reflexivity|]. cbn [text_lines].
  rewrite (ceq_f c CR), (ceq_f c LF) by (intros ->; cbn in *; auto). cbn [orb].
  rewrite IH; auto; intros I; cbn in *; auto.
Qed.

Lemma no_cr_split t l : ~ In CR t -> In l (split_on LF t) -> text_lines l = [l].
Proof.
  intros H I. apply no_eol_single; intros J.
  - apply H. now apply (split_on_In LF t l CR).
  - now apply (split_on_In LF t l LF I) in J as [_ J].
Qed.

(** ** C55 *)
Lemma sanitize_lines pred t :
  ~ In CR t ->
  exists ls, Forall2 marked (List.filter pred (text_lines t)) ls /\
    text_lines (sanitizeWith pred t) =
      ls ++ [B "||imasdk.googleapis.com/$third-party"; B "^ima3.js"].
Proof.
  intros H.
  assert (forall ws, (forall l, In l ws -> In l (split_on LF t)) -> flat_map text_lines ws = ws) as K.
  { induction ws as [|l ws IH]; intros I; [reflexivity|]. cbn [flat_map].
    rewrite (no_cr_split t l H) by (apply I; cbn; auto). cbn [app]. f_equal. apply IH.
    intros m J. apply I. cbn; auto. }
  assert (text_lines t = split_on LF t) as ->.
  { rewrite text_lines_split. apply K. auto. }
  exists (map mapRule (List.filter pred (split_on LF t))). split.
  - induction (List.filter pred (split_on LF t)); constructor; auto. apply mapRule_marked.
  - unfold sanitizeWith. rewrite text_lines_join by now destruct (map mapRule _).
    rewrite flat_map_app. f_equal. 
    assert (forall l, In l (List.filter pred (split_on LF t)) -> text_lines (mapRule l) = [mapRule l]) as M.
    { intros l I. apply filter_In in I as [I _].
      destruct (mapRule_marked l) as [[_ ->]|[[_ ->]|(_ & _ & ->)]]; [reflexivity|reflexivity|].
      now apply (no_cr_split t). }
    induction (List.filter pred (split_on LF t)) as [|l ls IH]; [reflexivity|].
    cbn [map flat_map]. rewrite M by (cbn; auto). cbn [app]. f_equal. apply IH.
    intros m I. apply M. cbn; auto.
Qed.

Lemma idle_empty E p : idle E (p, []).
Proof. split; [now destruct p|]. intros e. now destruct p, e. Qed.

Lemma idle_drop E x L1 L2 : idle E x -> corr E L1 L2 -> corr E L1 (x :: L2).
Proof.
  intros D []. constructor.
  - intros y I. destruct (co_12 y I) as [|(z & J & K)]; auto. right. exists z. cbn; auto.
  - intros y [<-|I]; auto.
  - intros e. unfold hostlines. cbn [List.filter]. rewrite (proj2 D e). apply co_host.
Qed.

Lemma mark_like p l : likeL (p, mapRule l) (p, l).
Proof.
  destruct (mapRule_marked l) as [[-> ->]|[[-> ->]|(_ & _ & ->)]]; [| |apply like_refl];
    destruct p; constructor; vm_compute; reflexivity.
Qed.

Lemma mark_lines p l : Forall2 likeL (map (pair p) (text_lines (mapRule l))) (map (pair p) (text_lines l)).
Proof.
  destruct (mapRule_marked l) as [[X Y]|[[X Y]|(_ & _ & Y)]].
  - pose proof (mark_like p l) as K. rewrite Y in *. rewrite X in *. constructor; [exact K|constructor].
  - pose proof (mark_like p l) as K. rewrite Y in *. rewrite X in *. constructor; [exact K|constructor].
  - rewrite Y. induction (map (pair p) (text_lines l)); constructor; auto. apply like_refl.
Qed.

Lemma kept_corr E p ws :
  corr E (map (pair p) (flat_map text_lines (map mapRule (List.filter truthy ws))))
         (map (pair p) (flat_map text_lines ws)).
Proof.
  induction ws as [|l ws IH]; [apply corr_refl|]. cbn [List.filter flat_map].
  destruct l as [|c l].
  - cbn [truthy text_lines app map]. apply idle_drop; auto. apply idle_empty.
  - cbn [truthy map flat_map]. rewrite !map_app. apply corr_app; auto.
    apply F2_corr, mark_lines.
Qed.

Lemma sanitize_corr E p t :
  corr E (map (pair p) (text_lines (sanitizeABPInput t)))
         (map (pair p) (text_lines t ++ text_lines ima_rules)).
Proof.
  unfold sanitizeABPInput, sanitizeWith. rewrite text_lines_join by now destruct (map mapRule _).
  rewrite flat_map_app, (text_lines_split t), !map_app. apply corr_app; [apply kept_corr|].
  apply corr_refl.
Qed.

Lemma corr_trans E L1 L2 L3 : corr E L1 L2 -> corr E L2 L3 -> corr E L1 L3.
Proof.
  assert (forall A C D, covered E A C -> covered E C D -> covered E A D) as T.
  { intros A C D X Y x I. destruct (X x I) as [|(y & J & K)]; auto.
    destruct (Y y J) as [Dl|(z & J' & K')].
    - left. destruct Dl as [D1 D2]. split.
      + rewrite <- D1. now apply classify_like.
      + intros e. rewrite <- (D2 e). unfold hostb. destruct K. now rewrite lk_type, lk_data.
    - right. exists z. split; auto. eapply like_trans; eauto. }
  intros [] []. constructor; eauto. intros e.
  specialize (co_host e). specialize (co_host0 e). revert co_host0.
  generalize (hostlines e L3). induction co_host as [|x y l m R F IH]; intros l3 G;
    inversion G; subst; constructor; auto. eapply like_trans; eauto.
Qed.

Lemma sanitize_decide E pre rest p t c1 c2 :
  history pre -> history rest -> nonul t ->
  after E (pre ++ Parse p (sanitizeABPInput t) :: rest) = Ok c1 ->
  after E (pre ++ Parse p t :: Parse p ima_rules :: rest) = Ok c2 ->
  same_decisions E c1 c2.
Proof.
  intros Hp Hr Ht A1 A2 url context dom Hu.
  assert (nonul ima_rules) as Hi by now apply nonulb_ok.
  apply (corr_decisions E (pre ++ [Parse p (sanitizeABPInput t)] ++ rest)
           (pre ++ [Parse p t; Parse p ima_rules] ++ rest)); auto.
  - apply history_parse. split; auto. split; auto. now apply sanitize_nonul.
  - apply history_parse. split; auto. split; auto. constructor; auto.
  - apply corr_around. intros L. cbn [loaded_from]. rewrite <- app_assoc.
    apply corr_app; [apply corr_refl|]. rewrite <- map_app. apply sanitize_corr.
  - intros u. cbn [app]. rewrite !tag_enabled_parse. reflexivity.
Qed.

(** When parse() is defined. *)
Definition load_ok (E : env) (p : bool) (ls : list bytes) : Prop :=
  forall l, In l ls -> rule_of E p l <> UB.

Lemma mapM_not_UB {A C} (f : A -> res C) l :
  mapM f l = UB <-> exists x, In x l /\ f x = UB.
Proof.
  split; [apply mapM_UB|]. intros (x & I & H). now apply (mapM_UB_in f l x).
Qed.

Lemma parse_UB E p t c : nonul t ->
  (parse E p (cstr t) c = UB <-> exists l, In l (text_lines t) /\ rule_of E p l = UB).
Proof.
  intros H. rewrite parse_normal by auto. rewrite <- mapM_not_UB.
  destruct (mapM _ _); cbn [rmap]; easy.
Qed.

Lemma ima_good E p l : In l (text_lines ima_rules) -> rule_of E p l <> UB.
Proof.
  intros I.
  assert (line_text l) as Hl by (eapply text_lines_line; [|exact I]; now apply nonulb_ok).
  assert (safe_line l) as S.
  { vm_compute in I. destruct I as [<-|[<-|[]]]; (apply safe_short; [cbn; lia|reflexivity]). }
  destruct (safe_rule E p l Hl S) as (r & ->). discriminate.
Qed.

Lemma mark_UB E p l : rule_of E p (mapRule l) = UB <-> rule_of E p l = UB.
Proof.
  apply rule_of_like; [apply (mark_like p l)|].
  destruct (mapRule_marked l) as [[-> ->]|[[-> ->]|(_ & _ & ->)]]; [| |reflexivity];
    destruct p; vm_compute; reflexivity.
Qed.

Lemma empty_ok E p : rule_of E p [] <> UB.
Proof.
  assert (line_text []) as Hl by (apply line_text_dec; vm_compute; reflexivity).
  assert (safe_line []) as Hs by (apply safe_short; [cbn; lia|reflexivity]).
  destruct (safe_rule E p [] Hl Hs) as (r & ->). discriminate.
Qed.

Definition badl (E : env) (p : bool) (ls : list bytes) : Prop :=
  exists l, In l ls /\ rule_of E p l = UB.

Lemma badl_app E p a b : badl E p (a ++ b) <-> badl E p a \/ badl E p b.
Proof.
  unfold badl. split.
  - intros (l & I & H). apply in_app_or in I as [I|I]; eauto.
  - intros [(l & I & H)|(l & I & H)]; exists l; split; auto; apply in_or_app; auto.
Qed.

Lemma badl_one E p l : badl E p [l] <-> rule_of E p l = UB.
Proof.
  unfold badl. split; [|intros H; exists l; split; [left; reflexivity|exact H]].
  intros (m & [<-|[]] & H). exact H.
Qed.

Lemma mark_single l : text_lines (mapRule l) = text_lines l \/
  text_lines (mapRule l) = [mapRule l] /\ text_lines l = [l].
Proof.
  destruct (mapRule_marked l) as [[X Y]|[[X Y]|(_ & _ & Y)]]; [right|right|left; now rewrite Y];
    rewrite Y, X; split; vm_compute; reflexivity.
Qed.

Lemma mark_badl E p l : badl E p (text_lines (mapRule l)) <-> badl E p (text_lines l).
Proof.
  destruct (mark_single l) as [->|[-> ->]]; [reflexivity|].
  rewrite !badl_one. apply mark_UB.
Qed.

Lemma kept_UB E p ws :
  badl E p (flat_map text_lines (map mapRule (List.filter truthy ws))) <->
  badl E p (flat_map text_lines ws).
Proof.
  induction ws as [|w ws IH]; [reflexivity|]. cbn [List.filter flat_map]. rewrite badl_app.
  destruct w as [|c w].
  - cbn [truthy]. rewrite IH. split; auto. intros [H|H]; auto.
    apply (badl_one E p []) in H. now apply empty_ok in H.
  - cbn [truthy map flat_map]. rewrite badl_app, IH, mark_badl. reflexivity.
Qed.

Lemma sanitize_badl E p t : badl E p (text_lines (sanitizeABPInput t)) <-> badl E p (text_lines t).
Proof.
  unfold sanitizeABPInput, sanitizeWith. rewrite text_lines_join by now destruct (map mapRule _).
  rewrite flat_map_app, badl_app, kept_UB, <- text_lines_split. split; auto.
  intros [H|(l & I & H)]; auto. exfalso. now apply (ima_good E p l I).
Qed.

Lemma sanitize_defined E pre p t :
  nonul t ->
  (after E (pre ++ [Parse p (sanitizeABPInput t)]) = UB <-> after E (pre ++ [Parse p t]) = UB).
Proof.
  intros H. rewrite !after_snoc. destruct (after E pre) as [c|]; cbn [bind]; [|reflexivity].
  cbn [perform]. rewrite !parse_UB by (auto; now apply sanitize_nonul).
  apply sanitize_badl.
Qed.

(** ** C56 *)
Definition imaL (p : bool) : list (bool * bytes) := map (pair p) (text_lines ima_rules).

Lemma ima_no_host p e : hostlines e (imaL p) = [].
Proof. destruct p, e; vm_compute; reflexivity. Qed.

Lemma hostlines_app e a b : hostlines e (a ++ b) = hostlines e a ++ hostlines e b.
Proof. apply filter_app. Qed.

Lemma same_hosts e (L M : list (bool * bytes)) :
  hostlines e L = hostlines e M -> Forall2 likeL (hostlines e L) (hostlines e M).
Proof. intros ->. induction (hostlines e M); constructor; auto. apply like_refl. Qed.

Lemma covered_incl E L M : incl L M -> covered E L M.
Proof. intros I x J. right. exists x. split; auto. apply like_refl. Qed.

Lemma absorb E p ts :
  corr E (flat_map (fun t => map (pair p) (text_lines t) ++ imaL p) ts ++ imaL p)
         (flat_map (fun t => map (pair p) (text_lines t)) ts ++ imaL p).
Proof.
  constructor.
  - apply covered_incl. intros x I. apply in_app_or in I as [I|I]; [|apply in_or_app; auto].
    apply in_flat_map in I as (t & J & I). apply in_app_or in I as [I|I]; apply in_or_app; auto.
    left. apply in_flat_map. eauto.
  - apply covered_incl. intros x I. apply in_app_or in I as [I|I]; [|apply in_or_app; auto].
    apply in_flat_map in I as (t & J & I). apply in_or_app. left. apply in_flat_map. exists t.
    split; auto. apply in_or_app; auto.
  - intros e. apply same_hosts. rewrite !hostlines_app. f_equal.
    induction ts as [|t ts IH]; [reflexivity|]. cbn [flat_map].
    rewrite !hostlines_app, ima_no_host, app_nil_r. now f_equal.
Qed.

Lemma map_flat {A C D} (f : C -> D) (g : A -> list C) l :
  map f (flat_map g l) = flat_map (fun x => map f (g x)) l.
Proof. induction l as [|x l IH]; [reflexivity|]. cbn [flat_map]. now rewrite map_app, IH. Qed.

Lemma lists_corr E p ts :
  corr E (map (pair p) (text_lines (sanitizeABPInput (join_lf (map sanitizeABPInput ts)))))
         (flat_map (fun t => map (pair p) (text_lines t)) ts ++ imaL p).
Proof.
  eapply corr_trans; [apply sanitize_corr|]. rewrite map_app. fold (imaL p).
  destruct ts as [|t0 ts0].
  - cbn [flat_map map join_lf app text_lines]. apply corr_sym, idle_drop; [apply idle_empty|apply corr_refl].
  - set (ts := t0 :: ts0).
    rewrite text_lines_join by (unfold ts; discriminate).
    eapply corr_trans; [|apply absorb]. apply corr_app; [|apply corr_refl].
    clearbody ts. induction ts as [|t ts IH]; [apply corr_refl|].
    cbn [map flat_map]. rewrite map_app. apply corr_app; auto.
    pose proof (sanitize_corr E p t) as K. rewrite map_app in K. exact K.
Qed.

Lemma loaded_parses p ts L :
  loaded_from L (map (Parse p) ts) = L ++ flat_map (fun t => map (pair p) (text_lines t)) ts.
Proof.
  revert L. induction ts as [|t ts IH]; intros L; cbn [map loaded_from flat_map].
  - now rewrite app_nil_r.
  - now rewrite IH, app_assoc.
Qed.

Lemma tags_parses pre p ts rest u :
  tag_enabled (pre ++ map (Parse p) ts ++ rest) u <-> tag_enabled (pre ++ rest) u.
Proof.
  revert pre. induction ts as [|t ts IH]; intros pre; [reflexivity|].
  cbn [map app]. rewrite tag_enabled_parse. apply IH.
Qed.

Lemma history_parses p ts : Forall nonul ts -> history (map (Parse p) ts).
Proof. intros F. unfold history. induction F; constructor; auto. Qed.

Lemma lists_decide E pre rest p ts c1 c2 :
  history pre -> history rest -> Forall nonul ts ->
  after E (pre ++ Parse p (sanitizeABPInput (join_lf (map sanitizeABPInput ts))) :: rest) = Ok c1 ->
  after E (pre ++ map (Parse p) (ts ++ [ima_rules]) ++ rest) = Ok c2 ->
  same_decisions E c1 c2.
Proof.
  intros Hp Hr Ht A1 A2 url context dom Hu.
  assert (nonul ima_rules) as Hi by now apply nonulb_ok.
  apply (corr_decisions E
    (pre ++ [Parse p (sanitizeABPInput (join_lf (map sanitizeABPInput ts)))] ++ rest)
    (pre ++ map (Parse p) (ts ++ [ima_rules]) ++ rest)); auto.
  - apply history_parse. split; auto. split; auto. apply sanitize_nonul, nonul_join.
    apply Forall_forall. intros x I. apply in_map_iff in I as (t & <- & I).
    apply sanitize_nonul. rewrite Forall_forall in Ht. auto.
  - unfold history. rewrite !Forall_app. split; auto. split; auto. apply history_parses.
    apply Forall_app. auto.
  - apply corr_around. intros L. cbn [loaded_from]. rewrite loaded_parses, flat_map_app.
    cbn [flat_map]. rewrite app_nil_r. apply corr_app; [apply corr_refl|]. apply lists_corr.
  - intros u. cbn [app]. rewrite tag_enabled_parse, tags_parses. reflexivity.
Qed.

Lemma lists_defined E pre p ts :
  Forall nonul ts ->
  (after E (pre ++ [Parse p (sanitizeABPInput (join_lf (map sanitizeABPInput ts)))]) = UB <->
   after E (pre ++ map (Parse p) ts) = UB).
Proof.
  intros H. assert (Forall nonul (map sanitizeABPInput ts)) as H'.
  { apply Forall_forall. intros x I. apply in_map_iff in I as (t & <- & I).
    apply sanitize_nonul. rewrite Forall_forall in H. auto. }
  assert (badl E p (text_lines (join_lf (map sanitizeABPInput ts))) <->
          badl E p (flat_map text_lines ts)) as K.
  { destruct ts as [|t0 ts0].
    - cbn [map flat_map join_lf]. split; [|intros (l & [] & _)].
      intros X. apply (badl_one E p []) in X. now apply empty_ok in X.
    - rewrite text_lines_join by discriminate. generalize (t0 :: ts0). intros us.
      induction us as [|u us IH]; [reflexivity|]. cbn [map flat_map].
      now rewrite !badl_app, IH, sanitize_badl. }
  unfold after at 2. rewrite foldM_app. fold (after E pre).
  rewrite after_snoc. destruct (after E pre) as [c|]; cbn [bind]; [|reflexivity].
  cbn [perform]. rewrite parse_UB by (apply sanitize_nonul; now apply nonul_join).
  fold (badl E p (text_lines (sanitizeABPInput (join_lf (map sanitizeABPInput ts))))).
  rewrite sanitize_badl, K. clear K H'. revert c.
  induction H as [|t ts Ht F IH]; intros c; cbn [map foldM flat_map].
  - split; [intros (l & [] & _)|discriminate].
  - rewrite badl_app. cbn [perform]. pose proof (parse_UB E p t c Ht) as PU.
    fold (badl E p (text_lines t)) in PU.
    destruct (parse E p (cstr t) c) as [c'|]; cbn [bind].
    + rewrite <- (IH c'). split; auto. intros [X|X]; auto. apply PU in X. discriminate.
    + split; auto. intros _. left. now apply PU.
Qed.
