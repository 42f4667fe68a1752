(** Lists of host names (C44, C62). *)
From Verif Require Import Base Flags Protocol Url Sets FilterM ParseM ClientM JsM Spec SpecM
  SpecC SpecJ SpecQ SpecE SpecN SpecZ P_Base P_Protocol P_Url P_Match P_Rule P_Parse P_List P_Shape P_Fp P_Line P_Line2
  P_Line3 P_Line4 P_Line5 P_Fp2 P_Props1 P_Props2 P_Props3 P_Opt P_Opt2 P_Match2 P_Set P_Client P_Decide P_Hist
  P_Dec2 P_Dec5 P_Dec8 P_Safe P_End P_Exact P_Ex P_Js P_Js2.
From Verif Require Import SpecC.

Definition host_of_list (e : bool) (body : bytes) : rule_syntax := mkRule e HostBars body false None.

Lemma host_of_list_line e body :
  rule_line (host_of_list e body) = (if e then B "@@" else []) ++ B "||" ++ body.
Proof. unfold rule_line, pattern_line, host_of_list. cbn. now rewrite !app_nil_r. Qed.

Lemma host_of_list_ok e h body :
  host_name h -> body = h \/ body = h ++ B "^" ->
  usual_rule (host_of_list e body) /\ names_only_host (host_of_list e body).
Proof.
  intros Hh Hb. destruct (host_body_ok h body Hh Hb) as (G & BH & PO & NO & CE).
  destruct G as (G1 & G2 & G3 & G4 & G5).
  assert (names_only_host (host_of_list e body)) as NO' by exact NO.
  split; auto. split; [|split].
  - split; [exact G1|]. split; [exact G2|]. split; [discriminate|]. split; [discriminate|].
    rewrite host_of_list_line. destruct Hh as (_ & L & _). rewrite !app_length.
    assert (length body < 2041) by (destruct Hb as [-> | ->]; rewrite ?app_length; cbn [B list_ascii_of_string length]; lia).
    destruct e; cbn [B list_ascii_of_string length]; lia.
  - split; [right; right; apply carets_end_outside; exact CE|]. intros _ X.
    destruct Hh as (N & _ & H).
    assert (exists y x, body = y ++ [x] /\ x <> "*"%char) as (y & x & Y & Nx).
    { destruct Hb as [-> | ->]; [|exists h, "^"%char; split; [reflexivity|discriminate]].
      destruct (exists_last N) as (y & x & Y). exists y, x. split; auto.
      destruct (H x) as (_ & _ & Z); auto. rewrite Y. apply in_or_app; cbn; auto. }
    unfold host_of_list in X. cbn [x_body] in X. rewrite Y, last_last in X. easy.
  - exists []. split; [reflexivity|]. split; [intros n [[[] _]|[]]|intros s []].
Qed.

Lemma names_host_rule e h l : names_host e h l <->
  exists body, (body = h \/ body = h ++ B "^") /\ l = rule_line (host_of_list e body).
Proof. split; intros (b & Hb & ->); exists b; split; auto; now rewrite host_of_list_line. Qed.

Lemma names_host_dec e h l : names_host e h l \/ ~ names_host e h l.
Proof.
  destruct (list_eq_dec ascii_dec l ((if e then B "@@" else []) ++ B "||" ++ h)) as [->|N1].
  { left. exists h. auto. }
  destruct (list_eq_dec ascii_dec l ((if e then B "@@" else []) ++ B "||" ++ h ++ B "^")) as [->|N2].
  { left. exists (h ++ B "^"). auto. }
  right. intros (b & [-> | ->] & ->); auto.
Qed.

Lemma first_named e h (ls : list (bool * bytes)) p l :
  In (p, l) ls -> names_host e h l ->
  exists a p' l' b, ls = a ++ (p', l') :: b /\ names_host e h l' /\
    forall q m, In (q, m) a -> ~ names_host e h m.
Proof.
  induction ls as [|[q m] ls IH]; [easy|]. intros I N.
  destruct (names_host_dec e h m) as [M|M].
  - exists [], q, m, ls. split; [reflexivity|]. split; [exact M|]. intros ? ? [].
  - destruct I as [I|I]; [injection I as <- <-; easy|].
    destruct (IH I N) as (a & p' & l' & b & -> & N' & K).
    exists ((q, m) :: a), p', l', b. split; auto. split; auto.
    intros q' m' [J|J]; [injection J as <- <-; exact M|exact (K q' m' J)].
Qed.

Lemma names_only_network (l : bytes) (r : rule_syntax) :
  usual_rule r -> names_only_host r -> l = rule_line r -> ~ no_network_line l.
Proof.
  intros (G & _) NO -> N.
  pose proof (good_rule_line r G) as Hl.
  set (E := mkEnv [] [] [] (fun _ => 0%N) (fun _ _ => false)).
  destruct (line_shape false r G) as (b & HP).
  destruct (rule_category E false r _ b G HP) as (k & K & C).
  assert (parses_to false (rule_line r) (shape false r)) as P by (exists b; exact HP).
  destruct (no_network_class E false (rule_line r) (shape false r) k Hl N P K) as (_ & _ & Z).
  destruct (rule_host_fields false r _ (x_exception r) (host_prefix (x_body r)) G P) as [_ HF].
  destruct HF as [HR _]; [split; auto; split; auto; apply body_host_exists|].
  now apply Z in HR.
Qed.

Lemma list_usual calls : list_of_hosts calls -> usual_list calls.
Proof.
  intros H pres l I. destruct (H pres l I) as [N|(e & h & Hh & N)]; auto.
  right. apply names_host_rule in N as (b & Hb & ->). exists (host_of_list e b). split; auto.
  now apply (host_of_list_ok e h b).
Qed.

(** A loaded rule naming only a host is one of the list's lines. *)
Lemma loaded_host calls pres r :
  list_of_hosts calls -> In (pres, rule_line r) (loaded_lines calls) -> usual_rule r ->
  names_only_host r ->
  exists h body, host_name h /\ (body = h \/ body = h ++ B "^") /\
    r = host_of_list (x_exception r) body /\ body_host (x_body r) h.
Proof.
  intros H I U NO. destruct (H pres _ I) as [N|(e & h & Hh & N)].
  { now apply names_only_network with (r := r) in N. }
  apply names_host_rule in N as (b & Hb & L).
  destruct (host_of_list_ok e h b Hh Hb) as (U' & _).
  assert (r = host_of_list e b) as -> by (apply rule_line_inj; auto; [apply U|apply U']).
  exists h, b. split; [exact Hh|]. split; [exact Hb|]. split; [reflexivity|]. now apply (host_body_ok h b).
Qed.

Lemma looked_party uh h : looked_up uh h -> first_party h uh.
Proof. intros [->|[[->|(p & ->)] _]]; [left|left|right]; eauto. Qed.

Lemma document_bit context : declared context (B "document") <-> has context FODocument = true.
Proof. rewrite has_common. apply declared_document. Qed.

Section Hosts.
  Context (E : env) (calls : list call) (url uh : bytes) (context : N) (page : option bytes)
    (LH : list_of_hosts calls) (Huh : url_has_host url uh).

  Lemma heard_on_list e :
    (exists r, rule_loaded calls r /\ x_exception r = e /\ noticed calls r uh /\
       rule_meets calls r url uh context page) ->
    on_list calls e uh /\ has context FODocument = false.
  Proof.
    intros (r & [U (pres & I)] & Ex & N & _ & parts & O & (US & D & _) & _).
    assert (exists e h b, host_name h /\ (b = h \/ b = h ++ B "^") /\ r = host_of_list e b)
      as (e' & h & b & Hh & Hb & ->).
    { destruct (LH pres _ I) as [X|(e' & h & Hh & X)].
      - destruct (no_network_not_rule E _ r U X) as [Y|(n & c & Y1 & Y2 & ps & Y3 & Y4)]; [easy|].
        exfalso. assert (ps = parts) as -> by (now apply (parts_unique r parts)).
        apply (US n); auto. now apply (unsupported_bits n c).
      - apply names_host_rule in X as (b & Hb & L). exists e', h, b. split; [exact Hh|]. split; [exact Hb|].
        apply rule_line_inj; auto; [apply U|]. now apply (host_of_list_ok e' h b). }
    cbn [x_exception host_of_list] in Ex. subst e'.
    destruct (host_of_list_ok e h b Hh Hb) as (_ & NO).
    destruct (N NO) as [_ Lk].
    split.
    - exists h, pres, (rule_line (host_of_list e b)). split; auto. split; auto. split.
      + apply names_host_rule. eauto.
      + apply Lk. now apply (host_body_ok h b).
    - unfold option_parts in O. cbn in O. subst parts.
      destruct (has context FODocument) eqn:Q; auto.
      apply document_bit in Q. apply D in Q. destruct Q as [Q _]. easy.
  Qed.

  Lemma on_list_heard e :
    on_list calls e uh -> has context FODocument = false ->
    exists r, rule_loaded calls r /\ x_exception r = e /\ listened E calls r uh page /\
      rule_meets calls r url uh context page.
  Proof.
    intros (h & pres & l & Hh & I & N & Lk) D.
    destruct (first_named e h _ _ _ I N) as (a & p & l' & b & L & N' & F).
    apply names_host_rule in N' as (body & Hb & ->).
    destruct (host_of_list_ok e h body Hh Hb) as (U & NO).
    destruct (host_body_ok h body Hh Hb) as (_ & BH & PO & _ & _).
    assert (forall h', body_host body h' -> h' = h) as BU.
    { intros h' X. apply body_host_prefix in X, BH. congruence. }
    exists (host_of_list e body). split; [|split; [reflexivity|split]].
    - split; auto. exists p. rewrite L. apply in_or_app. cbn; auto.
    - split.
      + intros _. split.
        * exists a, p, b. split; auto.
          intros p' r' h' I' U' NO' X' B1 B2. cbn [x_body x_exception host_of_list] in *.
          apply BU in B1. subst h'.
          assert (In (p', rule_line r') (loaded_lines calls)) as J.
          { rewrite L. apply in_or_app; auto. }
          destruct (loaded_host calls p' r' LH J U' NO') as (h2 & b2 & Hh2 & Hb2 & R2 & B3).
          assert (h2 = h) as -> by (apply body_host_prefix in B2, B3; congruence).
          apply (F p' (rule_line r') I'). apply names_host_rule. exists b2. split; auto.
          rewrite R2. cbn [x_exception host_of_list] in X'. now rewrite X'.
        * intros h' B1. apply BU in B1. now subst h'.
      + intros dl (X & _). easy.
    - split.
      + cbn [pattern_fits host_of_list x_anchor x_right]. unfold pattern_fits.
        cbn [host_of_list x_anchor x_right x_body]. exists h, [body].
        split; auto. split; [now apply looked_party|]. split; auto.
        apply (host_found url uh h body); auto. now apply looked_party.
      + exists []. split; [reflexivity|]. split.
        * split; [intros n [[] _]|]. split.
          { intros X. apply document_bit in X. congruence. }
          split; [|split; [|split]].
          { split; [intros _ n [[[] _]|[]]|]. intros _. split; [left; intros n [[] _]|intros n []]. }
          { intros dl d (x & y & X & _). destruct x; discriminate. }
          { intros [[] _]. }
          { intros []. }
        * intros t (x & y & X & _). destruct x; discriminate.
  Qed.

  Lemma listed_iff e :
    (exists r, rule_loaded calls r /\ x_exception r = e /\ listened E calls r uh page /\
      rule_meets calls r url uh context page) <->
    on_list calls e uh /\ has context FODocument = false.
  Proof.
    split.
    - intros (r & R & X & [N _] & M). apply heard_on_list. exists r. auto.
    - intros [O D]. now apply on_list_heard.
  Qed.

  Lemma noticed_iff e :
    (exists r, rule_loaded calls r /\ x_exception r = e /\ noticed calls r uh /\
      rule_meets calls r url uh context page) <->
    on_list calls e uh /\ has context FODocument = false.
  Proof.
    split; [apply heard_on_list|].
    intros [O D]. destruct (on_list_heard e O D) as (r & R & X & [N _] & M). exists r. auto.
  Qed.
End Hosts.

Lemma host_list_decides E calls c url uh context page :
  history calls -> after E calls = Ok c -> nonul url -> url_has_host url uh ->
  list_of_hosts calls ->
  exists v c', matches E c (cstr url) context page = Ok (v, c') /\
  (v_block v = true <->
   web_url url /\ has context FODocument = false /\
   on_list calls false uh /\ ~ on_list calls true uh).
Proof.
  intros H A Hu Huh LH.
  destruct (text_decides E calls c url uh context page H A Hu Huh (list_usual calls LH)) as (v & c' & M & D).
  exists v, c'. split; auto. rewrite D.
  rewrite (listed_iff E calls url uh context page LH Huh false), (listed_iff E calls url uh context page LH Huh true). tauto.
Qed.

Lemma host_list_finds E calls c url uh context page :
  history calls -> after E calls = Ok c -> nonul url -> url_has_host url uh ->
  list_of_hosts calls ->
  exists v, findMatchingFilters E c (cstr url) context page = Ok v /\
  (v_block v = true <->
   has context FODocument = false /\ on_list calls false uh /\ ~ on_list calls true uh).
Proof.
  intros H A Hu Huh LH.
  destruct (text_finds E calls c url uh context page H A Hu Huh (list_usual calls LH)) as (v & M & D).
  exists v. split; auto. rewrite D.
  rewrite (noticed_iff E calls url uh context page LH Huh false), (noticed_iff E calls url uh context page LH Huh true). tauto.
Qed.

(** ** C62 *)
Definition ima_host : rule_syntax :=
  mkRule false HostBars (B "imasdk.googleapis.com/") false (Some (B "third-party")).
Definition ima_script : rule_syntax := mkRule false NoAnchor (B "^ima3.js") false None.

Lemma extra_effect E calls p l f url uh context dom :
  In l extraConcatRules -> parses_to p l f -> nonul url -> url_has_host url uh ->
  applies E calls f url context dom ->
  first_party (B "imasdk.googleapis.com") uh \/ substring (B "ima3.js") url.
Proof.
  intros I P Hu Huh ((host & _ & M) & _).
  assert (forall bf, bf = None -> pairs_held E bf url) as PH by (intros bf -> b p' X; discriminate).
  destruct I as [<-|[<-|[]]].
  - left. change (B "||imasdk.googleapis.com/$third-party") with (rule_line ima_host) in P.
    destruct P as [b P].
    assert (body_host (x_body ima_host) (B "imasdk.googleapis.com")) as BH.
    { exists (B "/"). split; [reflexivity|]. split.
      - intros c I J. apply existsb_In in J. vm_compute in I.
        repeat (destruct I as [<-|I]; [discriminate J|]). destruct I.
      - right. exists "/"%char, []. split; auto. cbn; auto. }
    assert (pieces_of (x_body ima_host) [x_body ima_host]) as PO.
    { split; [discriminate|]. split; [reflexivity|]. intros q [<-|[]]. now apply notin_ok. }
    destruct (P_Match2.host_rule E p ima_host f b url uh _ _ dom None [] true _
      ltac:(now apply good_ruleb_ok) eq_refl eq_refl BH PO P Hu Huh (or_introl eq_refl) (PH _ eq_refl) M) as [_ D].
    now apply D.
  - right. change (B "^ima3.js") with (rule_line ima_script) in P.
    destruct P as [b P].
    assert (pieces_of (x_body ima_script) [x_body ima_script]) as PO.
    { split; [discriminate|]. split; [reflexivity|]. intros q [<-|[]]. now apply notin_ok. }
    destruct (piece_rule E p ima_script f b url _ dom None [] true _
      ltac:(now apply good_ruleb_ok) eq_refl eq_refl PO P Hu (or_introl eq_refl) (PH _ eq_refl) M) as [_ D].
    destruct (proj1 D eq_refl) as [_ F].
    destruct (pieces_found_in url 0 _ (x_body ima_script) F) as (i & X); [cbn; auto|discriminate|].
    apply (piece_substring _ url i (B "ima3.js") X).
    + exists (B "^"), []. reflexivity.
    + intros c I ->. vm_compute in I. intuition discriminate.
Qed.

Lemma host_entry_class E p h f j :
  host_entry h -> parses_to p (B "||" ++ h) f -> classify E f <> Ok (CList j).
Proof.
  intros [->|Hh] P K.
  - apply parses_rule_at in P; [|apply line_text_dec; vm_compute; reflexivity].
    subst f. assert (classify E (rule_at p (B "||" ++ [])) = Ok (CHost false)) by (destruct p; reflexivity).
    congruence.
  - destruct (host_body_ok h h Hh (or_introl eq_refl)) as (G & BH & PO & NO & _).
    rewrite <- host_syntax_line in P.
    destruct P as [b HP].
    destruct (rule_collection E p _ f b _ G HP K ltac:(discriminate)) as [[_ X] _].
    destruct (X NO) as (e & Y). discriminate.
Qed.

Lemma host_text_nonul body : nonul body -> nonul (listURLText (Some hostListFilter) body).
Proof.
  intros Hb. unfold listURLText, singleListData, sanitizeABPInput.
  do 2 apply sanitize_nonul. unfold hostListFilter. apply nonul_join.
  apply Forall_forall. intros l J. apply in_map_iff in J as (x & <- & J).
  change (nonul (B "||" ++ x)). apply nonul_app. split; [now apply nonulb_ok|].
  pose proof (nonul_split body Hb) as K. rewrite Forall_forall in K. apply K.
  exact (in_skipn_in _ x 4 _ J).
Qed.

Lemma host_list_only E p body c url uh context dom v c' :
  nonul body -> ~ In CR body ->
  Forall host_entry (skipn 4 (text_lines body)) -> skipn 4 (text_lines body) <> [] ->
  after E [Parse p (listURLText (Some hostListFilter) body)] = Ok c ->
  nonul url -> url_has_host url uh -> uh <> [] ->
  matches E c (cstr url) context dom = Ok (v, c') ->
  v_block v = true ->
  web_url url /\
  ((exists h, In h (skipn 4 (text_lines body)) /\ h <> [] /\ looked_up uh h) \/
   first_party (B "imasdk.googleapis.com") uh \/ substring (B "ima3.js") url).
Proof.
  intros Hb Hc F N A Hu Huh Nu M Bl.
  set (hs := skipn 4 (text_lines body)) in *.
  pose proof (listURL_host_lines body Hc N F) as TL. fold hs in TL.
  set (calls := [Parse p (listURLText (Some hostListFilter) body)]) in *.
  assert (loaded_lines calls =
    map (pair p) (map (app (B "||")) hs ++ extraConcatRules ++ extraConcatRules)) as LL.
  { unfold calls. cbn [loaded_lines loaded_from app]. now rewrite TL. }
  assert (forall q l, In (q, l) (loaded_lines calls) ->
     q = p /\ ((exists h, In h hs /\ l = B "||" ++ h) \/ In l extraConcatRules)) as LI.
  { intros q l J. rewrite LL in J. apply in_map_iff in J as (l' & [= <- <-] & J). split; auto.
    apply in_app_or in J as [J|J].
    - left. apply in_map_iff in J as (h & <- & J). eauto.
    - right. now apply in_app_or in J as [J|J]. }
  assert (history calls) as Hy.
  { constructor; [|constructor]. now apply host_text_nonul. }
  assert (web_url url) as Hw.
  { destruct (web_dec url Hu) as [X|X]; auto. exfalso.
    pose proof (not_web url _ c E context dom v c' Hu X M eq_refl) as ->. discriminate. }
  split; auto.
  destruct (proj1 (decision E calls c url context dom v c' Hy A Hu Hw M) Bl) as [(f & HE & AP) _].
  rewrite Forall_forall in F.
  assert (forall j, loaded_in E calls (CList j) f ->
     first_party (B "imasdk.googleapis.com") uh \/ substring (B "ima3.js") url) as K.
  { intros j (q & l & J & P & K). destruct (LI q l J) as [-> [(h & Ih & ->)|X]].
    - exfalso. exact (host_entry_class E p h f j (F h Ih) P K).
    - exact (extra_effect E calls p l f url uh context dom X P Hu Huh AP). }
  destruct HE as [f L|f L|f L _|f L _|f host h FH UH Fh Lk].
  1-4: right; exact (K _ L).
  destruct FH as [_ (a & q & l & b & h' & L & P & Fh' & _)].
  assert (In (q, l) (loaded_lines calls)) as J by (rewrite L; apply in_or_app; cbn; auto).
  destruct (LI q l J) as [-> [(h2 & Ih & ->)|X]].
  - left. exists h2. split; auto.
    destruct (host_entry_line p h2 f (F h2 Ih) P) as [Y _].
    assert (h2 = h) as -> by congruence.
    assert (host = uh) as ->.
    { apply hostOf_spec in UH, Huh. congruence. }
    split; auto. intros ->. destruct Lk as [X|[_ []]]. congruence.
  - right. exact (extra_effect E calls p l f url uh context dom X P Hu Huh AP).
Qed.

Lemma host_list_exact E p body c url uh context dom v c' :
  nonul body -> ~ In CR body -> Forall host_entry (skipn 4 (text_lines body)) ->
  skipn 4 (text_lines body) <> [] ->
  after E [Parse p (listURLText (Some hostListFilter) body)] = Ok c ->
  nonul url -> url_has_host url uh -> uh <> [] -> has context FODocument = false ->
  ~ first_party (B "imasdk.googleapis.com") uh -> ~ substring (B "ima3.js") url ->
  matches E c (cstr url) context dom = Ok (v, c') ->
  v_block v = true <->
  web_url url /\ exists h, In h (skipn 4 (text_lines body)) /\ h <> [] /\ looked_up uh h.
Proof.
  intros Hb Hc F N A Hu Huh Nu D X1 X2 M. split.
  - intros Bl. destruct (host_list_only E p body c url uh context dom v c' Hb Hc F N A Hu Huh Nu M Bl)
      as (W & [K|[K|K]]); auto; contradiction.
  - intros (W & h & I & Nh & Lk).
    apply (host_list E p body c h url uh context dom v c'); auto.
    + now apply looked_party.
    + destruct Lk as [->|[_ K]]; auto.
Qed.

Definition host_nameb (h : bytes) : bool :=
  negb (beq h []) && Nat.ltb (length h) 2040 &&
  forallb (fun c => negb (existsb (ceq c) separators) && negb (ceq c "|") && negb (ceq c "$") &&
     negb (ceq c "#") && negb (ceq c NUL) && negb (ceq c CR) && negb (ceq c LF) && negb (ceq c "*")) h.

Lemma host_nameb_ok h : host_nameb h = true -> host_name h.
Proof.
  unfold host_nameb. rewrite !andb_true_iff, Nat.ltb_lt. intros [[N L] F].
  split; [|split; auto].
  - intros ->. discriminate.
  - intros c I. rewrite forallb_forall in F. specialize (F c I).
    repeat (apply andb_true_iff in F as [F ?]).
    assert (forall d, negb (ceq c d) = true -> c <> d) as D.
    { intros d X ->. apply negb_true_iff in X. assert (ceq d d = true) by now apply ceq_eq. congruence. }
    split; [|split; [repeat split|]; auto].
    intros J. apply negb_true_iff in F. apply not_true_iff_false in F. apply F.
    apply existsb_exists. exists c. split; auto. now apply ceq_eq.
Qed.
