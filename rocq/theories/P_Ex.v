(** Helpers for concrete clients in examples. *)
From Verif Require Import Base Flags Protocol Url Sets FilterM ParseM ClientM Spec SpecM SpecC
  P_Base P_Protocol P_Url P_Match P_Rule P_Parse P_List P_Shape P_Fp P_Line P_Props1 P_Props2 P_Match2.

Definition rule_at (p : bool) (l : bytes) : filter := fst (pline p l).

Lemma rule_at_parses p l : line_text l -> parses_to p l (rule_at p l).
Proof.
  intros H. exists (snd (pline p l)). rewrite parse_filter_cstr by auto.
  unfold rule_at. now destruct (pline p l).
Qed.

Lemma parses_rule_at p l f : line_text l -> parses_to p l f -> f = rule_at p l.
Proof.
  intros H [b HP]. rewrite parse_filter_cstr in HP by auto. unfold rule_at.
  destruct (pline p l). cbn. congruence.
Qed.

Lemma loaded_at E calls p l k :
  In (p, l) (loaded_lines calls) -> line_text l -> classify E (rule_at p l) = Ok k ->
  loaded_in E calls k (rule_at p l).
Proof. intros I H K. exists p, l. split; auto. split; auto. now apply rule_at_parses. Qed.

Lemma applies_at E calls f url context dom host :
  getUrlHost (cstr url) = Ok host ->
  filter_matches E f (cstr url) (length url) (party_context context dom host) dom None [] = Ok true ->
  f_tag f = [] -> applies E calls f url context dom.
Proof. intros H1 H2 H3. split; [exists host; auto|now left]. Qed.

(** The decision of a client after [calls], and what it reports. *)
Definition asked (E : env) (calls : list call) url context dom : res verdict :=
  c <- after E calls ;; rmap fst (matches E c (cstr url) context dom).
Definition found_by (E : env) (calls : list call) url context dom : res verdict :=
  c <- after E calls ;; findMatchingFilters E c (cstr url) context dom.

Lemma asked_ok E calls url context dom v :
  asked E calls url context dom = Ok v ->
  exists c c', after E calls = Ok c /\ matches E c (cstr url) context dom = Ok (v, c').
Proof.
  unfold asked. intros H. apply bind_ok in H as (c & A & H).
  apply rmap_ok in H as ([w c'] & M & ->). eauto.
Qed.

Lemma found_by_ok E calls url context dom v :
  found_by E calls url context dom = Ok v ->
  exists c, after E calls = Ok c /\ findMatchingFilters E c (cstr url) context dom = Ok v.
Proof. unfold found_by. intros H. apply bind_ok in H as (c & A & H). eauto. Qed.

Definition webb (url : bytes) : bool :=
  match isBlockableProtocol (cstr url) (length url) with Ok b => b | UB => false end.

Lemma webb_ok url : nonul url -> webb url = true -> web_url url.
Proof.
  intros H W. destruct (isBlockableProtocol_spec url H) as (b & E1 & K).
  unfold webb in W. rewrite E1 in W. now apply K.
Qed.

Lemma webb_no url : nonul url -> webb url = false -> ~ web_url url.
Proof.
  intros H W. destruct (isBlockableProtocol_spec url H) as (b & E1 & K).
  unfold webb in W. rewrite E1 in W. intros X. apply K in X. congruence.
Qed.
