(** Lemmas behind Props_Url.v. *)
From Verif Require Import Base Flags Protocol Url Sets FilterM ParseM ClientM Spec
  P_Base P_Protocol P_Url P_Match P_Rule.

Lemma matches_nonweb E c url context dom :
  nonul url -> ~ web_url url ->
  matches E c (cstr url) context dom = Ok (mkV false None None, c).
Proof.
  intros Hu Hw. unfold matches. rewrite strlen_cstr by auto. cbn [bind].
  destruct (isBlockableProtocol_spec url Hu) as (b & E1 & E2).
  rewrite E1. cbn [bind]. destruct b; auto. tauto.
Qed.

Lemma separators_exact c : isSeparatorChar c = true <-> In c (B "$/:=?^").
Proof. apply isSeparatorChar_spec. Qed.

Lemma getUrlHost_spec url host :
  nonul url -> url_has_host url host -> getUrlHost (cstr url) = Ok host.
Proof.
  intros Hu H. rewrite getUrlHost_cstr by auto. now rewrite (hostOf_spec _ _ H).
Qed.

Lemma getUrlHost_total url :
  nonul url ->
  exists host, getUrlHost (cstr url) = Ok host /\
    (In ":"%char url -> url_has_host url host) /\
    (~ In ":"%char url -> host = []).
Proof.
  intros Hu. exists (hostOf url). split; [now apply getUrlHost_cstr|].
  split; [apply hostOf_exists|]. intros N.
  unfold hostOf.
  replace (after_colon url) with (@nil ascii); auto. symmetry.
  clear -N. induction url as [|c u IH]; auto. cbn.
  destruct (ceq_spec c ":") as [->|]; [exfalso; apply N; cbn; auto|].
  apply IH. intros I; apply N; cbn; auto.
Qed.
