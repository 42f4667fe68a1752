(** C01, C09, C10, C11: protocols, hosts, parties and separators. *)
From Verif Require Import Base Flags Protocol Url Sets FilterM ParseM ClientM Spec
  P_Base P_Protocol P_Url P_Props1.

(** C01: [isBlockableProtocol] accepts exactly the web URLs ... *)
Theorem C01_protocol_exact : forall url, nonul url ->
  exists b, isBlockableProtocol (cstr url) (length url) = Ok b /\
            (b = true <-> web_url url).
Proof. exact isBlockableProtocol_spec. Qed.
Print Assumptions C01_protocol_exact.

(** ... and [matches] answers false for every other URL, without touching the
    client. *)
Theorem C01_nonweb_never_blocked : forall E c url context dom,
  nonul url -> ~ web_url url ->
  matches E c (cstr url) context dom = Ok (mkV false None None, c).
Proof. exact matches_nonweb. Qed.
Print Assumptions C01_nonweb_never_blocked.

Example C01_web_example : web_url (B "bLoB:HTTPS://example.com/x").
Proof.
  split; [cbn; lia|].
  exists (B "bLoB:"), (B "HTTPS"), (B "example.com/x").
  split; [reflexivity|].
  assert (forall l c, (65 <=? N_of_ascii c)%N && (N_of_ascii c <=? 90)%N
            && (N_of_ascii l =? N_of_ascii c + 32)%N = true -> ci_char l c) as K.
  { intros l c H. right. rewrite !andb_true_iff in H.
    rewrite !N.leb_le, N.eqb_eq in H. tauto. }
  split.
  - right. unfold ci_text, B. cbn [list_ascii_of_string].
    repeat (apply Forall2_cons;
            [first [left; reflexivity | apply K; reflexivity]|]).
    apply Forall2_nil.
  - right. left. unfold ci_text, B. cbn [list_ascii_of_string].
    repeat (apply Forall2_cons; [apply K; reflexivity|]). apply Forall2_nil.
Qed.

Example C01_nonweb_example : ~ web_url (B "ftp://example.com/ad.js").
Proof.
  intros W. destruct (isBlockableProtocol_spec (B "ftp://example.com/ad.js"))
    as (b & E1 & E2).
  - now apply nonulb_ok.
  - apply E2 in W. subst b. vm_compute in E1. discriminate.
Qed.

(** C09 *)
Theorem C09_first_party_exact : forall page host,
  isThirdPartyHost page host = false <-> first_party page host.
Proof. exact isThirdPartyHost_spec. Qed.
Print Assumptions C09_first_party_exact.

Theorem C09_third_party_exact : forall page host,
  isThirdPartyHost page host = true <-> ~ first_party page host.
Proof. exact isThirdPartyHost_true. Qed.
Print Assumptions C09_third_party_exact.

Example C09_example :
  first_party (B "b.com") (B "a.b.com") /\ ~ first_party (B "b.com") (B "ab.com").
Proof.
  split.
  - right. exists (B "a"). reflexivity.
  - rewrite <- isThirdPartyHost_true. reflexivity.
Qed.

(** C10 *)
Theorem C10_separators_exact : forall c,
  isSeparatorChar c = true <-> In c (B "$/:=?^").
Proof. exact separators_exact. Qed.
Print Assumptions C10_separators_exact.

(** C11 *)
Theorem C11_host_extraction : forall url host,
  nonul url -> url_has_host url host -> getUrlHost (cstr url) = Ok host.
Proof. exact getUrlHost_spec. Qed.
Print Assumptions C11_host_extraction.

(** Every URL has such a decomposition, or no ':' at all and then no host. *)
Theorem C11_host_total : forall url, nonul url ->
  exists host, getUrlHost (cstr url) = Ok host /\
    (In ":"%char url -> url_has_host url host) /\
    (~ In ":"%char url -> host = []).
Proof. exact getUrlHost_total. Qed.
Print Assumptions C11_host_total.

Example C11_example : url_has_host (B "https://ads.example.com:80/x?y") (B "ads.example.com").
Proof.
  exists (B "https"), (B "//"), (B ":80/x?y"). split; [reflexivity|].
  split; [now apply notin_ok|].
  split; [cbn; intuition congruence|].
  split. { intros c I J. vm_compute in I, J. intuition congruence. }
  split; [discriminate|]. right. exists ":"%char, (B "80/x?y").
  split; [reflexivity|]. cbn. auto.
Qed.
