(** C78: the restriction on '^' cannot be dropped for a single rule. *)
From Verif Require Import Base Flags Protocol Url Sets FilterM ParseM ClientM Spec SpecM SpecC SpecR SpecQ
  P_Base P_Match2 P_Ex P_Caret Props_List.

(** Whatever rule has a '^' in the middle of one of its pieces, alone in a list,
    with no bars and no options: some web request makes findMatchingFilters() read
    behind the URL.  (The pieces before are not empty and no lone '^', the first
    piece does not fit the beginning of every URL, and some character does not
    occur in the rule.) *)
Theorem C78_caret_faults : forall E pres r qs a b more z c context dom,
  good_rule r -> x_exception r = false -> x_anchor r = NoAnchor -> x_right r = false ->
  unrestricted r context ->
  pieces_of (x_body r) (qs ++ (a ++ B "^" ++ b) :: more) -> a <> [] -> b <> [] ->
  (forall q, In q qs -> q <> [] /\ q <> B "^") ->
  z <> NUL -> ~ In z separators -> ~ In z (x_body r) ->
  (forall q i, hd_error (qs ++ [a ++ B "^" ++ b]) = Some q -> i + length q <= 7 ->
     ~ piece_at q (B "http://") i) ->
  after E [Parse pres (rule_line r)] = Ok c ->
  exists url, nonul url /\ web_url url /\ findMatchingFilters E c (cstr url) context dom = UB.
Proof. exact piece_caret_faults. Qed.
Print Assumptions C78_caret_faults.

(** The same for '||host^text'. *)
Theorem C78_host_caret_faults : forall E pres r h b z c context dom,
  good_rule r -> x_exception r = false -> x_anchor r = HostBars -> x_right r = false ->
  unrestricted r context ->
  x_body r = h ++ B "^" ++ b -> h <> [] -> hd_error h <> Some "."%char ->
  (forall x, In x h -> ~ In x separators) -> b <> [] -> ~ In "*"%char (x_body r) ->
  z <> NUL -> ~ In z separators -> ~ In z (x_body r) ->
  (forall i, i + length (x_body r) <= 7 -> ~ piece_at (x_body r) (B "http://") i) ->
  after E [Parse pres (rule_line r)] = Ok c ->
  exists url, nonul url /\ web_url url /\ findMatchingFilters E c (cstr url) context dom = UB.
Proof. exact host_caret_faults. Qed.
Print Assumptions C78_host_caret_faults.

Definition caret_rule : rule_syntax := mkRule false NoAnchor (B "pictures*banner^ads*x") false None.
Definition host_caret_rule : rule_syntax := mkRule false HostBars (B "ads.com^banner") false None.

Example C78_caret_example :
  good_rule caret_rule /\ unrestricted caret_rule 0 /\ rule_line caret_rule = B "pictures*banner^ads*x" /\
  pieces_of (x_body caret_rule) ([B "pictures"] ++ (B "banner" ++ B "^" ++ B "ads") :: [B "x"]) /\
  ~ In "z"%char separators /\ ~ In "z"%char (x_body caret_rule) /\
  (forall q i, hd_error [B "pictures"; B "banner^ads"] = Some q -> i + length q <= 7 ->
     ~ piece_at q (B "http://") i) /\
  exists c, after E0 [Parse false (B "pictures*banner^ads*x")] = Ok c.
Proof.
  split; [now apply good_ruleb_ok|]. split; [now split|]. split; [reflexivity|].
  split.
  { split; [discriminate|]. split; [reflexivity|]. cbn.
    intros p [<-|[<-|[<-|[]]]]; cbn; intuition discriminate. }
  split; [cbn; intuition discriminate|]. split; [cbn; intuition discriminate|].
  split; [intros q i [= <-] L; cbn in L; lia|].
  assert (rmap (fun _ => true) (after E0 [Parse false (B "pictures*banner^ads*x")]) = Ok true) as A
    by (vm_compute; reflexivity).
  destruct (after E0 _) as [c|]; [eauto|discriminate].
Qed.

Example C78_host_caret_example :
  good_rule host_caret_rule /\ unrestricted host_caret_rule 0 /\
  rule_line host_caret_rule = B "||ads.com^banner" /\
  ~ In "*"%char (x_body host_caret_rule) /\ ~ In "z"%char (x_body host_caret_rule) /\
  (forall x, In x (B "ads.com") -> ~ In x separators) /\
  (forall i, i + length (x_body host_caret_rule) <= 7 -> ~ piece_at (x_body host_caret_rule) (B "http://") i) /\
  exists c, after E0 [Parse false (B "||ads.com^banner")] = Ok c.
Proof.
  split; [now apply good_ruleb_ok|]. split; [now split|]. split; [reflexivity|].
  split; [cbn; intuition discriminate|]. split; [cbn; intuition discriminate|].
  split; [intros x I; cbn in I; cbn; intuition (subst; discriminate)|]. split; [cbn; lia|].
  assert (rmap (fun _ => true) (after E0 [Parse false (B "||ads.com^banner")]) = Ok true) as A
    by (vm_compute; reflexivity).
  destruct (after E0 _) as [c|]; [eauto|discriminate].
Qed.
