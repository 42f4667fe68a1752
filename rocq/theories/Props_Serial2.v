(** Serialization of all rules, those that do not survive it included: C36, C37,
    C38 and C40 without the restriction to storable rules.

    [as_read f] and [host_as_read f] (SpecW.v) are what the format makes of a
    rule: an empty pattern, domain list or host is read as none, and an untagged
    domain list starting with "~#" is read as a tag. *)
From Verif Require Import Base Flags Protocol Url Sets FilterM ParseM ClientM SerialM Spec SpecM
  SpecC SpecS SpecW P_Base P_Parse P_List P_Props2 P_Line5 P_Match2 P_Ser6 P_Ser7 P_Ex Props_List
  Props_Serial SpecC.

(** ** C36 *)

(** Any list of parsed rules can be written and read back, whatever follows in
    memory; every rule comes back as [as_read] says. *)
Theorem C36_any_rules : forall fs,
  Forall some_rule fs ->
  exists buf, sf_size fs = Ok (length buf) /\
    sf_write (zeros (length buf)) 0 (length buf) fs = Ok (buf, length buf) /\
    forall r, exists gs, df_read (length fs) (buf ++ r) = Ok (gs, r) /\
      Forall2 same_fields (map as_read fs) gs.
Proof. exact list_as_read. Qed.
Print Assumptions C36_any_rules.

(** Exactly the storable rules come back unchanged. *)
Theorem C36_unchanged_iff : forall f, same_fields f (as_read f) <-> storable f.
Proof. exact unchanged_iff. Qed.
Print Assumptions C36_unchanged_iff.

(** The data of any client can be restored, and the arrays hold what [as_read]
    says. *)
Theorem C36_any_client : forall E calls c, history calls -> after E calls = Ok c ->
  forall noCosmetic noHtml buf d r,
  serialize c noCosmetic noHtml = Ok buf ->
  exists c', deserialize (buf ++ r) d = Ok (c', true) /\
    (forall k, Forall2 same_fields (map as_read (tget (written (c_lists c) noCosmetic noHtml) k))
                                   (tget (c_lists c') k)) /\
    c_numHA c' = c_numHA c /\ c_numHAE c' = c_numHAE c /\ c_tags c' = c_tags d.
Proof. exact lists_as_read. Qed.
Print Assumptions C36_any_client.

Example C36_any_example :
  let fs := map (rule_at false) [B "foo$domain="; B "@@$script"; B "x$domain=~#y"; B "||c.com/p"] in
  Forall some_rule fs /\
  map (fun f => (pattern f, f_dom f, f_tag f)) fs =
    [(Some (B "foo"), Some [], []); (Some [], None, []); (Some (B "x"), Some (B "~#y"), []);
     (Some (B "c.com/p"), None, [])] /\
  map (fun f => (pattern f, f_dom f, f_tag f)) (map as_read fs) =
    [(Some (B "foo"), None, []); (None, None, []); (Some (B "x"), Some (B "y"), B "y");
     (Some (B "c.com/p"), None, [])].
Proof.
  cbv zeta. split; [|split; vm_compute; reflexivity].
  constructor; [ruleof (B "foo$domain=")|]. constructor; [ruleof (B "@@$script")|].
  constructor; [ruleof (B "x$domain=~#y")|]. constructor; [ruleof (B "||c.com/p")|constructor].
Qed.

(** ** C37 *)

Theorem C37_any_host_rule : forall f,
  some_rule f -> pattern f <> None ->
  exists buf, fi_size (copyFilter f) = Ok (length buf) /\
    fi_write (zeros (length buf)) 0 (copyFilter f) = Ok (buf, length buf) /\
    forall r size, length buf <= size ->
      exists g, fi_read (buf ++ r) size = Ok (Some (g, length buf)) /\
                same_fields (host_as_read f) g.
Proof. exact item_as_read. Qed.
Print Assumptions C37_any_host_rule.

Theorem C37_unchanged_iff : forall f,
  same_fields f (host_as_read f) <-> f_dom f <> Some [] /\ list_unlike_tag f.
Proof. exact host_unchanged_iff. Qed.
Print Assumptions C37_unchanged_iff.

Example C37_any_example :
  let f := rule_at false (B "||a.com^$domain=") in
  some_rule f /\ pattern f = Some (B "a.com^") /\ f_dom f = Some [] /\
  f_dom (host_as_read f) = None.
Proof.
  cbv zeta. split; [ruleof (B "||a.com^$domain=")|]. split; [|split]; vm_compute; reflexivity.
Qed.

(** ** C38 *)

(** A client restored from any other decides, now and after further calls, like
    that client with its rules replaced as [as_read] and [host_as_read] say. *)
Theorem C38_any_client : forall E calls c, history calls -> after E calls = Ok c ->
  forall noCosmetic noHtml buf d r,
  serialize c noCosmetic noHtml = Ok buf -> (forall t, tagExists d t = tagExists c t) ->
  exists c', deserialize (buf ++ r) d = Ok (c', true) /\
    forall more c1, history more -> continue E (client_as_read c) more = Ok c1 ->
      exists c1', continue E c' more = Ok c1' /\
        (forall url context dom v c2, matches E c1 url context dom = Ok (v, c2) ->
           exists w c2', matches E c1' url context dom = Ok (w, c2') /\ same_verdict v w) /\
        (forall url context dom v, findMatchingFilters E c1 url context dom = Ok v ->
           exists w, findMatchingFilters E c1' url context dom = Ok w /\ same_verdict v w).
Proof. exact decides_as_read. Qed.
Print Assumptions C38_any_client.

Example C38_any_example :
  let calls := [Parse false (B "/foobar$domain=")] in
  let q c := blocks_now E0 c (B "http://a.com/foobar") 0%N (Some (B "b.com")) in
  history calls /\
  map q [after E0 calls; rmap client_as_read (after E0 calls); restored E0 calls] =
  [Ok false; Ok true; Ok true].
Proof. cbv zeta. split; [hist|vm_compute; reflexivity]. Qed.

(** ** C40 *)

(** Saving a restored client gives the bytes it was restored from, unless a rule
    has a domain list that looks like a tag. *)
Theorem C40_steady_partial : forall E calls c, history calls -> after E calls = Ok c ->
  forall noCosmetic noHtml buf d r c' ok,
  all_steady calls -> serialize c noCosmetic noHtml = Ok buf ->
  deserialize (buf ++ r) d = Ok (c', ok) -> ok = true /\ serialize c' false false = Ok buf.
Proof. exact steady_bytes. Qed.
Print Assumptions C40_steady_partial.

(** The condition is exact: the bytes of a single rule change if it fails. *)
Theorem C40_steady_iff : forall f, rule_record (as_read f) = rule_record f <-> steady f.
Proof. exact steady_iff. Qed.
Print Assumptions C40_steady_iff.

Definition odd_calls : list call :=
  [Parse false (B "/foobar$domain=" ++ [LF] ++ B "@@$script" ++ [LF] ++ B "||a.com^$domain=,tag=t")].

Example C40_steady_example :
  history odd_calls /\ all_steady odd_calls /\ ~ all_storable odd_calls /\
  (c <- after E0 odd_calls ;; b <- serialize c true true ;; r <- deserialize b client0 ;;
   b' <- serialize (fst r) false false ;; Ok (beq b b' && (200 <? length b))) = Ok true.
Proof.
  split; [hist|]. split; [|split].
  - intros p l f I P. unfold odd_calls in I. vm_compute in I.
    repeat (destruct I as [I|I]; [injection I as <- <-;
      apply parses_rule_at in P; [|line]; subst f; apply steadyb_ok; vm_compute; reflexivity|]).
    destruct I.
  - intros H. destruct (H false (B "/foobar$domain=") (rule_at false (B "/foobar$domain="))) as (_ & D & _).
    + left. reflexivity.
    + apply rule_at_parses. line.
    + apply D. vm_compute. reflexivity.
  - vm_compute. reflexivity.
Qed.
