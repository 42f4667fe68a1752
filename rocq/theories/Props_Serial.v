(** Serialization: C36-C40.

    Every theorem is about rules that the parser produced ([some_rule]) or about
    the client after any history of calls ([after E calls], SpecC.v).  What a
    rule must not be to survive ([storable], SpecS.v): its pattern empty, its
    domain list empty, or its domain list starting with "~#" while it has no
    tag.  The [_refuted] theorems show that those rules do not survive. *)
From Verif Require Import Base Flags Protocol Url Sets FilterM ParseM ClientM SerialM Spec SpecM
  SpecC SpecS P_Base P_Parse P_List P_Props2 P_Line5 P_Match2 P_Ser6 P_Ex Props_List SpecC.

Ltac line := apply line_text_dec; vm_compute; reflexivity.
Ltac plain_bytes := now apply nonulb_ok.
Ltac hist := repeat (constructor; [first [plain_bytes|exact I]|]); constructor.
Ltac ruleof l := exists false, l; split; [line|apply rule_at_parses; line].

(** ** C36 *)

(** Writing a list of rules into a buffer of the size computed beforehand fills
    it exactly, and reading as many rules back, whatever follows in memory,
    yields the same rules and stops where they end. *)
Theorem C36_list_roundtrip_partial : forall fs,
  Forall some_rule fs ->
  exists buf, sf_size fs = Ok (length buf) /\
    sf_write (zeros (length buf)) 0 (length buf) fs = Ok (buf, length buf) /\
    forall r, Forall storable fs ->
      exists gs, df_read (length fs) (buf ++ r) = Ok (gs, r) /\ Forall2 same_fields fs gs.
Proof. exact list_roundtrip. Qed.
Print Assumptions C36_list_roundtrip_partial.

(** All arrays, the counts of host rules and nothing else are what a restored
    client gets from the buffer; its tags stay as they were. *)
Theorem C36_client_lists_partial : forall E calls c, history calls -> after E calls = Ok c ->
  forall noCosmetic noHtml buf d r,
  all_storable calls -> serialize c noCosmetic noHtml = Ok buf ->
  exists c', deserialize (buf ++ r) d = Ok (c', true) /\
    (forall k, Forall2 same_fields (tget (written (c_lists c) noCosmetic noHtml) k) (tget (c_lists c') k)) /\
    c_numHA c' = c_numHA c /\ c_numHAE c' = c_numHAE c /\ c_tags c' = c_tags d.
Proof. exact lists_restored. Qed.
Print Assumptions C36_client_lists_partial.

(** An empty domain list is read back as none. *)
Theorem C36_refuted : ~ (forall fs n buf m gs r,
  Forall some_rule fs -> sf_size fs = Ok n -> sf_write (zeros n) 0 n fs = Ok (buf, m) ->
  df_read (length fs) buf = Ok (gs, r) -> Forall2 same_fields fs gs).
Proof.
  intros H. set (f := rule_at false (B "foo$domain=")).
  assert (Forall2 same_fields [f] [mkF 0 0 0 (Some (B "foo", zeros 3)) None [] None None]) as K.
  { refine (H [f] _ _ _ _ [] _ _ _ _).
    - constructor; [ruleof (B "foo$domain=")|constructor].
    - vm_compute. reflexivity.
    - vm_compute. reflexivity.
    - vm_compute. reflexivity. }
  inversion K as [|? ? ? ? (_ & _ & _ & _ & D & _) _]; subst. vm_compute in D. discriminate D.
Qed.
Print Assumptions C36_refuted.

Definition ser_rules : list filter :=
  map (rule_at false) [B "/ads/*banner^$script,domain=a.com|~b.a.com"; B "@@|http://x.org$tag=t"; B "||c.com/p"].

Example C36_example :
  Forall some_rule ser_rules /\ Forall storable ser_rules /\
  (exists b, sf_write (zeros 100) 0 100 ser_rules = Ok (b, 83)).
Proof.
  split; [|split].
  - constructor; [ruleof (B "/ads/*banner^$script,domain=a.com|~b.a.com")|].
    constructor; [ruleof (B "@@|http://x.org$tag=t")|].
    constructor; [ruleof (B "||c.com/p")|constructor].
  - repeat (constructor; [apply storableb_ok; vm_compute; reflexivity|]). constructor.
  - eexists. vm_compute. reflexivity.
Qed.

(** ** C37 *)

(** The same for a host rule as it is kept in the hash set (a copy without the
    terminating NUL of the pattern). *)
Theorem C37_host_rule_roundtrip_partial : forall f,
  some_rule f -> pattern f <> None ->
  exists buf, fi_size (copyFilter f) = Ok (length buf) /\
    fi_write (zeros (length buf)) 0 (copyFilter f) = Ok (buf, length buf) /\
    (storable f -> forall r size, length buf <= size ->
      exists g, fi_read (buf ++ r) size = Ok (Some (g, length buf)) /\ same_fields f g).
Proof. exact item_roundtrip. Qed.
Print Assumptions C37_host_rule_roundtrip_partial.

Theorem C37_refuted : ~ (forall f n buf m g k,
  some_rule f -> host_rule false f -> fi_size (copyFilter f) = Ok n ->
  fi_write (zeros n) 0 (copyFilter f) = Ok (buf, m) ->
  fi_read buf (length buf) = Ok (Some (g, k)) -> same_fields f g).
Proof.
  intros H. set (f := rule_at false (B "||a.com^$domain=")).
  set (g := mkF (f_type f) 0 0 (Some (B "a.com^", cstr (B "a.com") ++ [NUL])) None [] (Some (B "a.com")) None).
  assert (same_fields f g) as K.
  { refine (H f _ _ _ g _ _ _ _ _ _).
    - ruleof (B "||a.com^$domain=").
    - vm_compute. repeat split; discriminate.
    - vm_compute. reflexivity.
    - vm_compute. reflexivity.
    - vm_compute. reflexivity. }
  destruct K as (_ & _ & _ & _ & D & _). vm_compute in D. discriminate D.
Qed.
Print Assumptions C37_refuted.

Example C37_example :
  let f := rule_at false (B "||ads.com^$script,domain=a.com,tag=t") in
  some_rule f /\ host_rule false f /\ storable f /\
  exists b, fi_write (zeros 50) 0 (copyFilter f) = Ok (b, 36).
Proof.
  cbv zeta. split; [ruleof (B "||ads.com^$script,domain=a.com,tag=t")|].
  split; [vm_compute; repeat split; discriminate|].
  split; [apply storableb_ok; vm_compute; reflexivity|].
  eexists. vm_compute. reflexivity.
Qed.

(** ** C38 *)

(** A client restored from the buffer of another, with the same tags, gives the
    same verdicts for the same queries, now and after any further calls made on
    both.  (Whether those later calls free memory correctly is C42.) *)
Theorem C38_restored_decides_partial : forall E calls c, history calls -> after E calls = Ok c ->
  forall noCosmetic noHtml buf d r,
  all_storable calls -> serialize c noCosmetic noHtml = Ok buf ->
  (forall t, tagExists d t = tagExists c t) ->
  exists c', deserialize (buf ++ r) d = Ok (c', true) /\
    forall more c1, history more -> continue E c more = Ok c1 ->
      exists c1', continue E c' more = Ok c1' /\
        (forall url context dom v c2, matches E c1 url context dom = Ok (v, c2) ->
           exists w c2', matches E c1' url context dom = Ok (w, c2') /\ same_verdict v w) /\
        (forall url context dom v, findMatchingFilters E c1 url context dom = Ok v ->
           exists w, findMatchingFilters E c1' url context dom = Ok w /\ same_verdict v w).
Proof. exact restored_decides. Qed.
Print Assumptions C38_restored_decides_partial.

(** "/foobar$domain=" matches on no page; restored, it matches on all. *)
Theorem C38_refuted : ~ (forall E calls c buf d c' ok url context dom v c2 w c2',
  history calls -> after E calls = Ok c -> serialize c false false = Ok buf ->
  (forall t, tagExists d t = tagExists c t) -> deserialize buf d = Ok (c', ok) ->
  matches E c (cstr url) context dom = Ok (v, c2) ->
  matches E c' (cstr url) context dom = Ok (w, c2') -> v_block v = v_block w).
Proof.
  intros H.
  destruct (restored_differs E0 [Parse false (B "/foobar$domain=")] (B "http://a.com/foobar") 0%N
    (Some (B "b.com")) false true) as (c & buf & c' & v & c2 & w & c2' & A & S1 & T & D & M & M' & N).
  - vm_compute. reflexivity.
  - vm_compute. reflexivity.
  - discriminate.
  - vm_compute. reflexivity.
  - apply N. refine (H E0 _ c buf client0 c' true _ _ _ v c2 w c2' _ A S1 T D M M'). hist.
Qed.
Print Assumptions C38_refuted.

Definition ser_text : bytes :=
  B "/ads/banner^$script,domain=a.com|~b.a.com" ++ [LF] ++ B "@@|http://x.org$tag=t" ++ [LF] ++
  B "||ads.com^$third-party" ++ [LF] ++ B "-ad-$domain=~c.com" ++ [LF] ++ B "a.com##.ad".
Definition ser_calls : list call := [Parse false ser_text; AddTag (B "t")].

Lemma ser_calls_storable : all_storable ser_calls.
Proof.
  intros p l f I P. unfold ser_calls in I. vm_compute in I.
  repeat (destruct I as [I|I]; [injection I as <- <-;
    apply parses_rule_at in P; [|line]; subst f; apply storableb_ok; vm_compute; reflexivity|]).
  destruct I.
Qed.

Example C38_example :
  history ser_calls /\ all_storable ser_calls /\
  map (fun c => blocks_now E0 c (B "http://x.ads.com/a") FOScript (Some (B "a.com")))
    [after E0 ser_calls; restored E0 ser_calls] = [Ok true; Ok true] /\
  map (fun c => blocks_now E0 c (B "http://x.org/a") FOScript (Some (B "a.com")))
    [after E0 ser_calls; restored E0 ser_calls] = [Ok false; Ok false].
Proof.
  split; [hist|]. split; [exact ser_calls_storable|]. split; vm_compute; reflexivity.
Qed.

(** ** C39 *)

(** serialize() is defined for every client and both flags, the announced size
    is the size of the buffer, and every byte of the buffer is accounted for. *)
Theorem C39_size_exact : forall E calls c, history calls -> after E calls = Ok c ->
  forall noCosmetic noHtml,
  exists blobs buf, client_blobs c = Ok blobs /\ length blobs = 8 /\
    serialize c noCosmetic noHtml = Ok buf /\ serialize_size c noCosmetic noHtml = Ok (length buf) /\
    buf = layout (written (c_lists c) noCosmetic noHtml) [N.of_nat (c_numHA c); N.of_nat (c_numHAE c)] blobs.
Proof. exact serialize_size_exact. Qed.
Print Assumptions C39_size_exact.

Example C39_example :
  history (Parse true (B "@@$script") :: ser_calls) /\
  (c <- after E0 (Parse true (B "@@$script") :: ser_calls) ;;
   b <- serialize c true false ;; n <- serialize_size c true false ;;
   Ok ((n =? length b) && (200 <? n))) = Ok true.
Proof. split; [hist|vm_compute; reflexivity]. Qed.

(** ** C40 *)

(** The restored client serializes to the same bytes, whichever arrays were
    left out the first time. *)
Theorem C40_stable_partial : forall E calls c, history calls -> after E calls = Ok c ->
  forall noCosmetic noHtml buf d r c' ok,
  all_storable calls -> serialize c noCosmetic noHtml = Ok buf ->
  deserialize (buf ++ r) d = Ok (c', ok) -> ok = true /\ serialize c' false false = Ok buf.
Proof. exact stable. Qed.
Print Assumptions C40_stable_partial.

(** A domain list that looks like a tag is read back as a tag. *)
Theorem C40_refuted : ~ (forall E calls c buf d c' ok,
  history calls -> after E calls = Ok c -> serialize c false false = Ok buf ->
  deserialize buf d = Ok (c', ok) -> serialize c' false false = Ok buf).
Proof.
  intros H.
  destruct (twice_parts E0 [Parse false (B "x$domain=~#y")] 197302 197304)
    as (c & b & c' & A & S1 & D & N).
  - vm_compute. reflexivity.
  - discriminate.
  - apply N. refine (H E0 _ c b client0 c' true _ A S1 D). hist.
Qed.
Print Assumptions C40_refuted.

Example C40_example :
  history ser_calls /\ all_storable ser_calls /\
  (c <- after E0 ser_calls ;; b <- serialize c true true ;; r <- deserialize b client0 ;;
   b' <- serialize (fst r) false false ;; Ok (beq b b' && (200 <? length b))) = Ok true.
Proof. split; [hist|]. split; [exact ser_calls_storable|vm_compute; reflexivity]. Qed.
