(** The size of saved data. *)
From Verif Require Import Base Flags Protocol Url Sets FilterM ParseM ClientM SerialM Spec SpecM
  SpecC SpecS SpecD P_Base P_List P_Line P_Hist P_Ser6 P_Size P_Size2 P_Ex Props_List Props_Client.

(** ** C97 *)

(** What serialize() returns has at most 37 bytes for each byte loaded, and
    200000 more. *)
Theorem C97_saved_size : forall E calls c noCosmetic noHtml buf,
  history calls -> after E calls = Ok c -> serialize c noCosmetic noHtml = Ok buf ->
  (N.of_nat (length buf) <= 37 * N.of_nat (loaded_bytes calls) + 200000)%N.
Proof. exact saved_size. Qed.
Print Assumptions C97_saved_size.

(** So no length computed by serialize() exceeds an [int] for lists of up to 58
    million bytes: the size it returns, the number of rules of each array, the
    counters and the sizes of the Bloom filters and hash sets. *)
Theorem C97_no_overflow : forall E calls c noCosmetic noHtml,
  history calls -> after E calls = Ok c -> (N.of_nat (loaded_bytes calls) <= 58000000)%N ->
  exists buf blobs, serialize c noCosmetic noHtml = Ok buf /\
    serialize_size c noCosmetic noHtml = Ok (length buf) /\ client_blobs c = Ok blobs /\
    (N.of_nat (length buf) < 2 ^ 31)%N /\
    (forall b, In b blobs -> (N.of_nat (length b) < 2 ^ 31)%N) /\
    (forall k, (N.of_nat (length (tget (c_lists c) k)) < 2 ^ 31)%N) /\
    (N.of_nat (c_numHA c) < 2 ^ 31)%N /\ (N.of_nat (c_numHAE c) < 2 ^ 31)%N.
Proof. exact saved_fits. Qed.
Print Assumptions C97_no_overflow.

(** The library prints each header into a local array before it is copied: 512
    bytes for that of the buffer, 256 for that of a rule, 64 for those of the
    items of the hash sets.  None is ever cut off, so taking them to be as long
    as needed, as the model does, changes nothing. *)
Theorem C97_headers_fit : forall E calls c noCosmetic noHtml buf,
  history calls -> after E calls = Ok c -> (N.of_nat (loaded_bytes calls) <= 58000000)%N ->
  serialize c noCosmetic noHtml = Ok buf ->
  exists h r, buf = h ++ NUL :: r /\ nonul h /\ length h < 512.
Proof. exact header_fits. Qed.
Print Assumptions C97_headers_fit.

Theorem C97_rule_headers_fit : forall p l f,
  line_text l -> (N.of_nat (length l) < 2 ^ 31)%N -> parses_to p l f ->
  length (fields [f_type f; f_opt f; f_anti f]) < 256 /\
  (forall d, pattern f = Some d -> length (item_head f d) < 64) /\
  (forall d, length d <= length l -> length (nd_head d) < 64).
Proof. exact heads_fit. Qed.
Print Assumptions C97_rule_headers_fit.

(** A loaded rule takes at most 36 bytes for each byte of its line, whatever its
    options: here is one. *)
Example C97_example :
  let calls := [Parse false (B "||ads.com^$script,domain=a.com|~b.a.com,tag=t" ++ [LF] ++ B "/ads_")] in
  history calls /\ rmap c_numHA (after E0 calls) = Ok 1 /\ loaded_bytes calls = 50 /\
  length (rule_record (rule_at false (B "/ads_"))) = 14 /\
  parses_to false (B "/ads_$xbl,~image") (rule_at false (B "/ads_$xbl,~image")).
Proof.
  cbv zeta. split; [hist|]. split; [vm_compute; reflexivity|]. split; [reflexivity|].
  split; [reflexivity|]. exists true. vm_compute. reflexivity.
Qed.
