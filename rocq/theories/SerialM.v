(** Model of serialization: /repo/ad_block_client.cc:1488-1891,
    /repo/filter.cc:702-819, /repo/no_fingerprint_domain.cc:61-93, and the
    framing used by the external HashSet and BloomFilter classes. *)
From Verif Require Import Base Flags Protocol Url Sets FilterM ParseM ClientM.

(** ** printf/scanf "%x" *)

Definition hexdigit (d : N) : ascii :=
  ascii_of_N (if (d <? 10)%N then 48 + d else 87 + d).

Fixpoint hex_aux (fuel : nat) (n : N) (acc : bytes) : bytes :=
  match fuel with
  | 0 => acc
  | S fuel' =>
      let acc' := hexdigit (n mod 16) :: acc in
      if (n / 16 =? 0)%N then acc' else hex_aux fuel' (n / 16) acc'
  end.

(** [snprintf("%x", n)]; [int] overflow is not modelled. *)
Definition hex (n : N) : bytes := hex_aux (S (N.size_nat n)) n [].
Definition hexn (n : nat) : bytes := hex (N.of_nat n).

Definition unhexdigit (c : ascii) : option N :=
  let n := N_of_ascii c in
  if ((48 <=? n) && (n <=? 57))%N then Some (n - 48)%N
  else if ((97 <=? n) && (n <=? 102))%N then Some (n - 87)%N
  else if ((65 <=? n) && (n <=? 70))%N then Some (n - 55)%N
  else None.

Fixpoint scan_digits (p : bytes) (acc : N) : N * bytes :=
  match p with
  | [] => (acc, [])
  | c :: p' => match unhexdigit c with
               | Some d => scan_digits p' (16 * acc + d)
               | None => (acc, p)
               end
  end.

(** [isspace] in the "C" locale. *)
Definition is_space (c : ascii) : bool :=
  ceq c " " || ((9 <=? N_of_ascii c) && (N_of_ascii c <=? 13))%N.

Fixpoint skip_space (p : bytes) : bytes :=
  match p with
  | c :: p' => if is_space c then skip_space p' else p
  | [] => []
  end.

(** The digits of a "%x", with or without "0x" ("0x" alone reads as 0). *)
Definition scan_unsigned (p : bytes) : option (N * bytes) :=
  match p with
  | [] => None
  | c :: p' =>
      match unhexdigit c with
      | None => None
      | Some _ =>
          match p' with
          | x :: p'' => if ceq c "0" && (ceq x "x" || ceq x "X")
                        then Some (scan_digits p'' 0) else Some (scan_digits p 0)
          | [] => Some (scan_digits p 0)
          end
      end
  end.

(** One "%x" of [sscanf]: blanks, a sign, digits.  A negated number wraps around
    at 32 bits.  (Numbers of more than 32 bits, for which [sscanf] promises
    nothing, keep their value here.) *)
Definition scan_hex (p : bytes) : option (N * bytes) :=
  match skip_space p with
  | [] => None
  | c :: p' =>
      if ceq c "-" then
        match scan_unsigned p' with
        | Some (n, r) => Some ((2 ^ 32 - n mod 2 ^ 32) mod 2 ^ 32, r)%N
        | None => None
        end
      else if ceq c "+" then scan_unsigned p'
      else scan_unsigned (c :: p')
  end.

(** [sscanf(p, "%x,%x,...")] with [k] conversions: the values read, fewer than
    [k] when the text does not go on with a comma and a number. *)
Fixpoint scan_fields (k : nat) (p : bytes) : list N :=
  match k with
  | 0 => []
  | S k' =>
      match scan_hex p with
      | None => []
      | Some (n, rest) =>
          n :: match rest with
               | c :: rest' => if ceq c "," then scan_fields k' rest' else []
               | [] => []
               end
      end
  end.

Fixpoint join (c : ascii) (l : list bytes) : bytes :=
  match l with
  | [] => []
  | [x] => x
  | x :: l' => x ++ c :: join c l'
  end.

Definition fields (l : list N) : bytes := join "," (map hex l).

(** ** Writing into a buffer *)

Definition wr (buf : bytes) (off : nat) (s : bytes) : res bytes :=
  if off + length s <=? length buf
  then Ok (firstn off buf ++ s ++ skipn (off + length s) buf)
  else UB.

(** [snprintf(buf + off, avail, "%s", s)] *)
Definition snprintf_s (buf : bytes) (off avail : nat) (s : bytes) : res bytes :=
  match avail with
  | 0 => Ok buf
  | S a => wr buf off (firstn a s ++ [NUL])
  end.

(** The C string at a pointer. *)
Definition cstring (p : bytes) : res bytes :=
  n <- strlen p ;; Ok (firstn n p).

Definition zeros (n : nat) : bytes := repeat NUL n.

(** ** Rule arrays *)

Definition filter_head (f : filter) : bytes :=
  fields [f_type f; f_opt f; f_anti f].

Definition data_text (f : filter) : res (option bytes) :=
  match f_data f with
  | None => Ok None
  | Some (d, t) => rmap Some (cstring (d ++ t))
  end.

Definition olen (o : option bytes) : nat :=
  match o with Some s => length s | None => 0 end.

(** ad_block_client.cc:1490-1542 [serializeFilters] with a null buffer: the
    number of bytes needed by one rule. *)
Definition sf_size1 (f : filter) : res nat :=
  d <- data_text f ;;
  Ok (length (filter_head f) + 1 + olen d + 1
      + (match f_tag f with [] => 0 | t => length t + 3 end)
      + olen (f_dom f) + 1 + olen (f_host f) + 1).

Fixpoint sf_size (fs : list filter) : res nat :=
  match fs with
  | [] => Ok 0
  | f :: fs' => a <- sf_size1 f ;; b <- sf_size fs' ;; Ok (a + b)
  end.

Definition sn_opt (buf : bytes) (off avail : nat) (s : option bytes)
  : res bytes :=
  match s with Some s => snprintf_s buf off avail s | None => Ok buf end.

(** The same with a buffer: writes one rule at [off], returns the new offset.
    Bytes skipped over keep their value. *)
Definition sf_write1 (buf : bytes) (off avail : nat) (f : filter)
  : res (bytes * nat) :=
  buf <- snprintf_s buf off avail (filter_head f) ;;
  let off := off + length (filter_head f) + 1 in
  d <- data_text f ;;
  buf <- sn_opt buf off avail d ;;
  let off := off + olen d + 1 in
  bo <- (match f_tag f with
         | [] => Ok (buf, off)
         | t => b <- wr buf off (B "~#" ++ t ++ B ",") ;;
                Ok (b, off + (length t + 3))
         end) ;;
  let '(buf, off) := bo in
  buf <- sn_opt buf off avail (f_dom f) ;;
  let off := off + olen (f_dom f) + 1 in
  buf <- sn_opt buf off avail (f_host f) ;;
  Ok (buf, off + olen (f_host f) + 1).

Fixpoint sf_write (buf : bytes) (off avail : nat) (fs : list filter)
  : res (bytes * nat) :=
  match fs with
  | [] => Ok (buf, off)
  | f :: fs' =>
      r <- sf_write1 buf off avail f ;;
      let '(buf, off) := r in sf_write buf off avail fs'
  end.

(** A pointer into the buffer that is null when the string is empty. *)
Definition take_str (p : bytes) : res (option bytes * bytes) :=
  s <- cstring p ;;
  Ok (match s with [] => None | _ => Some s end, skipn (length s + 1) p).

(** The same for the pattern, remembering what follows it in memory. *)
Definition take_data (p : bytes) : res (option (bytes * bytes) * bytes) :=
  s <- cstring p ;;
  Ok (match s with [] => None | _ => Some (s, skipn (length s) p) end,
      skipn (length s + 1) p).

(** ad_block_client.cc:1747-1760: a tag block "~#tag,"; without a comma the
    position is not advanced past the tag. *)
Definition take_tag (p : bytes) : res (bytes * bytes) :=
  c0 <- rd p 0 ;;
  if ceq c0 "~" then
    c1 <- rd p 1 ;;
    if ceq c1 "#" then
      s <- cstring (skipn 2 p) ;;
      match split_on "," s with
      | t :: _ :: _ => Ok (t, skipn (2 + length t + 1) p)
      | _ => Ok (s, skipn 2 p)
      end
    else Ok ([], p)
  else Ok ([], p).

Definition nthN (l : list N) (i : nat) (d : N) : N := nth i l d.

(** ad_block_client.cc:1729-1780 [deserializeFilters], one rule.  Returns the
    rule and the next position. *)
Definition df_read1 (p : bytes) : res (filter * bytes) :=
  h <- cstring p ;;
  let v := scan_fields 3 p in
  let p := skipn (length h + 1) p in
  dp <- take_data p ;;
  let '(d, p) := dp in
  tp <- take_tag p ;;
  let '(t, p) := tp in
  mp <- take_str p ;;
  let '(m, p) := mp in
  hp <- take_str p ;;
  let '(h, p) := hp in
  Ok (mkF (nthN v 0 0) (nthN v 1 0) (nthN v 2 0) d m t h None, p).

Fixpoint df_read (n : nat) (p : bytes) : res (list filter * bytes) :=
  match n with
  | 0 => Ok ([], p)
  | S n' =>
      r <- df_read1 p ;;
      let '(f, p1) := r in
      r <- df_read n' p1 ;;
      let '(fs, p2) := r in Ok (f :: fs, p2)
  end.

(** ** Hash set items *)

Definition item_head (f : filter) (d : bytes) : bytes :=
  fields [N.of_nat (length d); f_type f; f_opt f; f_anti f].

(** filter.cc:702-748 [Filter::Serialize(nullptr)] *)
Definition fi_size (f : filter) : res nat :=
  match f_data f with
  | None => UB
  | Some (d, _) =>
      Ok (length (item_head f d) + 1 + length d + olen (f_host f) + 1
          + (match f_tag f with [] => 0 | t => length t + 3 end)
          + olen (f_dom f) + 1)
  end.

(** filter.cc:702-748 [Filter::Serialize(buffer)] at offset [off] *)
Definition fi_write (buf : bytes) (off : nat) (f : filter)
  : res (bytes * nat) :=
  match f_data f with
  | None => UB
  | Some (d, _) =>
      buf <- wr buf off (cstr (item_head f d)) ;;
      let off := off + length (item_head f d) + 1 in
      buf <- wr buf off d ;;
      let off := off + length d in
      buf <- (match f_host f with
              | Some h => wr buf off (cstr h) | None => Ok buf end) ;;
      let off := off + olen (f_host f) + 1 in
      bo <- (match f_tag f with
             | [] => Ok (buf, off)
             | t => b <- wr buf off (B "~#" ++ t ++ B ",") ;;
                    Ok (b, off + (length t + 3))
             end) ;;
      let '(buf, off) := bo in
      buf <- (match f_dom f with
              | Some m => wr buf off (cstr m) | None => Ok buf end) ;;
      Ok (buf, off + olen (f_dom f) + 1)
  end.

(** no_fingerprint_domain.cc:61-78 [NoFingerprintDomain::Serialize] *)
Definition nd_head (d : bytes) : bytes := hexn (length d) ++ B "x".

Definition nd_size (d : bytes) : res nat :=
  Ok (length (nd_head d) + 1 + length d + 1).

Definition nd_write (buf : bytes) (off : nat) (d : bytes)
  : res (bytes * nat) :=
  buf <- wr buf off (cstr (nd_head d)) ;;
  let off := off + length (nd_head d) + 1 in
  buf <- wr buf off d ;;
  Ok (buf, off + length d + 1).

(** filter.cc:750-758 [hasNewlineBefore] *)
Fixpoint nulBefore (p : bytes) (n : nat) : res bool :=
  match n with
  | 0 => Ok false
  | S n' => match p with
            | [] => UB
            | c :: p' => if ceq c NUL then Ok true else nulBefore p' n'
            end
  end.

(** filter.cc:768, no_fingerprint_domain.cc:84: [consumed + dataLen] is a sum of
    32 bits.  If it wraps around, the comparison with the size goes the other way
    and the program goes on with a length that leaves the buffer; the model calls
    that undefined at once, the program when it uses the text. *)
Definition wraps (consumed : nat) (n : N) : bool := (4294967296 <=? N.of_nat consumed + n)%N.

(** filter.cc:760-819 [Filter::Deserialize(buffer, bufferSize)] on a default
    constructed filter: [None] is the return value 0, otherwise the filter and
    the number of bytes consumed. *)
Definition fi_read (p : bytes) (size : nat) : res (option (filter * nat)) :=
  b <- nulBefore p size ;;
  if negb b then Ok None
  else
    h <- cstring p ;;
    let v := scan_fields 4 p in
    let dl := N.to_nat (nthN v 0 0) in
    let consumed := length h + 1 in
    if size <=? consumed + dl then if wraps consumed (nthN v 0 0) then UB else Ok None
    else
      let p1 := skipn consumed p in
      if length p1 <? dl then UB
      else
        let d := firstn dl p1 in
        let p2 := skipn dl p1 in
        hp <- take_str p2 ;;
        let '(ho, p3) := hp in
        tp <- take_tag p3 ;;
        let '(t, p4) := tp in
        mp <- take_str p4 ;;
        let '(m, p5) := mp in
        Ok (Some (mkF (nthN v 1 0) (nthN v 2 0) (nthN v 3 0) (Some (d, p2))
                      m t ho None,
                  length p - length p5)).

(** no_fingerprint_domain.cc:80-93 [NoFingerprintDomain::Deserialize] *)
Definition nd_read (p : bytes) (size : nat) : res (option (bytes * nat)) :=
  h <- cstring p ;;
  let n := match scan_hex p with Some (n, _) => n | None => 0%N end in
  let dl := N.to_nat n in
  let consumed := length h + 1 in
  if size <=? consumed + dl then if wraps consumed n then UB else Ok None
  else
    let p1 := skipn consumed p in
    if length p1 <? dl then UB
    else Ok (Some (firstn dl p1, consumed + dl + 1)).

(** ** HashSet framing (external hashset-cpp: [Serialize], [Deserialize]):
    the number of buckets in hex and NUL, then for each bucket its items and a
    NUL.  The buffer is zero-filled before the items are written. *)
Section Frame.
  Context {A : Type} (isize : A -> res nat)
          (iwrite : bytes -> nat -> A -> res (bytes * nat))
          (iread : bytes -> nat -> res (option (A * nat))).

  Fixpoint items_size (l : list A) : res nat :=
    match l with
    | [] => Ok 0
    | x :: l' => a <- isize x ;; b <- items_size l' ;; Ok (a + b)
    end.

  Fixpoint buckets_size (s : hset A) : res nat :=
    match s with
    | [] => Ok 0
    | b :: s' => a <- items_size b ;; r <- buckets_size s' ;; Ok (a + 1 + r)
    end.

  Fixpoint items_write (buf : bytes) (off : nat) (l : list A)
    : res (bytes * nat) :=
    match l with
    | [] => Ok (buf, off)
    | x :: l' =>
        r <- iwrite buf off x ;;
        let '(buf, off) := r in items_write buf off l'
    end.

  Fixpoint buckets_write (buf : bytes) (off : nat) (s : hset A)
    : res (bytes * nat) :=
    match s with
    | [] => Ok (buf, off)
    | b :: s' =>
        r <- items_write buf off b ;;
        let '(buf, off) := r in buckets_write buf (S off) s'
    end.

  Definition hs_serialize (s : hset A) : res bytes :=
    let head := cstr (hexn (length s)) in
    n <- buckets_size s ;;
    buf <- wr (zeros (length head + n)) 0 head ;;
    r <- buckets_write buf (length head) s ;;
    Ok (fst r).

  (** Items of one bucket; [fuel] bounds the number of items by the buffer
      size ([size - pos] decreases).  [None]: failure.  The Boolean is the
      success flag, the list the items read so far. *)
  Fixpoint items_read (fuel : nat) (p : bytes) (pos size : nat)
    : res (list A * option (bytes * nat)) :=
    c <- deref p ;;
    if ceq c NUL then Ok ([], Some (p, pos))
    else match fuel with
    | 0 => Ok ([], None)
    | S fuel' =>
        if size <=? pos then Ok ([], None)
        else
          r <- iread p (size - pos) ;;
          match r with
          | None => Ok ([], None)
          | Some (x, n) =>
              if (size <=? pos + n) || (n =? 0) then Ok ([], None)
              else
                r <- items_read fuel' (skipn n p) (pos + n) size ;;
                let '(l, k) := r in Ok (x :: l, k)
          end
    end.

  (** Failure leaves the remaining buckets empty. *)
  Fixpoint buckets_read (nb : nat) (p : bytes) (pos size : nat)
    : res (hset A * bool) :=
    match nb with
    | 0 => Ok ([], true)
    | S nb' =>
        r <- items_read size p pos size ;;
        let '(l, k) := r in
        match k with
        | None => Ok (l :: repeat [] nb', false)
        | Some (p', pos') =>
            r <- buckets_read nb' (skipn 1 p') (S pos') size ;;
            let '(s, ok) := r in Ok (l :: s, ok)
        end
    end.

  Definition hs_deserialize (p : bytes) (size : nat) : res (hset A * bool) :=
    b <- nulBefore p size ;;
    if negb b then Ok ([], false)
    else
      h <- cstring p ;;
      let nb := match scan_hex p with Some (n, _) => N.to_nat n | None => 0 end
      in
      let pos := length h + 1 in
      if size <=? pos then Ok (repeat [] nb, false)
      else buckets_read nb (skipn pos p) pos size.
End Frame.

Definition hostset_bytes := hs_serialize fi_size fi_write.
Definition domset_bytes := hs_serialize nd_size nd_write.

(** ** Bloom filter bytes (external: [getBuffer], [BloomFilter(buffer, len)]) *)
Fixpoint le_bytes (n : nat) (x : N) : bytes :=
  match n with
  | 0 => []
  | S n' => ascii_of_N (N.land x 255) :: le_bytes n' (N.shiftr x 8)
  end.

Fixpoint le_num (s : bytes) : N :=
  match s with
  | [] => 0
  | c :: s' => N.lor (N_of_ascii c) (N.shiftl (le_num s') 8)
  end.

Definition bloom_bytes (b : bloom) : bytes :=
  le_bytes (N.to_nat (bl_size b)) (bl_bits b).

Definition bloom_of (s : bytes) : bloom :=
  mkBloom (le_num s) (N.of_nat (length s)).

(** ** Client *)

Definition obytes {A} (ser : A -> res bytes) (o : option A) : res bytes :=
  match o with Some x => ser x | None => Ok [] end.

(** Order of the arrays in the buffer (lines 1654-1676, 1825-1847). *)
Definition ser_order : list kind :=
  [KFilters; KException; KCosmetic; KHtml; KNoFp; KNoFpExc; KNoFpDom; KNoFpAnti;
   KNoFpDomExc; KNoFpAntiExc].

(** Lines 1549-1551: arrays written, without the ignored ones. *)
Definition ser_lists (c : client) (noCosm noHtml : bool) : tab (list filter) :=
  let t := c_lists c in
  let t := if noCosm then tset t KCosmetic [] else t in
  if noHtml then tset t KHtml [] else t.

Fixpoint sizes_sum (t : tab (list filter)) (ks : list kind) : res nat :=
  match ks with
  | [] => Ok 0
  | k :: ks' => a <- sf_size (tget t k) ;; b <- sizes_sum t ks' ;; Ok (a + b)
  end.

Fixpoint lists_write (buf : bytes) (total off : nat) (t : tab (list filter))
    (ks : list kind) : res (bytes * nat) :=
  match ks with
  | [] => Ok (buf, off)
  | k :: ks' =>
      r <- sf_write buf off (total - off) (tget t k) ;;
      let '(buf, off) := r in lists_write buf total off t ks'
  end.

Fixpoint blobs_write (buf : bytes) (off : nat) (bs : list bytes)
  : res (bytes * nat) :=
  match bs with
  | [] => Ok (buf, off)
  | b :: bs' => buf <- wr buf off b ;; blobs_write buf (off + length b) bs'
  end.

(** The 20 numbers of the header (lines 1601-1616). *)
Definition header_of (c : client) (t : tab (list filter)) (blobs : list bytes)
  : bytes :=
  fields (map (fun k => N.of_nat (length (tget t k))) ser_order
          ++ [N.of_nat (c_numHA c); N.of_nat (c_numHAE c)]
          ++ map (fun b => N.of_nat (length b)) blobs).

(** The Bloom filters and hash sets as byte strings (empty when absent). *)
Definition client_blobs (c : client) : res (list bytes) :=
  h1 <- obytes hostset_bytes (c_host c) ;;
  h2 <- obytes hostset_bytes (c_ehost c) ;;
  d1 <- obytes domset_bytes (c_nfd c) ;;
  d2 <- obytes domset_bytes (c_nfa c) ;;
  d3 <- obytes domset_bytes (c_nfdexc c) ;;
  d4 <- obytes domset_bytes (c_nfaexc c) ;;
  b1 <- obytes (fun b => Ok (bloom_bytes b)) (c_bloom c) ;;
  b2 <- obytes (fun b => Ok (bloom_bytes b)) (c_ebloom c) ;;
  Ok [b1; b2; h1; h2; d1; d2; d3; d4].

(** Lines 1601-1645: [*totalSize]. *)
Definition serialize_size (c : client) (noCosm noHtml : bool) : res nat :=
  let t := ser_lists c noCosm noHtml in
  blobs <- client_blobs c ;;
  n <- sizes_sum t ser_order ;;
  Ok (length (header_of c t blobs) + 1 + n + list_sum (map (@length _) blobs)).

(** ad_block_client.cc:1545-1725 [serialize]: the buffer. *)
Definition serialize (c : client) (noCosm noHtml : bool) : res bytes :=
  let t := ser_lists c noCosm noHtml in
  blobs <- client_blobs c ;;
  total <- serialize_size c noCosm noHtml ;;
  let head := header_of c t blobs in
  buf <- snprintf_s (zeros total) 0 total head ;;
  r <- lists_write buf total (length head + 1) t ser_order ;;
  let '(buf, off) := r in
  r <- blobs_write buf off blobs ;;
  Ok (fst r).

Fixpoint lists_read (v : list N) (ks : list kind) (p : bytes)
    (t : tab (list filter)) : res (tab (list filter) * bytes) :=
  match ks with
  | [] => Ok (t, p)
  | k :: ks' =>
      r <- df_read (N.to_nat (hd 0%N v)) p ;;
      let '(fs, p) := r in
      lists_read (tl v) ks' p (tset t k fs)
  end.

(** ad_block_client.cc:1050-1058 [initBloomFilter] *)
Definition initBloom (p : bytes) (n : nat) : res (option bloom) :=
  match n with
  | 0 => Ok None
  | _ => if length p <? n then UB else Ok (Some (bloom_of (firstn n p)))
  end.

(** ad_block_client.cc:1061-1072 [initHashSet] *)
Definition initHash {A} (iread : bytes -> nat -> res (option (A * nat)))
    (p : bytes) (n : nat) : res (option (hset A) * bool) :=
  match n with
  | 0 => Ok (None, true)
  | _ => r <- hs_deserialize iread p n ;; Ok (Some (fst r), snd r)
  end.

(** ad_block_client.cc:1782-1891 [deserialize]: the return value and the
    client afterwards. *)
Definition deserialize (p : bytes) (c : client) : res (client * bool) :=
  let c0 := clear c in
  h <- cstring p ;;
  let v := scan_fields 20 p in
  let sz i := N.to_nat (nthN v i 0) in
  r <- lists_read v ser_order (skipn (length h + 1) p) (tall []) ;;
  let '(t, p) := r in
  b1 <- initBloom p (sz 12) ;;
  let p := skipn (sz 12) p in
  b2 <- initBloom p (sz 13) ;;
  let p := skipn (sz 13) p in
  let mk hs1 hs2 d1 d2 d3 d4 ok : res (client * bool) :=
    Ok (mkC t (sz 10) (sz 11) b1 b2 hs1 hs2 d1 d2 d3 d4 (c_badfp c0)
            (c_stats c0) (c_tags c0), ok) in
  r <- initHash fi_read p (sz 14) ;;
  let '(hs1, ok) := r in
  if negb ok then mk hs1 None None None None None false
  else
  let p := skipn (sz 14) p in
  r <- initHash fi_read p (sz 15) ;;
  let '(hs2, ok) := r in
  if negb ok then mk hs1 hs2 None None None None false
  else
  let p := skipn (sz 15) p in
  r <- initHash nd_read p (sz 16) ;;
  let '(d1, ok) := r in
  if negb ok then mk hs1 hs2 d1 None None None false
  else
  let p := skipn (sz 16) p in
  r <- initHash nd_read p (sz 17) ;;
  let '(d2, ok) := r in
  if negb ok then mk hs1 hs2 d1 d2 None None false
  else
  let p := skipn (sz 17) p in
  r <- initHash nd_read p (sz 18) ;;
  let '(d3, ok) := r in
  if negb ok then mk hs1 hs2 d1 d2 d3 None false
  else
  let p := skipn (sz 18) p in
  r <- initHash nd_read p (sz 19) ;;
  let '(d4, ok) := r in
  mk hs1 hs2 d1 d2 d3 d4 ok.
