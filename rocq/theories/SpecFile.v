(** The format of data files (C101).

    [p] is the memory from the beginning of the data to the end of its
    allocation: deserialize() is not told where the data end. *)
From Verif Require Import Base Flags Sets FilterM ParseM ClientM SerialM Spec SpecM SpecS.

(** ** Numbers *)

Definition hex_value (c : ascii) (v : nat) : Prop :=
  nth_error (B "0123456789abcdef") v = Some c \/ nth_error (B "0123456789ABCDEF") v = Some c.
Definition is_hex (c : ascii) : Prop := exists v, hex_value c v.

Inductive digits_value : bytes -> N -> Prop :=
| digits_none : digits_value [] 0
| digits_more ds n c v :
    digits_value ds n -> hex_value c v -> digits_value (ds ++ [c]) (16 * n + N.of_nat v).

Definition no_hex_next (rest : bytes) : Prop := forall c r, rest = c :: r -> ~ is_hex c.

(** Digits, with or without "0x"; [rest] is the text behind them. *)
Inductive unsigned_text : bytes -> N -> bytes -> Prop :=
| unsigned_plain ds n rest :
    ds <> [] -> digits_value ds n -> no_hex_next rest ->
    (forall x r, ds = B "0" -> rest = x :: r -> ~ In x (B "xX")) ->
    unsigned_text (ds ++ rest) n rest
| unsigned_prefix x ds n rest :
    In x (B "xX") -> digits_value ds n -> no_hex_next rest ->
    unsigned_text ("0"%char :: x :: ds ++ rest) n rest.

Definition blank_text (bl : bytes) : Prop :=
  Forall (fun c => In (N_of_ascii c) [32; 9; 10; 11; 12; 13]%N) bl.

(** Blanks, a sign, and digits; a minus sign counts down from 2^32. *)
Inductive number_text : bytes -> N -> bytes -> Prop :=
| number_unsigned bl s n rest :
    blank_text bl -> unsigned_text s n rest -> number_text (bl ++ s) n rest
| number_plus bl s n rest :
    blank_text bl -> unsigned_text s n rest -> number_text (bl ++ "+"%char :: s) n rest
| number_minus bl s n rest :
    blank_text bl -> unsigned_text s n rest ->
    number_text (bl ++ "-"%char :: s) ((2 ^ 32 - n mod 2 ^ 32) mod 2 ^ 32) rest.

(** Up to [k] numbers with commas between them, and anything behind them. *)
Inductive numbers_text : nat -> bytes -> list N -> Prop :=
| numbers_done s : numbers_text 0 s []
| numbers_none k s : (forall n rest, ~ number_text s n rest) -> numbers_text (S k) s []
| numbers_last k s n rest :
    number_text s n rest -> (forall r, rest <> ","%char :: r) -> numbers_text (S k) s [n]
| numbers_more k s n rest vs :
    number_text s n (","%char :: rest) -> numbers_text k rest vs -> numbers_text (S k) s (n :: vs).

(** The number in place [i]; those that are missing count as 0. *)
Definition field (vs : list N) (i : nat) : N := nth i vs 0%N.

(** ** Rules *)

(** The empty text stands for none. *)
Definition optional (s : bytes) : option bytes := match s with [] => None | _ => Some s end.

(** Tag and domain list: no tag; "~#tag," before the domains; or, without the
    comma, a text that is taken for both. *)
Inductive tag_and_domains : bytes -> bytes -> option bytes -> Prop :=
| tag_none m : (forall r, m <> B "~#" ++ r) -> tag_and_domains m [] (optional m)
| tag_given t m : ~ In ","%char t -> tag_and_domains (B "~#" ++ t ++ "," :: m)%char t (optional m)
| tag_both m : ~ In ","%char m -> tag_and_domains (B "~#" ++ m) m (optional m).

(** A rule of an array: numbers for kind and options, pattern, tag and domains,
    host, each closed by NUL. *)
Inductive array_rule : bytes -> filter -> Prop :=
| array_rule_of h vs d x t m host f :
    nonul h -> numbers_text 3 h vs -> nonul d -> nonul x -> tag_and_domains x t m -> nonul host ->
    f_type f = field vs 0 -> f_opt f = field vs 1 -> f_anti f = field vs 2 ->
    pattern f = optional d -> f_tag f = t -> f_dom f = m -> f_host f = optional host ->
    array_rule (cstr h ++ cstr d ++ cstr x ++ cstr host) f.

(** The rules of one array, one behind the other. *)
Inductive array_text : bytes -> list filter -> Prop :=
| array_end : array_text [] []
| array_next a f s fs : array_rule a f -> array_text s fs -> array_text (a ++ s) (f :: fs).

(** A rule of the host index: the length of the pattern, kind and options; the
    pattern, which has no closing NUL; host; tag and domains. *)
Inductive host_item : bytes -> filter -> Prop :=
| host_item_of h vs d host x t m f :
    nonul h -> numbers_text 4 h vs -> N.of_nat (length d) = field vs 0 ->
    nonul host -> nonul x -> tag_and_domains x t m ->
    f_type f = field vs 1 -> f_opt f = field vs 2 -> f_anti f = field vs 3 ->
    pattern f = Some d -> f_host f = optional host -> f_tag f = t -> f_dom f = m ->
    host_item (cstr h ++ d ++ cstr host ++ cstr x) f.

(** A domain: its length, the domain, and one more byte. *)
Inductive domain_item : bytes -> bytes -> Prop :=
| domain_item_of h vs d last :
    nonul h -> numbers_text 1 h vs -> N.of_nat (length d) = field vs 0 ->
    domain_item (cstr h ++ d ++ [last]) d.

(** ** Sets *)

(** The items of a bucket up to its NUL; each ends before the end of the set.
    [pos] is the distance from the beginning of the set. *)
Inductive bucket_text {A} (item : bytes -> A -> Prop) (size : nat)
  : nat -> bytes -> list A -> nat -> bytes -> Prop :=
| bucket_end pos s : bucket_text item size pos (NUL :: s) [] (S pos) s
| bucket_item pos i x s xs pos' s' :
    item i x -> hd NUL i <> NUL -> pos + length i < size ->
    bucket_text item size (pos + length i) s xs pos' s' ->
    bucket_text item size pos (i ++ s) (x :: xs) pos' s'.

Inductive buckets_text {A} (item : bytes -> A -> Prop) (size : nat)
  : nat -> nat -> bytes -> list (list A) -> Prop :=
| buckets_end pos s : buckets_text item size 0 pos s []
| buckets_next n pos s b pos' s' bs :
    bucket_text item size pos s b pos' s' -> buckets_text item size n pos' s' bs ->
    buckets_text item size (S n) pos s (b :: bs).

(** A set of [size] bytes at the beginning of [s]: none if that is 0. *)
Inductive set_text {A} (item : bytes -> A -> Prop) : nat -> bytes -> option (list (list A)) -> Prop :=
| set_none s : set_text item 0 s None
| set_some size h vs s bs :
    nonul h -> numbers_text 1 h vs -> S (length h) < size ->
    buckets_text item size (N.to_nat (field vs 0)) (S (length h)) s bs ->
    set_text item size (cstr h ++ s) (Some bs).

(** ** Bloom filters *)

(** The first [size] bytes are the bits of the filter, lowest first. *)
Definition bloom_text (size : nat) (s : bytes) (o : option bloom) : Prop :=
  match size, o with
  | 0, None => True
  | S _, Some b =>
      size <= length s /\ bl_size b = N.of_nat size /\
      forall i, N.testbit (bl_bits b) i =
        (i <? 8 * N.of_nat size)%N &&
        N.testbit (N_of_ascii (nth (N.to_nat (i / 8)) s NUL)) (i mod 8)
  | _, _ => False
  end.

(** ** The file *)

(** The array of one kind has as many rules as the number in its place says. *)
Inductive arrays_text (c : client) : list kind -> list N -> bytes -> Prop :=
| arrays_end : arrays_text c [] [] []
| arrays_next k ks n ns a s :
    array_text a (tget (c_lists c) k) -> N.of_nat (length (tget (c_lists c) k)) = n ->
    arrays_text c ks ns s -> arrays_text c (k :: ks) (n :: ns) (a ++ s).

(** Twenty numbers, the arrays, two Bloom filters, six sets; each of these begins
    where the numbers put it. *)
Definition data_file (p : bytes) (c : client) : Prop :=
  exists h vs a s,
    p = cstr h ++ a ++ s /\ nonul h /\ numbers_text 20 h vs /\
    arrays_text c ser_order (map (field vs) (seq 0 10)) a /\
    N.of_nat (c_numHA c) = field vs 10 /\ N.of_nat (c_numHAE c) = field vs 11 /\
    let size i := N.to_nat (field vs i) in
    let from i := skipn (list_sum (map size (seq 12 (i - 12)))) s in
    bloom_text (size 12) (from 12) (c_bloom c) /\ bloom_text (size 13) (from 13) (c_ebloom c) /\
    set_text host_item (size 14) (from 14) (c_host c) /\
    set_text host_item (size 15) (from 15) (c_ehost c) /\
    set_text domain_item (size 16) (from 16) (c_nfd c) /\
    set_text domain_item (size 17) (from 17) (c_nfa c) /\
    set_text domain_item (size 18) (from 18) (c_nfdexc c) /\
    set_text domain_item (size 19) (from 19) (c_nfaexc c).

(** Two clients hold the same rules and sets. *)
Definition same_sets (a b : option (list (list filter))) : Prop :=
  match a, b with
  | None, None => True
  | Some x, Some y => Forall2 (Forall2 same_fields) x y
  | _, _ => False
  end.

Definition same_contents (c d : client) : Prop :=
  (forall k, Forall2 same_fields (tget (c_lists c) k) (tget (c_lists d) k)) /\
  c_numHA c = c_numHA d /\ c_numHAE c = c_numHAE d /\ c_bloom c = c_bloom d /\ c_ebloom c = c_ebloom d /\
  same_sets (c_host c) (c_host d) /\ same_sets (c_ehost c) (c_ehost d) /\
  c_nfd c = c_nfd d /\ c_nfa c = c_nfa d /\ c_nfdexc c = c_nfdexc d /\ c_nfaexc c = c_nfaexc d.
