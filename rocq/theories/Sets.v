(** Bloom filter and hash set.  Both come from libraries outside /repo
    (bloom-filter-cpp, hashset-cpp); they are modelled from the way
    /repo/ad_block_client.cc and /repo/filter.cc use them. *)
From Verif Require Import Base.

(** ** Bloom filter: a bit vector of [bl_size] bytes. *)
Record bloom := mkBloom { bl_bits : N; bl_size : N }.

(** [new BloomFilter(bitsPerElement, estimatedNumElements)]
    (ad_block_client.cc:1088, 1091, 792) *)
Definition bl_new (bitsPer est : N) : bloom :=
  mkBloom 0 (bitsPer * est / 8 + 1).

Definition bl_pos (b : bloom) (h : bytes -> N) (s : bytes) : N :=
  (h s mod (8 * bl_size b))%N.

(** [BloomFilter::add] with hash functions [hs] *)
Definition bl_add (hs : list (bytes -> N)) (b : bloom) (s : bytes) : bloom :=
  mkBloom (fold_left (fun acc h => N.setbit acc (bl_pos b h s)) hs (bl_bits b))
          (bl_size b).

(** [BloomFilter::exists] *)
Definition bl_exists (hs : list (bytes -> N)) (b : bloom) (s : bytes) : bool :=
  forallb (fun h => N.testbit (bl_bits b) (bl_pos b h s)) hs.

(** All windows of [k] consecutive bytes. *)
Fixpoint windows (k : nat) (s : bytes) : list bytes :=
  if length s <? k then []
  else match s with
       | [] => [[]]
       | _ :: s' => firstn k s :: windows k s'
       end.

(** [BloomFilter::substringExists(data, substringLength)] *)
Definition bl_substringExists hs (b : bloom) (s : bytes) (k : nat) : bool :=
  existsb (bl_exists hs b) (windows k s).

(** ** Hash set: an array of buckets, items compared by [key]. *)
Section HashSet.
  Context {A : Type} (key : A -> bytes) (hash : bytes -> N).

  Definition hset := list (list A).

  Definition hs_new (n : N) : hset := repeat [] (N.to_nat n).

  Definition hs_index (s : hset) (k : bytes) : nat :=
    N.to_nat (hash k mod N.of_nat (length s)).

  Fixpoint upd (s : hset) (i : nat) (f : list A -> list A) : hset :=
    match s, i with
    | [], _ => []
    | b :: s', 0 => f b :: s'
    | b :: s', S i' => b :: upd s' i' f
    end.

  (** [HashSet::Add] of a non-multi set: an item equal to a stored one only
      triggers [Update], which is empty for every item type of /repo. *)
  Definition hs_add (s : hset) (x : A) : hset :=
    upd s (hs_index s (key x))
        (fun b => if existsb (fun y => beq (key y) (key x)) b then b
                  else b ++ [x]).

  (** [HashSet::Find] *)
  Definition hs_find (s : hset) (k : bytes) : option A :=
    find (fun y => beq (key y) k) (nth (hs_index s k) s []).
End HashSet.
Arguments hset A : clear implicits.
