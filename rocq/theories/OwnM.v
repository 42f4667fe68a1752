(** Model of who owns which memory: constructors, destructor, copy and
    [swapData] of [Filter] (/repo/filter.cc:24-208), [NoFingerprintDomain]
    (/repo/no_fingerprint_domain.cc:16-52), and the allocation side of
    [AdBlockClient] (/repo/ad_block_client.cc:472-614, 1050-1469, 1545-1891).

    Simplifications: contents of strings are dropped; only which pointers are
    null, what block they point to and the [borrowed_data] flags are kept.  What
    a line of text makes the parser allocate is given by a record ([lshape]),
    what a buffer makes deserialize() build by another ([dshape]); theorems
    quantify over all of them, OwnT.v gives those of a text and of a buffer.  A
    hash set or Bloom filter object is one block together with its internal
    nodes (external code).  [simpleCosmeticFilters] (a local object freed on
    return) and the temporary buffers of serialize() are left out. *)
From Verif Require Import Base Flags Sets FilterM ParseM ClientM.

(** ** Heap *)

Inductive ptr :=
| Null
| At (b : nat)         (* what new returned *)
| Inside (b : nat).    (* an address within block b *)

Record heap := mkH { h_next : nat; h_live : list nat }.
Definition heap0 : heap := mkH 0 [].

Definition alloc (h : heap) : nat * heap :=
  (h_next h, mkH (S (h_next h)) (h_next h :: h_live h)).

Definition live (h : heap) (b : nat) : bool := existsb (Nat.eqb b) (h_live h).

(** [delete p] / [delete[] p]: undefined unless [p] is null or the start of a
    block that has not been released yet. *)
Definition free (h : heap) (p : ptr) : res heap :=
  match p with
  | Null => Ok h
  | At b => if live h b
            then Ok (mkH (h_next h) (List.remove Nat.eq_dec b (h_live h)))
            else UB
  | Inside _ => UB
  end.

(** Reading through a pointer (checked for null by the callers). *)
Definition use (h : heap) (p : ptr) : res unit :=
  match p with
  | Null => Ok tt
  | At b | Inside b => if live h b then Ok tt else UB
  end.

Definition new_if (c : bool) (h : heap) : ptr * heap :=
  if c then let '(b, h') := alloc h in (At b, h') else (Null, h).

Definition isNull (p : ptr) : bool := match p with Null => true | _ => false end.

Definition inside (p : ptr) : ptr :=
  match p with At b => Inside b | p => p end.

(** ** Filter objects *)

(** filter.h:185-211, the members that matter for memory.  [o_tagged] is
    [tagLen > 0]; [o_plain]/[o_not] tell whether the domain list has entries
    without and with '~'. *)
Record fobj := mkO {
  o_borrowed : bool;
  o_data : ptr; o_rule : ptr; o_dom : ptr; o_tag : ptr; o_host : ptr;
  o_domains : ptr; o_anti : ptr; o_parsed : bool;
  o_tagged : bool; o_plain : bool; o_not : bool
}.

(** filter.cc:24-40 [Filter::Filter()] *)
Definition obj0 : fobj :=
  mkO false Null Null Null Null Null Null Null false false false false.

(** filter.cc:42-67 [Filter::~Filter] *)
Definition destroy (h : heap) (o : fobj) : res heap :=
  h <- free h (o_domains o) ;;
  h <- free h (o_anti o) ;;
  if o_borrowed o then Ok h
  else
    h <- free h (o_data o) ;;
    h <- free h (o_rule o) ;;
    h <- free h (o_dom o) ;;
    h <- free h (o_tag o) ;;
    free h (o_host o).

(** filter.cc:100-159 [Filter::Filter(const Filter &)] *)
Definition copyObj (h : heap) (o : fobj) : fobj * heap :=
  if o_borrowed o then
    (mkO true (o_data o) (o_rule o) (o_dom o) (o_tag o) (o_host o) Null Null
         false (o_tagged o) (o_plain o) (o_not o), h)
  else
    let '(d, h) := new_if (negb (isNull (o_data o))) h in
    let '(m, h) := new_if (negb (isNull (o_dom o))) h in
    let '(t, h) := new_if (o_tagged o) h in
    let '(s, h) := new_if (negb (isNull (o_host o))) h in
    let '(r, h) := new_if (negb (isNull (o_rule o))) h in
    (mkO false d r m t s Null Null false (o_tagged o) (o_plain o) (o_not o), h).

(** filter.cc:161-208 [swapData]: everything but [borrowed_data] changes
    places. *)
Definition swapData (a b : fobj) : fobj * fobj :=
  (mkO (o_borrowed a) (o_data b) (o_rule b) (o_dom b) (o_tag b) (o_host b)
       (o_domains b) (o_anti b) (o_parsed b) (o_tagged b) (o_plain b) (o_not b),
   mkO (o_borrowed b) (o_data a) (o_rule a) (o_dom a) (o_tag a) (o_host a)
       (o_domains a) (o_anti a) (o_parsed a) (o_tagged a) (o_plain a) (o_not a)).

(** filter.cc:659-690 [parseDomains] *)
Definition parseDomains (h : heap) (o : fobj) : fobj * heap :=
  if isNull (o_dom o) || o_parsed o then (o, h)
  else
    let '(a, h) := if isNull (o_anti o) then new_if (o_not o) h else (o_anti o, h) in
    let '(d, h) := if isNull (o_domains o) then new_if (o_plain o) h else (o_domains o, h) in
    (mkO (o_borrowed o) (o_data o) (o_rule o) (o_dom o) (o_tag o) (o_host o)
         d a true (o_tagged o) (o_plain o) (o_not o), h).

(** ad_block_client.cc:1074-1078 [setFilterBorrowedMemory] *)
Definition borrow (o : fobj) : fobj :=
  mkO true (o_data o) (o_rule o) (o_dom o) (o_tag o) (o_host o)
      (o_domains o) (o_anti o) (o_parsed o) (o_tagged o) (o_plain o) (o_not o).

(** ** Entries of the page-domain sets *)

Record gobj := mkG { g_borrowed : bool; g_data : ptr }.

(** no_fingerprint_domain.cc:40-43: the entry made from a part of a domain
    list points into that list. *)
Definition gobj_of (dom : ptr) : gobj := mkG true (inside dom).

(** no_fingerprint_domain.cc:22-38: the copy kept by the set. *)
Definition copyG (h : heap) (g : gobj) : gobj * heap :=
  if g_borrowed g then (mkG true (g_data g), h)
  else let '(d, h) := new_if (negb (isNull (g_data g))) h in (mkG false d, h).

(** no_fingerprint_domain.cc:45-52 *)
Definition destroyG (h : heap) (g : gobj) : res heap :=
  if g_borrowed g then Ok h else free h (g_data g).

(** ** Arrays and sets: null, or a block and its elements *)

Definition arr (A : Type) : Type := option (nat * list A).

Definition items {A} (a : arr A) : list A :=
  match a with Some (_, l) => l | None => [] end.

(** [delete[] a] or [delete set]: the elements, then the block. *)
Definition destroyArr {A} (d : heap -> A -> res heap) (h : heap) (a : arr A)
  : res heap :=
  match a with
  | None => Ok h
  | Some (b, l) => h <- foldM d h l ;; free h (At b)
  end.

Definition destroyOpt (h : heap) (o : option nat) : res heap :=
  match o with None => Ok h | Some b => free h (At b) end.

Definition kinds : list kind :=
  [KFilters; KCosmetic; KHtml; KException; KNoFp; KNoFpExc; KNoFpDom; KNoFpAnti;
   KNoFpDomExc; KNoFpAntiExc].

(** The pointer members of a client.  [w_gates] holds the four page-domain
    sets under the array they belong to. *)
Record own := mkW {
  w_heap : heap;
  w_arrs : tab (arr fobj);
  w_bloom : option nat; w_ebloom : option nat;
  w_host : arr fobj; w_ehost : arr fobj;
  w_gates : tab (arr gobj);
  w_bad : option nat
}.

(** ad_block_client.cc:472-511 *)
Definition own0 (h : heap) : own :=
  mkW h (tall None) None None None None (tall None) None.

Definition destroyTab {A} (d : heap -> A -> res heap) (h : heap)
    (t : tab (arr A)) (ks : list kind) : res heap :=
  foldM (fun h k => destroyArr d h (tget t k)) h ks.

Definition gated : list kind := [KNoFpDom; KNoFpAnti; KNoFpDomExc; KNoFpAntiExc].

(** ad_block_client.cc:518-594 [clear]; also the destructor (513-515). *)
Definition oclear (w : own) : res own :=
  h <- destroyTab destroy (w_heap w) (w_arrs w) kinds ;;
  h <- destroyOpt h (w_bloom w) ;;
  h <- destroyOpt h (w_ebloom w) ;;
  h <- destroyArr destroy h (w_host w) ;;
  h <- destroyArr destroy h (w_ehost w) ;;
  h <- destroyTab destroyG h (w_gates w) gated ;;
  h <- destroyOpt h (w_bad w) ;;
  Ok (own0 h).

(** ** parse *)

(** What one line makes the parser do.  [l_data] ... [l_host]: members set;
    [l_lost]: blocks overwritten without being freed (an option given twice,
    filter.cc:256-265); [l_asks]: whether isDomainOnlyFilter() was called;
    [l_insert]: insertion in the host set (exception?, new there?);
    [l_entries]: number of entries added to the page-domain set;
    [l_dest]: the array that takes the rule. *)
Record lshape := mkL {
  l_data : bool; l_rule : bool; l_dom : bool; l_tag : bool; l_host : bool;
  l_tagged : bool; l_plain : bool; l_not : bool;
  l_lost : nat;
  l_asks : bool;
  l_insert : option (bool * bool);
  l_entries : nat;
  l_dest : option kind
}.

Fixpoint lose (n : nat) (h : heap) : heap :=
  match n with 0 => h | S n' => lose n' (snd (alloc h)) end.

(** ad_block_client.cc:192-441 and filter.cc:247-339: the allocations of
    [parseFilter] on a default-constructed filter. *)
Definition read_line (h : heap) (s : lshape) : fobj * heap :=
  let h := lose (l_lost s) h in
  let '(d, h) := new_if (l_data s) h in
  let '(r, h) := new_if (l_rule s) h in
  let '(m, h) := new_if (l_dom s) h in
  let '(t, h) := new_if (l_tag s) h in
  let '(x, h) := new_if (l_host s) h in
  (mkO false d r m t x Null Null false (l_tagged s && l_tag s) (l_plain s) (l_not s), h).

Definition ask_if (c : bool) (h : heap) (o : fobj) : fobj * heap :=
  if c then parseDomains h o else (o, h).

(** Lines 1143-1190: first pass. *)
Definition pass1 (h : heap) (s : lshape) : res heap :=
  let '(o, h) := read_line h s in
  let '(o, h) := ask_if (l_asks s) h o in
  destroy h o.

Definition new_opt {A} (o : arr A) (h : heap) : nat * list A * heap :=
  match o with
  | Some (b, l) => (b, l, h)
  | None => let '(b, h) := alloc h in (b, [], h)
  end.

Definition new_blk (o : option nat) (h : heap) : nat * heap :=
  match o with Some b => (b, h) | None => alloc h end.

(** Lines 1223-1247 and 1262-1335 for one array: the new array with the old
    rules swapped in, and the old one. *)
Definition regrow (h : heap) (a : arr fobj) : (nat * list fobj) * arr fobj * heap :=
  let '(b, h) := alloc h in
  let sw := map (swapData obj0) (items a) in
  (b, map fst sw,
   match a with
   | None => None
   | Some (b0, _) => Some (b0, map (fun x => borrow (snd x)) sw)
   end, h).

Fixpoint regrow_all (h : heap) (ks : list kind) (t : tab (arr fobj))
    (news olds : tab (arr fobj)) : tab (arr fobj) * tab (arr fobj) * heap :=
  match ks with
  | [] => (news, olds, h)
  | k :: ks' =>
      let '(n, o, h) := regrow h (tget t k) in
      regrow_all h ks' t (tset news k (Some n)) (tset olds k o)
  end.

(** Lines 1087-1117: the four page-domain sets. *)
Fixpoint new_gates (h : heap) (ks : list kind) (t : tab (arr gobj))
  : tab (arr gobj) * heap :=
  match ks with
  | [] => (t, h)
  | k :: ks' =>
      let '(b, l, h) := new_opt (tget t k) h in
      new_gates h ks' (tset t k (Some (b, l)))
  end.

(** ad_block_client.cc:66-99 [AddFilterDomainsToHashSet] *)
Fixpoint add_entries (h : heap) (n : nat) (dom : ptr) (l : list gobj)
  : list gobj * heap :=
  match n with
  | 0 => (l, h)
  | S n' =>
      let '(g, h) := copyG h (gobj_of dom) in
      add_entries h n' dom (l ++ [g])
  end.

Definition push {A} (a : arr A) (x : A) : arr A :=
  match a with Some (b, l) => Some (b, l ++ [x]) | None => None end.

Definition set_items {A} (a : arr A) (l : list A) : arr A :=
  match a with Some (b, _) => Some (b, l) | None => None end.

Definition is_gated (k : kind) : bool :=
  match k with
  | KNoFpDom | KNoFpAnti | KNoFpDomExc | KNoFpAntiExc => true
  | _ => false
  end.

(** Lines 443-469: the host sets get copies. *)
Definition insert_host (h : heap) (o : fobj) (i : option (bool * bool))
    (host ehost : arr fobj) : arr fobj * arr fobj * heap :=
  match i with
  | Some (e, true) =>
      let '(c, h) := copyObj h o in
      if e then (host, push ehost c, h) else (push host c, ehost, h)
  | _ => (host, ehost, h)
  end.

(** Lines 1386-1455: one line of the second pass.  The slot of the array is
    default-constructed and takes the rule by [swapData]; the local filter is
    then destroyed. *)
Definition pass2 (w : own) (s : lshape) : res own :=
  let '(o, h) := read_line (w_heap w) s in
  let '(host, ehost, h) := insert_host h o (l_insert s) (w_host w) (w_ehost w) in
  let '(o, h) := ask_if (l_asks s) h o in
  match l_dest s with
  | None =>
      h <- destroy h o ;;
      Ok (mkW h (w_arrs w) (w_bloom w) (w_ebloom w) host ehost (w_gates w) (w_bad w))
  | Some k =>
      let '(gates, h) :=
        if is_gated k then
          let '(l, h) := add_entries h (if isNull (o_dom o) then 0 else l_entries s)
                                     (o_dom o) (items (tget (w_gates w) k)) in
          (tset (w_gates w) k (set_items (tget (w_gates w) k) l), h)
        else (w_gates w, h) in
      let '(slot, o) := swapData obj0 o in
      h <- destroy h o ;;
      Ok (mkW h (tset (w_arrs w) k (push (tget (w_arrs w) k) slot))
              (w_bloom w) (w_ebloom w) host ehost gates (w_bad w))
  end.

(** ad_block_client.cc:1082-1469 [parse] *)
Definition oparse (w : own) (ls : list lshape) : res own :=
  let '(b1, h) := new_blk (w_bloom w) (w_heap w) in
  let '(b2, h) := new_blk (w_ebloom w) h in
  let '(n1, l1, h) := new_opt (w_host w) h in
  let '(n2, l2, h) := new_opt (w_ehost w) h in
  let '(gates, h) := new_gates h gated (w_gates w) in
  h <- foldM pass1 h ls ;;
  let '(news, olds, h) := regrow_all h kinds (w_arrs w) (tall None) (tall None) in
  h <- destroyTab destroy h olds kinds ;;
  foldM pass2 (mkW h news (Some b1) (Some b2) (Some (n1, l1)) (Some (n2, l2))
                   gates (w_bad w)) ls.

(** ** Queries *)

Definition use_obj (h : heap) (o : fobj) : res unit :=
  _ <- use h (o_data o) ;; _ <- use h (o_dom o) ;; _ <- use h (o_tag o) ;;
  _ <- use h (o_host o) ;; use h (o_rule o).

Fixpoint use_all {A} (u : heap -> A -> res unit) (h : heap) (l : list A)
  : res unit :=
  match l with [] => Ok tt | x :: l' => _ <- u h x ;; use_all u h l' end.

(** [Filter::matches] on some of the rules: their domain lists are parsed on
    first use (filter.cc:341-352, 659-690).  [t i]: the [i]-th rule is tried. *)
Fixpoint touch (h : heap) (l : list fobj) (t : nat -> bool) : list fobj * heap :=
  match l with
  | [] => ([], h)
  | o :: l' =>
      let '(o, h) := ask_if (t 0) h o in
      let '(l', h) := touch h l' (fun i => t (S i)) in (o :: l', h)
  end.

Definition touch_arr (h : heap) (a : arr fobj) (t : nat -> bool)
  : arr fobj * heap :=
  match a with
  | None => (None, h)
  | Some (b, l) => let '(l, h) := touch h l t in (Some (b, l), h)
  end.

Fixpoint touch_tab (h : heap) (ks : list kind) (a : tab (arr fobj))
    (t : kind -> nat -> bool) : tab (arr fobj) * heap :=
  match ks with
  | [] => (a, h)
  | k :: ks' =>
      let '(x, h) := touch_arr h (tget a k) (t k) in
      touch_tab h ks' (tset a k x) t
  end.

(** Which rules a query tries. *)
Record tries := mkT {
  t_arrs : kind -> nat -> bool; t_host : nat -> bool; t_ehost : nat -> bool
}.

(** matches() / findMatchingFilters(): every rule and every entry may be read
    (here: all of them are), some domain lists get parsed. *)
Definition oask (w : own) (t : tries) : res own :=
  _ <- use_all (fun h k => use_all use_obj h (items (tget (w_arrs w) k))) (w_heap w) kinds ;;
  _ <- use_all use_obj (w_heap w) (items (w_host w)) ;;
  _ <- use_all use_obj (w_heap w) (items (w_ehost w)) ;;
  _ <- use_all (fun h k => use_all (fun h g => use h (g_data g)) h (items (tget (w_gates w) k)))
               (w_heap w) gated ;;
  let '(a, h) := touch_tab (w_heap w) kinds (w_arrs w) (t_arrs t) in
  let '(x, h) := touch_arr h (w_host w) (t_host t) in
  let '(y, h) := touch_arr h (w_ehost w) (t_ehost t) in
  Ok (mkW h a (w_bloom w) (w_ebloom w) x y (w_gates w) (w_bad w)).

(** ** serialize and deserialize *)

(** serialize() reads all rules and entries and returns a new block, which
    belongs to the caller. *)
Definition oserialize (w : own) : res (own * nat) :=
  _ <- oask w (mkT (fun _ _ => false) (fun _ => false) (fun _ => false)) ;;
  let '(b, h) := alloc (w_heap w) in
  Ok (mkW h (w_arrs w) (w_bloom w) (w_ebloom w) (w_host w) (w_ehost w)
          (w_gates w) (w_bad w), b).

(** A rule as read from a buffer: which members are not null. *)
Record fshape := mkFs {
  s_data : bool; s_dom : bool; s_tag : bool; s_host : bool;
  s_tagged : bool; s_plain : bool; s_not : bool
}.

Record dshape := mkD {
  d_arrs : kind -> list fshape;
  d_bloom : bool; d_ebloom : bool;
  d_host : option (list fshape); d_ehost : option (list fshape);
  d_gates : kind -> option nat
}.

Definition within (c : bool) (b : nat) : ptr := if c then Inside b else Null.

(** ad_block_client.cc:1729-1780 [deserializeFilters], filter.cc:760-819
    [Filter::Deserialize]: the members point into the buffer. *)
Definition obj_in (b : nat) (s : fshape) : fobj :=
  mkO true (within (s_data s) b) Null (within (s_dom s) b) (within (s_tag s) b)
      (within (s_host s) b) Null Null false (s_tagged s) (s_plain s) (s_not s).

Fixpoint new_arrs (h : heap) (ks : list kind) (b : nat) (f : kind -> list fshape)
    (t : tab (arr fobj)) : tab (arr fobj) * heap :=
  match ks with
  | [] => (t, h)
  | k :: ks' =>
      let '(n, h) := alloc h in
      new_arrs h ks' b f (tset t k (Some (n, map (obj_in b) (f k))))
  end.

Definition new_set {A} (h : heap) (o : option (list A)) : arr A * heap :=
  match o with
  | None => (None, h)
  | Some l => let '(n, h) := alloc h in (Some (n, l), h)
  end.

Fixpoint new_sets (h : heap) (ks : list kind) (b : nat) (f : kind -> option nat)
    (t : tab (arr gobj)) : tab (arr gobj) * heap :=
  match ks with
  | [] => (t, h)
  | k :: ks' =>
      let '(x, h) := new_set h (option_map (repeat (mkG true (Inside b))) (f k)) in
      new_sets h ks' b f (tset t k x)
  end.

Definition new_oblk (c : bool) (h : heap) : option nat * heap :=
  if c then let '(b, h) := alloc h in (Some b, h) else (None, h).

(** ad_block_client.cc:1782-1891 [deserialize] of the buffer block [b] *)
Definition odeserialize (w : own) (b : nat) (d : dshape) : res own :=
  w <- oclear w ;;
  _ <- use (w_heap w) (Inside b) ;;
  let '(a, h) := new_arrs (w_heap w) kinds b (d_arrs d) (tall None) in
  let '(b1, h) := new_oblk (d_bloom d) h in
  let '(b2, h) := new_oblk (d_ebloom d) h in
  let '(x, h) := new_set h (option_map (map (obj_in b)) (d_host d)) in
  let '(y, h) := new_set h (option_map (map (obj_in b)) (d_ehost d)) in
  let '(g, h) := new_sets h gated b (d_gates d) (tall None) in
  Ok (mkW h a b1 b2 x y g None).

(** ad_block_client.cc:1893-1903 [enableBadFingerprintDetection] *)
Definition oenable (w : own) : own :=
  match w_bad w with
  | Some _ => w
  | None =>
      let '(b, h) := alloc (w_heap w) in
      mkW h (w_arrs w) (w_bloom w) (w_ebloom w) (w_host w) (w_ehost w)
          (w_gates w) (Some b)
  end.

(** ** Lives of a client *)

Inductive event :=
| EParse (ls : list lshape)
| EClear
| EAsk (t : tries)
| ESerialize
| EDeserialize (b : nat) (d : dshape)
| EEnable
| ENew                    (* the application allocates a block *)
| EFree (b : nat).        (* the application frees one *)

Definition set_heap (w : own) (h : heap) : own :=
  mkW h (w_arrs w) (w_bloom w) (w_ebloom w) (w_host w) (w_ehost w) (w_gates w)
      (w_bad w).

(** The state, and the blocks of the application. *)
Definition life := (own * list nat)%type.
Definition life0 : life := (own0 heap0, []).

Definition step (s : life) (e : event) : res life :=
  let '(w, app) := s in
  match e with
  | EParse ls => rmap (fun w => (w, app)) (oparse w ls)
  | EClear => rmap (fun w => (w, app)) (oclear w)
  | EAsk t => rmap (fun w => (w, app)) (oask w t)
  | ESerialize => r <- oserialize w ;; Ok (fst r, snd r :: app)
  | EDeserialize b d => rmap (fun w => (w, app)) (odeserialize w b d)
  | EEnable => Ok (oenable w, app)
  | ENew => let '(b, h) := alloc (w_heap w) in Ok (set_heap w h, b :: app)
  | EFree b => h <- free (w_heap w) (At b) ;;
               Ok (set_heap w h, List.remove Nat.eq_dec b app)
  end.

Definition live_through (es : list event) : res life := foldM step life0 es.

(** The whole life of a client, with its destructor. *)
Definition whole_life (es : list event) : res life :=
  s <- live_through es ;; step s EClear.

(** ** The Node binding, /repo/ad_block_client_wrap.cc *)

(** The JavaScript object: the client and its member [deserializedBuffer]
    (ad_block_client.h:123), which only deserialize() writes. *)
Record wrap := mkWr { wr_own : own; wr_buf : option nat }.
Definition wrap0 : wrap := mkWr (own0 heap0) None.

Inductive wevent :=
| NParse (ls : list lshape)
| NClear
| NAsk (t : tries)
| NSerialize
| NDeserialize (d : dshape)
| NEnable.

Definition wstep (s : wrap) (e : wevent) : res wrap :=
  let w := wr_own s in
  match e with
  | NParse ls => rmap (fun w => mkWr w (wr_buf s)) (oparse w ls)
  | NClear => rmap (fun w => mkWr w (wr_buf s)) (oclear w)
  | NAsk t => rmap (fun w => mkWr w (wr_buf s)) (oask w t)
  | NSerialize =>
      (* lines 326-350: copied to a Node buffer, then deleted *)
      r <- oserialize w ;;
      h <- free (w_heap (fst r)) (At (snd r)) ;;
      Ok (mkWr (set_heap (fst r) h) (wr_buf s))
  | NDeserialize d =>
      (* lines 351-379: the old buffer is deleted first, then the data is
         copied into a new one *)
      h <- destroyOpt (w_heap w) (wr_buf s) ;;
      let '(b, h) := alloc h in
      rmap (fun w => mkWr w (Some b)) (odeserialize (set_heap w h) b d)
  | NEnable => Ok (mkWr (oenable w) (wr_buf s))
  end.

(** Lines 655-664 [Cleanup]: the buffer, then the client. *)
Definition cleanup (s : wrap) : res heap :=
  h <- destroyOpt (w_heap (wr_own s)) (wr_buf s) ;;
  rmap w_heap (oclear (set_heap (wr_own s) h)).

Definition wrapped_life (es : list wevent) : res heap :=
  s <- foldM wstep wrap0 es ;; cleanup s.
