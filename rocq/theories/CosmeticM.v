(** Model of the stylesheet writer of /repo/cosmetic_filter.h.  An item is the
    selector text; [data] is always a NUL-terminated copy made by the
    constructors (lines 25-34), so [strlen(data)] is the length of the text. *)
From Verif Require Import Base Sets.

(** [memcpy(buffer + i, s, strlen(s))] into an allocation [buf]. *)
Definition put (buf : bytes) (i : nat) (s : bytes) : res bytes :=
  if i + length s <=? length buf
  then Ok (firstn i buf ++ s ++ skipn (i + length s) buf)
  else UB.

(** cosmetic_filter.h:85-100, the loop over one bucket; [buffer] may be null.
    [len] has 32 bits in the code and no bound here. *)
Fixpoint fillBucket (items : list bytes) (buffer : option bytes) (len : nat)
  : res (option bytes * nat) :=
  match items with
  | [] => Ok (buffer, len)
  | s :: more =>
      b1 <- match buffer with
            | Some b => b' <- put b len s ;; Ok (Some b')
            | None => Ok None
            end ;;
      let len1 := len + length s in
      match more with
      | [] => fillBucket more b1 len1
      | _ =>
          b2 <- match b1 with
                | Some b => b' <- put b len1 (B ", ") ;; Ok (Some b')
                | None => Ok None
                end ;;
          fillBucket more b2 (len1 + 2)
      end
  end.

(** cosmetic_filter.h:80-103 [fillStylesheetBuffer]: [len] is reset for every
    bucket (line 84). *)
Fixpoint fillStylesheet (buckets : hset bytes) (buffer : option bytes) (len : nat)
  : res (option bytes * nat) :=
  match buckets with
  | [] => Ok (buffer, len)
  | b :: more =>
      r <- fillBucket b buffer 0 ;;
      fillStylesheet more (fst r) (snd r)
  end.

(** cosmetic_filter.h:71-77 [toStylesheet] *)
Definition toStylesheet (s : hset bytes) : res bytes :=
  r <- fillStylesheet s None 0 ;;
  w <- fillStylesheet s (Some (repeat NUL (snd r))) 0 ;;
  match fst w with Some b => Ok b | None => UB end.

(** cosmetic_filter.h:69: 1000 buckets, no duplicates; selectors added one by
    one ([HashSet::Add], key: the text, lines 40-42). *)
Definition selectorSet (hash : bytes -> N) (sels : list bytes) : hset bytes :=
  fold_left (hs_add (fun s => s) hash) sels (hs_new 1000).
