(** Model of several [AdBlockClient] objects in one process: they share one heap
    and the application may restore several of them from the same buffer.  Each
    call is the one of OwnM.v (ad_block_client.cc:472-614, 1050-1469, 1545-1903),
    made on the common heap.  The class declares neither a copy constructor nor
    an assignment operator (ad_block_client.h:20-139), so the compiler supplies
    the one that copies the members: the pointers.

    Simplification: the memory of the client objects themselves is the
    application's business (they may be on the stack) and is left out. *)
From Verif Require Import Base ClientM OwnM.

(** The heap, the clients in the order of their creation ([None]: destroyed)
    and the blocks of the application. *)
Record crowd := mkCr {
  cr_heap : heap;
  cr_all : list (option own);
  cr_app : list nat
}.
Definition crowd0 : crowd := mkCr heap0 [] [].

Inductive mevent :=
| MCreate                       (* AdBlockClient c; ad_block_client.cc:473-511 *)
| MCall (i : nat) (e : event)   (* a call on client i *)
| MDestroy (i : nat)            (* its destructor, ad_block_client.cc:513-516 *)
| MCopy (i : nat)               (* AdBlockClient d = c; *)
| MAlloc                        (* the application allocates a block *)
| MFree (b : nat).              (* the application frees one *)

Fixpoint put {A} (i : nat) (x : A) (l : list A) : list A :=
  match l, i with
  | [], _ => []
  | _ :: l', 0 => x :: l'
  | y :: l', S i' => y :: put i' x l'
  end.

(** The client with its view of the heap; using one that does not exist is
    undefined. *)
Definition client_at (s : crowd) (i : nat) : res own :=
  match nth_error (cr_all s) i with
  | Some (Some w) => Ok (set_heap w (cr_heap s))
  | _ => UB
  end.

Definition mstep (s : crowd) (e : mevent) : res crowd :=
  match e with
  | MCreate => Ok (mkCr (cr_heap s) (cr_all s ++ [Some (own0 (cr_heap s))]) (cr_app s))
  | MCall i e =>
      w <- client_at s i ;;
      r <- step (w, cr_app s) e ;;
      Ok (mkCr (w_heap (fst r)) (put i (Some (fst r)) (cr_all s)) (snd r))
  | MDestroy i =>
      w <- client_at s i ;;
      w <- oclear w ;;
      Ok (mkCr (w_heap w) (put i None (cr_all s)) (cr_app s))
  | MCopy i =>
      w <- client_at s i ;;
      Ok (mkCr (cr_heap s) (cr_all s ++ [Some w]) (cr_app s))
  | MAlloc => let '(b, h) := alloc (cr_heap s) in Ok (mkCr h (cr_all s) (b :: cr_app s))
  | MFree b =>
      h <- free (cr_heap s) (At b) ;;
      Ok (mkCr h (cr_all s) (List.remove Nat.eq_dec b (cr_app s)))
  end.

Definition mrun (s : crowd) (es : list mevent) : res crowd := foldM mstep s es.

(** The end of the process: the clients still there are destroyed. *)
Definition mend_one (s : crowd) (i : nat) : res crowd :=
  match nth_error (cr_all s) i with
  | Some (Some _) => mstep s (MDestroy i)
  | _ => Ok s
  end.
Definition mend (s : crowd) : res crowd := foldM mend_one s (seq 0 (length (cr_all s))).

Definition whole_run (es : list mevent) : res crowd :=
  s <- mrun crowd0 es ;; mend s.
