(** Model of several JavaScript objects of the Node binding in one process: every
    [new AdBlockClient()] makes a client of its own (ad_block_client_wrap.cc:223-240,
    the constructor [AdBlockClientWrap::New]), all of them on one heap.  The calls
    are those of OwnM.v and BindM.v (ad_block_client_wrap.cc:242-664), made on the
    common heap.

    Simplifications: as in BindM.v; the memory of the C++ objects themselves is
    left out, as is that of JavaScript. *)
From Verif Require Import Base ClientM OwnM BindM ManyM.

(** A JavaScript object: with its client; after cleanup(), with a pointer to a
    client that is not there any more; taken by the garbage collector. *)
Inductive jsobj := JLive (s : wrap) | JCleaned | JTaken.

Record host := mkHo { ho_heap : heap; ho_all : list jsobj }.
Definition host0 : host := mkHo heap0 [].

Inductive jevent :=
| JNew                          (* ad_block_client_wrap.cc:223-240 *)
| JDo (i : nat) (e : oevent)    (* a call on object i *)
| JCollect (i : nat).           (* the garbage collector takes object i *)

(** The object as seen by its own calls (BindM.v [object]). *)
Definition wrap_on (h : heap) (s : wrap) : wrap := mkWr (set_heap (wr_own s) h) (wr_buf s).

(** What a call leaves: the object and the heap. *)
Definition stored (o : object) : jsobj :=
  match o with Alive s => JLive s | Gone _ => JCleaned end.
Definition heap_of (o : object) : heap :=
  match o with Alive s => w_heap (wr_own s) | Gone h => h end.

(** Using an object that does not exist is not possible in JavaScript; it is
    given the same meaning as an invalid access. *)
Definition jstep (p : host) (e : jevent) : res host :=
  match e with
  | JNew => Ok (mkHo (ho_heap p) (ho_all p ++ [JLive (mkWr (own0 (ho_heap p)) None)]))
  | JDo i e =>
      match nth_error (ho_all p) i with
      | Some (JLive s) =>
          o <- ostep (Alive (wrap_on (ho_heap p) s)) e ;;
          Ok (mkHo (heap_of o) (put i (stored o) (ho_all p)))
      | Some JCleaned => UB
      | _ => UB
      end
  | JCollect i =>
      (* BindM.v [collected] *)
      match nth_error (ho_all p) i with
      | Some (JLive s) =>
          h <- collected (Alive (wrap_on (ho_heap p) s)) ;;
          Ok (mkHo h (put i JTaken (ho_all p)))
      | Some JCleaned => Ok (mkHo (ho_heap p) (put i JTaken (ho_all p)))
      | _ => UB
      end
  end.

(** At the end whatever is left is collected. *)
Definition jend_one (p : host) (i : nat) : res host :=
  match nth_error (ho_all p) i with
  | Some (JLive _) | Some JCleaned => jstep p (JCollect i)
  | _ => Ok p
  end.
Definition jend (p : host) : res host := foldM jend_one p (seq 0 (length (ho_all p))).

Definition host_life (es : list jevent) : res heap :=
  p <- foldM jstep host0 es ;; p <- jend p ;; Ok (ho_heap p).
