(** Model of /repo/protocol.cc. *)
From Verif Require Import Base.

(** [tolower] in the C locale.  (For bytes above 127 the C++ passes a negative
    [int]; that it leaves them unchanged is assumed, see DESIGN.md.) *)
Definition tolower (c : ascii) : ascii :=
  let n := N_of_ascii c in
  if ((65 <=? n)%N && (n <=? 90)%N)%bool then ascii_of_N (n + 32) else c.

(** [tolower(p[i]) == c] *)
Definition lower_is (p : bytes) (i : nat) (c : ascii) : res bool :=
  x <- rd p i ;; Ok (ceq (tolower x) c).

(** Short-circuit [&&] over possibly faulting conditions. *)
Fixpoint all_of (l : list (unit -> res bool)) : res bool :=
  match l with
  | [] => Ok true
  | t :: l' => b <- t tt ;; if b then all_of l' else Ok false
  end.

Definition is_at (p : bytes) (i : nat) (c : ascii) : res bool :=
  x <- rd p i ;; Ok (ceq x c).


(** protocol.cc:117-124 [ProtocolParseStateReadingSeperator] *)
Definition st_separator (p : bytes) : res bool :=
  all_of [fun _ => is_at p 0 ":"; fun _ => is_at p 1 "/"; fun _ => is_at p 2 "/"].

(** protocol.cc:129-133: the shared end of the loop body; [n] characters were
    consumed, [k] is the next state. *)
Definition advance (p : bytes) (total n urlLen : nat)
    (k : bytes -> nat -> res bool) : res bool :=
  let total' := total + n in
  if urlLen <=? total' then Ok false else k (skipn n p) total'.

(** protocol.cc:109-124 [ProtocolParseStatePostProto], falling through to the
    separator state. *)
Definition st_post_proto (urlLen : nat) (p : bytes) (total : nat) : res bool :=
  s <- lower_is p 0 "s" ;;
  if s then advance p total 1 urlLen (fun q _ => st_separator q)
  else st_separator p.

(** protocol.cc:87-97 *)
Definition st_http (urlLen : nat) (p : bytes) (total : nat) : res bool :=
  m <- all_of [fun _ => lower_is p 0 "h"; fun _ => lower_is p 1 "t";
               fun _ => lower_is p 2 "t"; fun _ => lower_is p 3 "p"] ;;
  if m then advance p total 4 urlLen (st_post_proto urlLen) else Ok false.

(** protocol.cc:99-107 *)
Definition st_ws (urlLen : nat) (p : bytes) (total : nat) : res bool :=
  m <- all_of [fun _ => lower_is p 0 "w"; fun _ => lower_is p 1 "s"] ;;
  if m then advance p total 2 urlLen (st_post_proto urlLen) else Ok false.

(** protocol.cc:58-72 [ProtocolParseStatePostBlob] *)
Definition st_post_blob (urlLen : nat) (p : bytes) (total : nat) : res bool :=
  w <- lower_is p 0 "w" ;;
  if w then st_ws urlLen p total
  else h <- lower_is p 0 "h" ;;
       if h then st_http urlLen p total else Ok false.

(** protocol.cc:74-85 [ProtocolParseStateReadingBlob] *)
Definition st_blob (urlLen : nat) (p : bytes) (total : nat) : res bool :=
  m <- all_of [fun _ => lower_is p 0 "b"; fun _ => lower_is p 1 "l";
               fun _ => lower_is p 2 "o"; fun _ => lower_is p 3 "b";
               fun _ => lower_is p 4 ":"] ;;
  if m then advance p total 5 urlLen (st_post_blob urlLen) else Ok false.

(** protocol.cc:29-135 [isBlockableProtocol]; the state loop has no cycles, so
    each state is a function calling its successors. *)
Definition isBlockableProtocol (url : bytes) (urlLen : nat) : res bool :=
  if urlLen <=? 5 then Ok false
  else b <- lower_is url 0 "b" ;;
       if b then st_blob urlLen url 0 else st_post_blob urlLen url 0.
