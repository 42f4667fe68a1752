(** Vocabulary about the arguments of JavaScript calls (C95). *)
From Verif Require Import Base Flags Sets FilterM ParseM ClientM SerialM JsM OwnM OwnT BindM
  Spec SpecM SpecC SpecU SpecV.
From Coq Require Import ZArith.

(** The values that count as false. *)
Inductive falsy : jsval -> Prop :=
| falsy_undefined : falsy JUndef
| falsy_null : falsy JNull
| falsy_false : falsy (JBool false)
| falsy_zero : falsy (JInt 0)
| falsy_empty : falsy (JStr [])
| falsy_other s n : falsy (JOther s n false).

(** The mask has the lowest 32 bits of the two's complement of the integer. *)
Definition low_bits (z : Z) (mask : N) : Prop :=
  forall i, N.testbit mask i = true <-> (i < 32)%N /\ Z.testbit z (Z.of_N i) = true.

(** The resource type an argument stands for: none if it cannot be converted. *)
Definition type_given (J : js) (v : jsval) (mask : N) : Prop :=
  (exists z, to_number J v = Some z /\ low_bits z mask) \/ (to_number J v = None /\ mask = 0%N).

(** The page an argument stands for: none if it cannot be converted. *)
Definition page_given (J : js) (v : jsval) (page : option bytes) : Prop :=
  (exists t, text_of J v t /\ page = Some t) \/ (to_string v = None /\ page = None).

(** The query throws: one of these two conversions does. *)
Definition query_throws (J : js) (args : list jsval) : Prop :=
  to_number J (arg args 1) = None \/ to_string (arg args 2) = None.

(** Decimal digits (the character codes of 0 to 9), and their value. *)
Definition digit_units (ds : units) : Prop := ds <> [] /\ Forall (fun u => 48 <= u <= 57)%N ds.
Definition value (ds : units) : N := fold_left (fun a u => 10 * a + (u - 48))%N ds 0%N.

(** The usual notation of an integer: no superfluous zeros, and '-' (45) before
    the digits of a negative one. *)
Definition decimal (z : Z) (s : units) : Prop :=
  exists ds, digit_units ds /\ (hd 0 ds = 48 -> ds = [48])%N /\ value ds = Z.abs_N z /\
    s = if (z <? 0)%Z then 45%N :: ds else ds.

(** ** Values as texts and numbers *)

(** The text a value of the language stands for.  (For objects and symbols it is
    given with the value.) *)
Inductive stands_for : jsval -> units -> Prop :=
| stands_undefined : stands_for JUndef (U "undefined")
| stands_null : stands_for JNull (U "null")
| stands_true : stands_for (JBool true) (U "true")
| stands_false : stands_for (JBool false) (U "false")
| stands_number z s : decimal z s -> stands_for (JInt z) s
| stands_text s : stands_for (JStr s) s
| stands_buffer b s : stands_for (JBytes b (Some s)) s
| stands_other s n t : stands_for (JOther (Some s) n t) s.

(** The integer. *)
Inductive counts_as (J : js) : jsval -> Z -> Prop :=
| counts_undefined : counts_as J JUndef 0
| counts_null : counts_as J JNull 0
| counts_true : counts_as J (JBool true) 1
| counts_false : counts_as J (JBool false) 0
| counts_number z : counts_as J (JInt z) z
| counts_text s : counts_as J (JStr s) (j_number J s)
| counts_buffer b s : counts_as J (JBytes b (Some s)) (j_number J s)
| counts_other s z t : counts_as J (JOther s (Some z) t) z.

(** ** Two objects *)

(** What both answer when both are asked the same. *)
Definition replies_alike (J : js) (E : env) (c d : client) : Prop :=
  (forall args c2 r, invoke J E c MMatches args = Ok (c2, r) ->
     exists d2, invoke J E d MMatches args = Ok (d2, r)) /\
  (forall args c2 fd, invoke J E c MFind args = Ok (c2, RFound fd) ->
     forall d2 r, invoke J E d MFind args = Ok (d2, r) ->
       exists fd', r = RFound fd' /\ fd_matches fd' = fd_matches fd).

(** Further calls on an object. *)
Definition goes_on (J : js) (E : env) (c : client) (ms : list (method * list jsval)) : res client :=
  foldM (fun c x => rmap fst (invoke J E c (fst x) (snd x))) c ms.
