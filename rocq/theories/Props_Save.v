(** C100: saving and restoring objects in JavaScript.  C95: texts and numbers. *)
From Verif Require Import Base Flags Sets FilterM ParseM ClientM SerialM JsM OwnM BindM
  Spec SpecM SpecC SpecS SpecW SpecU SpecV SpecB P_Base P_Ser6 P_Ex P_Bind P_Save Props_Serial Props_List Props_Bind.
From Coq Require Import ZArith.
From Verif Require Import SpecC.

(** ** C95 *)

(** What a value is as a text, and as a number; there is no other. *)
Theorem C95_texts : forall v s, to_string v = Some s <-> stands_for v s.
Proof. exact text_stands. Qed.
Print Assumptions C95_texts.

Theorem C95_integers : forall J v z, to_number J v = Some z <-> counts_as J v z.
Proof. exact number_counts. Qed.
Print Assumptions C95_integers.

Example C95_texts_example :
  stands_for JNull (map N_of_ascii (B "null")) /\ stands_for (JInt 0) [48%N] /\
  counts_as J0 (JBool true) 1 /\ ~ exists s, stands_for symbol s.
Proof.
  split; [constructor|]. split; [|split; [constructor|]].
  - apply text_stands. reflexivity.
  - intros (s & H). apply text_stands in H. discriminate H.
Qed.

(** ** C100 *)

(** serialize() does not throw, whatever it is given, and leaves the object alone. *)
Theorem C100_saves : forall J E ms calls c,
  Forall2 (means J) ms (map Call calls) -> session J E ms = Ok c ->
  exists buf, forall args, invoke J E c MSerialize args = Ok (c, RBuffer buf).
Proof.
  intros J E ms calls c H A. destruct (saves J E ms calls c [] H A) as (buf & I & Se).
  exists buf. intros args. cbn [invoke]. now rewrite Se.
Qed.
Print Assumptions C100_saves.

(** deserialize() of that buffer on any object with the same tags says true; from
    then on both answer alike, whatever is done to both, *)
Theorem C100_restores : forall J E ms calls c buf args d s rest,
  Forall2 (means J) ms (map Call calls) -> session J E ms = Ok c -> all_storable calls ->
  invoke J E c MSerialize args = Ok (c, RBuffer buf) -> (forall t, tagExists d t = tagExists c t) ->
  exists c', invoke J E d MDeserialize (JBytes buf s :: rest) = Ok (c', RBool true) /\
    forall more moreCalls c1, Forall2 (means J) more (map Call moreCalls) ->
      goes_on J E c more = Ok c1 ->
      exists c1', goes_on J E c' more = Ok c1' /\ replies_alike J E c1 c1'.
Proof.
  intros J E ms calls c buf args d s rest H A St I T.
  apply (restores_exactly J E ms calls c buf d s rest H A St); auto.
  cbn [invoke] in I. destruct (serialize c true true) as [b|]; [|discriminate I]. now injection I as ->.
Qed.
Print Assumptions C100_restores.

(** for all rules up to what the format makes of them. *)
Theorem C100_restores_any : forall J E ms calls c buf args d s rest,
  Forall2 (means J) ms (map Call calls) -> session J E ms = Ok c ->
  invoke J E c MSerialize args = Ok (c, RBuffer buf) -> (forall t, tagExists d t = tagExists c t) ->
  exists c', invoke J E d MDeserialize (JBytes buf s :: rest) = Ok (c', RBool true) /\
    forall more moreCalls c1, Forall2 (means J) more (map Call moreCalls) ->
      goes_on J E (client_as_read c) more = Ok c1 ->
      exists c1', goes_on J E c' more = Ok c1' /\ replies_alike J E c1 c1'.
Proof.
  intros J E ms calls c buf args d s rest H A I T.
  apply (restores_as_read J E ms calls c buf d s rest H A); auto.
  cbn [invoke] in I. destruct (serialize c true true) as [b|]; [|discriminate I]. now injection I as ->.
Qed.
Print Assumptions C100_restores_any.

(** The value returned is whether the library accepted the data. *)
Theorem C100_said : forall J E d b s rest c',
  (invoke J E d MDeserialize (JBytes b s :: rest) = Ok (c', RBool true) <-> deserialize b d = Ok (c', true)) /\
  (invoke J E d MDeserialize (JBytes b s :: rest) = Ok (c', RBool false) <-> deserialize b d = Ok (c', false)) /\
  (invoke J E d MDeserialize (JBytes b s :: rest) = UB <-> deserialize b d = UB).
Proof. exact success_said. Qed.
Print Assumptions C100_said.

(** Anything but a buffer is refused, and the object keeps what it has. *)
Theorem C100_no_buffer : forall J E d args, (forall b s rest, args <> JBytes b s :: rest) ->
  invoke J E d MDeserialize args = Ok (d, RThrows).
Proof.
  intros J E d [|[| | | | |b s|] rest] H; try reflexivity. destruct (H b s rest eq_refl).
Qed.
Print Assumptions C100_no_buffer.

(** An object that has loaded "||ad.com^" and been asked; another, restored from it. *)
Definition first_object : list (method * list jsval) :=
  [(MParse, [JStr (U "||ad.com^")]); (MMatches, [JStr (U "http://ad.com/x"); JInt 2; JNull])].
Definition first_calls : list call :=
  [Parse false (B "||ad.com^"); Ask (B "http://ad.com/x") 2 (Some (B "null"))].

Example C100_example :
  Forall2 (means J0) first_object (map Call first_calls) /\ all_storable first_calls /\
  (c <- session J0 E0 first_object ;;
   x <- invoke J0 E0 c MSerialize [] ;;
   match snd x with
   | RBuffer buf =>
       y <- invoke J0 E0 client0 MDeserialize [JBytes buf None] ;;
       z <- invoke J0 E0 (fst y) MMatches [JStr (U "http://ad.com/y"); JInt 2; JStr (U "b.com")] ;;
       Ok (snd y, snd z)
   | _ => UB
   end) = Ok (RBool true, RBool true) /\
  (forall b s rest, [JStr (U "data")] <> JBytes b s :: rest).
Proof.
  split; [|split; [|split]].
  - constructor; [|constructor; [|constructor]].
    + exact (means_parse J0 [JStr (U "||ad.com^")] (B "||ad.com^") (ex_intro _ _ (conj eq_refl eq_refl))).
    + apply (means_ask J0 [JStr (U "http://ad.com/x"); JInt 2; JNull] (U "http://ad.com/x") (B "null")).
      * reflexivity.
      * apply nonulb_ok. vm_compute. reflexivity.
      * exists (U "null"). split; reflexivity.
  - intros p l f I P. vm_compute in I. destruct I as [I|[]]. injection I as <- <-.
    apply parses_rule_at in P; [|line]. subst f. apply storableb_ok. vm_compute. reflexivity.
  - vm_compute. reflexivity.
  - intros b s rest. discriminate.
Qed.
