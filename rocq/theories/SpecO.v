(** Specification of well-behaved use of a client's memory. *)
From Verif Require Import Base ClientM OwnM.

(** The serialized buffer the rules of the client currently live in, if any,
    after the call [e]. *)
Definition buffer_after (cur : option nat) (e : event) : option nat :=
  match e with
  | EClear => None
  | EDeserialize b _ => Some b
  | _ => cur
  end.

(** What the interface asks of the application at a call: it frees only blocks
    that it owns (so none twice), it deserializes from a block that it owns,
    and it keeps the buffer the client was restored from as long as the client
    is used for anything but clear(), deserialize() or destruction. *)
Definition keeps (app : list nat) (cur : option nat) : Prop :=
  forall b, cur = Some b -> In b app.

Definition polite (app : list nat) (cur : option nat) (e : event) : Prop :=
  match e with
  | EFree b => In b app
  | EDeserialize b _ => In b app
  | EAsk _ | ESerialize | EParse _ => keeps app cur
  | EClear | EEnable | ENew => True
  end.

(** [used_well s cur es]: every call of [es], made from the state [s], is
    polite. *)
Fixpoint used_well (s : life) (cur : option nat) (es : list event) : Prop :=
  match es with
  | [] => True
  | e :: es' =>
      polite (snd s) cur e /\
      (forall s', step s e = Ok s' -> used_well s' (buffer_after cur e) es')
  end.

(** No parse() between a deserialize() and the next clear(). *)
Fixpoint no_parse_over (cur : option nat) (es : list event) : Prop :=
  match es with
  | [] => True
  | e :: es' =>
      match e with EParse _ => cur = None | _ => True end /\
      no_parse_over (buffer_after cur e) es'
  end.

(** No line of the lists read gives domain= or tag= twice. *)
Definition nothing_overwritten (es : list event) : Prop :=
  forall ls s, In (EParse ls) es -> In s ls -> l_lost s = 0.

(** Otherwise: the number of blocks they lose.  parse() reads every line twice. *)
Definition sum_lost (ls : list lshape) : nat := fold_right (fun s n => l_lost s + n) 0 ls.
Definition lost_in (e : event) : nat :=
  match e with EParse ls => 2 * sum_lost ls | _ => 0 end.
Definition lost_total (es : list event) : nat := fold_right (fun e n => lost_in e + n) 0 es.

(** The same for the Node binding: whether the rules come from a buffer. *)
Definition restored_after (r : bool) (e : wevent) : bool :=
  match e with NClear => false | NDeserialize _ => true | _ => r end.

Fixpoint no_parse_over_w (r : bool) (es : list wevent) : Prop :=
  match es with
  | [] => True
  | e :: es' =>
      match e with NParse _ => r = false | _ => True end /\
      no_parse_over_w (restored_after r e) es'
  end.

Definition nothing_overwritten_w (es : list wevent) : Prop :=
  forall ls s, In (NParse ls) es -> In s ls -> l_lost s = 0.

(** When a parse() on top of restored rules goes well: *)

(** no rule of the lists that deserialize() read has any text in the buffer; *)
Definition textless (d : dshape) : Prop :=
  forall k s, In s (d_arrs d k) ->
    s_data s = false /\ s_dom s = false /\ s_tag s = false /\ s_host s = false.

(** what the rules of the client were last restored from, if they were; *)
Definition restored_now (cur : option dshape) (e : event) : option dshape :=
  match e with
  | EClear => None
  | EDeserialize _ d => Some d
  | _ => cur
  end.

(** every parse() finds nothing restored, or only rules without text. *)
Fixpoint parses_fine (cur : option dshape) (es : list event) : Prop :=
  match es with
  | [] => True
  | e :: es' =>
      match e with EParse _ => forall d, cur = Some d -> textless d | _ => True end /\
      parses_fine (restored_now cur e) es'
  end.

Definition restored_now_w (cur : option dshape) (e : wevent) : option dshape :=
  match e with
  | NClear => None
  | NDeserialize d => Some d
  | _ => cur
  end.

Fixpoint parses_fine_w (cur : option dshape) (es : list wevent) : Prop :=
  match es with
  | [] => True
  | e :: es' =>
      match e with NParse _ => forall d, cur = Some d -> textless d | _ => True end /\
      parses_fine_w (restored_now_w cur e) es'
  end.

(** Blocks lost through the binding. *)
Definition lost_in_w (e : wevent) : nat :=
  match e with NParse ls => 2 * sum_lost ls | _ => 0 end.
Definition lost_total_w (es : list wevent) : nat := fold_right (fun e n => lost_in_w e + n) 0 es.
