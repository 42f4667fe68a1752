(** Specification vocabulary for the measuring program. *)
From Verif Require Import Base Flags Sets FilterM ParseM ClientM SerialM JsM DataM Spec SpecM SpecC.

(** ** The words of a text *)
Definition white (a : ascii) : Prop :=
  In a [" "%char; ascii_of_nat 9; ascii_of_nat 10; ascii_of_nat 11; ascii_of_nat 12; ascii_of_nat 13].

(** A word: not empty, and without white space. *)
Definition word (w : bytes) : Prop := w <> [] /\ forall a, In a w -> ~ white a.

(** [ws] are the words of the text, in order: white space goes before each word,
    necessarily between two words, and may follow the last. *)
Inductive words_of : bytes -> list bytes -> Prop :=
| wo_none g : (forall a, In a g -> white a) -> words_of g []
| wo_word g w t ws :
    (forall a, In a g -> white a) -> word w -> (t = [] \/ white (hd NUL t)) ->
    words_of t ws -> words_of (g ++ w ++ t) (w :: ws).

(** The answers [bs] of the client to requests without declared type from pages
    on brianbondy.com, each asked on its own. *)
Definition measured (E : env) (c : client) (urls : list bytes) (bs : list bool) : Prop :=
  Forall2 (fun url b => exists v c', matches E c (cstr url) 0 (Some (B "brianbondy.com")) = Ok (v, c') /\
                                     v_block v = b) urls bs.

Definition how_many (b : bool) (bs : list bool) : nat := count_occ Bool.bool_dec bs b.

(** The queries as calls. *)
Definition site_asks (urls : list bytes) : list call :=
  map (fun u => Ask u 0%N (Some (B "brianbondy.com"))) urls.
