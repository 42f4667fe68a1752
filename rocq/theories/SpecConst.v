(** Specification vocabulary for the constants of FilterOptions (C113). *)
From Verif Require Import Base Flags Url Sets FilterM ParseM ClientM SerialM ListsM JsM ToolM
  Spec SpecM SpecC SpecJ SpecTool.

(** The names that stand neither for a resource type nor for a party. *)
Definition other_names : list bytes :=
  [ B "noFilterOption"; B "collapse"; B "doNotTrack"; B "elemHide"; B "popup"; B "redirect";
    B "csp"; B "genericblock"; B "generichide"; B "empty"; B "important"; B "explicitcancel";
    B "unknown" ].

(** Two masks that have no bit in common. *)
Definition bits_apart (a b : N) : Prop := forall i, N.testbit a i = true -> N.testbit b i = false.

(** ** C74: the texts of the catalogue *)
Definition hex_digit (c : ascii) : Prop := In c (B "0123456789ABCDEF").

(** Five groups of 8, 4, 4, 4 and 12 hexadecimal digits. *)
Definition uuid_form (u : bytes) : Prop :=
  exists a b c d e, cut_at "-" u [a; b; c; d; e] /\
    Forall (Forall hex_digit) [a; b; c; d; e] /\
    map (@length ascii) [a; b; c; d; e] = [8; 4; 4; 4; 12].

(** A secure address: a host with a dot, and a path. *)
Definition secure_address (url : bytes) : Prop :=
  exists host path, url = B "https://" ++ host ++ B "/" ++ path /\ path <> [] /\
    In "."%char host /\ ~ In "/"%char host /\ ~ In " "%char url.
