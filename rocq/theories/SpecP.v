(** Specification vocabulary for the sample program and the published files. *)
From Verif Require Import Base Flags Sets FilterM ParseM ClientM SerialM JsM DataM ListsM ToolM CatalogM
  PublishM Spec SpecM SpecC SpecTool.

(** ** C80 *)

(** The answers [bs] of the client to requests without declared type from pages
    on slashdot.org, each asked on its own. *)
Definition sample_answers (E : env) (c : client) (urls : list bytes) (bs : list bool) : Prop :=
  Forall2 (fun url b => exists v c', matches E c (cstr url) 0 (Some (B "slashdot.org")) = Ok (v, c') /\
                                     v_block v = b) urls bs.

(** What is printed for them. *)
Definition sample_lines (urls : list bytes) (bs : list bool) : bytes :=
  flat_map (fun p : bytes * bool =>
              fst p ++ (if snd p then B ": You should block this URL!"
                        else B ": You should NOT block this URL!") ++ [LF]) (combine urls bs).

(** ** C81: reading a JSON text that is an object of strings without escapes and
    of natural numbers. *)
Inductive jvalue := JStr (s : bytes) | JNum (digits : bytes).

Definition jspace (a : ascii) : bool :=
  ceq a " " || ceq a LF || ceq a CR || ceq a (ascii_of_nat 9).

Fixpoint skip_space (s : bytes) : bytes :=
  match s with a :: s' => if jspace a then skip_space s' else s | [] => [] end.

(** Characters of a string other than the quote that ends it. *)
Definition plain_char (a : ascii) : bool :=
  negb (ceq a """"%char) && negb (ceq a "\") && (32 <=? nat_of_ascii a).

Fixpoint read_chars (s : bytes) : option (bytes * bytes) :=
  match s with
  | [] => None
  | a :: s' =>
      if ceq a """"%char then Some ([], s')
      else if plain_char a then
        match read_chars s' with Some (w, r) => Some (a :: w, r) | None => None end
      else None
  end.

Definition digit (a : ascii) : bool := (48 <=? nat_of_ascii a) && (nat_of_ascii a <=? 57).

Fixpoint read_digits (s : bytes) : bytes * bytes :=
  match s with
  | a :: s' => if digit a then let (w, r) := read_digits s' in (a :: w, r) else ([], s)
  | [] => ([], [])
  end.

Definition read_string (s : bytes) : option (bytes * bytes) :=
  match s with
  | a :: s' => if ceq a """"%char then read_chars s' else None
  | [] => None
  end.

Definition read_value (s : bytes) : option (jvalue * bytes) :=
  match read_string s with
  | Some (w, r) => Some (JStr w, r)
  | None => match read_digits s with
            | ([], _) => None
            | (w, r) => Some (JNum w, r)
            end
  end.

(** A member, then "," and more members or the closing brace. *)
Fixpoint read_members (n : nat) (s : bytes) : option (list (bytes * jvalue) * bytes) :=
  match n with
  | 0 => None
  | S n =>
      match read_string (skip_space s) with
      | None => None
      | Some (name, r) =>
          match skip_space r with
          | [] => None
          | a :: r =>
              if negb (ceq a ":") then None
              else match read_value (skip_space r) with
                   | None => None
                   | Some (v, r) =>
                       match skip_space r with
                       | [] => None
                       | a :: r =>
                           if ceq a "}" then Some ([(name, v)], r)
                           else if ceq a "," then
                             match read_members n r with
                             | Some (ms, r) => Some ((name, v) :: ms, r)
                             | None => None
                             end
                           else None
                       end
                   end
          end
      end
  end.

(** The members of the object that the whole text denotes. *)
Definition json_object (t : bytes) : option (list (bytes * jvalue)) :=
  match skip_space t with
  | a :: r =>
      if ceq a "{" then
        match read_members (length r) r with
        | Some (ms, r) => match skip_space r with [] => Some ms | _ => None end
        | None => None
        end
      else None
  | [] => None
  end.

Definition manifest_members (name key : bytes) : list (bytes * jvalue) :=
  [ (B "description", JStr (B "Brave Ad Block Updater extension"));
    (B "key", JStr key);
    (B "manifest_version", JNum (B "2"));
    (B "name", JStr (B "Brave Ad Block Updater (" ++ name ++ B ")"));
    (B "version", JStr (B "0.0.0")) ].

(** Text that can stand between quotes as it is. *)
Definition plain_chars (s : bytes) : Prop := Forall (fun a => plain_char a = true) s.

(** ** C82: the data files in the order of their making, with the bytes they
    should hold: nothing if a download fails. *)
Definition data_files (E : env) (sites : list bytes) (fetch : fetcher) (unbreak : bytes)
  : list (bytes * option (res bytes)) :=
  (B "out/ABPFilterParserData.dat", dataFileForList E sites fetch default_lists) ::
  (B "out/SafeBrowsingData.dat", dataFileForList E sites fetch malware_lists) ::
  map (fun r => (B "out/" ++ fst r ++ B ".dat", dataFileForRegion E sites fetch unbreak (snd r)))
      region_lists.

(** All files with these contents are there. *)
Definition all_written (l : list (bytes * option (res bytes))) (d : files) : Prop :=
  forall path r, In (path, r) l -> exists data, r = Some (Ok data) /\ look d path = Some data.

(** The manifest files. *)
Definition manifest_paths : list bytes :=
  B "out/default-manifest.json" ::
  map (fun r => B "out/" ++ fst r ++ B "-manifest.json") region_lists.

(** Every known list can be downloaded. *)
Definition all_fetched (fetch : fetcher) : Prop :=
  forall uuid url, In (uuid, url) catalogue -> exists b, fetch url = Some b.
