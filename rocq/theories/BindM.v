(** Model of how JavaScript values become arguments of the C++ code: the methods
    of the Node binding /repo/ad_block_client_wrap.cc:242-402, 437-572 and 611-616.

    Conversions are those of V8 ([ToString], [ToBoolean], [ToNumber],
    [String::Utf8Value]).  Simplifications: numbers other than integers, symbols
    and objects are given by what converting them yields ([JOther]); the text of
    an integer is exact below 10^21; a pending exception does not disturb the
    conversion of the following arguments. *)
From Verif Require Import Base Flags Sets FilterM ParseM ClientM SerialM JsM OwnM.

(** ** Strings *)

(** A JavaScript string: its UTF-16 code units. *)
Definition units := list N.

Definition high (u : N) : bool := ((55296 <=? u) && (u <? 56320))%N.
Definition low (u : N) : bool := ((56320 <=? u) && (u <? 57344))%N.

(** The code points of a string.  Versions of V8 differ in what they make of a
    surrogate that is not part of a pair (itself, or U+FFFD): [lone]. *)
Fixpoint points (lone : N -> N) (s : units) : list N :=
  match s with
  | [] => []
  | u :: r =>
      if high u then
        match r with
        | v :: r' =>
            if low v then (65536 + (u - 55296) * 1024 + (v - 56320))%N :: points lone r'
            else lone u :: points lone r
        | [] => [lone u]
        end
      else if low u then lone u :: points lone r
      else u :: points lone r
  end.

(** UTF-8 of one code point *)
Definition encode (p : N) : bytes :=
  (if p <? 128 then [ascii_of_N p]
   else if p <? 2048 then [ascii_of_N (192 + p / 64); ascii_of_N (128 + p mod 64)]
   else if p <? 65536 then
     [ascii_of_N (224 + p / 4096); ascii_of_N (128 + p / 64 mod 64); ascii_of_N (128 + p mod 64)]
   else
     [ascii_of_N (240 + p / 262144); ascii_of_N (128 + p / 4096 mod 64);
      ascii_of_N (128 + p / 64 mod 64); ascii_of_N (128 + p mod 64)])%N.

(** [String::Utf8Value] *)
Definition utf8 (lone : N -> N) (s : units) : bytes := flat_map encode (points lone s).

(** An ASCII literal as a string. *)
Definition U (s : string) : units := map N_of_ascii (B s).
Arguments U s%string_scope.

(** ** Values *)

(** What is left to the JavaScript engine: lone surrogates, and the number a
    string converts to. *)
Record js := mkJs { j_lone : N -> N; j_number : units -> Z }.

Inductive jsval :=
| JUndef
| JNull
| JBool (b : bool)
| JInt (z : Z)
| JStr (s : units)
| JBytes (b : bytes) (s : option units)      (* a buffer, and its text *)
| JOther (s : option units) (n : option Z) (t : bool).
    (* any other value: string, integer and truth value it converts to; [None]:
       the conversion throws, as for a symbol *)

Fixpoint uint_units (d : Decimal.uint) : units :=
  match d with
  | Decimal.Nil => []
  | Decimal.D0 d => 48 :: uint_units d
  | Decimal.D1 d => 49 :: uint_units d
  | Decimal.D2 d => 50 :: uint_units d
  | Decimal.D3 d => 51 :: uint_units d
  | Decimal.D4 d => 52 :: uint_units d
  | Decimal.D5 d => 53 :: uint_units d
  | Decimal.D6 d => 54 :: uint_units d
  | Decimal.D7 d => 55 :: uint_units d
  | Decimal.D8 d => 56 :: uint_units d
  | Decimal.D9 d => 57 :: uint_units d
  end%N.

Definition int_units (z : Z) : units :=
  match Z.to_int z with
  | Decimal.Pos d => uint_units d
  | Decimal.Neg d => 45%N :: uint_units d
  end.

(** [ToString]: nothing if it throws *)
Definition to_string (v : jsval) : option units :=
  match v with
  | JUndef => Some (U "undefined")
  | JNull => Some (U "null")
  | JBool b => Some (if b then U "true" else U "false")
  | JInt z => Some (int_units z)
  | JStr s => Some s
  | JBytes _ s => s
  | JOther s _ _ => s
  end.

(** [ToBoolean] *)
Definition to_bool (v : jsval) : bool :=
  match v with
  | JUndef | JNull => false
  | JBool b => b
  | JInt z => negb (Z.eqb z 0)
  | JStr s => match s with [] => false | _ => true end
  | JBytes _ _ => true
  | JOther _ _ t => t
  end.

(** [ToNumber] of an integer; values without one count as 0 (NaN, infinities). *)
Definition to_number (J : js) (v : jsval) : option Z :=
  match v with
  | JUndef | JNull => Some 0%Z
  | JBool b => Some (if b then 1 else 0)%Z
  | JInt z => Some z
  | JStr s => Some (j_number J s)
  | JBytes _ s => option_map (j_number J) s
  | JOther _ n _ => n
  end.

(** [Int32Value(...).FromMaybe(0)], cast to [FilterOption]: 32 bits *)
Definition to_mask (J : js) (v : jsval) : N :=
  match to_number J v with
  | Some z => Z.to_N (z mod 4294967296)
  | None => 0%N
  end.

(** ** Arguments *)

(** [args[i]] *)
Definition arg (args : list jsval) (i : nat) : jsval := nth i args JUndef.

(** [*str] for [String::Utf8Value str(isolate, args[i]->ToString(...))]: a
    pointer to the bytes and a NUL, or null if the conversion throws. *)
Definition pointer (J : js) (v : jsval) : option bytes :=
  option_map (fun s => cstr (utf8 (j_lone J) s)) (to_string v).

(** Where the C++ code reads the pointer at once. *)
Definition given (J : js) (v : jsval) : res bytes :=
  match pointer J v with Some p => Ok p | None => UB end.

(** The C string there, e.g. as [std::string(p)]. *)
Definition c_text (p : bytes) : res bytes := n <- strlen p ;; Ok (firstn n p).

Definition throws {A} (o : option A) : bool := match o with Some _ => false | None => true end.

(** ** Methods *)

Inductive method :=
| MClear | MParse | MMatches | MFind | MSerialize | MDeserialize
| MAddTag | MRemoveTag | MEnable | MFilters.

(** What the call returns: a value, or an exception. *)
Inductive jsres :=
| RUndef
| RBool (b : bool)
| RFound (fd : found_data)
| RBuffer (b : bytes)
| REntries (l : list entry)
| RThrows.

Definition or_throw (b : bool) (r : jsres) : jsres := if b then RThrows else r.

(** The page argument, which may be a null pointer. *)
Definition page_arg (J : js) (v : jsval) : res (option bytes) :=
  match pointer J v with
  | Some p => rmap Some (c_text p)
  | None => Ok None
  end.

Definition invoke (J : js) (E : env) (c : client) (m : method) (args : list jsval)
  : res (client * jsres) :=
  match m with
  | MClear => (* lines 242-246 *)
      Ok (clear c, RUndef)
  | MParse => (* lines 248-262 *)
      p <- given J (arg args 0) ;;
      c' <- parse E (to_bool (arg args 1)) p c ;;
      Ok (c', RUndef)
  | MMatches => (* lines 264-282 *)
      p <- given J (arg args 0) ;;
      d <- page_arg J (arg args 2) ;;
      r <- matches E c p (to_mask J (arg args 1)) d ;;
      Ok (snd r, or_throw (throws (to_number J (arg args 1)) || throws (to_string (arg args 2)))
                          (RBool (v_block (fst r))))
  | MFind => (* lines 284-324 *)
      p <- given J (arg args 0) ;;
      d <- page_arg J (arg args 2) ;;
      v <- findMatchingFilters E c p (to_mask J (arg args 1)) d ;;
      a <- report_filter (v_filter v) ;;
      b <- report_filter (v_exc v) ;;
      Ok (c, or_throw (throws (to_number J (arg args 1)) || throws (to_string (arg args 2)))
                      (RFound (mkFound (v_block v) (fst a) (snd a) (fst b) (snd b))))
  | MSerialize => (* lines 326-350 *)
      buf <- serialize c true true ;; Ok (c, RBuffer buf)
  | MDeserialize => (* lines 351-379 *)
      match args with
      | JBytes b _ :: _ => r <- deserialize b c ;; Ok (fst r, RBool (snd r))
      | _ => Ok (c, RThrows)
      end
  | MAddTag => (* lines 381-390 *)
      p <- given J (arg args 0) ;; t <- c_text p ;; Ok (addTag c t, RUndef)
  | MRemoveTag => (* lines 392-401 *)
      p <- given J (arg args 0) ;; t <- c_text p ;; Ok (removeTag c t, RUndef)
  | MEnable => (* lines 611-616 *)
      Ok (enableBadFp E c, RUndef)
  | MFilters => (* lines 437-572 *)
      p <- given J (arg args 0) ;; t <- c_text p ;;
      l <- getFilters c t ;; Ok (c, REntries l)
  end.

(** A sequence of calls on a new object. *)
Definition session (J : js) (E : env) (ms : list (method * list jsval)) : res client :=
  foldM (fun c x => rmap fst (invoke J E c (fst x) (snd x))) client0 ms.

(** ** lib/filtering.js on strings *)

(** [split('\n')], [join('\n')] *)
Fixpoint split_units (c : N) (s : units) : list units :=
  match s with
  | [] => [[]]
  | u :: r =>
      if N.eqb u c then [] :: split_units c r
      else match split_units c r with
           | [] => [[u]]
           | w :: ws => (u :: w) :: ws
           end
  end.

Fixpoint join_units (ls : list units) : units :=
  match ls with
  | [] => []
  | [l] => l
  | l :: more => l ++ 10%N :: join_units more
  end.

Fixpoint ueq (a b : units) : bool :=
  match a, b with
  | [], [] => true
  | x :: a', y :: b' => N.eqb x y && ueq a' b'
  | _, _ => false
  end.

(** lib/filtering.js:21-29 *)
Definition mapRule_js (l : units) : units :=
  if ueq l (map N_of_ascii ima_host)
  then U "||imasdk.googleapis.com^$third-party,explicitcancel"
  else if ueq l (map N_of_ascii ima_file) then U "/ima3.js$explicitcancel"
  else l.

(** lib/filtering.js:37-45 *)
Definition sanitize_js (input : units) : units :=
  join_units (map mapRule_js
                (List.filter (fun l => match l with [] => false | _ => true end)
                             (split_units 10 input))
              ++ map (map N_of_ascii) extraConcatRules).

(** ** The life of a JavaScript object *)

(** Calls on the object and cleanup() (lines 655-664), which deletes the C++
    object and leaves the pointer to it in the JavaScript object.  The calls are
    given by what they make of the heap (OwnM.v). *)
Inductive oevent := OCall (e : wevent) | OCleanup.

Inductive object := Alive (s : wrap) | Gone (h : heap).

Definition ostep (o : object) (e : oevent) : res object :=
  match o, e with
  | Alive s, OCall e => rmap Alive (wstep s e)
  | Alive s, OCleanup => rmap Gone (cleanup s)
  | Gone _, _ => UB
  end.

(** The garbage collector takes the JavaScript object: [node::ObjectWrap] deletes
    the C++ object, unless that was done (its destructor revokes the callback).
    ad_block_client.cc:513-515 [~AdBlockClient]: clear(), which does not know of
    the buffer that was deserialized. *)
Definition collected (o : object) : res heap :=
  match o with
  | Alive s => rmap w_heap (oclear (wr_own s))
  | Gone h => Ok h
  end.

Definition object_life (es : list oevent) : res heap :=
  o <- foldM ostep (Alive wrap0) es ;; collected o.
