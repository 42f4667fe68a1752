(** Model of the JavaScript layer: /repo/lib/filtering.js, /repo/lib/util.js and
    the query functions of the Node binding /repo/ad_block_client_wrap.cc.

    JavaScript strings are sequences of UTF-16 units; here a text is the UTF-8
    byte string that [String::Utf8Value] hands to the C++ code.  All the
    functions below only split at, join with and compare ASCII text, which
    commutes with that encoding (for the preparation of lists that is
    C85_prepared). *)
From Verif Require Import Base Flags FilterM ClientM.

(** lib/filtering.js:22 and 25: the lines that are rewritten. *)
Definition ima_host : bytes := B "||imasdk.googleapis.com^$third-party".
Definition ima_file : bytes := B "/ima3.js".

(** lib/filtering.js:21-29 [mapRule] *)
Definition mapRule (l : bytes) : bytes :=
  if beq l ima_host then B "||imasdk.googleapis.com^$third-party,explicitcancel"
  else if beq l ima_file then B "/ima3.js$explicitcancel"
  else l.

(** lib/filtering.js:50-53 [extraConcatRules] *)
Definition extraConcatRules : list bytes :=
  [B "||imasdk.googleapis.com/$third-party"; B "^ima3.js"].

(** [Array.prototype.join('\n')] *)
Fixpoint join_lf (ls : list bytes) : bytes :=
  match ls with
  | [] => []
  | [l] => l
  | l :: more => l ++ LF :: join_lf more
  end.

(** lib/filtering.js:5 [I], as a filter predicate: the empty string is falsy,
    every other string truthy. *)
Definition truthy (l : bytes) : bool := match l with [] => false | _ => true end.

(** lib/filtering.js:37-45 [sanitizeABPInput].  The logging of
    [filterPredicateWithPossibleLogging] is not modelled. *)
Definition sanitizeWith (pred : bytes -> bool) (input : bytes) : bytes :=
  join_lf (map mapRule (List.filter pred (split_on LF input)) ++ extraConcatRules).

Definition sanitizeABPInput (input : bytes) : bytes := sanitizeWith truthy input.

(** lib/util.js:61-79 [getSingleListDataFromSingleURL]: what it makes of the
    downloaded body ([filter] is the list's own function, if any). *)
Definition singleListData (filter : option (bytes -> bytes)) (body : bytes) : bytes :=
  sanitizeABPInput (match filter with Some f => f body | None => body end).

(** lib/util.js:92-116 [makeAdBlockClientFromListURL]: the text given to
    parse().  Downloading and errors are not modelled. *)
Definition listURLText (filter : option (bytes -> bytes)) (body : bytes) : bytes :=
  sanitizeABPInput (singleListData filter body).

Definition listURLsText (filter : option (bytes -> bytes)) (bodies : list bytes) : bytes :=
  sanitizeABPInput (join_lf (map (singleListData filter) bodies)).

(** lib/util.js:118-124 [getListFilterFunction] for the list
    FBB430E8-3910-4761-9373-840FC3B43FF2: the first four lines are dropped, the
    others become host rules. *)
Definition hostListFilter (input : bytes) : bytes :=
  join_lf (map (fun l => B "||" ++ l) (skipn 4 (split_on LF input))).

(** lib/util.js:20-31 [makeAdBlockClientFromString] with an array: one parse()
    per item, in order, on a new client. *)
Definition clientFromStrings (E : env) (keepRuleText : bool) (items : list bytes) : res client :=
  foldM (fun c t => parse E keepRuleText (cstr t) c) client0 items.

(** ** Queries from JavaScript *)

(** [String::Utf8Value] of [args[i]->ToString()]: a missing argument is the
    value undefined, whose string is "undefined". *)
Definition js_string (arg : option bytes) : bytes :=
  match arg with Some s => s | None => B "undefined" end.

(** ad_block_client_wrap.cc:264-282 [Matches] *)
Definition jsMatches (E : env) (c : client) (url : bytes) (context : N) (page : option bytes)
  : res (bool * client) :=
  r <- matches E c (cstr url) context (Some (js_string page)) ;;
  Ok (v_block (fst r), snd r).

(** [String::NewFromUtf8] without a length reads a C string. *)
Definition js_from_c (p : bytes) : res bytes := n <- strlen p ;; Ok (firstn n p).

(** The properties set by ad_block_client_wrap.cc:304-322. *)
Record found_data := mkFound {
  fd_matches : bool;
  fd_filter : option bytes;         (* matchingFilter *)
  fd_rule : option bytes;           (* matchingOrigRule *)
  fd_exc : option bytes;            (* matchingExceptionFilter *)
  fd_exc_rule : option bytes        (* matchingExceptionOrigRule *)
}.

(** Lines 307-314 and 315-322.  A null [data] is undefined behaviour. *)
Definition report_filter (o : option filter) : res (option bytes * option bytes) :=
  match o with
  | None => Ok (None, None)
  | Some f =>
      match f_data f with
      | None => UB
      | Some (data, tail) => s <- js_from_c (data ++ tail) ;; Ok (Some s, f_rule f)
      end
  end.

(** ad_block_client_wrap.cc:284-324 [FindMatchingFilters].  The rule text
    [ruleDefinition] is a C string (see FilterM.v). *)
Definition jsFind (E : env) (c : client) (url : bytes) (context : N) (page : option bytes)
  : res found_data :=
  v <- findMatchingFilters E c (cstr url) context (Some (js_string page)) ;;
  a <- report_filter (v_filter v) ;;
  b <- report_filter (v_exc v) ;;
  Ok (mkFound (v_block v) (fst a) (snd a) (fst b) (snd b)).

(** ** getFilters (ad_block_client_wrap.cc:437-572) *)

(** The object built for one rule. *)
Record entry := mkEntry {
  en_data : option bytes;
  en_host : option bytes;
  en_domOnly : bool; en_antiOnly : bool; en_domOnlyExc : bool; en_antiOnlyExc : bool;
  en_domains : list bytes;
  en_antiDomains : list bytes;
  en_tag : bytes
}.

(** Lines 451-482: the array selected by its name. *)
Definition named_array (name : bytes) : option kind :=
  if beq name (B "filters") then Some KFilters
  else if beq name (B "cosmeticFilters") then Some KCosmetic
  else if beq name (B "htmlFilters") then Some KHtml
  else if beq name (B "exceptionFilters") then Some KException
  else if beq name (B "noFingerprintFilters") then Some KNoFp
  else if beq name (B "noFingerprintExceptionFilters") then Some KNoFpExc
  else if beq name (B "noFingerprintDomainOnlyFilters") then Some KNoFpDom
  else if beq name (B "noFingerprintAntiDomainOnlyFilters") then Some KNoFpAnti
  else if beq name (B "noFingerprintDomainOnlyExceptionFilters") then Some KNoFpDomExc
  else if beq name (B "noFingerprintAntiDomainOnlyExceptionFilters") then Some KNoFpAntiExc
  else None.

(** Lines 524-538: one domain, [len] bytes at [filter_domain_list +
    start_offset].  [dest_buffer] has [cap] bytes. *)
Definition take_domain (all : bytes) (cap start len : nat) (acc : list bytes * list bytes)
  : res (list bytes * list bytes) :=
  let domain := skipn start all in
  match domain with
  | [] => UB
  | c :: _ =>
      if (0 <? len) && negb (ceq c "~") then
        (if (cap <? len) || (length domain <? len) then UB
         else Ok (fst acc ++ [firstn len domain], snd acc))
      else if (0 <? len) && ceq c "~" then
        (if (cap <? len - 1) || (length domain <? len) then UB
         else Ok (fst acc, snd acc ++ [firstn (len - 1) (skipn 1 domain)]))
      else Ok acc
  end.

(** Lines 522-545 *)
Fixpoint domain_loop (all p : bytes) (cap start len : nat) (acc : list bytes * list bytes)
  : res (list bytes * list bytes) :=
  match p with
  | [] => UB
  | c :: p' =>
      if ceq c NUL then take_domain all cap start len acc
      else if ceq c "|" then
        a <- take_domain all cap start len acc ;;
        domain_loop all p' cap (start + len + 1) 0 a
      else domain_loop all p' cap start (S len) acc
  end.

(** Lines 511-547 *)
Definition list_domains (dl : option bytes) : res (list bytes * list bytes) :=
  match dl with
  | None => Ok ([], [])
  | Some d => domain_loop (cstr d) (cstr d) (length d + 1) 0 0 ([], [])
  end.

Definition unless_empty (b : bytes) : option bytes :=
  match b with [] => None | _ => Some b end.

(** Lines 484-570.  The lengths [dataLen] and [hostLen] computed on the way
    are those of the model (FilterM.v). *)
Definition describe (f : filter) : res entry :=
  d <- list_domains (f_dom f) ;;
  let exc := has (f_type f) FTException in
  Ok (mkEntry (match f_data f with Some (data, _) => unless_empty data | None => None end)
              (match f_host f with Some h => unless_empty h | None => None end)
              (isDomainOnlyFilter f && negb exc) (isAntiDomainOnlyFilter f && negb exc)
              (isDomainOnlyFilter f && exc) (isAntiDomainOnlyFilter f && exc)
              (fst d) (snd d) (f_tag f)).

Definition mapR {A C} (f : A -> res C) : list A -> res (list C) :=
  fix go l := match l with
              | [] => Ok []
              | x :: l' => y <- f x ;; ys <- go l' ;; Ok (y :: ys)
              end.

Definition getFilters (c : client) (name : bytes) : res (list entry) :=
  match named_array name with
  | None => Ok []
  | Some k => mapR describe (tget (c_lists c) k)
  end.
