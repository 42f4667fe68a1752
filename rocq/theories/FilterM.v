(** Model of class [Filter]: /repo/filter.h and /repo/filter.cc. *)
From Verif Require Import Base Flags Url Sets.

(** Everything the engine obtains from outside the modelled code. *)
Record env := mkEnv {
  e_bads : list bytes;            (* bad_fingerprints.h: badFingerprints[] *)
  e_hashes : list (bytes -> N);   (* default hash functions of BloomFilter *)
  e_hash2 : list (bytes -> N);    (* ad_block_client.cc:27-36 HashFn2Byte *)
  e_hash : bytes -> N;            (* HashFn(19), filter.cc:21 *)
  e_regex : bytes -> bytes -> bool
    (* filter.cc:565-571: pattern, URL; constantly false in builds without
       ENABLE_REGEX *)
}.

(** filter.h:187-207, the data members of [Filter].
    - [f_data] is [None] for a null pointer, otherwise the [dataLen] bytes of
      the pattern and the bytes that follow them in the same allocation
      ([[NUL]] for a parsed rule, nothing for the hash-set copy made by
      filter.cc:122-124, the rest of the buffer for a deserialized host rule).
      [dataLen] is always the length of the first part: the lazily computed
      value of filter.cc:559-561 is [strlen(data)].
    - [f_dom], [f_host], [f_rule] are C strings without their terminator (every
      writer terminates them), [f_tag] is a byte slice, empty iff [tagLen = 0].
    - [hostLen] is -1 in every stored filter, so it is not represented.
    - [domains]/[antiDomains]/[domainsParsed] cache [parseDomains(domainList)]
      and are recomputed here. *)
Record filter := mkF {
  f_type : N;
  f_opt : N;
  f_anti : N;
  f_data : option (bytes * bytes);
  f_dom : option bytes;
  f_tag : bytes;
  f_host : option bytes;
  f_rule : option bytes
}.

(** filter.cc:25-41 [Filter::Filter()] *)
Definition filter0 : filter := mkF 0 0 0 None None [] None None.

(** ** Options *)

(** Substrings between occurrences of [c]. *)
Fixpoint split_on (c : ascii) (s : bytes) : list bytes :=
  match s with
  | [] => [[]]
  | x :: s' =>
      if ceq x c then [] :: split_on c s'
      else match split_on c s' with
           | [] => [[x]]
           | w :: ws => (x :: w) :: ws
           end
  end.

(** filter.cc:266-303: names compared with [strncmp(pStart, name, len)] before
    csp= and redirect=. *)
Definition option_names1 : list (bytes * N) :=
  [ (B "script", FOScript); (B "image", FOImage);
    (B "stylesheet", FOStylesheet); (B "object", FOObject);
    (B "xmlhttprequest", FOXmlHttpRequest);
    (B "object-subrequest", FOObjectSubrequest);
    (B "subdocument", FOSubdocument); (B "document", FODocument);
    (B "xbl", FOXBL); (B "collapse", FOCollapse);
    (B "donottrack", FODoNotTrack); (B "other", FOOther);
    (B "elemhide", FOElemHide); (B "third-party", FOThirdParty);
    (B "first-party", FONotThirdParty); (B "ping", FOPing);
    (B "popup", FOPopup) ].

(** filter.cc:308-325: the names after redirect=. *)
Definition option_names2 : list (bytes * N) :=
  [ (B "font", FOFont); (B "media", FOMedia); (B "webrtc", FOWebRTC);
    (B "generichide", FOGenericHide); (B "genericblock", FOGenericBlock);
    (B "empty", FOEmpty); (B "websocket", FOWebsocket);
    (B "important", FOImportant); (B "explicitcancel", FOExplicitCancel) ].

(** First name of which the given segment is a prefix: [!strncmp(seg, name,
    len)] for a segment of [len] non-NUL bytes holds exactly then. *)
Fixpoint lookup_name (seg : bytes) (tbl : list (bytes * N)) : option N :=
  match tbl with
  | [] => None
  | (name, bit) :: tbl' => if prefixb seg name then Some bit
                           else lookup_name seg tbl'
  end.

(** filter.cc:266-333: the option bit selected by a segment. *)
Definition option_bit (seg : bytes) : N :=
  match lookup_name seg option_names1 with
  | Some b => b
  | None =>
      if prefixb (B "csp=") seg then FOCSP
      else if prefixb (B "redirect=") seg then FORedirect
      else match lookup_name seg option_names2 with
           | Some b => b
           | None => FOUnknown
           end
  end.

(** filter.cc:247-335 [Filter::parseOption] on the segment [input[0..len)].
    The console message for unknown options is in ProcM.v. *)
Definition parseOption (f : filter) (seg : bytes) : filter :=
  let '(anti, s) := match seg with
                    | c :: s' => if ceq c "~" then (true, s') else (false, seg)
                    | [] => (false, seg)
                    end in
  if prefixb (B "domain=") s then
    mkF (f_type f) (f_opt f) (f_anti f) (f_data f) (Some (skipn 7 s)) (f_tag f)
        (f_host f) (f_rule f)
  else if prefixb (B "tag=") s then
    mkF (f_type f) (f_opt f) (f_anti f) (f_data f) (f_dom f) (skipn 4 s)
        (f_host f) (f_rule f)
  else if anti then
    mkF (f_type f) (f_opt f) (N.lor (f_anti f) (option_bit s)) (f_data f)
        (f_dom f) (f_tag f) (f_host f) (f_rule f)
  else
    mkF (f_type f) (N.lor (f_opt f) (option_bit s)) (f_anti f) (f_data f)
        (f_dom f) (f_tag f) (f_host f) (f_rule f).

(** filter.cc:343: the bytes up to the end of the line. *)
Fixpoint option_text (p : bytes) : res bytes :=
  match p with
  | [] => UB
  | c :: p' => if ceq c NUL || isEndOfLine c then Ok []
               else rmap (cons c) (option_text p')
  end.

(** filter.cc:337-353 [Filter::parseOptions]: the option text is cut at commas
    and each segment parsed in order. *)
Definition parseOptions (f : filter) (p : bytes) : res filter :=
  txt <- option_text p ;;
  Ok (fold_left parseOption (split_on "," txt)
        (mkF (f_type f) FONoFilterOption FONoFilterOption (f_data f) (f_dom f)
             (f_tag f) (f_host f) (f_rule f))).

(** ** Domain lists *)

(** filter.cc:659-690 [Filter::parseDomains]: pieces between '|', those
    starting with '~' go to [antiDomains] without it. *)
Definition is_anti (d : bytes) : bool :=
  match d with c :: _ => ceq c "~" | [] => false end.

Definition domainsOf (dl : bytes) : list bytes :=
  List.filter (fun d => negb (is_anti d)) (split_on "|" dl).

Definition antiDomainsOf (dl : bytes) : list bytes :=
  map (skipn 1) (List.filter is_anti (split_on "|" dl)).

Definition memb (x : bytes) (l : list bytes) : bool := existsb (beq x) l.

(** filter.cc:223-235 [getDomainCount(anti)] *)
Definition f_domains (f : filter) : list bytes :=
  match f_dom f with Some dl => domainsOf dl | None => [] end.
Definition f_antiDomains (f : filter) : list bytes :=
  match f_dom f with Some dl => antiDomainsOf dl | None => [] end.

Definition nonempty {A} (l : list A) : bool :=
  match l with [] => false | _ => true end.

(** filter.cc:237-240 [isDomainOnlyFilter] *)
Definition isDomainOnlyFilter (f : filter) : bool :=
  nonempty (f_domains f) && negb (nonempty (f_antiDomains f)).

(** filter.cc:242-245 [isAntiDomainOnlyFilter] *)
Definition isAntiDomainOnlyFilter (f : filter) : bool :=
  nonempty (f_antiDomains f) && negb (nonempty (f_domains f)).

(** filter.cc:397-415: [start] is the current label suffix, [p] the scan
    position. *)
Fixpoint ctx_walk (pos neg : list bytes) (start p : bytes) : option bool :=
  match p with
  | [] => None
  | c :: p' =>
      if ceq c "." then
        if memb start pos then Some true
        else if memb start neg then Some false
        else ctx_walk pos neg p' p'
      else ctx_walk pos neg start p'
  end.

(** filter.cc:390-427 [contextDomainMatchesFilter] *)
Definition contextDomainMatchesFilter (f : filter) (ctx : bytes) : bool :=
  let pos := f_domains f in
  let neg := f_antiDomains f in
  if negb (nonempty pos) && negb (nonempty neg) then true
  else match ctx_walk pos neg ctx ctx with
       | Some b => b
       | None => if negb (nonempty pos) && nonempty neg then true
                 else negb (nonempty pos)
       end.

(** ** Option matching *)

(** filter.cc:386-388 *)
Definition hasUnsupportedOptions (f : filter) : bool :=
  has (f_opt f) FOUnsupportedSoSkipCheck.

(** filter.cc:434-491 [matchesOptions] *)
Definition matchesOptions (f : filter) (context : N) (dom : option bytes)
  : bool :=
  if hasUnsupportedOptions f then false
  else if negb (has (f_opt f) FODocument) && has context FODocument then false
  else if
    (if negb (context =? 0)%N then
       if negb (N.ldiff (f_opt f) BehavioralFilterOnly =? 0)%N
          && negb (has (N.land (f_opt f) FOResourcesOnly) context) then false
       else if negb (N.ldiff (f_anti f) BehavioralFilterOnly =? 0)%N
               && has (N.land (f_anti f) FOResourcesOnly) context then false
       else true
     else
       if has (f_opt f) FOResourcesOnly then false
       else if has (f_anti f) FOResourcesOnly then false
       else true)
  then
    if (match f_dom f, dom with
        | Some _, Some d => negb (contextDomainMatchesFilter f d)
        | _, _ => false
        end) then false
    else if has context (N.lor FOThirdParty FONotThirdParty) then
      if has (f_opt f) FOThirdParty && has context FONotThirdParty then false
      else if has (f_anti f) FOThirdParty && has context FOThirdParty then false
      else true
    else true
  else false.

(** ** Pattern matching *)

Inductive jres := MYes | MNo | MAbort.

(** filter.cc:515-532: the inner loop of [indexOfFilter]; [MAbort] is the
    early [return -1] of line 527. *)
Fixpoint ij (part inp : bytes) : res jres :=
  match part with
  | [] => Ok MYes
  | fc :: part' =>
      match inp with
      | [] => UB
      | ic :: inp' =>
          if ceq fc ic then ij part' inp'
          else if ceq fc "^" && (isSeparatorChar ic || ceq ic NUL)
               then ij part' inp'
          else if ceq ic NUL then Ok MAbort
          else Ok MNo
      end
  end.

(** filter.cc:514-537: the outer loop; [n] positions remain. *)
Fixpoint io (n : nat) (part inp : bytes) : res (option nat) :=
  match n with
  | 0 => Ok None
  | S n' =>
      m <- ij part inp ;;
      match m with
      | MYes => Ok (Some 0)
      | MAbort => Ok None
      | MNo =>
          match inp with
          | [] => UB
          | _ :: inp' => rmap (option_map S) (io n' part inp')
          end
      end
  end.

(** filter.cc:506-538 [indexOfFilter(input + index, inputLen - index, part)].
    [inputLen - index] may be -1 in C++ (a '^' matched the terminator); the
    length test of line 510 then rejects. *)
Definition indexOfFilter (input : bytes) (inputLen index : nat) (part : bytes)
  : res (option nat) :=
  if (length part =? 1) && beq part (B "^") then Ok None
  else if (inputLen <? index) || (inputLen - index <? length part) then Ok None
  else io (inputLen - index) part (skipn index input).

(** Adjacent pairs. *)
Fixpoint pairs (s : bytes) : list bytes :=
  match s with
  | a :: ((b :: _) as s') => [a; b] :: pairs s'
  | _ => []
  end.

(** filter.cc:606-612: all pairs of the rule's host. *)
Definition host_pairs_ok hs (bf : option bloom) (host : bytes) : bool :=
  match bf with
  | None => true
  | Some b => forallb (bl_exists hs b) (pairs host)
  end.

(** filter.cc:626-635: the loop stops before the last pair ([i <= len - 2]). *)
Definition part_pairs_ok hs (bf : option bloom) (part : bytes) : bool :=
  match bf with
  | None => true
  | Some b =>
      forallb (fun pr => existsb isSeparatorChar pr || bl_exists hs b pr)
              (pairs (removelast part))
  end.

(** filter.cc:620-654: the loop over the pieces between stars.  The pieces are
    cut beforehand ([getNextPos], filter.cc:494-500; the pattern holds no NUL).
    [tail] are the bytes after the pattern, read by [*filterPartStart] when the
    last piece is empty. *)
Fixpoint wild hs (bf : option bloom) (parts : list bytes) (tail : bytes)
    (input : bytes) (inputLen index : nat) : res bool :=
  match parts with
  | [] => Ok true
  | part :: more =>
      enter <- (match part, more with
                | [], [] => c <- deref tail ;; Ok (ceq c "*")
                | _, _ => Ok true
                end) ;;
      if negb enter then Ok true
      else if negb (part_pairs_ok hs bf part) then Ok false
      else
        r <- indexOfFilter input inputLen index part ;;
        match r with
        | None => Ok false
        | Some k =>
            let newIndex := k + index in
            match more with
            | [] => Ok true
            | _ =>
                c <- rd input newIndex ;;
                if ceq c NUL then Ok true
                else wild hs bf more tail input inputLen
                          (newIndex + length part)
            end
        end
  end.

(** filter.cc:547-657 [Filter::matches].  [input] is the URL pointer,
    [inputHost] the host found by the caller (empty if the caller passed length
    0). *)
Definition filter_matches (E : env) (f : filter) (input : bytes)
    (inputLen : nat) (context : N) (dom : option bytes) (bf : option bloom)
    (inputHost : bytes) : res bool :=
  if negb (matchesOptions f context dom) then Ok false
  else match f_data f with
  | None => Ok false
  | Some (data, tail) =>
      if has (f_type f) FTRegex then
        n <- strlen input ;; Ok (e_regex E data (firstn n input))
      else if has (f_type f) FTLeftAnchored && has (f_type f) FTRightAnchored
      then strcmp_eq (data ++ tail) input
      else if has (f_type f) FTRightAnchored then
        if inputLen <? length data then Ok false
        else strcmp_eq (skipn (inputLen - length data) input) (data ++ tail)
      else if has (f_type f) FTLeftAnchored then
        strncmp_eq (data ++ tail) input (length data)
      else
        go <- (if has (f_type f) FTHostAnchored then
                 cur <- (match inputHost with
                         | [] => getUrlHost input
                         | _ => Ok inputHost
                         end) ;;
                 let host := match f_host f with Some h => h | None => [] end in
                 if negb (host_pairs_ok (e_hash2 E) bf host) then Ok false
                 else Ok (negb (isThirdPartyHost host cur))
               else Ok true) ;;
        if negb go then Ok false
        else wild (e_hash2 E) bf (split_on "*" data) tail input inputLen 0
  end.
