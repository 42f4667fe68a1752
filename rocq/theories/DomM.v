(** Model of the members of class Filter that answer questions about one rule
    (/repo/filter.h:105-138): getDomainCount(), containsDomain(),
    isDomainOnlyFilter(), isAntiDomainOnlyFilter(), matchesOptions(),
    parseOptions() and copying.  Unlike FilterM.v, which recomputes the parsed
    domain list whenever it is needed, this model has the members [domains],
    [antiDomains] and [domainsParsed] and walks through the texts as the loops do. *)
From Verif Require Import Base Flags Url Sets FilterM.

(** A rule and its three members.  A set of domains is the list of its entries:
    the buckets of HashSet<ContextDomain> are chosen by a function of the entry's
    bytes, so that looking into one bucket is looking at all entries. *)
Record robj := mkObj {
  ob_rule : filter;
  ob_domains : option (list bytes);   (* null pointer: None *)
  ob_anti : option (list bytes);
  ob_parsed : bool }.

(** filter.cc:25-41, 70-109: the constructors. *)
Definition newObj (f : filter) : robj := mkObj f None None false.

(** [HashSet::Add] on a set that may not have been allocated yet
    (filter.cc:670-677).  [multi]: whether a set constructed with a second
    argument [true] keeps equal entries; this is up to the library. *)
Definition addDomain (multi : bool) (s : option (list bytes)) (d : bytes) : option (list bytes) :=
  let l := match s with Some l => l | None => [] end in
  Some (if negb multi && memb d l then l else l ++ [d]).

(** filter.cc:666-688: the loop of [parseDomains].  [p]: the position, [start]:
    the pointer [domainList + startOffset], [len]: the bytes between them. *)
Fixpoint domainLoop (multi : bool) (p start : bytes) (len : nat) (pos neg : option (list bytes))
  : res (option (list bytes) * option (list bytes)) :=
  match p with
  | [] => UB
  | c :: p' =>
      if ceq c "|" || ceq c NUL then
        c0 <- deref start ;;
        let '(pos, neg) :=
          if ceq c0 "~" then (pos, addDomain multi neg (firstn (len - 1) (skipn 1 start)))
          else (addDomain multi pos (firstn len start), neg) in
        if ceq c NUL then Ok (pos, neg)
        else domainLoop multi p' (skipn (len + 1) start) 0 pos neg
      else domainLoop multi p' start (S len) pos neg
  end.

(** filter.cc:659-690 [parseDomains(domainList)] *)
Definition parseDomainsObj (multi : bool) (o : robj) : res robj :=
  match f_dom (ob_rule o) with
  | None => Ok o
  | Some dl =>
      if ob_parsed o then Ok o
      else
        r <- domainLoop multi (cstr dl) (cstr dl) 0 (ob_domains o) (ob_anti o) ;;
        Ok (mkObj (ob_rule o) (fst r) (snd r) true)
  end.

Definition setSize (s : option (list bytes)) : nat :=
  match s with Some l => length l | None => 0 end.

(** filter.cc:223-235 [getDomainCount] *)
Definition getDomainCount (multi : bool) (o : robj) (anti : bool) : res (nat * robj) :=
  o <- parseDomainsObj multi o ;;
  Ok (setSize (if anti then ob_anti o else ob_domains o), o).

(** filter.cc:206-221 [containsDomain] *)
Definition containsDomain (o : robj) (d : bytes) (anti : bool) : bool :=
  match (if anti then ob_anti o else ob_domains o) with
  | None => false
  | Some l => memb d l
  end.

(** filter.cc:237-240, 242-245 [isDomainOnlyFilter] ([anti = false]) and
    [isAntiDomainOnlyFilter] ([anti = true]) *)
Definition isOnlyFilter (multi : bool) (o : robj) (anti : bool) : res (bool * robj) :=
  o <- parseDomainsObj multi o ;;
  r <- getDomainCount multi o anti ;;
  let '(n, o) := r in
  if n =? 0 then Ok (false, o)
  else r <- getDomainCount multi o (negb anti) ;; let '(m, o) := r in Ok (m =? 0, o).

(** filter.cc:402-416: the loop of [contextDomainMatchesFilter]. *)
Fixpoint contextLoop (o : robj) (start p : bytes) : option bool :=
  match p with
  | [] => None
  | c :: p' =>
      if ceq c "." then
        if containsDomain o start false then Some true
        else if containsDomain o start true then Some false
        else contextLoop o p' p'
      else contextLoop o start p'
  end.

(** filter.cc:390-427 [contextDomainMatchesFilter] *)
Definition contextDomainMatches (multi : bool) (o : robj) (ctx : bytes) : res (bool * robj) :=
  r <- getDomainCount multi o false ;; let '(n, o) := r in
  r <- getDomainCount multi o true ;; let '(m, o) := r in
  if (n =? 0) && (m =? 0) then Ok (true, o)
  else
    match contextLoop o ctx ctx with
    | Some b => Ok (b, o)
    | None =>
        r <- getDomainCount multi o false ;; let '(n, o) := r in
        r <- getDomainCount multi o true ;; let '(m, o) := r in
        if (n =? 0) && negb (m =? 0) then Ok (true, o) else Ok (n =? 0, o)
    end.

(** filter.cc:434-468: the checks before the domains. *)
Definition typesAdmit (f : filter) (context : N) : bool :=
  if has (f_opt f) FOUnsupportedSoSkipCheck then false
  else if negb (has (f_opt f) FODocument) && has context FODocument then false
  else if negb (context =? 0)%N then
    if negb (N.ldiff (f_opt f) BehavioralFilterOnly =? 0)%N
       && negb (has (N.land (f_opt f) FOResourcesOnly) context) then false
    else negb (negb (N.ldiff (f_anti f) BehavioralFilterOnly =? 0)%N
               && has (N.land (f_anti f) FOResourcesOnly) context)
  else negb (has (f_opt f) FOResourcesOnly) && negb (has (f_anti f) FOResourcesOnly).

(** filter.cc:477-488: the checks behind them. *)
Definition partyAdmits (f : filter) (context : N) : bool :=
  if has context (N.lor FOThirdParty FONotThirdParty) then
    if has (f_opt f) FOThirdParty && has context FONotThirdParty then false
    else negb (has (f_anti f) FOThirdParty && has context FOThirdParty)
  else true.

(** filter.cc:434-491 [matchesOptions] *)
Definition matchesOptionsObj (multi : bool) (o : robj) (context : N) (dom : option bytes)
  : res (bool * robj) :=
  if typesAdmit (ob_rule o) context then
    r <- (match f_dom (ob_rule o), dom with
          | Some _, Some d => contextDomainMatches multi o d
          | _, _ => Ok (true, o)
          end) ;;
    let '(b, o) := r in
    Ok (if b then partyAdmits (ob_rule o) context else false, o)
  else Ok (false, o).

(** filter.cc:343-352: the loop of [parseOptions].  [start] is the pointer
    [input + startOffset]. *)
Fixpoint optionLoop (p start : bytes) (len : nat) (f : filter) : res filter :=
  match p with
  | [] => UB
  | c :: p' =>
      if ceq c NUL || isEndOfLine c then Ok (parseOption f (firstn len start))
      else if ceq c "," then
        optionLoop p' (skipn (len + 1) start) 0 (parseOption f (firstn len start))
      else optionLoop p' start (S len) f
  end.

(** filter.cc:337-353 [parseOptions] *)
Definition parseOptionsObj (o : robj) (input : bytes) : res robj :=
  let f := ob_rule o in
  g <- optionLoop input input 0
         (mkF (f_type f) FONoFilterOption FONoFilterOption (f_data f) (f_dom f) (f_tag f) (f_host f)
              (f_rule f)) ;;
  Ok (mkObj g (ob_domains o) (ob_anti o) (ob_parsed o)).

(** filter.cc:100-154: the copy constructor.  (The copied texts are equal; what
    follows them in memory does not matter here.) *)
Definition copyObj (o : robj) : robj := mkObj (ob_rule o) None None false.

(** ** Questions to one rule, one after the other *)

Inductive rop :=
| Count (anti : bool)                            (* getDomainCount(anti) *)
| Only (anti : bool)                             (* isDomainOnlyFilter(), isAntiDomainOnlyFilter() *)
| Contains (d : bytes) (anti : bool)             (* containsDomain(d, strlen(d), anti) *)
| Admits (context : N) (dom : option bytes)      (* matchesOptions(url, context, dom) *)
| SetOptions (text : bytes)                      (* parseOptions(text) *)
| Copied.                                        (* go on with a copy *)

Inductive reply := Number (n : nat) | Said (b : bool) | Silent.

Definition rstep (multi : bool) (o : robj) (q : rop) : res (reply * robj) :=
  match q with
  | Count anti => r <- getDomainCount multi o anti ;; Ok (Number (fst r), snd r)
  | Only anti => r <- isOnlyFilter multi o anti ;; Ok (Said (fst r), snd r)
  | Contains d anti => Ok (Said (containsDomain o d anti), o)
  | Admits context dom => r <- matchesOptionsObj multi o context dom ;; Ok (Said (fst r), snd r)
  | SetOptions text => o <- parseOptionsObj o (cstr text) ;; Ok (Silent, o)
  | Copied => Ok (Silent, copyObj o)
  end.

Fixpoint rrun (multi : bool) (o : robj) (qs : list rop) : res (list reply * robj) :=
  match qs with
  | [] => Ok ([], o)
  | q :: qs' =>
      r <- rstep multi o q ;;
      let '(a, o) := r in
      r <- rrun multi o qs' ;;
      let '(l, o) := r in Ok (a :: l, o)
  end.
