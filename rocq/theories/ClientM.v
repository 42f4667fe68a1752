(** Model of class [AdBlockClient]: /repo/ad_block_client.cc, .h. *)
From Verif Require Import Base Flags Protocol Url Sets FilterM ParseM.

(** ** The ten rule arrays (ad_block_client.h:64-91) *)
Inductive kind :=
| KFilters | KCosmetic | KHtml | KException
| KNoFp | KNoFpExc
| KNoFpDom | KNoFpAnti | KNoFpDomExc | KNoFpAntiExc.

Record tab (A : Type) := mkTab {
  t_filters : A; t_cosmetic : A; t_html : A; t_exc : A;
  t_nf : A; t_nfexc : A;
  t_nfd : A; t_nfa : A; t_nfdexc : A; t_nfaexc : A
}.
Arguments mkTab {A}.
Arguments t_filters {A}. Arguments t_cosmetic {A}. Arguments t_html {A}.
Arguments t_exc {A}. Arguments t_nf {A}. Arguments t_nfexc {A}.
Arguments t_nfd {A}. Arguments t_nfa {A}. Arguments t_nfdexc {A}.
Arguments t_nfaexc {A}.

Definition tall {A} (x : A) : tab A := mkTab x x x x x x x x x x.

Definition tget {A} (t : tab A) (k : kind) : A :=
  match k with
  | KFilters => t_filters t | KCosmetic => t_cosmetic t | KHtml => t_html t
  | KException => t_exc t | KNoFp => t_nf t | KNoFpExc => t_nfexc t
  | KNoFpDom => t_nfd t | KNoFpAnti => t_nfa t
  | KNoFpDomExc => t_nfdexc t | KNoFpAntiExc => t_nfaexc t
  end.

Definition tset {A} (t : tab A) (k : kind) (x : A) : tab A :=
  let '(mkTab a b c d e f g h i j) := t in
  match k with
  | KFilters => mkTab x b c d e f g h i j
  | KCosmetic => mkTab a x c d e f g h i j
  | KHtml => mkTab a b x d e f g h i j
  | KException => mkTab a b c x e f g h i j
  | KNoFp => mkTab a b c d x f g h i j
  | KNoFpExc => mkTab a b c d e x g h i j
  | KNoFpDom => mkTab a b c d e f x h i j
  | KNoFpAnti => mkTab a b c d e f g x i j
  | KNoFpDomExc => mkTab a b c d e f g h x j
  | KNoFpAntiExc => mkTab a b c d e f g h i x
  end.

Definition tmap2 {A B C} (f : A -> B -> C) (x : tab A) (y : tab B) : tab C :=
  mkTab (f (t_filters x) (t_filters y)) (f (t_cosmetic x) (t_cosmetic y))
        (f (t_html x) (t_html y)) (f (t_exc x) (t_exc y))
        (f (t_nf x) (t_nf y)) (f (t_nfexc x) (t_nfexc y))
        (f (t_nfd x) (t_nfd y)) (f (t_nfa x) (t_nfa y))
        (f (t_nfdexc x) (t_nfdexc y)) (f (t_nfaexc x) (t_nfaexc y)).

(** ad_block_client.h:133-144: statistics counters. *)
Record stats := mkStats {
  st_fp : N; st_efp : N;       (* numFalsePositives, numException... *)
  st_bloom : N; st_ebloom : N; (* numBloomFilterSaves, numException... *)
  st_hash : N; st_ehash : N    (* numHashSetSaves, numException... *)
}.
Definition stats0 : stats := mkStats 0 0 0 0 0 0.

(** The members of [AdBlockClient].  An array and its length field are one
    list.  [c_numHA]/[c_numHAE] are numHostAnchored(Exception)Filters.
    [c_badfp] is the content of [badFingerprintsHashSet].  The memory side
    ([deserializedBuffer], ownership) is in OwnM.v. *)
Record client := mkC {
  c_lists : tab (list filter);
  c_numHA : nat;
  c_numHAE : nat;
  c_bloom : option bloom;
  c_ebloom : option bloom;
  c_host : option (hset filter);
  c_ehost : option (hset filter);
  c_nfd : option (hset bytes);
  c_nfa : option (hset bytes);
  c_nfdexc : option (hset bytes);
  c_nfaexc : option (hset bytes);
  c_badfp : option (list bytes);
  c_stats : stats;
  c_tags : list bytes
}.

(** ad_block_client.cc:472-511 [AdBlockClient::AdBlockClient] *)
Definition client0 : client :=
  mkC (tall []) 0 0 None None None None None None None None None stats0 [].

(** ad_block_client.cc:518-614 [clear]: everything but the tags (and
    [deserializedBuffer]) is reset. *)
Definition clear (c : client) : client :=
  mkC (tall []) 0 0 None None None None None None None None None stats0
      (c_tags c).

(** filter.h:147-174, filter.cc:692-700: host rules are hashed and compared by
    host. *)
Definition hkey (f : filter) : bytes :=
  match f_host f with Some h => h | None => [] end.

(** filter.cc:100-159: the copy stored in a hash set.  [dataLen] bytes of
    [data] are copied, without the terminator. *)
Definition copyFilter (f : filter) : filter :=
  mkF (f_type f) (f_opt f) (f_anti f)
      (match f_data f with Some (d, _) => Some (d, []) | None => None end)
      (f_dom f) (f_tag f) (f_host f) (f_rule f).

(** ** parse *)

(** The sets filled by the second pass (all allocated by lines 1087-1117). *)
Record sets := mkS {
  x_bloom : bloom; x_ebloom : bloom;
  x_host : hset filter; x_ehost : hset filter;
  x_nfd : hset bytes; x_nfa : hset bytes;
  x_nfdexc : hset bytes; x_nfaexc : hset bytes
}.

Definition odef {A} (o : option A) (d : A) : A :=
  match o with Some x => x | None => d end.

(** ad_block_client.cc:1087-1117 *)
Definition initSets (c : client) : sets :=
  mkS (odef (c_bloom c) (bl_new 15 80000))
      (odef (c_ebloom c) (bl_new 10 20000))
      (odef (c_host c) (hs_new 18000))
      (odef (c_ehost c) (hs_new 2000))
      (odef (c_nfd c) (hs_new 1000))
      (odef (c_nfa c) (hs_new 100))
      (odef (c_nfdexc c) (hs_new 1000))
      (odef (c_nfaexc c) (hs_new 100)).

(** ad_block_client.cc:1142-1198 and 1386-1462: the loop cutting the text into
    lines at CR, LF and NUL; a line is its pointer and its length. *)
Fixpoint lines_from (lineStart p : bytes) (n : nat)
  : res (list (bytes * nat)) :=
  match p with
  | [] => UB
  | c :: p' =>
      if ceq c NUL then Ok [(lineStart, n)]
      else if isEndOfLine c then rmap (cons (lineStart, n)) (lines_from p' p' 0)
      else lines_from lineStart p' (S n)
  end.

Definition lines_of (input : bytes) : res (list (bytes * nat)) :=
  lines_from input input 0.

(** Where a parsed line goes: switch of lines 1147-1189 / 1395-1452. *)
Inductive cls :=
| CSkip                 (* unsupported option, empty line or comment *)
| CHost (exc : bool)    (* host-only rule, kept in a hash set *)
| CList (k : kind).

Definition classify_tail (E : env) (f : filter) (host : cls)
    (fp dom anti nofp : kind) : res cls :=
  if has (f_type f) FTHostOnly then Ok host
  else
    g <- getFingerprint E f ;;
    match g with
    | Some _ => Ok (CList fp)
    | None =>
        if isDomainOnlyFilter f then Ok (CList dom)
        else if isAntiDomainOnlyFilter f then Ok (CList anti)
        else Ok (CList nofp)
    end.

Definition classify (E : env) (f : filter) : res cls :=
  if hasUnsupportedOptions f then Ok CSkip
  else
    let t := N.land (f_type f) FTListTypesMask in
    if (t =? FTException)%N then
      classify_tail E f (CHost true) KException KNoFpDomExc KNoFpAntiExc
                    KNoFpExc
    else if (t =? FTElementHiding)%N then Ok (CList KCosmetic)
    else if (t =? FTElementHidingException)%N then Ok (CList KCosmetic)
    else if (t =? FTHTMLFiltering)%N then Ok (CList KHtml)
    else if (t =? FTEmpty)%N then Ok CSkip
    else if (t =? FTComment)%N then Ok CSkip
    else classify_tail E f (CHost false) KFilters KNoFpDom KNoFpAnti KNoFp.

(** Lines 446-457: cosmetic rules touch only the local simpleCosmeticFilters
    set, which is thrown away. *)
Definition is_cosmetic (f : filter) : bool :=
  (f_type f =? FTElementHiding)%N || (f_type f =? FTElementHidingException)%N.

(** Lines 1143-1146: first pass, [parseFilter(lineStart, p, &f)] with null
    sets; the fingerprint of line 461 is computed and dropped. *)
Definition parse1 (E : env) (line : bytes * nat) : res filter :=
  r <- parse_filter false (fst line) (snd line) ;;
  let '(f, reached) := r in
  if reached && negb (is_cosmetic f)
  then _ <- getFingerprint E f ;; Ok f
  else Ok f.

(** Counters of the first pass. *)
Record counts := mkCnt { n_tab : tab nat; n_ha : nat; n_hae : nat }.
Definition counts0 : counts := mkCnt (tall 0) 0 0.

Definition count1 (E : env) (n : counts) (line : bytes * nat) : res counts :=
  f <- parse1 E line ;;
  k <- classify E f ;;
  Ok match k with
     | CSkip => n
     | CHost false => mkCnt (n_tab n) (S (n_ha n)) (n_hae n)
     | CHost true => mkCnt (n_tab n) (n_ha n) (S (n_hae n))
     | CList k => mkCnt (tset (n_tab n) k (S (tget (n_tab n) k)))
                        (n_ha n) (n_hae n)
     end.

Fixpoint foldM {A B} (f : B -> A -> res B) (acc : B) (l : list A) : res B :=
  match l with
  | [] => Ok acc
  | x :: l' => b <- f acc x ;; foldM f b l'
  end.

(** ad_block_client.cc:443-469: second pass, insertion of a parsed rule in the
    sets. *)
Definition insert2 (E : env) (f : filter) (s : sets) : res sets :=
  if is_cosmetic f then Ok s
  else if has (f_type f) FTException && has (f_type f) FTHostOnly then
    Ok (mkS (x_bloom s) (x_ebloom s) (x_host s)
            (hs_add hkey (e_hash E) (x_ehost s) (copyFilter f))
            (x_nfd s) (x_nfa s) (x_nfdexc s) (x_nfaexc s))
  else if has (f_type f) FTHostOnly then
    Ok (mkS (x_bloom s) (x_ebloom s)
            (hs_add hkey (e_hash E) (x_host s) (copyFilter f)) (x_ehost s)
            (x_nfd s) (x_nfa s) (x_nfdexc s) (x_nfaexc s))
  else
    g <- getFingerprint E f ;;
    match g with
    | None => Ok s
    | Some fp =>
        if has (f_type f) FTException then
          Ok (mkS (x_bloom s) (bl_add (e_hashes E) (x_ebloom s) fp) (x_host s)
                  (x_ehost s) (x_nfd s) (x_nfa s) (x_nfdexc s) (x_nfaexc s))
        else
          Ok (mkS (bl_add (e_hashes E) (x_bloom s) fp) (x_ebloom s) (x_host s)
                  (x_ehost s) (x_nfd s) (x_nfa s) (x_nfdexc s) (x_nfaexc s))
    end.

Definition parse2 (E : env) (pres : bool) (line : bytes * nat) (s : sets)
  : res (filter * sets) :=
  r <- parse_filter pres (fst line) (snd line) ;;
  let '(f, reached) := r in
  if reached then s' <- insert2 E f s ;; Ok (f, s') else Ok (f, s).

(** ad_block_client.cc:66-99 [AddFilterDomainsToHashSet]: each non-empty piece
    goes through a 1024 byte stack buffer. *)
Definition addDomain (E : env) (s : hset bytes) (d : bytes)
  : res (hset bytes) :=
  match d with
  | [] => Ok s
  | c :: d' =>
      let item := if ceq c "~" then d' else d in
      if 1024 <? length item then UB
      else Ok (hs_add (fun x => x) (e_hash E) s item)
  end.

Definition addFilterDomains (E : env) (f : filter) (s : hset bytes)
  : res (hset bytes) :=
  match f_dom f with
  | None => Ok s
  | Some dl => foldM (addDomain E) s (split_on "|" dl)
  end.

Definition add_gate (E : env) (f : filter) (k : kind) (s : sets) : res sets :=
  match k with
  | KNoFpDom =>
      d <- addFilterDomains E f (x_nfd s) ;;
      Ok (mkS (x_bloom s) (x_ebloom s) (x_host s) (x_ehost s)
              d (x_nfa s) (x_nfdexc s) (x_nfaexc s))
  | KNoFpAnti =>
      d <- addFilterDomains E f (x_nfa s) ;;
      Ok (mkS (x_bloom s) (x_ebloom s) (x_host s) (x_ehost s)
              (x_nfd s) d (x_nfdexc s) (x_nfaexc s))
  | KNoFpDomExc =>
      d <- addFilterDomains E f (x_nfdexc s) ;;
      Ok (mkS (x_bloom s) (x_ebloom s) (x_host s) (x_ehost s)
              (x_nfd s) (x_nfa s) d (x_nfaexc s))
  | KNoFpAntiExc =>
      d <- addFilterDomains E f (x_nfaexc s) ;;
      Ok (mkS (x_bloom s) (x_ebloom s) (x_host s) (x_ehost s)
              (x_nfd s) (x_nfa s) (x_nfdexc s) d)
  | _ => Ok s
  end.

(** Lines 1387-1455: one line of the second pass.  [w] are the arrays written
    so far, [cap] their allocated sizes; a write past the end is [UB]. *)
Definition line2 (E : env) (pres : bool) (cap : tab nat)
    (a : sets * tab (list filter)) (line : bytes * nat)
  : res (sets * tab (list filter)) :=
  let '(s, w) := a in
  r <- parse2 E pres line s ;;
  let '(f, s1) := r in
  k <- classify E f ;;
  match k with
  | CSkip | CHost _ => Ok (s1, w)
  | CList k =>
      s2 <- add_gate E f k s1 ;;
      if length (tget w k) <? tget cap k
      then Ok (s2, tset w k (tget w k ++ [f]))
      else UB
  end.

(** Slots allocated but not written stay default-constructed. *)
Definition pad (cap : nat) (l : list filter) : list filter :=
  l ++ repeat filter0 (cap - length l).

(** ad_block_client.cc:1082-1469 [parse]: two passes over the text. *)
Definition parse (E : env) (pres : bool) (input : bytes) (c : client)
  : res client :=
  ls <- lines_of input ;;
  n <- foldM (count1 E) counts0 ls ;;
  let cap := tmap2 (fun l m => length l + m) (c_lists c) (n_tab n) in
  r <- foldM (line2 E pres cap) (initSets c, c_lists c) ls ;;
  let '(s, w) := r in
  Ok (mkC (tmap2 pad cap w)
          (c_numHA c + n_ha n) (c_numHAE c + n_hae n)
          (Some (x_bloom s)) (Some (x_ebloom s))
          (Some (x_host s)) (Some (x_ehost s))
          (Some (x_nfd s)) (Some (x_nfa s))
          (Some (x_nfdexc s)) (Some (x_nfaexc s))
          (c_badfp c) (c_stats c) (c_tags c)).

(** ** Tags (ad_block_client.cc:1471-1486) *)
Definition tagExists (c : client) (t : bytes) : bool := memb t (c_tags c).

Definition set_tags (c : client) (ts : list bytes) : client :=
  mkC (c_lists c) (c_numHA c) (c_numHAE c) (c_bloom c) (c_ebloom c) (c_host c)
      (c_ehost c) (c_nfd c) (c_nfa c) (c_nfdexc c) (c_nfaexc c) (c_badfp c)
      (c_stats c) ts.

Definition addTag (c : client) (t : bytes) : client :=
  if tagExists c t then c else set_tags c (t :: c_tags c).

Definition removeTag (c : client) (t : bytes) : client :=
  set_tags c (List.filter (fun x => negb (beq t x)) (c_tags c)).

Definition tag_ok (c : client) (f : filter) : bool :=
  match f_tag f with [] => true | t => tagExists c t end.

(** ** Matching *)

(** ad_block_client.cc:616-642 [hasMatchingFilters] *)
Fixpoint hasMatchingFilters (E : env) (c : client) (fs : list filter)
    (input : bytes) (inputLen : nat) (context : N) (dom : option bytes)
    (bf : option bloom) (host : bytes) : res (option filter) :=
  match fs with
  | [] => Ok None
  | f :: fs' =>
      m <- filter_matches E f input inputLen context dom bf host ;;
      if m && tag_ok c f then Ok (Some f)
      else hasMatchingFilters E c fs' input inputLen context dom bf host
  end.

(** Lines 675-682 and 707-714: from the end of the host back to the last dot;
    the result is [start - host]. *)
Fixpoint skip_tld (h : bytes) (k : nat) : nat :=
  match k with
  | 0 => 0
  | S k' => if ceq (nth k' h NUL) "." then k' else skip_tld h k'
  end.

Definition in_gate (E : env) (s : hset bytes) (d : bytes) : bool :=
  match hs_find (fun x => x) (e_hash E) s d with
  | Some _ => true | None => false
  end.

(** Lines 683-693 *)
Fixpoint gate_walk (E : env) (s : hset bytes) (h : bytes) (k : nat) : bool :=
  match k with
  | 0 => in_gate E s h
  | S k' => (ceq (nth k' h NUL) "." && in_gate E s (skipn k h))
            || gate_walk E s h k'
  end.

(** ad_block_client.cc:670-694 [isNoFingerprintDomainHashSetMiss].  A null
    domain is looked up with hash 0 (no_fingerprint_domain.cc:54-59). *)
Definition nfMiss (E : env) (s : option (hset bytes)) (dom : option bytes)
  : bool :=
  match s with
  | None => false
  | Some s =>
      match dom with
      | Some h => negb (gate_walk E s h (skip_tld h (length h)))
      | None => negb (existsb (fun y => beq y []) (nth 0 s []))
      end
  end.

(** Result of [isHostAnchoredHashSetMiss]: no set at all (the function returns
    false without a filter), a miss, or a hit. *)
Inductive hres := HNoSet | HMiss | HHit (f : filter).

Definition host_probe (E : env) (c : client) (s : hset filter) (h : bytes)
    (input : bytes) (inputLen : nat) (context : N) (dom : option bytes)
  : res (option filter) :=
  match hs_find hkey (e_hash E) s h with
  | None => Ok None
  | Some f =>
      m <- filter_matches E f input inputLen context dom None [] ;;
      Ok (if m && tag_ok c f then Some f else None)
  end.

(** Lines 716-751 *)
Fixpoint host_walk (E : env) (c : client) (s : hset filter) (h : bytes)
    (k : nat) (input : bytes) (inputLen : nat) (context : N)
    (dom : option bytes) : res (option filter) :=
  match k with
  | 0 => host_probe E c s h input inputLen context dom
  | S k' =>
      r <- (if ceq (nth k' h NUL) "."
            then host_probe E c s (skipn k h) input inputLen context dom
            else Ok None) ;;
      match r with
      | Some f => Ok (Some f)
      | None => host_walk E c s h k' input inputLen context dom
      end
  end.

(** ad_block_client.cc:696-752 [isHostAnchoredHashSetMiss] *)
Definition hostLookup (E : env) (c : client) (s : option (hset filter))
    (host : bytes) (input : bytes) (inputLen : nat) (context : N)
    (dom : option bytes) : res hres :=
  match s with
  | None => Ok HNoSet
  | Some s =>
      r <- host_walk E c s host (skip_tld host (length host)) input inputLen
                     context dom ;;
      Ok (match r with Some f => HHit f | None => HMiss end)
  end.

(** Lines 776-786: party flags when the caller gave none. *)
Definition party_context (context : N) (dom : option bytes) (host : bytes)
  : N :=
  match dom with
  | Some d =>
      if has context (N.lor FOThirdParty FONotThirdParty) then context
      else if isThirdPartyHost d host then N.lor context FOThirdParty
      else N.lor context FONotThirdParty
  | None => context
  end.

(** Lines 788-795: the two-byte Bloom filter of the URL. *)
Definition inputBloom (E : env) (url : bytes) : bloom :=
  fold_left (bl_add (e_hash2 E)) (pairs url) (bl_new 10 1024).

Definition set_stats (c : client) (s : stats) (b : option (list bytes))
  : client :=
  mkC (c_lists c) (c_numHA c) (c_numHAE c) (c_bloom c) (c_ebloom c) (c_host c)
      (c_ehost c) (c_nfd c) (c_nfa c) (c_nfdexc c) (c_nfaexc c) b s (c_tags c).

(** ad_block_client.cc:644-668 [discoverMatchingPrefix].  A null Bloom filter
    is dereferenced if the URL has a window at all. *)
Definition discover (E : env) (bad : option (list bytes)) (url : bytes)
    (b : option bloom) : res (option (list bytes)) :=
  match bad with
  | None => Ok None
  | Some l =>
      match b with
      | None => if length url <? kFingerprintSize then Ok bad else UB
      | Some bl =>
          Ok (Some (match find (bl_exists (e_hashes E) bl)
                               (windows kFingerprintSize url) with
                    | Some w => if memb w l then l else l ++ [w]
                    | None => l
                    end))
      end
  end.

Definition bloomMiss (E : env) (b : option bloom) (url : bytes) : bool :=
  match b with
  | Some bl => negb (bl_substringExists (e_hashes E) bl url kFingerprintSize)
  | None => false
  end.

(** Everything about a request that the scans below need. *)
Record query := mkQ {
  q_input : bytes;         (* the URL pointer *)
  q_len : nat;             (* inputLen *)
  q_url : bytes;           (* its bytes *)
  q_context : N;           (* contextOption after lines 776-786 *)
  q_dom : option bytes;    (* contextDomain *)
  q_host : bytes           (* inputHost *)
}.

Definition scan (E : env) (c : client) (k : kind) (q : query)
    (bf : option bloom) : res (option filter) :=
  hasMatchingFilters E c (tget (c_lists c) k) (q_input q) (q_len q)
    (q_context q) (q_dom q) bf (q_host q).

Definition lookup (E : env) (c : client) (s : option (hset filter)) (q : query)
  : res hres :=
  hostLookup E c s (q_host q) (q_input q) (q_len q) (q_context q) (q_dom q).

(** [a || b] on filters found *)
Definition orelse (a b : res (option filter)) : res (option filter) :=
  x <- a ;; match x with Some f => Ok (Some f) | None => b end.

Definition when (b : bool) (r : res (option filter)) : res (option filter) :=
  if b then r else Ok None.

(** Lines 798-866 of [matches]: [(hasMatch, *matchedFilter, this)]. *)
Definition block_phase (E : env) (c : client) (q : query) (bf : option bloom)
  : res (bool * option filter * client) :=
  m <- orelse (when (negb (nfMiss E (c_nfd c) (q_dom q)))
                    (scan E c KNoFpDom q bf))
      (orelse (when (nfMiss E (c_nfa c) (q_dom q)) (scan E c KNoFpAnti q bf))
              (scan E c KNoFp q bf)) ;;
  match m with
  | Some f => Ok (true, Some f, c)
  | None =>
      let bm := bloomMiss E (c_bloom c) (q_url q) in
      h <- lookup E c (c_host c) q ;;
      match h with
      | HHit f => Ok (true, Some f, c)
      | HNoSet => Ok (true, None, c)
      | HMiss =>
          let s := c_stats c in
          if bm then
            Ok (false, None,
                set_stats c (mkStats (st_fp s) (st_efp s) (st_bloom s + 1)
                               (st_ebloom s) (st_hash s + 1) (st_ehash s))
                          (c_badfp c))
          else
            r <- scan E c KFilters q bf ;;
            match r with
            | Some f => Ok (true, Some f, c)
            | None =>
                bad <- discover E (c_badfp c) (q_url q) (c_bloom c) ;;
                Ok (false, None,
                    set_stats c (mkStats (st_fp s + 1) (st_efp s) (st_bloom s)
                                   (st_ebloom s) (st_hash s) (st_ehash s)) bad)
            end
      end
  end.

(** Lines 868-945: [(block, *matchedExceptionFilter, this)] *)
Definition exc_phase (E : env) (c : client) (q : query) (bf : option bloom)
  : res (bool * option filter * client) :=
  m <- orelse (when (negb (nfMiss E (c_nfdexc c) (q_dom q)))
                    (scan E c KNoFpDomExc q bf))
      (orelse (when (nfMiss E (c_nfaexc c) (q_dom q))
                    (scan E c KNoFpAntiExc q bf))
              (scan E c KNoFpExc q bf)) ;;
  match m with
  | Some f => Ok (false, Some f, c)
  | None =>
      let bm := bloomMiss E (c_ebloom c) (q_url q) in
      h <- lookup E c (c_ehost c) q ;;
      let s := c_stats c in
      match h with
      | HHit f =>
          Ok (false, Some f,
              set_stats c (mkStats (st_fp s) (st_efp s) (st_bloom s)
                             (st_ebloom s) (st_hash s) (st_ehash s + 1))
                        (c_badfp c))
      | HNoSet =>
          Ok (false, None,
              set_stats c (mkStats (st_fp s) (st_efp s) (st_bloom s)
                             (st_ebloom s) (st_hash s) (st_ehash s + 1))
                        (c_badfp c))
      | HMiss =>
          if bm then
            Ok (true, None,
                set_stats c (mkStats (st_fp s) (st_efp s) (st_bloom s)
                               (st_ebloom s + 1) (st_hash s) (st_ehash s + 1))
                          (c_badfp c))
          else
            r <- scan E c KException q bf ;;
            match r with
            | Some f => Ok (false, Some f, c)
            | None =>
                bad <- discover E (c_badfp c) (q_url q) (c_ebloom c) ;;
                Ok (true, None,
                    set_stats c (mkStats (st_fp s) (st_efp s + 1) (st_bloom s)
                                   (st_ebloom s) (st_hash s) (st_ehash s)) bad)
            end
      end
  end.

Record verdict := mkV {
  v_block : bool;                (* return value *)
  v_filter : option filter;      (* *matchedFilter *)
  v_exc : option filter          (* *matchedExceptionFilter *)
}.

Definition mkQuery (input : bytes) (n : nat) (context : N)
    (dom : option bytes) : res query :=
  host <- getUrlHost input ;;
  Ok (mkQ input n (firstn n input) (party_context context dom host) dom host).

(** ad_block_client.cc:754-946 [matches] *)
Definition matches (E : env) (c : client) (input : bytes) (context : N)
    (dom : option bytes) : res (verdict * client) :=
  n <- strlen input ;;
  web <- isBlockableProtocol input n ;;
  if negb web then Ok (mkV false None None, c)
  else
    q <- mkQuery input n context dom ;;
    let bf := Some (inputBloom E (q_url q)) in
    b <- block_phase E c q bf ;;
    let '(hit, mf, c1) := b in
    if negb hit then Ok (mkV false mf None, c1)
    else
      x <- exc_phase E c1 q bf ;;
      let '(block, me, c2) := x in
      Ok (mkV block mf me, c2).

Definition lookup_filter (E : env) (c : client) (s : option (hset filter))
    (q : query) : res (option filter) :=
  h <- lookup E c s q ;;
  Ok (match h with HHit f => Some f | _ => None end).

(** ad_block_client.cc:954-1048 [findMatchingFilters] *)
Definition findMatchingFilters (E : env) (c : client) (input : bytes)
    (context : N) (dom : option bytes) : res verdict :=
  n <- strlen input ;;
  q <- mkQuery input n context dom ;;
  m <- orelse (scan E c KNoFp q None)
      (orelse (scan E c KNoFpDom q None)
      (orelse (scan E c KNoFpAnti q None)
      (orelse (scan E c KFilters q None)
              (lookup_filter E c (c_host c) q)))) ;;
  match m with
  | None => Ok (mkV false None None)
  | Some f =>
      x <- orelse (scan E c KNoFpExc q None)
          (orelse (scan E c KNoFpDomExc q None)
          (orelse (scan E c KNoFpAntiExc q None)
          (orelse (lookup_filter E c (c_ehost c) q)
                  (scan E c KException q None)))) ;;
      Ok (mkV (match x with None => true | Some _ => false end) (Some f) x)
  end.

(** hash_set.h [Add] of a fingerprint that may be present already (the single
    bucket is searched first).  All [BadFingerprint]s have the same hash. *)
Definition bad_add (l : list bytes) (w : bytes) : list bytes :=
  if memb w l then l else l ++ [w].

(** ad_block_client.cc:1893-1903 [enableBadFingerprintDetection] *)
Definition enableBadFp (E : env) (c : client) : client :=
  match c_badfp c with
  | Some _ => c
  | None => set_stats c (c_stats c) (Some (fold_left bad_add (e_bads E) []))
  end.
