(** What the calls of a client make of the heap, read off their arguments: the
    shapes (OwnM.v) of the lines of a list and of the rules of a buffer, from
    the text that parse() and deserialize() are given. *)
From Verif Require Import Base Flags Sets FilterM ParseM ClientM SerialM OwnM.

Definition isSome {A} (o : option A) : bool :=
  match o with Some _ => true | None => false end.

(** ad_block_client.cc:251-425, the loop of [parseFilter] once more, for the
    text that line 384 hands to [parseOptions] (nothing if that line is not
    reached).  Same recursion as [pf_loop]. *)
Fixpoint pf_opts (pres : bool) (input : bytes) (ilen : nat)
    (n : nat) (p : bytes) (s : ps) : res (option bytes) :=
  match n with
  | 0 => Ok None
  | S n1 =>
      if kMaxLineLength - 1 <=? s_pos s then Ok None
      else match p with
      | [] => UB
      | c :: p1 =>
          a <- pf_step pres input ilen n1 c p1 s ;;
          match a with
          | ANext1 s' => pf_opts pres input ilen n1 p1 s'
          | ANext2 s' =>
              match n1, p1 with
              | S n2, _ :: p2 => pf_opts pres input ilen n2 p2 s'
              | _, _ => UB
              end
          | AReturn f => Ok None
          | ABreak s' => rmap Some (option_text p1)
          end
      end
  end.

Definition options_read (pres : bool) (line : bytes * nat) : res (option bytes) :=
  pf_opts pres (fst line) (snd line) (snd line) (fst line) (mkPs FPStart filter0 [] 0 0 0).

(** filter.cc:247-265: the segments of the option text that set [domainList]
    or [tag]; each allocates a block, and overwrites the pointer set by an
    earlier one. *)
Definition unnegated (seg : bytes) : bytes :=
  match seg with c :: s => if ceq c "~" then s else seg | [] => seg end.

Definition sets_domains (seg : bytes) : bool := prefixb (B "domain=") (unnegated seg).
Definition sets_tag (seg : bytes) : bool :=
  negb (sets_domains seg) && prefixb (B "tag=") (unnegated seg).

Definition segments (o : option bytes) : list bytes :=
  match o with Some txt => split_on "," txt | None => [] end.

Definition lost_by_options (o : option bytes) : nat :=
  pred (length (List.filter sets_domains (segments o)))
  + pred (length (List.filter sets_tag (segments o))).

(** filter.cc:659-690: entries of the domain list without and with '~'. *)
Definition some_plain (f : filter) : bool := nonempty (f_domains f).
Definition some_not (f : filter) : bool := nonempty (f_antiDomains f).

(** ad_block_client.cc:1147-1189: isDomainOnlyFilter() is called when there is
    no fingerprint. *)
Definition asks_domains (k : cls) : bool :=
  match k with
  | CList (KNoFp | KNoFpExc | KNoFpDom | KNoFpAnti | KNoFpDomExc | KNoFpAntiExc) => true
  | _ => false
  end.

(** ad_block_client.cc:443-469: insertion in the host sets, whatever the
    options; [HashSet::Add] copies the rule if its host is not there yet. *)
Definition insertion (E : env) (f : filter) (reached : bool) (s : sets) : option (bool * bool) :=
  if reached && negb (is_cosmetic f) && has (f_type f) FTHostOnly then
    let exc := has (f_type f) FTException in
    Some (exc, negb (isSome (hs_find hkey (e_hash E) (if exc then x_ehost s else x_host s)
                                     (hkey f))))
  else None.

(** Number of entries of the page-domain set of an array. *)
Definition entries (k : kind) (s : sets) : nat :=
  length (concat (match k with
                  | KNoFpDom => x_nfd s | KNoFpAnti => x_nfa s
                  | KNoFpDomExc => x_nfdexc s | KNoFpAntiExc => x_nfaexc s
                  | _ => [] end)).

(** ad_block_client.cc:1386-1455: one line, and the sets after it.  (The first
    pass reads the line without keeping the rule text; OwnM.v allocates and
    releases it there too.) *)
Definition line_shape (E : env) (pres : bool) (s : sets) (line : bytes * nat)
  : res (lshape * sets) :=
  r <- parse_filter pres (fst line) (snd line) ;;
  let '(f, reached) := r in
  o <- options_read pres line ;;
  k <- classify E f ;;
  s1 <- (if reached then insert2 E f s else Ok s) ;;
  s2 <- (match k with CList k => add_gate E f k s1 | _ => Ok s1 end) ;;
  Ok (mkL (isSome (f_data f)) (isSome (f_rule f)) (isSome (f_dom f))
          (nonempty (List.filter sets_tag (segments o))) (isSome (f_host f))
          (nonempty (f_tag f)) (some_plain f) (some_not f)
          (lost_by_options o) (asks_domains k) (insertion E f reached s)
          (match k with CList k => entries k s2 - entries k s1 | _ => 0 end)
          (match k with CList k => Some k | _ => None end), s2).

Fixpoint line_shapes (E : env) (pres : bool) (s : sets) (ls : list (bytes * nat))
  : res (list lshape) :=
  match ls with
  | [] => Ok []
  | line :: ls' =>
      r <- line_shape E pres s line ;;
      rmap (cons (fst r)) (line_shapes E pres (snd r) ls')
  end.

(** ad_block_client.cc:1082-1469: the lines of the text given to parse(). *)
Definition text_shapes (E : env) (pres : bool) (input : bytes) (c : client)
  : res (list lshape) :=
  ls <- lines_of input ;; line_shapes E pres (initSets c) ls.

(** ad_block_client.cc:1729-1780 and filter.cc:760-819: a rule that
    deserialize() has read.  The pointer to an empty tag may be null or not,
    depending on whether "~#" is in the buffer. *)
Definition fits (f : filter) (s : fshape) : Prop :=
  s_data s = isSome (f_data f) /\ s_dom s = isSome (f_dom f) /\
  s_host s = isSome (f_host f) /\ (f_tag f <> [] -> s_tag s = true) /\
  s_tagged s = nonempty (f_tag f) /\ s_plain s = some_plain f /\ s_not s = some_not f.

Definition set_of (c : client) (k : kind) : option (hset bytes) :=
  match k with
  | KNoFpDom => c_nfd c | KNoFpAnti => c_nfa c
  | KNoFpDomExc => c_nfdexc c | KNoFpAntiExc => c_nfaexc c
  | _ => None
  end.

(** ad_block_client.cc:1782-1891: the client [c] as deserialize() has built it. *)
Definition built (c : client) (d : dshape) : Prop :=
  (forall k, Forall2 fits (tget (c_lists c) k) (d_arrs d k)) /\
  d_bloom d = isSome (c_bloom c) /\ d_ebloom d = isSome (c_ebloom c) /\
  match c_host c, d_host d with
  | Some s, Some l => Forall2 fits (concat s) l | None, None => True | _, _ => False end /\
  match c_ehost c, d_ehost d with
  | Some s, Some l => Forall2 fits (concat s) l | None, None => True | _, _ => False end /\
  (forall k, d_gates d k = option_map (fun s => length (concat s)) (set_of c k)).
