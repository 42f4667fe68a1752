(** Model of rule parsing and fingerprinting in /repo/ad_block_client.cc. *)
From Verif Require Import Base Flags Url Sets FilterM.

(** ** Fingerprints *)

(** ad_block_client.cc:40 [kFingerprintSize] *)
Definition kFingerprintSize : nat := 6.

(** bad_fingerprints.h:14755 [badSubstrings] *)
Definition badSubstrings : list bytes := [B "http"; B "www"].

(** ad_block_client.cc:101-103 *)
Definition isFingerprintChar (c : ascii) : bool :=
  negb (ceq c "|") && negb (ceq c "*") && negb (ceq c "^").

(** ad_block_client.cc:105-114 [isBadFingerprint]: [strncmp(bad, fp, 6) == 0]
    for a table entry; the six fingerprint bytes are not NUL. *)
Definition isBadFingerprint (bads : list bytes) (fp : bytes) : bool :=
  existsb (fun bad => prefixb fp (cstr bad)) bads.

(** ad_block_client.cc:116-126 [hasBadSubstring(start, start + m)]. *)
Fixpoint hasBadSubstring (subs : list bytes) (start : bytes) (m : nat)
  : res bool :=
  match subs with
  | [] => Ok false
  | sub :: subs' =>
      o <- strstr start sub ;;
      match o with
      | Some k => if k + length sub <=? m then Ok true
                  else hasBadSubstring subs' start m
      | None => hasBadSubstring subs' start m
      end
  end.

Inductive wres :=
| WEnd                 (* NUL reached: no fingerprint *)
| WSkip (k : nat)      (* special character at offset k - 1: restart after it *)
| WNext                (* bad substring or bad fingerprint: restart at start+1 *)
| WFound (fp : bytes).

(** ad_block_client.cc:138-169: one attempt at [start].  The loop keeps
    [p = start + size], [todo] is [kFingerprintSize - size]. *)
Fixpoint gf_window (bads : list bytes) (start : bytes) (size todo : nat)
  : res wres :=
  match todo with
  | 0 => Ok WEnd
  | S todo' =>
      c <- rd start size ;;
      if ceq c NUL then Ok WEnd
      else if negb (isFingerprintChar c) then Ok (WSkip (S size))
      else
        b <- hasBadSubstring badSubstrings start (size + 1) ;;
        if b then Ok WNext
        else match todo' with
             | 0 => let fp := firstn kFingerprintSize start in
                    if isBadFingerprint bads fp then Ok WNext
                    else Ok (WFound fp)
             | _ => gf_window bads start (S size) todo'
             end
  end.

(** ad_block_client.cc:131-174 [getFingerprint(buffer, input)] for a non-null
    [input]; [skip] bytes are to be passed over before the next attempt.  The
    result is the content of [buffer]. *)
Fixpoint gf_scan (bads : list bytes) (start : bytes) (skip : nat)
  : res (option bytes) :=
  match start with
  | [] => UB
  | _ :: t =>
      match skip with
      | S k => gf_scan bads t k
      | 0 =>
          w <- gf_window bads start 0 kFingerprintSize ;;
          match w with
          | WEnd => Ok None
          | WSkip k => gf_scan bads t (k - 1)
          | WNext => gf_scan bads t 0
          | WFound fp => Ok (Some fp)
          end
      end
  end.

Definition getFingerprintStr (bads : list bytes) (p : bytes)
  : res (option bytes) := gf_scan bads p 0.

(** ad_block_client.cc:176-193 [getFingerprint(buffer, f)].  [f.data +
    strlen(f.host)] on a null pointer is null only for an empty host. *)
Definition getFingerprint (E : env) (f : filter) : res (option bytes) :=
  if has (f_type f) FTRegex then Ok None
  else
    first <- (if has (f_type f) FTHostAnchored then
                match f_host f with
                | None => UB
                | Some h =>
                    match f_data f with
                    | None => if length h =? 0 then Ok None else UB
                    | Some (d, t) =>
                        getFingerprintStr (e_bads E) (skipn (length h) (d ++ t))
                    end
                end
              else Ok None) ;;
    match first with
    | Some fp => Ok (Some fp)
    | None =>
        match f_data f with
        | None => Ok None
        | Some (d, t) => getFingerprintStr (e_bads E) (d ++ t)
        end
    end.

(** ** parseFilter *)

(** ad_block_client.cc:224-232 *)
Inductive pstate :=
| FPStart | FPPastWhitespace | FPOneBar | FPOneAt | FPData | FPDataOnly.

Definition is_start (s : pstate) : bool :=
  match s with FPStart => true | _ => false end.
Definition is_start_or_past (s : pstate) : bool :=
  match s with FPStart | FPPastWhitespace => true | _ => false end.
Definition is_onebar (s : pstate) : bool :=
  match s with FPOneBar => true | _ => false end.
Definition is_oneat (s : pstate) : bool :=
  match s with FPOneAt => true | _ => false end.
Definition is_dataonly (s : pstate) : bool :=
  match s with FPDataOnly => true | _ => false end.

(** Local variables of [parseFilter]: [s_f] is [*f], [s_data] the first [i]
    bytes of [data], [s_rs]/[s_re] are [filterRuleStart - input] and
    [filterRuleEndPos - input], [s_pos] is [p - input]. *)
Record ps := mkPs {
  s_st : pstate;
  s_f : filter;
  s_data : bytes;
  s_rs : nat;
  s_re : nat;
  s_pos : nat
}.

Definition set_type (f : filter) (t : N) : filter :=
  mkF t (f_opt f) (f_anti f) (f_data f) (f_dom f) (f_tag f) (f_host f)
      (f_rule f).
Definition add_type (f : filter) (t : N) : filter :=
  set_type f (N.lor (f_type f) t).
Definition set_host (f : filter) (h : bytes) : filter :=
  mkF (f_type f) (f_opt f) (f_anti f) (f_data f) (f_dom f) (f_tag f) (Some h)
      (f_rule f).
Definition set_dom (f : filter) (d : bytes) : filter :=
  mkF (f_type f) (f_opt f) (f_anti f) (f_data f) (Some d) (f_tag f) (f_host f)
      (f_rule f).
Definition set_data (f : filter) (d : bytes) : filter :=
  mkF (f_type f) (f_opt f) (f_anti f) (Some (d, [NUL])) (f_dom f) (f_tag f)
      (f_host f) (f_rule f).
Definition set_rule (f : filter) (r : option bytes) : filter :=
  mkF (f_type f) (f_opt f) (f_anti f) (f_data f) (f_dom f) (f_tag f) (f_host f)
      r.

(** One round of the loop of lines 251-425. *)
Inductive action :=
| ANext1 (s : ps)       (* p++ ; next round *)
| ANext2 (s : ps)       (* p += 2 ; next round *)
| AReturn (f : filter)  (* return *)
| ABreak (s : ps).      (* earlyBreak *)

(** ad_block_client.cc:38 [kMaxLineLength] *)
Definition kMaxLineLength : nat := 2048.

(** lines 421-424: [data[i++] = *p; filterRuleEndPos++; p++], in state [st].
    Writing past the 2048 byte buffer is [UB]. *)
Definition put (st : pstate) (f : filter) (c : ascii) (s : ps) : res action :=
  if length (s_data s) <? kMaxLineLength
  then Ok (ANext1 (mkPs st f (s_data s ++ [c]) (s_rs s) (S (s_re s))
                        (S (s_pos s))))
  else UB.

(** [filterRuleEndPos++; p++; continue] *)
Definition skip1 (st : pstate) (f : filter) (s : ps) : action :=
  ANext1 (mkPs st f (s_data s) (s_rs s) (S (s_re s)) (S (s_pos s))).

Definition eol_or (x : ascii) : bool :=
  ceq x NUL || ceq x "$" || isEndOfLine x.

(** lines 278-294: the host of a "||" rule; [p] is just past the bars and [n]
    is [end - p]. Returns the host and whether the rule is host-only. *)
Definition parse_host (p : bytes) (n : nat) : res (bytes * bool) :=
  len0 <- findFirstSeparatorChar p n ;;
  len <- (if 0 <? len0 then
            c <- rd p (len0 - 1) ;;
            Ok (if ceq c "|" then len0 - 1 else len0)
          else Ok len0) ;;
  x <- rd p len ;;
  ho <- (if ceq x "^" then y <- rd p (len + 1) ;; Ok (eol_or y)
         else Ok (eol_or x)) ;;
  Ok (firstn len p, ho).

(** lines 370-374 and 398-402: a non-empty [data] becomes the domain list. *)
Definition take_domains (f : filter) (data : bytes) : filter :=
  match data with [] => f | _ => set_dom f data end.

Definition pf_step (pres : bool) (input : bytes) (ilen : nat)
    (n1 : nat) (c : ascii) (p1 : bytes) (s : ps) : res action :=
  if is_dataonly (s_st s) then put FPDataOnly (s_f s) c s
  else
    (* lines 258-261 *)
    let lb := is_onebar (s_st s) && negb (ceq c "|") in
    let st := if lb then FPData else s_st s in
    let f := if lb then add_type (s_f s) FTLeftAnchored else s_f s in
    if ceq c "|" then
      if is_start_or_past st then Ok (skip1 FPOneBar f s)
      else if is_onebar st then
        hh <- parse_host p1 n1 ;;
        let f1 := set_host (add_type f FTHostAnchored) (fst hh) in
        let f2 := if snd hh then add_type f1 FTHostOnly else f1 in
        Ok (skip1 FPData f2 s)
      else Ok (skip1 FPData (add_type f FTRightAnchored) s)
    else if ceq c "@" then
      if is_start_or_past st then Ok (skip1 FPOneAt f s)
      else if is_oneat st then
        Ok (skip1 FPPastWhitespace (set_type f FTException) s)
      else put st f c s
    else if ceq c "!" || ceq c "[" then
      if is_start_or_past st then Ok (AReturn (set_type f FTComment))
      else put st f c s
    else if ceq c CR || ceq c LF || ceq c TAB || ceq c " " then
      if is_start st then
        Ok (ANext1 (mkPs st f (s_data s) (S (s_rs s)) (S (s_re s))
                         (S (s_pos s))))
      else put st f c s
    else if ceq c "/" then
      if is_start_or_past st then
        x <- rd input (ilen - 1) ;;
        if ceq x "/" && (1 <? ilen) then
          let i := length (s_data s) in
          (* lines 346-357; [new char[len]] with [len >= 1] *)
          if ilen - i - 1 =? 0 then UB
          else
            let d := firstn (ilen - i - 2) (skipn (i + 1) input) in
            let f1 := set_type (set_data f d) FTRegex in
            Ok (AReturn (if pres then set_rule f1 (Some d) else f1))
        else put FPData f c s
      else put st f c s
    else if ceq c "$" then
      y <- deref p1 ;;
      if ceq y "$" then
        Ok (ANext2 (mkPs FPDataOnly
                         (set_type (take_domains f (s_data s)) FTHTMLFiltering)
                         [] (s_rs s) (2 + s_re s) (2 + s_pos s)))
      else
        rest <- option_text (skipn (s_re s) input) ;;
        f1 <- parseOptions f p1 ;;
        Ok (ABreak (mkPs st f1 (s_data s) (s_rs s) (s_re s + length rest)
                         (s_pos s)))
    else if ceq c "#" then
      y <- deref p1 ;;
      if is_start_or_past st && ceq y " " then
        Ok (AReturn (set_type f FTComment))
      else if ceq y "#" || ceq y "@" then
        Ok (ANext2 (mkPs FPDataOnly
                         (set_type (take_domains f (s_data s))
                            (if ceq y "#" then FTElementHiding
                             else FTElementHidingException))
                         [] (s_rs s) (s_re s) (2 + s_pos s)))
      else put FPData f c s
    else put FPData f c s.

Inductive pout :=
| PReturn (f : filter)
| PEnd (s : ps).

(** lines 251-425: the loop; [n = end - p].  [p += 2] past [end] would run
    through the rest of memory and is [UB]. *)
Fixpoint pf_loop (pres : bool) (input : bytes) (ilen : nat)
    (n : nat) (p : bytes) (s : ps) : res pout :=
  match n with
  | 0 => Ok (PEnd s)
  | S n1 =>
      if kMaxLineLength - 1 <=? s_pos s then Ok (PReturn (s_f s))
      else match p with
      | [] => UB
      | c :: p1 =>
          a <- pf_step pres input ilen n1 c p1 s ;;
          match a with
          | ANext1 s' => pf_loop pres input ilen n1 p1 s'
          | ANext2 s' =>
              match n1, p1 with
              | S n2, _ :: p2 => pf_loop pres input ilen n2 p2 s'
              | _, _ => UB
              end
          | AReturn f => Ok (PReturn f)
          | ABreak s' => Ok (PEnd s')
          end
      end
  end.

(** lines 432-437: the preserved rule text. *)
Definition rule_text (pres : bool) (input : bytes) (s : ps)
  : res (option bytes) :=
  if pres then
    if s_re s <=? length input
    then Ok (Some (firstn (s_re s - s_rs s) (skipn (s_rs s) input)))
    else UB
  else Ok None.

(** ad_block_client.cc:235-441 [parseFilter(input, end, f, ...)] up to the
    insertion into the sets, on a default-constructed [*f].  [input] points to
    the line inside the list text, [ilen = end - input].  The flag tells
    whether control reaches line 443 (set insertion). *)
Definition parse_filter (pres : bool) (input : bytes) (ilen : nat)
  : res (filter * bool) :=
  o <- pf_loop pres input ilen ilen input (mkPs FPStart filter0 [] 0 0 0) ;;
  match o with
  | PReturn f => Ok (f, false)
  | PEnd s =>
      if is_start (s_st s) then Ok (set_type (s_f s) FTEmpty, false)
      else
        r <- rule_text pres input s ;;
        let f1 := if pres then set_rule (s_f s) r else s_f s in
        Ok (set_data f1 (s_data s), true)
  end.
