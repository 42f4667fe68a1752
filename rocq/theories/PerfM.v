(** Model of the measuring program (/repo/perf.cc). *)
From Verif Require Import Base Flags Sets FilterM ParseM ClientM SerialM JsM DataM ListsM ToolM.

(** The characters at which [operator>>] of a stream ends a string
    (std::isspace in the "C" locale). *)
Definition space (a : ascii) : bool :=
  ceq a " " || ((9 <=? nat_of_ascii a) && (nat_of_ascii a <=? 13)).

(** perf.cc:36-39: the strings an istream_iterator<std::string> delivers.  [w]
    holds the characters of the string being read. *)
Fixpoint words_from (w s : bytes) : list bytes :=
  match s with
  | [] => match w with [] => [] | _ => [w] end
  | a :: s' =>
      if space a then match w with [] => words_from [] s' | _ => w :: words_from [] s' end
      else words_from (w ++ [a]) s'
  end.
Definition words (s : bytes) : list bytes := words_from [] s.

(** perf.cc:58-66: what is printed besides the time. *)
Record report := mkReport {
  rp_blocks : nat; rp_skips : nat;
  rp_fp : N; rp_efp : N; rp_bloom : N; rp_ebloom : N
}.

(** perf.cc:45-56: the loop over the sites. *)
Definition countSites (E : env) (c : client) (sites : list bytes) : res (nat * nat * client) :=
  foldM (fun s url =>
           let '(m, k, c) := s in
           r <- matches E c (cstr url) FONoFilterOption (Some (B "brianbondy.com")) ;;
           if v_block (fst r) then Ok (S m, k, snd r) else Ok (m, S k, snd r))
        (0, 0, c) sites.

(** perf.cc:33-68 [doSiteList]: the report and the client afterwards.  (The file
    sitelist.txt is the argument; a file that is missing ends the program with an
    exception.) *)
Definition doSiteList (E : env) (c : client) (siteList : bytes) : res (report * client) :=
  r <- countSites E c (words siteList) ;;
  let '(m, k, c) := r in
  let s := c_stats c in
  Ok (mkReport m k (st_fp s) (st_efp s) (st_bloom s) (st_ebloom s), c).

(** The calls of [parse] on the files read. *)
Definition parseAll (E : env) (c : client) (texts : list bytes) : res client :=
  foldM (fun c t => parse E false (cstr t) c) c texts.

(** perf.cc:70-128 [main]: the two reports and the text of bad_fingerprints.h.
    serialize() leaves out cosmetic and HTML rules (ad_block_client.h:44-46); the
    client reads its own data back, and the result of deserialize() is ignored.
    (The buffer is never freed before the end of the program.) *)
Definition perfMain (E : env)
    (easyList easyPrivacy ublockUnbreak braveUnbreak spam404 disconnect siteList : bytes)
  : res (report * report * bytes) :=
  c <- parseAll E client0 [easyList; easyPrivacy; ublockUnbreak; braveUnbreak] ;;
  data <- serialize c true true ;;
  d <- deserialize data c ;;
  ads <- doSiteList E (fst d) siteList ;;
  c <- parseAll E client0 [spam404; disconnect] ;;
  safe <- doSiteList E c siteList ;;
  c <- parseAll E (enableBadFp E client0)
         [easyList; easyPrivacy; ublockUnbreak; braveUnbreak; spam404; disconnect] ;;
  all <- doSiteList E c siteList ;;
  header <- generateHeader (snd all) ;;
  Ok (fst ads, fst safe, header).
