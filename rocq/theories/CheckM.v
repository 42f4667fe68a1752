(** Model of the command line tool /repo/scripts/check.js. *)
From Verif Require Import Base Flags Sets FilterM ParseM ClientM SerialM JsM DataM ListsM ToolM.

(** Lines 32-46: the command line after parsing.  (An option that takes a value
    and is given without one has the value [true] in commander; here it always
    has one.) *)
Record args := mkArgs {
  a_uuid : option bytes; a_dat : option bytes; a_filter : option bytes; a_path : option bytes;
  a_http : option bytes; a_host : option bytes; a_location : option bytes;
  a_output : option bytes; a_list : option bytes;
  a_discover : bool; a_stats : bool; a_cache : bool;
  a_type : option bytes
}.

(** An option as a condition: the empty string counts as missing. *)
Definition given (o : option bytes) : option bytes :=
  match o with Some (_ :: _) => o | _ => None end.

Definition isGiven (o : option bytes) : bool :=
  match given o with Some _ => true | None => false end.

(** What the tool finds outside: downloads, and the contents of files. *)
Record world := mkWorld { w_fetch : fetcher; w_file : bytes -> option bytes }.

(** Lines 30 and 45: [filterStringToFilterOption] and its default. *)
Definition typeOf (a : args) : N :=
  match a_type a with None => FONoFilterOption | Some name => filterOption name end.

(** Lines 50-53: [keepRuleText] *)
Definition keepText (a : args) : bool := a_discover a && negb (isGiven (a_dat a)).

(** Lines 57-76: the client, or nothing if the promise is rejected.
    lib/util.js:164-175 [makeAdBlockClientFromFilePath] reads the file with
    readFileSync, which throws if there is none. *)
Definition source (E : env) (W : world) (a : args) : option (res client) :=
  match given (a_uuid a) with
  | Some u => makeFromListUUID E (keepText a) (w_fetch W) u
  | None =>
  match given (a_dat a) with
  | Some f => option_map clientFromDAT (w_file W f)
  | None =>
  match given (a_http a) with
  | Some u => makeFromListURL E (keepText a) (w_fetch W) None u
  | None =>
  match given (a_filter a) with
  | Some t => Some (clientFromStrings E (keepText a) [t])
  | None =>
  match given (a_path a) with
  | Some p => option_map (fun t => clientFromStrings E (keepText a) [t]) (w_file W p)
  | None => makeFromListURLs E (keepText a) (w_fetch W) None (map snd default_lists)
  end end end end end.

Inductive answer :=
| AMatches (b : bool)
| AFound (f : found_data)
| ACounts (matching skipped : nat).

(** Lines 84-128: the answer that is printed, and the client afterwards; nothing
    if the list of sites cannot be read. *)
Definition answerFor (E : env) (W : world) (a : args) (host : bytes) (c : client)
  : res (option (answer * client)) :=
  match given (a_location a) with
  | Some l =>
      if a_discover a then
        f <- jsFind E c l (typeOf a) (Some host) ;; Ok (Some (AFound f, c))
      else
        r <- jsMatches E c l (typeOf a) (Some host) ;; Ok (Some (AMatches (fst r), snd r))
  | None =>
      match w_file W (match a_list a with Some p => p | None => [] end) with
      | None => Ok None
      | Some text =>
          if a_discover a then
            r <- checkListDiscover E (a_cache a) (typeOf a) host c (readSiteList text) ;;
            Ok (Some (ACounts (fst r) (snd r), c))
          else
            r <- checkList E (typeOf a) host c (readSiteList text) ;;
            Ok (Some (ACounts (fst (fst r)) (snd (fst r)), snd r))
      end
  end.

(** What a run prints at its end, and the file it writes: its name and bytes. *)
Inductive outcome :=
| OUsage
| OError
| OStats (numbers : list (bytes * nat))
| OChecked (a : answer) (stats : list (bytes * N)) (file : option (bytes * bytes)).

(** Lines 48-134.  A fault in the C++ code ends the run with [UB]. *)
Definition checkRun (E : env) (W : world) (a : args) : res outcome :=
  if negb (isGiven (a_host a) && (isGiven (a_location a) || isGiven (a_list a)) || a_stats a)
  then Ok OUsage
  else
    match source E W a with
    | None => Ok OError
    | Some r =>
        c <- r ;;
        if a_stats a then Ok (OStats (getParsingStats c))
        else
          x <- answerFor E W a (match a_host a with Some h => h | None => [] end) c ;;
          match x with
          | None => Ok OError
          | Some (ans, c') =>
              match given (a_output a) with
              | None => Ok (OChecked ans (getMatchingStats c') None)
              | Some f =>
                  s <- serialize c' true true ;;
                  Ok (OChecked ans (getMatchingStats c') (Some (f, s)))
              end
          end
    end.
