(** Lists loaded over the network: C110. *)
From Coq Require Import Permutation.
From Verif Require Import Base Flags Sets FilterM ParseM ClientM JsM NetM ToolM
  Spec SpecM SpecC SpecJ SpecTool SpecNet P_Net P_Net2 Props_List Props_Client.

(** Whatever the answers and whatever the order they arrive in: there is a client
    exactly when every request has been answered with a list, and it is made from
    the lists in the order of the addresses; the promise is rejected exactly when
    some request has failed, and says why the first one did; otherwise it waits. *)
Theorem C110_exactly : forall E keep filter urls arrived,
  (forall r, loadURLs E keep filter urls arrived = Fulfilled r <->
     exists bodies, all_delivered (length urls) arrived bodies /\
       r = clientFromStrings E keep [listURLsText filter bodies]) /\
  (forall m, loadURLs E keep filter urls arrived = Rejected m <->
     exists why, first_failure urls arrived why /\
       m = B "getSingleListDataFromSingleURL error: Error: " ++ why).
Proof. exact load_exactly. Qed.
Print Assumptions C110_exactly.

(** The order of arrival changes nothing but which failure is reported. *)
Theorem C110_order : forall E keep filter urls arrived arrived',
  Permutation arrived arrived' -> answered_once arrived ->
  (forall r, loadURLs E keep filter urls arrived = Fulfilled r <->
             loadURLs E keep filter urls arrived' = Fulfilled r) /\
  (loadURLs E keep filter urls arrived = Waiting <-> loadURLs E keep filter urls arrived' = Waiting) /\
  ((exists m, loadURLs E keep filter urls arrived = Rejected m) <->
   (exists m, loadURLs E keep filter urls arrived' = Rejected m)).
Proof. exact order_free. Qed.
Print Assumptions C110_order.

(** The client decides like one that loads the lists one after the other and then
    the two added rules. *)
Theorem C110_client : forall E keep urls arrived bodies r, Forall nonul bodies ->
  all_delivered (length urls) arrived bodies ->
  loadURLs E keep None urls arrived = Fulfilled r -> client_of E keep bodies r.
Proof. exact load_client. Qed.
Print Assumptions C110_client.

(** One address is an array of one. *)
Theorem C110_single : forall E keep filter url arrived,
  loadURL E keep filter url arrived = loadURLs E keep filter [url] (map (pair 0) arrived).
Proof. exact load_single. Qed.
Print Assumptions C110_single.

(** With a network that has one answer for every address, this is what C74 says. *)
Theorem C110_web : forall E keep filter urls fetch arrived r,
  (forall i url a, nth_error urls i = Some url -> first_answer i arrived = Some a ->
     match fetch url with Some b => delivers a b | None => exists m, bad_answer url a m end) ->
  (forall i, i < length urls -> first_answer i arrived <> None) ->
  (loadURLs E keep filter urls arrived = Fulfilled r <-> makeFromListURLs E keep fetch filter urls = Some r).
Proof. exact load_web. Qed.
Print Assumptions C110_web.

(** Two lists, the second one first and answered twice; then with a failure. *)
Definition two_addresses : list bytes := [B "http://a/"; B "http://b/"].

Example C110_example :
  all_delivered 2 [(1, Answered (B "200") (B "||b.com^")); (1, Failed (B "late"));
                   (0, Answered (B "200") (B "||a.com^"))] [B "||a.com^"; B "||b.com^"] /\
  match loadURLs E0 false None two_addresses
          [(1, Answered (B "200") (B "||b.com^")); (1, Failed (B "late"));
           (0, Answered (B "200") (B "||a.com^"))] with
  | Fulfilled r => rmap (fun c => rmap (fun x => v_block (fst x)) (matches E0 c (cstr (B "http://b.com/")) 0 None)) r
  | _ => UB
  end = Ok (Ok true) /\
  loadURLs E0 false None two_addresses
    [(1, Answered (B "404") (B "x")); (0, Failed (B "gone"))] =
  Rejected (B "getSingleListDataFromSingleURL error: Error: Error status code 404 returned for URL: http://b/") /\
  loadURLs E0 false None two_addresses [(1, Answered (B "200") [])] = Waiting.
Proof.
  split; [|vm_compute; auto]. split; [reflexivity|].
  intros [|[|[|i]]] b Eb; try discriminate; injection Eb as <-; eexists; split; reflexivity.
Qed.
