(** The expectations written down in the repository's own unit tests, evaluated
    on the model.  These are tests of the model, not proofs about it: they show
    that it agrees with what the authors of the code observed.  The tables are
    generated from test/*.cc and test/js/*.js; nothing in the theorem files
    depends on this one.  Each [..._run] is the value computed for a group of
    tests. *)
From Verif Require Import Base Flags Protocol Url Sets FilterM ParseM ClientM SerialM JsM SpecC.
Local Open Scope N_scope.

(** The entries of bad_fingerprints.h that the fingerprint tests meet; some
    hash functions (the tests do not depend on which). *)
Definition ET : env :=
  mkEnv [B "ttp://"; B "ttps:/"; B "tps://"]
        [fun s => N_of_ascii (hd NUL s); fun s => N_of_ascii (last s NUL)]
        [fun s => N_of_ascii (hd NUL s); fun s => N_of_ascii (last s NUL)]
        (fun s => N.of_nat (length s)) (fun _ _ => false).

Definition mask (l : list N) : N := fold_right N.lor 0 l.
Definition is_ok {A} (f : A -> bool) (r : res A) : bool :=
  match r with Ok a => f a | UB => false end.
Definition eqb_opt (a b : option bytes) : bool :=
  match a, b with
  | None, None => true | Some x, Some y => beq x y | _, _ => false
  end.
Definition data_is (f : filter) (d : bytes) : bool :=
  match f_data f with Some (x, _) => beq x d | None => false end.

(** parser_test.cc:27-81 [testFilter]: line, type, options, pattern, URLs that
    match and URLs that do not.  The context is the resource type part of the
    options. *)
Definition rule_case : Type :=
  bytes * list N * list N * bytes * list bytes * list bytes.
Definition parsed (l : bytes) : res filter :=
  rmap fst (parse_filter false (cstr l) (length l)).
Definition rule_hits (f : filter) (opt : N) (url : bytes) : res bool :=
  h <- getUrlHost (cstr url) ;;
  filter_matches ET f (cstr url) (length url) (N.land opt FOResourcesOnly) None None h.
Definition rule_passes (x : rule_case) : bool :=
  let '(l, ty, opt, d, yes, no) := x in
  is_ok (fun f =>
    (f_opt f =? mask opt) && (f_type f =? mask ty) && data_is f d &&
    forallb (fun u => is_ok (fun b => b) (rule_hits f (mask opt) u)) yes &&
    forallb (fun u => is_ok negb (rule_hits f (mask opt) u)) no) (parsed l).

(** parser_test.cc:263-314 [checkMatch]: the list on a parsed client and on one
    restored twice from its data, with tags. *)
Definition list_case : Type := bytes * list bytes * list bytes * list bytes.
Definition client_passes (tags yes no : list bytes) (c : client) : bool :=
  let c := fold_left addTag tags c in
  let hit u := rmap (fun r => v_block (fst r)) (matches ET c (cstr u) 0 None) in
  forallb (fun u => is_ok (fun b => b) (hit u)) yes &&
  forallb (fun u => is_ok negb (hit u)) no.
Definition list_passes (x : list_case) : bool :=
  let '(l, yes, no, tags) := x in
  is_ok (fun c =>
    client_passes tags yes no c &&
    is_ok (fun data =>
      is_ok (fun r =>
        snd r && is_ok (fun r2 => snd r2 && client_passes tags yes no (fst r2))
                       (deserialize data (fst r)))
        (deserialize data client0)) (serialize c true true))
    (parse ET false (cstr l) client0).

(** parser_test.cc:432-457 [checkOptionRule] *)
Definition context_case : Type :=
  bytes * list (bytes * list N * option bytes * bool).
Definition context_passes (x : context_case) : bool :=
  let '(l, qs) := x in
  is_ok (fun c =>
    forallb (fun q => let '(u, ctx, dom, b) := q in
      is_ok (fun r => Bool.eqb (v_block (fst r)) b) (matches ET c (cstr u) (mask ctx) dom)) qs)
    (parse ET false (cstr l) client0).

(** options_test.cc:29-104 [testOptionsWithFilter]: options, negated options,
    domains and negated domains. *)
Definition option_case : Type := bytes * list N * list N * list bytes * list bytes.
Definition options_are (opt anti : list N) (doms antis : list bytes) (f : filter) : bool :=
  (f_opt f =? mask opt) && (f_anti f =? mask anti) &&
  Bool.eqb (isDomainOnlyFilter f) (nonempty doms && negb (nonempty antis)) &&
  Nat.eqb (length doms) (length (f_domains f)) &&
  Nat.eqb (length antis) (length (f_antiDomains f)) &&
  forallb (fun d => memb d (f_domains f)) doms &&
  forallb (fun d => memb d (f_antiDomains f)) antis.
Definition option_passes (x : option_case) : bool :=
  let '(t, opt, anti, doms, antis) := x in
  is_ok (options_are opt anti doms antis) (parseOptions filter0 (cstr t)).
Definition option_line_passes (x : option_case) : bool :=
  let '(t, opt, anti, doms, antis) := x in
  is_ok (options_are opt anti doms antis) (parsed t).

(** cosmetic_filter_test.cc:20-52 [testCosmeticFilter] *)
Definition cosmetic_case : Type := bytes * list N * bytes * option bytes.
Definition cosmetic_passes (x : cosmetic_case) : bool :=
  let '(l, ty, d, doms) := x in
  is_ok (fun f => (f_type f =? mask ty) && data_is f d && eqb_opt (f_dom f) doms) (parsed l).

(** rule_types_test.cc:22-26, 46-54 *)
Definition type_passes (x : bytes * N) : bool :=
  is_ok (fun f => f_type f =? snd x) (parsed (fst x)).

Definition protocol_passes (x : bytes * nat * bool) : bool :=
  let '(u, n, b) := x in is_ok (Bool.eqb b) (isBlockableProtocol (cstr u) n).

(** JavaScript tests: the calls made on the client, then its answers. *)
Definition js_case : Type := list call * list (bytes * N * bytes * bool).
Definition js_passes (x : js_case) : bool :=
  is_ok (fun c =>
    forallb (fun q => let '(u, ctx, dom, b) := q in
      is_ok (fun r => Bool.eqb b (fst r)) (jsMatches ET c u ctx (Some dom))) (snd x))
    (after ET (fst x)).

(** parser_test.cc:83-261 *)
Definition rule_cases : list rule_case := [
  (B "/banner/*/img", [FTNoFilterType], [FONoFilterOption], B "/banner/*/img", [B "http://example.com/banner/foo/img"; B "http://example.com/banner/foo/bar/img?param"; B "http://example.com/banner//img/foo"; B "http://example.com/banner//img.gif"], [B "http://example.com/banner"; B "http://example.com/banner/"; B "http://example.com/banner/img"; B "http://example.com/img/banner/"]);
  (B "/banner/*/img^", [FTNoFilterType], [FONoFilterOption], B "/banner/*/img^", [B "http://example.com/banner/foo/img"; B "http://example.com/banner/foo/bar/img?param"; B "http://example.com/banner//img/foo"], [B "http://example.com/banner/img"; B "http://example.com/banner/foo/imgraph"; B "http://example.com/banner/foo/img.gif"]);
  (B "||ads.example.com^", [FTHostAnchored; FTHostOnly], [FONoFilterOption], B "ads.example.com^", [B "http://ads.example.com/foo.gif"; B "http://server1.ads.example.com/foo.gif"; B "https://ads.example.com:8000/"], [B "http://ads.example.com.ua/foo.gif"; B "http://example.com/redirect/http://ads.example.com/"]);
  (B "|http://example.com/|", [FTLeftAnchored; FTRightAnchored], [FONoFilterOption], B "http://example.com/", [B "http://example.com/"], [B "http://example.com/foo.gif"; B "http://example.info/redirect/http://example.com/"]);
  (B "swf|", [FTRightAnchored], [FONoFilterOption], B "swf", [B "http://example.com/annoyingflash.swf"], [B "http://example.com/swf/index.html"]);
  (B "|http://baddomain.example/", [FTLeftAnchored], [FONoFilterOption], B "http://baddomain.example/", [B "http://baddomain.example/banner.gif"], [B "http://gooddomain.example/analyze?http://baddomain.example"]);
  (B "||example.com/banner.gif", [FTHostAnchored], [FONoFilterOption], B "example.com/banner.gif", [B "http://example.com/banner.gif"; B "https://example.com/banner.gif"; B "http://www.example.com/banner.gif"], [B "http://badexample.com/banner.gif"; B "http://gooddomain.example/analyze?http://example.com/banner.gif"; B "http://example.com.au/banner.gif"; B "http://example.com/banner2.gif"]);
  (B "http://example.com^", [FTNoFilterType], [FONoFilterOption], B "http://example.com^", [B "http://example.com/"; B "http://example.com:8000/ "], []);
  (B "^example.com^", [FTNoFilterType], [FONoFilterOption], B "^example.com^", [B "http://example.com:8000/foo.bar?a=12&b=%D1%82%D0%B5%D1%81%D1%82"], []);
  (B "^%D1%82%D0%B5%D1%81%D1%82^", [FTNoFilterType], [FONoFilterOption], B "^%D1%82%D0%B5%D1%81%D1%82^", [B "http://example.com:8000/foo.bar?a=12&b=%D1%82%D0%B5%D1%81%D1%82"], [B "http://example.com:8000/foo.bar?a=12&b%D1%82%D0%B5%D1%81%D1%823"]);
  (B "^foo.bar^", [FTNoFilterType], [FONoFilterOption], B "^foo.bar^", [B "http://example.com:8000/foo.bar?a=12&b=%D1%82%D0%B5%D1%81%D1%82"], []);
  (B "^promotion^", [FTNoFilterType], [FONoFilterOption], B "^promotion^", [B "http://test.com/promotion/test"], []);
  (B "||static.tumblr.com/dhqhfum/WgAn39721/cfh_header_banner_v2.jpg", [FTHostAnchored], [FONoFilterOption], B "static.tumblr.com/dhqhfum/WgAn39721/cfh_header_banner_v2.jpg", [B "http://static.tumblr.com/dhqhfum/WgAn39721/cfh_header_banner_v2.jpg"], []);
  (B "||googlesyndication.com/safeframe/$third-party", [FTHostAnchored], [FOThirdParty], B "googlesyndication.com/safeframe/", [B "http://tpc.googlesyndication.com/safeframe/1-0-2/html/container.html#xpc=sf-gdn-exp-2&p=http%3A//slashdot.org;"], []);
  (B "||googlesyndication.com/safeframe/$third-party,script", [FTHostAnchored], [FOThirdParty; FOScript], B "googlesyndication.com/safeframe/", [B "http://tpc.googlesyndication.com/safeframe/1-0-2/html/container.html#xpc=sf-gdn-exp-2&p=http%3A//slashdot.org;"], [])
].

Definition rule_cases_pass_run : bool := Eval vm_compute in
  forallb rule_passes rule_cases.
Example rule_cases_pass : rule_cases_pass_run = true.
Proof. reflexivity. Qed.

(** parser_test.cc:316-411 *)
Definition list_cases : list list_case := [
  ((B "adv" ++ [LF] ++ B "@@advice."), [B "http://example.com/advert.html"], [B "http://example.com/advice.html"], []);
  ((B "@@advice." ++ [LF] ++ B "adv"), [B "http://example.com/advert.html"], [B "http://example.com/advice.html"], []);
  ((B "@@|http://example.com" ++ [LF] ++ B "@@advice." ++ [LF] ++ B "adv" ++ [LF] ++ B "!foo"), [B "http://examples.com/advert.html"], [B "http://example.com/advice.html"; B "http://example.com/advert.html"; B "http://examples.com/advice.html"; B "http://examples.com/#!foo"], []);
  ((B "/ads/freewheel/*" ++ [LF] ++ B "@@||turner.com^*/ads/freewheel/*/AdManager.js$domain=cnn.com"), [], [B "http://z.cdn.turner.com/xslo/cvp/ads/freewheel/js/0/AdManager.js"], []);
  (B "^promotion^", [B "http://yahoo.co.jp/promotion/imgs"], [], []);
  (B "^ads^", [B "http://yahoo.co.jp/ads/imgs"; B "http://yahoo.co.jp/ads"; B "http://yahoo.co.jp/ads?xyz"; B "http://yahoo.co.jp/xyz?ads"], [B "http://yahoo.co.jp/uploads/imgs"; B "http://yahoo.co.jp/adsx/imgs"; B "http://yahoo.co.jp/adsshmads/imgs"; B "ads://ads.co.ads/aads"], []);
  ((B "adv$tag=stuff" ++ [LF] ++ B "somelongpath/test$tag=stuff" ++ [LF] ++ B "||brianbondy.com/$tag=brian" ++ [LF] ++ B "||brave.com$tag=brian"), [], [B "http://example.com/advert.html"; B "http://example.com/somelongpath/test/2.html"; B "https://brianbondy.com/about"; B "https://brave.com/about"], []);
  ((B "adv$tag=stuff" ++ [LF] ++ B "somelongpath/test$tag=stuff" ++ [LF] ++ B "||brianbondy.com/$tag=brian" ++ [LF] ++ B "||brave.com$tag=brian"), [B "http://example.com/advert.html"; B "http://example.com/somelongpath/test/2.html"; B "https://brianbondy.com/about"; B "https://brave.com/about"], [], [B "stuff"; B "brian"]);
  ((B "adv$tag=stuff" ++ [LF] ++ B "somelongpath/test$tag=stuff" ++ [LF] ++ B "||brianbondy.com/$tag=brian" ++ [LF] ++ B "||brave.com$tag=brian"), [], [B "http://example.com/advert.html"; B "http://example.com/somelongpath/test/2.html"; B "https://brianbondy.com/about"; B "https://brave.com/about"], [B "filtertag1"; B "filtertag2"])
].

Definition list_cases_pass_run : bool := Eval vm_compute in
  forallb list_passes list_cases.
Example list_cases_pass : list_cases_pass_run = true.
Proof. reflexivity. Qed.

(** parser_test.cc:460-638 *)
Definition context_cases : list context_case := [
  (B "||example.com", [
    (B "http://example.com", [FOThirdParty], None, true);
    (B "http://example2.com", [FOThirdParty], None, false);
    (B "http://example.com", [FONotThirdParty], None, true)]);
  (B "||example.com^$third-party", [
    (B "http://example.com", [FOScript], (Some (B "brianbondy.com")), true);
    (B "http://example.com", [FOScript], (Some (B "example.com")), false);
    (B "http://ad.example.com", [FOScript], (Some (B "brianbondy.com")), true);
    (B "http://ad.example.com", [FOScript], (Some (B "example.com")), false);
    (B "http://example2.com", [FOScript], (Some (B "brianbondy.com")), false);
    (B "http://example2.com", [FOScript], (Some (B "example.com")), false);
    (B "http://example.com.au", [FOScript], (Some (B "brianbondy.com")), false);
    (B "http://example.com.au", [FOScript], (Some (B "example.com")), false)]);
  (B "||example.com^$ping", [
    (B "http://example.com", [FOPing], (Some (B "example.com")), true);
    (B "http://example.com", [FOImage], (Some (B "example.com")), false)]);
  (B "||example.com^$popup", [
    (B "http://example.com", [FOPopup], (Some (B "example.com")), false)]);
  (B "||example.com^$third-party,~script", [
    (B "http://example.com", [FOThirdParty; FOScript], None, false);
    (B "http://example.com", [FOOther], None, true);
    (B "http://example2.com", [FOThirdParty; FOOther], None, false);
    (B "http://example.com", [FONotThirdParty; FOOther], None, false)]);
  (B "adv$domain=example.com|example.net", [
    (B "http://example.net/adv", [FONoFilterOption], (Some (B "example.net")), true);
    (B "http://somewebsite.com/adv", [FONoFilterOption], (Some (B "example.com")), true);
    (B "http://www.example.net/adv", [FONoFilterOption], (Some (B "www.example.net")), true);
    (B "http://my.subdomain.example.com/adv", [FONoFilterOption], (Some (B "my.subdomain.example.com")), true);
    (B "http://my.subdomain.example.com/adv", [FONoFilterOption], (Some (B "my.subdomain.example.com")), true);
    (B "http://example.com/adv", [FONoFilterOption], (Some (B "badexample.com")), false);
    (B "http://example.com/adv", [FONoFilterOption], (Some (B "otherdomain.net")), false);
    (B "http://example.net/ad", [FONoFilterOption], (Some (B "example.net")), false)]);
  (B "adv$domain=example.com|~foo.example.com", [
    (B "http://example.net/adv", [FONoFilterOption], (Some (B "example.com")), true);
    (B "http://example.net/adv", [FONoFilterOption], (Some (B "foo.example.com")), false);
    (B "http://example.net/adv", [FONoFilterOption], (Some (B "www.foo.example.com")), false)]);
  (B "adv$domain=~example.com|foo.example.com", [
    (B "http://example.net/adv", [FONoFilterOption], (Some (B "example.com")), false);
    (B "http://example.net/adv", [FONoFilterOption], (Some (B "foo.example.com")), true);
    (B "http://example.net/adv", [FONoFilterOption], (Some (B "www.foo.example.com")), true)]);
  (B "adv$domain=~example.com", [
    (B "http://example.net/adv", [FONoFilterOption], (Some (B "otherdomain.com")), true);
    (B "http://somewebsite.com/adv", [FONoFilterOption], (Some (B "example.com")), false)]);
  (B "adv$domain=~example.com|~example.net", [
    (B "http://example.net/adv", [FONoFilterOption], (Some (B "example.net")), false);
    (B "http://somewebsite.com/adv", [FONoFilterOption], (Some (B "example.com")), false);
    (B "http://www.example.net/adv", [FONoFilterOption], (Some (B "www.example.net")), false);
    (B "http://my.subdomain.example.com/adv", [FONoFilterOption], (Some (B "my.subdomain.example.com")), false);
    (B "http://example.com/adv", [FONoFilterOption], (Some (B "badexample.com")), true);
    (B "http://example.com/adv", [FONoFilterOption], (Some (B "otherdomain.net")), true);
    (B "http://example.net/ad", [FONoFilterOption], (Some (B "example.net")), false)]);
  (B "adv$domain=example.com|~example.net", [
    (B "http://example.net/adv", [FONoFilterOption], (Some (B "example.net")), false);
    (B "http://somewebsite.com/adv", [FONoFilterOption], (Some (B "example.com")), true);
    (B "http://www.example.net/adv", [FONoFilterOption], (Some (B "www.example.net")), false);
    (B "http://my.subdomain.example.com/adv", [FONoFilterOption], (Some (B "my.subdomain.example.com")), true);
    (B "http://example.com/adv", [FONoFilterOption], (Some (B "badexample.com")), false);
    (B "http://example.com/adv", [FONoFilterOption], (Some (B "otherdomain.net")), false);
    (B "http://example.net/ad", [FONoFilterOption], (Some (B "example.net")), false)]);
  (B "adv$domain=example.com|~foo.example.com,script", [
    (B "http://example.net/adv", [FOScript], (Some (B "example.com")), true);
    (B "http://example.net/adv", [FOScript], (Some (B "foo.example.com")), false);
    (B "http://example.net/adv", [FOScript], (Some (B "www.foo.example.com")), false);
    (B "http://example.net/adv", [FOOther], (Some (B "example.com")), false);
    (B "http://example.net/adv", [FOOther], (Some (B "foo.example.com")), false);
    (B "http://example.net/adv", [FOOther], (Some (B "www.foo.example.com")), false)]);
  ((B "adv" ++ [LF] ++ B "@@advice.$~script"), [
    (B "http://example.com/advice.html", [FOOther], None, false);
    (B "http://example.com/advice.html", [FOScript], None, true);
    (B "http://example.com/advert.html", [FOOther], None, true);
    (B "http://example.com/advert.html", [FOScript], None, true)]);
  (B "||mzstatic.com^$image,object-subrequest,domain=dailymotion.com", [
    (B "http://www.dailymotion.com", [FONoFilterOption], (Some (B "dailymotion.com")), false)]);
  (B "||s1.wp.com^$subdocument,third-party", [
    (B "http://s1.wp.com/_static", [FOScript], (Some (B "windsorstar.com")), false)]);
  (B "/scripts/ad.", [
    (B "http://a.fsdn.com/sd/js/scripts/ad.js?release_20160112", [FOScript], (Some (B "slashdot.org")), true)])
].

Definition context_cases_pass_run : bool := Eval vm_compute in
  forallb context_passes context_cases.
Example context_cases_pass : context_cases_pass_run = true.
Proof. reflexivity. Qed.

(** options_test.cc:129-219, on the option text *)
Definition option_cases : list option_case := [
  (B "subdocument,third-party", [FOThirdParty; FOSubdocument], [FONoFilterOption], [], []);
  (B "object-subrequest,script,domain=~msnbc.msn.com|~www.nbcnews.com", [FOObjectSubrequest; FOScript], [FONoFilterOption], [], [B "msnbc.msn.com"; B "www.nbcnews.com"]);
  (B "~document,xbl,domain=~foo|bar|baz|foo.xbl|gar,~collapse", [FOXBL], [FODocument; FOCollapse], [B "bar"; B "baz"; B "foo.xbl"; B "gar"], [B "foo"]);
  (B "domain=~example.com|foo.example.com,script", [FOScript], [FONoFilterOption], [B "foo.example.com"], [B "example.com"]);
  (B "domain=example.com", [FONoFilterOption], [FONoFilterOption], [B "example.com"], []);
  (B "domain=example.com|example.net", [FONoFilterOption], [FONoFilterOption], [B "example.com"; B "example.net"], []);
  (B "domain=~example.com", [FONoFilterOption], [FONoFilterOption], [], [B "example.com"]);
  (B "domain=example.com|~foo.example.com", [FONoFilterOption], [FONoFilterOption], [B "example.com"], [B "foo.example.com"]);
  (B "domain=~foo.example.com|example.com", [FONoFilterOption], [FONoFilterOption], [B "example.com"], [B "foo.example.com"]);
  (B "domain=~msnbc.msn.com|~www.nbcnews.com", [FONoFilterOption], [FONoFilterOption], [], [B "msnbc.msn.com"; B "www.nbcnews.com"])
].

Definition option_cases_pass_run : bool := Eval vm_compute in
  forallb option_passes option_cases.
Example option_cases_pass : option_cases_pass_run = true.
Proof. reflexivity. Qed.

(** options_test.cc:222-272, on whole lines *)
Definition option_line_cases : list option_case := [
  (B "domain=foo.bar", [FONoFilterOption], [FONoFilterOption], [], []);
  (B "+Ads/$~stylesheet", [FONoFilterOption], [FOStylesheet], [], []);
  (B "-advertising-$domain=~advertise.bingads.domain.com", [FONoFilterOption], [FONoFilterOption], [], [B "advertise.bingads.domain.com"]);
  (B ".se/?placement=$script,third-party", [FOScript; FOThirdParty], [FONoFilterOption], [], []);
  (B "https:$ping", [FOPing], [FONoFilterOption], [], []);
  (B "https:$popup", [FOPopup], [FONoFilterOption], [], []);
  (B "||tst.net^$object-subrequest,third-party,domain=domain1.com|domain5.com", [FOObjectSubrequest; FOThirdParty], [FONoFilterOption], [B "domain1.com"; B "domain5.com"], [])
].

Definition option_line_cases_pass_run : bool := Eval vm_compute in
  forallb option_line_passes option_line_cases.
Example option_line_cases_pass : option_line_cases_pass_run = true.
Proof. reflexivity. Qed.

(** cosmetic_filter_test.cc:54-66 *)
Definition cosmetic_cases : list cosmetic_case := [
  (B "###A9AdsMiddleBoxTop", [FTElementHiding], B "#A9AdsMiddleBoxTop", None);
  (B "#@#A9AdsMiddleBoxTop", [FTElementHidingException], B "#A9AdsMiddleBoxTop", None);
  (B "domain1.com,domain2.com###A9AdsMiddleBoxTop", [FTElementHiding], B "#A9AdsMiddleBoxTop", (Some (B "domain1.com,domain2.com")));
  (B "domain1.com,domain2.com#@#A9AdsMiddleBoxTop", [FTElementHidingException], B "#A9AdsMiddleBoxTop", (Some (B "domain1.com,domain2.com")))
].

Definition cosmetic_cases_pass_run : bool := Eval vm_compute in
  forallb cosmetic_passes cosmetic_cases.
Example cosmetic_cases_pass : cosmetic_cases_pass_run = true.
Proof. reflexivity. Qed.

(** rule_types_test.cc, [commentRules] *)
Definition commentRules : list (bytes * N) := [
  (B "[Adblock Plus 2.0]", FTComment);
  (B "! Checksum: nVIXktYXKU6M+cu+Txkhuw", FTComment);
  (B "!/cb.php?sub$script,third-party", FTComment);
  (B "!@@/cb.php?sub", FTComment);
  (B "!###ADSLOT_SKYSCRAPER", FTComment);
  (B "! *** easylist:easylist/easylist_whitelist_general_hide.txt ***", FTComment);
  (B "   !###ADSLOT_SKYSCRAPER", FTComment)
].

Definition commentRules_pass_run : bool := Eval vm_compute in
  forallb type_passes commentRules.
Example commentRules_pass : commentRules_pass_run = true.
Proof. reflexivity. Qed.

(** rule_types_test.cc, [elementHidingRules] *)
Definition elementHidingRules : list (bytes * N) := [
  (B "@@###ADSLOT_SKYSCRAPER", FTElementHiding);
  (B "   ###ADSLOT_SKYSCRAPER", FTElementHiding);
  (B "###ADSLOT_SKYSCRAPER", FTElementHiding);
  (B "##.adsBox", FTElementHiding);
  (B "##a[href^=""http://affiliate.sometracker.com/""]", FTElementHiding)
].

Definition elementHidingRules_pass_run : bool := Eval vm_compute in
  forallb type_passes elementHidingRules.
Example elementHidingRules_pass : elementHidingRules_pass_run = true.
Proof. reflexivity. Qed.

(** rule_types_test.cc, [elementHidingExceptionRules] *)
Definition elementHidingExceptionRules : list (bytes * N) := [
  (B "eee.se#@##adspace_top", FTElementHidingException);
  (B "domain1.com,domain2.com#@##adwrapper", FTElementHidingException);
  (B "edgesuitedomain.net#@##ad-unit", FTElementHidingException);
  (B "mydomain.com#@#.ad-unit", FTElementHidingException)
].

Definition elementHidingExceptionRules_pass_run : bool := Eval vm_compute in
  forallb type_passes elementHidingExceptionRules.
Example elementHidingExceptionRules_pass : elementHidingExceptionRules_pass_run = true.
Proof. reflexivity. Qed.

(** protocol_test.cc:19-65, including the lengths it passes *)
Definition protocol_cases : list (bytes * nat * bool) := [
  (B "http://example.com", 19%nat, true);
  (B "https://example.com", 20%nat, true);
  (B "ws://example.com/path", 22%nat, true);
  (B "wss://example.com/path", 23%nat, true);
  (B "blob:http://example.com", 24%nat, true);
  (B "blob:https://example.com", 25%nat, true);
  (B "blob:ws://example.com/path", 27%nat, true);
  (B "blob:wss://example.com/path", 28%nat, true);
  (B "hTtp://example.com", 19%nat, true);
  (B "htTPs://example.com", 20%nat, true);
  (B "WS://example.com/path", 22%nat, true);
  (B "WSS://example.com/path", 23%nat, true);
  (B "htt", 3%nat, false);
  (B "htttp://example.com", 25%nat, false);
  (B "example.com", 12%nat, false);
  (B "data:image/png;base64,iVBORw0KGgoAAAANSUhEUgAAAAEA==", 52%nat, false);
  (B "data:image/svg+xml;utf8,<svg xmlns='http://www.w3.org/2000/svg'></svg>", 70%nat, false)
].

Definition protocol_cases_pass_run : bool := Eval vm_compute in
  forallb protocol_passes protocol_cases.
Example protocol_cases_pass : protocol_cases_pass_run = true.
Proof. reflexivity. Qed.

(** js/matchingTest.js, every assertion on [matches] whose client and arguments are literals *)
Definition js_matching : list js_case := [
  ([Parse false (B "/banner1.gif" ++ [LF])], [
    (B "http://www.brianbondy.com/public/banner1.gif", FOImage, B "slashdot.org", true);
    (B "http://www.brianbondy.com/public//banner1.gif", FOImage, B "slashdot.org", true);
    (B "http://www.brianbondy.com/public/abanner1.gif", FOImage, B "slashdot.org", false)]);
  ([Parse false (B "*/b/ss/*&aqe=$image,redirect=1x1-transparent.gif" ++ [LF])], [
    (B "https://i.ytimg.com/vi/hxUAntt1z2c/hqdefault.jpg?custom=true&w=320&h=180&stc=true&jpg444=true&jpgq=90&sp=68&sigh=YNApXAOpSSoeEmCpXSLQwjnOdwY", FOImage, B "slashdot.org", false);
    (B "https://i.ytimg.com/b/ss/hxUAntt1z2c/hqdefault.jpg?a&aqe=$image,redirect=1x1-transparent.gif&dd", FOImage, B "slashdot.org", true);
    (B "https://i.ytimg.com/a/b/ss/hxUAntt1z2c/hqdefault.jpg?a&aqe=$image,redirect=1x1-transparent.gif&dd", FOImage, B "slashdot.org", true);
    (B "https://i.ytimg.com/b/a/ss/hxUAntt1z2c/hqdefault.jpg?a&aqe=$image,redirect=1x1-transparent.gif&dd", FOImage, B "slashdot.org", false)]);
  ([Parse false (B "***/b/ss/*&aqe=$image,redirect=1x1-transparent.gif" ++ [LF])], [
    (B "https://i.ytimg.com/vi/hxUAntt1z2c/hqdefault.jpg?custom=true&w=320&h=180&stc=true&jpg444=true&jpgq=90&sp=68&sigh=YNApXAOpSSoeEmCpXSLQwjnOdwY", FOImage, B "slashdot.org", false);
    (B "https://i.ytimg.com/b/ss/hxUAntt1z2c/hqdefault.jpg?a&aqe=$image,redirect=1x1-transparent.gif&dd", FOImage, B "slashdot.org", true);
    (B "https://i.ytimg.com/a/b/ss/hxUAntt1z2c/hqdefault.jpg?a&aqe=$image,redirect=1x1-transparent.gif&dd", FOImage, B "slashdot.org", true);
    (B "https://i.ytimg.com/b/a/ss/hxUAntt1z2c/hqdefault.jpg?a&aqe=$image,redirect=1x1-transparent.gif&dd", FOImage, B "slashdot.org", false)]);
  ([Parse false (B "a/********b" ++ [LF])], [
    (B "https://i.ytimg.com/a/d/e/f/b", FONoFilterOption, B "slashdot.org", true);
    (B "https://i.ytimg.com/a/d/e/fb", FONoFilterOption, B "slashdot.org", true);
    (B "https://i.ytimg.com/a/d/e/fd", FONoFilterOption, B "slashdot.org", false)]);
  ([Parse false (B "*")], [
    (B "https://brianbondy.com/d", FONoFilterOption, B "slashdot.org", true);
    (B "https://brianbondy.com", FONoFilterOption, B "slashdot.org", true)]);
  ([Parse false (B "")], [
    (B "https://brianbondy.com/d", FONoFilterOption, B "slashdot.org", false);
    (B "https://brianbondy.com", FONoFilterOption, B "slashdot.org", false)]);
  ([Parse false (B "^")], [
    (B "https://brianbondy.com", FONoFilterOption, B "slashdot.org", false);
    (B "https://brianbondy.com", FONoFilterOption, B "slashdot.org", false)]);
  ([Parse false (B "-google-analytics." ++ [LF] ++ B "@@||www.scrumpoker.online^$~third-party")], [
    (B "https://www.scrumpoker.online/js/angular-google-analytics.js", FOScript, B "www.scrumpoker.online", false)]);
  ([], [
    (B "https://imasdk.googleapis.com/js/sdkloader/ima3.js?v=1.0fc2a9c5e010611944b364a71d43c8b5099f209f", FOScript, B "www.cbsnews.com", false)]);
  ([Parse false (B "||imasdk.googleapis.com^$third-party" ++ [LF] ++ B "@@||imasdk.googleapis.com/js/sdkloader/ima3.js$domain=cbc.ca|cbsnews.com|cbssports.com")], [
    (B "https://imasdk.googleapis.com/js/sdkloader/ima3.js?v=1.0fc2a9c5e010611944b364a71d43c8b5099f209f", FOScript, B "www.cbsnews.com", false)]);
  ([Parse false (B "-google-analytics." ++ [LF] ++ B "@@||www.scrumpoker.online^$~third-party")], [
    (B "https://www.scrumpoker.online/js/angular-google-analytics.js", FOScript, B "www.brianbondy.com", true)]);
  ([Parse false (B "adv")], [
    (B "https://brianbondy.com/adv", FONoFilterOption, B "slashdot.org", true);
    (B "https://brianbondy.com/omg", FONoFilterOption, B "slashdot.org", false)]);
  ([Parse false (B "adv$domain=brianbondy.com")], [
    (B "https://brianbondy.com/adv", FONoFilterOption, B "brianbondy.com", true);
    (B "https://digg.com/adv", FONoFilterOption, B "brianbondy.com", true);
    (B "https://digg.com/adv", FONoFilterOption, B "slashdot.org", false);
    (B "https://brianbondy.com/adv", FONoFilterOption, B "digg.com", false)]);
  ([Parse false (B "adv$domain=~brianbondy.com")], [
    (B "https://brianbondy.com/adv", FONoFilterOption, B "brianbondy.com", false);
    (B "https://digg.com/adv", FONoFilterOption, B "brianbondy.com", false);
    (B "https://digg.com/adv", FONoFilterOption, B "slashdot.org", true);
    (B "https://brianbondy.com/adv", FONoFilterOption, B "digg.com", true)]);
  ([Parse false (B "adv" ++ [LF] ++ B "@@adv$domain=brianbondy.com")], [
    (B "https://brianbondy.com/adv", FONoFilterOption, B "brianbondy.com", false);
    (B "https://digg.com/adv", FONoFilterOption, B "brianbondy.com", false);
    (B "https://digg.com/adv", FONoFilterOption, B "slashdot.org", true);
    (B "https://brianbondy.com/adv", FONoFilterOption, B "digg.com", true)]);
  ([Parse false (B "adv$ping")], [
    (B "https://brianbondy.com/adv", FONoFilterOption, B "slashdot.org", false)]);
  ([Parse false (B "adv$csp=script-src 'self' 'unsafe-inline' 'unsafe-eval' data: *.google.com *.gstatic.com *.google-analytics.com")], [
    (B "!https://brianbondy.com/adv", FONoFilterOption, B "slashdot.org", false)]);
  ([Parse false (B "adv$somethingnew=3")], [
    (B "https://brianbondy.com/adv", FONoFilterOption, B "slashdot.org", false)]);
  ([Parse false (B "adv$image,redirect=1x1-transparent.gif&dd")], [
    (B "https://brianbondy.com/adv", FOImage, B "slashdot.org", true)]);
  ([Parse false (B "adv")], [
    (B "https://brianbondy.com/adv", FOFont, B "slashdot.org", true)]);
  ([Parse false (B "adv$font")], [
    (B "https://brianbondy.com/adv", FOFont, B "slashdot.org", true);
    (B "https://brianbondy.com/adv", FOImage, B "slashdot.org", false)]);
  ([Parse false (B "adv$font,image,script")], [
    (B "https://brianbondy.com/adv", FOFont, B "slashdot.org", true)]);
  ([Parse false (B "adv")], [
    (B "https://brianbondy.com/adv", FOFont, B "slashdot.org", true);
    (B "https://brianbondy.com/adv", FOOther, B "slashdot.org", true);
    (B "https://brianbondy.com/adv", FODocument, B "slashdot.org", false)]);
  ([Parse false (B "adv$image")], [
    (B "https://brianbondy.com/adv", FODocument, B "slashdot.org", false)]);
  ([Parse false (B "adv$document")], [
    (B "https://brianbondy.com/adv", FODocument, B "slashdot.org", true);
    (B "https://brianbondy.com/adv", FOOther, B "slashdot.org", false)]);
  ([Parse false (B "adv")], [
    (B "https://brianbondy.com/adv", FONoFilterOption, B "slashdot.org", true)]);
  ([Parse false (B "adv$image")], [
    (B "https://brianbondy.com/adv", FONoFilterOption, B "slashdot.org", false)]);
  ([Parse false (B "|http://baddomain.example/")], [
    (B "http://baddomain.example/banner.gif", FOImage, B "http://baddomain.example/", true);
    (B "https://baddomain.example/banner.gif", FOImage, B "http://baddomain.example/", false);
    (B "http://gooddomain.example/analyze?http://baddomain.example", FOImage, B "http://baddomain.example/", false)]);
  ([Parse false (B "wp-content/$domain=~aaaaa.com|~bbbbb.com|~ccccc.com")], [
    (B "https://www.sportsnet.ca/wp-content/plugins", FOImage, B "www.brianbondy.com", true);
    (B "https://www.sportsnet.ca/wp-content/plugins", FOImage, B "aaaaa.com", false)]);
  ([Parse false (B "wp-content/$domain=aaaaa.com|bbbbb.com|ccccc.com")], [
    (B "https://www.sportsnet.ca/wp-content/plugins", FOImage, B "www.brianbondy.com", false);
    (B "https://www.sportsnet.ca/wp-content/plugins", FOImage, B "aaaaa.com", true)]);
  ([Parse false (B "wp-content/$domain=example.com|~foo.example.com|x.com|y.com|z.com")], [
    (B "https://www.sportsnet.ca/wp-content/plugins", FOImage, B "brianbondy.com", false);
    (B "https://www.sportsnet.ca/wp-content/plugins", FOImage, B "example.com", true);
    (B "https://www.sportsnet.ca/wp-content/plugins", FOImage, B "foo.example.com", false);
    (B "https://www.sportsnet.ca/wp-content/plugins", FOImage, B "boo.foo.example.com", false);
    (B "https://www.sportsnet.ca/wp-content/plugins", FOImage, B "boo.example.com", true)]);
  ([Parse false (B "wp-content/$domain=~example.com|foo.example.com|x.com|z.com|y.com")], [
    (B "https://www.sportsnet.ca/wp-content/plugins", FOImage, B "brianbondy.com", false);
    (B "https://www.sportsnet.ca/wp-content/plugins", FOImage, B "example.com", false);
    (B "https://www.sportsnet.ca/wp-content/plugins", FOImage, B "foo.example.com", true);
    (B "https://www.sportsnet.ca/wp-content/plugins", FOImage, B "boo.foo.example.com", true);
    (B "https://www.sportsnet.ca/wp-content/plugins", FOImage, B "boo.example.com", false)]);
  ([Parse false (B "wp-content/$domain=example.com|~brave.example.com|foo.brave.example.com")], [
    (B "https://www.sportsnet.ca/wp-content/plugins", FOImage, B "brianbondy.com", false);
    (B "https://www.sportsnet.ca/wp-content/plugins", FOImage, B "example.com", true);
    (B "https://www.sportsnet.ca/wp-content/plugins", FOImage, B "brave.example.com", false);
    (B "https://www.sportsnet.ca/wp-content/plugins", FOImage, B "foo.brave.example.com", true)]);
  ([Parse false (B "wp-content/$domain=~example.com|brave.example.com|~foo.brave.example.com")], [
    (B "https://www.sportsnet.ca/wp-content/plugins", FOImage, B "brianbondy.com", false);
    (B "https://www.sportsnet.ca/wp-content/plugins", FOImage, B "example.com", false);
    (B "https://www.sportsnet.ca/wp-content/plugins", FOImage, B "brave.example.com", true);
    (B "https://www.sportsnet.ca/wp-content/plugins", FOImage, B "foo.brave.example.com", false)]);
  ([Parse false (B "analytics.brave.com^" ++ [LF] ++ B "@@https://analytics.*/piwik.$~third-party")], [
    (B "https://analytics.brave.com/piwik.js", FOImage, B "analytics.brave.com", false);
    (B "https://analytics.brave.com/piwik.js", FOImage, B "batcommunity.org", true)]);
  ([Parse false (B "||merriam-webster.com^$csp=script-src ""self"" * ""unsafe-inline""")], [
    (B "https://www.merriam-webster.com/assets/test.min.css", FOImage, B "www.merriam-webster.com", false)])
].

Definition js_matching_pass_run : bool := Eval vm_compute in
  forallb js_passes js_matching.
Example js_matching_pass : js_matching_pass_run = true.
Proof. reflexivity. Qed.

(** js/parsingTest.js, every assertion on [matches] whose client and arguments are literals *)
Definition js_parsing : list js_case := [
  ([Parse false (B "/")], [
    (B "http://www.brianbondy.com/a", FOImage, B "slashdot.org", true)]);
  ([Parse false (B "a")], [
    (B "http://www.brianbondy.com/", FOImage, B "slashdot.org", true);
    (B "http://www.zzz.com/", FOImage, B "slashdot.org", false)])
].

Definition js_parsing_pass_run : bool := Eval vm_compute in
  forallb js_passes js_parsing.
Example js_parsing_pass : js_parsing_pass_run = true.
Proof. reflexivity. Qed.
(** parser_test.cc:893-919 [multipleParse] *)
Definition multiple_parse_run : bool := Eval vm_compute in
  is_ok (fun c =>
    let n k := length (tget (c_lists c) k) in
    Nat.eqb (n KFilters + n KNoFp + n KNoFpDom + n KNoFpAnti)%nat 3 &&
    Nat.eqb (n KCosmetic) 3 && Nat.eqb (n KHtml) 2 &&
    Nat.eqb (n KException + n KNoFpExc + n KNoFpDomExc + n KNoFpAntiExc)%nat 3)
    (after ET [Parse false (B "adv" ++ [LF] ++ B "@@test" ++ [LF] ++ B "###test" ++ [LF] ++
                 B "a.com$$script[src]" ++ [LF]);
               Parse false (B "adv2" ++ [LF] ++ B "@@test2" ++ [LF] ++ B "###test2" ++ [LF] ++
                 B "adv3" ++ [LF] ++ B "@@test3" ++ [LF] ++ B "###test3" ++ [LF] ++
                 B "b.com$$script[src]" ++ [LF])]).
Example multiple_parse : multiple_parse_run = true.
Proof. reflexivity. Qed.

(** parser_test.cc:932-951 [hostAnchoredFiltersParseCorrectly] *)
Definition host_parsed_run : bool := Eval vm_compute in
  forallb (fun l => is_ok (fun f => eqb_opt (f_host f) (Some (B "test.com"))) (parsed l))
    [B "||test.com$third-party"; B "||test.com/ok$third-party"; B "||test.com/ok"].
Example host_parsed : host_parsed_run = true.
Proof. reflexivity. Qed.

(** parser_test.cc:953-965 [misc]: all 256 bytes *)
Definition separators_run : bool := Eval vm_compute in
  forallb (fun n => let c := ascii_of_nat n in
    Bool.eqb (isSeparatorChar c) (existsb (Ascii.eqb c) (B ":?/=^$"))) (seq 0 256).
Example separators : separators_run = true.
Proof. reflexivity. Qed.

(** parser_test.cc:968-1006 [serializationTests] *)
Definition serialization_tests_run : bool := Eval vm_compute in
  is_ok (fun c =>
    let found c s k := match s c with
                       | Some h => match hs_find hkey (e_hash ET) h k with
                                   | Some _ => true | None => false end
                       | None => false
                       end in
    let good c := found c c_host (B "googlesyndication.com") &&
                  negb (found c c_host (B "googleayndication.com")) &&
                  found c c_ehost (B "googlesyndication.ca") &&
                  negb (found c c_ehost (B "googleayndication.ca")) &&
                  match tget (c_lists c) KNoFp with
                  | f :: _ => has (f_opt f) FOExplicitCancel
                  | [] => false
                  end in
    good c && is_ok (fun d => is_ok (fun r => snd r && good (fst r)) (deserialize d client0))
                    (serialize c true true))
    (after ET [Parse false (B "||googlesyndication.com$third-party" ++ [LF] ++
                            B "@@||googlesyndication.ca" ++ [LF] ++ B "a$explicitcancel")]).
Example serialization_tests : serialization_tests_run = true.
Proof. reflexivity. Qed.

(** parser_test.cc:1008-1092 [findMatchingFilters], [matchesWithFilterInfo] *)
Definition shows (o : option filter) (d : option bytes) : bool :=
  match o, d with
  | None, None => true
  | Some f, Some d => data_is f d
  | _, _ => false
  end.
Definition answer_is (b : bool) (f e : option bytes) (v : verdict) : bool :=
  Bool.eqb (v_block v) b && shows (v_filter v) f && shows (v_exc v) e.
Definition both (calls : list call) (url : bytes) (dom : bytes) (b : bool) (f e : option bytes)
  : bool :=
  is_ok (fun c =>
    is_ok (answer_is b f e) (findMatchingFilters ET c (cstr url) FOScript (Some dom)) &&
    is_ok (fun r => answer_is b f e (fst r)) (matches ET c (cstr url) FOScript (Some dom)))
    (after ET calls).
Definition frame : bytes := B "http://tpc.googlesyndication.com/safeframe/1-0-2/html/container.html".
Definition frame_rules : bytes :=
  B "||googlesyndication.com/safeframe/$third-party" ++ [LF] ++ B "||brianbondy.com/ads".
Definition find_matching_run : bool := Eval vm_compute in
  both [Parse false frame_rules] frame (B "slashdot.org") true
       (Some (B "googlesyndication.com/safeframe/")) None &&
  both [Parse false frame_rules] (B "ssafsdf.com") (B "slashdot.org") false None None &&
  both [Parse false frame_rules; Parse false (B "@@safeframe" ++ [LF])] frame (B "slashdot.org")
       false (Some (B "googlesyndication.com/safeframe/")) (Some (B "safeframe")) &&
  both [Parse false frame_rules; Clear; Parse false (B "||brianbondy.com^$explicitcancel")]
       (B "https://brianbondy.com/t") (B "test.com") true (Some (B "brianbondy.com^")) None &&
  both [Parse false frame_rules; Clear; Parse false (B "||brianbondy.com^$important")]
       (B "https://brianbondy.com/t") (B "test.com") true (Some (B "brianbondy.com^")) None.
Example find_matching : find_matching_run = true.
Proof. reflexivity. Qed.

(** orig_filters_test.cc and js/matchingTest.js: reported rule texts *)
Definition reports (pres : bool) (t url : bytes) (ctx : N) (dom : bytes) (x : found_data) : bool :=
  is_ok (fun c => is_ok (fun y =>
      Bool.eqb (fd_matches x) (fd_matches y) && eqb_opt (fd_filter x) (fd_filter y) &&
      eqb_opt (fd_rule x) (fd_rule y) && eqb_opt (fd_exc x) (fd_exc y) &&
      eqb_opt (fd_exc_rule x) (fd_exc_rule y))
    (jsFind ET c url ctx (Some dom))) (parse ET pres (cstr t) client0).
Definition ads_rules (pad : bytes) : bytes :=
  flat_map (fun l => pad ++ l ++ [LF])
    [B "[Adblock Plus 2.0]"; B "&video_ads_"; B "&videoadid="; B "&view=ad&"; B "+advertorial.";
     B "+adverts/"; B "-2/ads/"; B "-2011ad_"; B "-300x100ad2."; B "-ad-001-"; B "-ad-180x150px.";
     B "-ad-200x200-"] ++ pad ++ B "! comment here".
Definition analytics : bytes :=
  B "-google-analytics.$image,script,xmlhttprequest" ++ [LF] ++ B ".net/ad" ++ [LF].
Definition view_ad : bytes := B "http://www.brianbondy.com?c=a&view=ad&b=2".
Definition poker : bytes := B "https://www.scrumpoker.online/js/angular-google-analytics.js".
Definition four_rules : bytes :=
  B "-google-analytics." ++ [LF] ++ B "@@||www.scrumpoker.online^$~third-party" ++ [LF] ++
  B ".net/ad" ++ [LF] ++ B "@@||fastly.net/ad2/$image,script,xmlhttprequest".
Definition fastly : bytes := B "https://0914.global.ssl.fastly.net/ad2/img/x.gif?cb=1523404173915".
Definition original_rules_run : bool := Eval vm_compute in
  reports true (ads_rules []) view_ad 0 (B "slashdot.org")
    (mkFound true (Some (B "&view=ad&")) (Some (B "&view=ad&")) None None) &&
  reports true ([LF] ++ ads_rules (B "    ") ++ [LF] ++ B "    ") view_ad 0 (B "slashdot.org")
    (mkFound true (Some (B "&view=ad&")) (Some (B "&view=ad&")) None None) &&
  reports false analytics poker FOScript (B "slashdot.org")
    (mkFound true (Some (B "-google-analytics.")) None None None) &&
  reports true analytics poker FOScript (B "slashdot.org")
    (mkFound true (Some (B "-google-analytics."))
       (Some (B "-google-analytics.$image,script,xmlhttprequest")) None None) &&
  reports true four_rules fastly FOImage (B "www.cnn.com")
    (mkFound false (Some (B ".net/ad")) (Some (B ".net/ad"))
       (Some (B "fastly.net/ad2/")) (Some (B "@@||fastly.net/ad2/$image,script,xmlhttprequest"))) &&
  reports false four_rules fastly FOImage (B "www.cnn.com")
    (mkFound false (Some (B ".net/ad")) None (Some (B "fastly.net/ad2/")) None).
Example original_rules : original_rules_run = true.
Proof. reflexivity. Qed.

(** js/matchingTest.js:159-166.  The rule texts are as expected, but the Node
    binding also copies the pattern of the exception rule, which the host table
    stores without a terminator: the call as a whole is undefined (C60). *)
Definition original_host_rule_run : bool := Eval vm_compute in
  is_ok (fun c =>
    is_ok (fun v => negb (v_block v) &&
      match v_filter v, v_exc v with
      | Some f, Some e =>
          eqb_opt (f_rule f) (Some (B "-google-analytics.")) &&
          eqb_opt (f_rule e) (Some (B "@@||www.scrumpoker.online^$~third-party"))
      | _, _ => false
      end) (findMatchingFilters ET c (cstr poker) FOScript (Some (B "www.scrumpoker.online"))) &&
    match jsFind ET c poker FOScript (Some (B "www.scrumpoker.online")) with
    | UB => true | Ok _ => false end) (parse ET true (cstr four_rules) client0).
Example original_host_rule : original_host_rule_run = true.
Proof. reflexivity. Qed.

(** serialization_test.cc: tags survive *)
Definition tag_kept (t : bytes) : bool :=
  let url := B "http://www.brianbondy.com/filter?c=a&view=ad&b=2" in
  let good c := is_ok (fun v => v_block v &&
                  match v_filter v with Some f => beq (f_tag f) (B "blah") | None => false end)
                  (findMatchingFilters ET c (cstr url) 0 (Some (B "slashdot.org"))) in
  is_ok (fun c => good c && is_ok (fun d =>
      is_ok (fun r => is_ok (fun r2 => good (fst r2)) (deserialize d (fst r)))
            (deserialize d (addTag client0 (B "blah")))) (serialize c true true))
    (after ET [Parse true t; AddTag (B "blah")]).
Definition tags_kept_run : bool := Eval vm_compute in
  forallb tag_kept
    [B "filter$tag=blah" ++ [LF]; B "||www.brianbondy.com$tag=blah" ++ [LF];
     B "filter$tag=blah,domain=brianbondy.com|slashdot.org" ++ [LF];
     B "||www.brianbondy.com$domain=brianbondy.com|slashdot.org,tag=blah" ++ [LF]].
Example tags_kept : tags_kept_run = true.
Proof. reflexivity. Qed.

(** js/fingerprintTest.js *)
Definition fingerprints_run : bool := Eval vm_compute in
  forallb (fun x => is_ok (eqb_opt (snd x)) (getFingerprintStr (e_bads ET) (cstr (fst x))))
    [(B "fdasfdsafdas", Some (B "fdasfd")); (B "*fdasfdsafdas", Some (B "fdasfd"));
     (B "||brave.com", Some (B "brave.")); (B "prime", None); (B "https://", None);
     (B "||a.ca/brianbondy", Some (B "a.ca/b"))].
Example fingerprints : fingerprints_run = true.
Proof. reflexivity. Qed.

(** js/getFilters.js and js/parsingTest.js: which array a rule is in and how it
    is described (domain only, negated domain only, the same for exceptions) *)
Definition array_names : list bytes :=
  [B "filters"; B "cosmeticFilters"; B "htmlFilters"; B "exceptionFilters";
   B "noFingerprintFilters"; B "noFingerprintExceptionFilters";
   B "noFingerprintDomainOnlyFilters"; B "noFingerprintAntiDomainOnlyFilters";
   B "noFingerprintDomainOnlyExceptionFilters"; B "noFingerprintAntiDomainOnlyExceptionFilters"].
Definition described (x : bytes * bytes * list bool) : bool :=
  let '(l, name, fl) := x in
  is_ok (fun c => forallb (fun n =>
      is_ok (fun es => match es with
        | [] => negb (beq n name)
        | [e] => beq n name &&
            forallb (fun p => Bool.eqb (fst p) (snd p))
              (combine [en_domOnly e; en_antiOnly e; en_domOnlyExc e; en_antiOnlyExc e] fl)
        | _ => false end) (getFilters c n)) array_names)
    (after ET [Clear; Parse false l]).
Definition get_filters_run : bool := Eval vm_compute in
  forallb described
    [(B "basicfilter", B "filters", [false; false; false; false]);
     (B "##table[width=""80%""]", B "cosmeticFilters", [false; false; false; false]);
     (B "example.org$$script[data-src=""banner""]", B "htmlFilters", [true; false; false; false]);
     (B "@@advice", B "exceptionFilters", [false; false; false; false]);
     (B "adv", B "noFingerprintFilters", [false; false; false; false]);
     (B "adv$domain=brianbondy.com", B "noFingerprintDomainOnlyFilters",
      [true; false; false; false]);
     (B "adv$domain=~brianbondy.com", B "noFingerprintAntiDomainOnlyFilters",
      [false; true; false; false]);
     (B "@@adv$domain=brianbondy.com", B "noFingerprintDomainOnlyExceptionFilters",
      [false; false; true; false]);
     (B "@@adv$domain=~brianbondy.com", B "noFingerprintAntiDomainOnlyExceptionFilters",
      [false; false; false; true]);
     (B "||test.com", [], []);
     (B "||test.com/test", B "filters", [false; false; false; false])].
Example get_filters : get_filters_run = true.
Proof. reflexivity. Qed.
Definition array_sizes_run : bool := Eval vm_compute in
  forallb (fun x => let '(l, n, k) := x in
      is_ok (fun c => is_ok (fun es => Nat.eqb (length es) k) (getFilters c n))
            (after ET [Parse false l]))
    [(B "/filter1" ++ [LF] ++ B "filter2/", B "filters", 2%nat);
     (B "/filter1/" ++ [LF] ++ B "filter2/", B "filters", 1%nat);
     (B "/filter1/" ++ [LF] ++ B "filter2/", B "noFingerprintFilters", 1%nat)].
Example array_sizes : array_sizes_run = true.
Proof. reflexivity. Qed.
