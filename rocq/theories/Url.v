(** Model of the URL helpers of /repo/ad_block_client.cc and /repo/filter.cc. *)
From Verif Require Import Base.

(** ad_block_client.cc:195-196 [separatorBuffer] (32 entries, the unlisted
    ones are zero). *)
Definition separatorBuffer : list Z :=
  [0; 0; 0; 0; 16; -128; 0; -92; 0; 0; 0; 64]%Z.

(** ad_block_client.cc:197-199 [isSeparatorChar]: bit [c % 8] of the sign
    extended table entry [c / 8]. *)
Definition isSeparatorChar (c : ascii) : bool :=
  let n := nat_of_ascii c in
  Z.testbit (nth (n / 8) separatorBuffer 0%Z) (Z.of_nat (n mod 8)).

(** ad_block_client.cc:201-210 [findFirstSeparatorChar(input, end)], with
    [n = end - input]. *)
Fixpoint findFirstSeparatorChar (p : bytes) (n : nat) : res nat :=
  match n with
  | 0 => Ok 0
  | S n' =>
      match p with
      | [] => UB
      | c :: p' => if isSeparatorChar c then Ok 0
                   else rmap S (findFirstSeparatorChar p' n')
      end
  end.


(** ad_block_client.cc:49-51 *)
Fixpoint skip_scheme (p : bytes) : res bytes :=
  match p with
  | [] => UB
  | c :: p' => if ceq c NUL || ceq c ":" then Ok p else skip_scheme p'
  end.

(** ad_block_client.cc:54-56 *)
Fixpoint skip_slashes (p : bytes) : res bytes :=
  match p with
  | [] => UB
  | c :: p' => if negb (ceq c NUL) && ceq c "/" then skip_slashes p' else Ok p
  end.

(** ad_block_client.cc:47-64 [getUrlHost]; returns the host bytes themselves
    instead of a pointer into the URL and a length. *)
Definition getUrlHost (input : bytes) : res bytes :=
  p <- skip_scheme input ;;
  c <- deref p ;;
  p2 <- (if ceq c NUL then Ok p else skip_slashes (skipn 1 p)) ;;
  n <- strlen p2 ;;
  len <- findFirstSeparatorChar p2 n ;;
  Ok (firstn len p2).

(** filter.cc:355-369 [endsWith] on (pointer, length) pairs given as lists. *)
Definition endsWith (input sub : bytes) : bool :=
  if length input <? length sub then false
  else beq (skipn (length input - length sub) input) sub.

(** filter.cc:371-384 [isThirdPartyHost(baseContextHost, testHost)].  The index
    on line 382 is in range because [endsWith] succeeded and the lengths
    differ; the [None] branch is unreachable. *)
Definition isThirdPartyHost (base test : bytes) : bool :=
  if negb (endsWith test base) then true
  else if length test =? length base then false
  else match nth_error test (length test - length base - 1) with
       | Some c => negb (ceq c ".") && negb (length test =? length base)
       | None => true
       end.
