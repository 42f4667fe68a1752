(** C18: exactly which texts make loading a list leave its buffers. *)
From Verif Require Import Base Flags Url Sets FilterM ParseM ClientM Spec SpecM SpecF
  P_Base P_Parse P_List P_Line P_Props3 P_Line2 P_Line5 P_Fault Props_List.

(** C18: a call faults, whatever was loaded before, if and only if one of its
    lines is at fault: a '||' rule whose host name is longer than its pattern,
    a '||' line cut off before its pattern is complete, or a rule with a domain of
    more than 1024 bytes that goes into a page domain set. *)
Theorem C18_fault_iff : forall E pres t c,
  nonul t ->
  (parse E pres (cstr t) c = UB <->
   exists l f b, In l (text_lines t) /\
     parse_filter pres (cstr l) (length l) = Ok (f, b) /\ line_fault E f b).
Proof. exact text_fault_iff. Qed.
Print Assumptions C18_fault_iff.

(** Reading the lines alone never faults. *)
Theorem C18_reading_total : forall pres l,
  line_text l -> exists f b, parse_filter pres (cstr l) (length l) = Ok (f, b).
Proof. exact reading_total. Qed.
Print Assumptions C18_reading_total.

(** A bar inside the host name alone is not a fault: this rule has a long path. *)
Example C18_fault_example :
  (forall E c, parse E false (cstr (B "||a|b/ccc")) c <> UB) /\
  (forall E c, parse E false (cstr (B "ok" ++ [LF] ++ B "||a|b")) c = UB).
Proof. exact fault_example. Qed.
