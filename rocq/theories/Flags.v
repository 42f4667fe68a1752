(** Enum constants of /repo/filter.h. *)
From Verif Require Import Base.
Local Open Scope N_scope.

(** filter.h:16-34 [enum FilterType] (octal literals of the source in
    comments). *)
Definition FTNoFilterType : N := 0.
Definition FTRegex : N := 1.                       (* 01 *)
Definition FTElementHiding : N := 2.               (* 02 *)
Definition FTElementHidingException : N := 4.      (* 04 *)
Definition FTHostAnchored : N := 8.                (* 010 *)
Definition FTLeftAnchored : N := 16.               (* 020 *)
Definition FTRightAnchored : N := 32.              (* 040 *)
Definition FTComment : N := 64.                    (* 0100 *)
Definition FTException : N := 128.                 (* 0200 *)
Definition FTEmpty : N := 256.                     (* 0400 *)
Definition FTHostOnly : N := 512.                  (* 01000 *)
Definition FTHTMLFiltering : N := 1024.            (* 02000 *)

(** filter.h:31-33 [FTListTypesMask] *)
Definition FTListTypesMask : N :=
  fold_left N.lor [FTException; FTElementHiding; FTElementHidingException;
                   FTEmpty; FTComment; FTHTMLFiltering] 0.

(** filter.h:36-86 [enum FilterOption]; [8^k] groups follow the octal
    literals. *)
Definition FONoFilterOption : N := 0.
Definition FOScript : N := 2 ^ 0.
Definition FOImage : N := 2 ^ 1.
Definition FOStylesheet : N := 2 ^ 2.
Definition FOObject : N := 2 ^ 3.                  (* 010 *)
Definition FOXmlHttpRequest : N := 2 ^ 4.
Definition FOObjectSubrequest : N := 2 ^ 5.
Definition FOSubdocument : N := 2 ^ 6.             (* 0100 *)
Definition FODocument : N := 2 ^ 7.
Definition FOOther : N := 2 ^ 8.
Definition FOXBL : N := 2 ^ 9.                     (* 01000 *)
Definition FOCollapse : N := 2 ^ 10.
Definition FODoNotTrack : N := 2 ^ 11.
Definition FOElemHide : N := 2 ^ 12.               (* 010000 *)
Definition FOThirdParty : N := 2 ^ 13.
Definition FONotThirdParty : N := 2 ^ 14.
Definition FOPing : N := 2 ^ 15.                   (* 0100000 *)
Definition FOPopup : N := 2 ^ 16.
Definition FORedirect : N := 2 ^ 17.
Definition FOCSP : N := 2 ^ 18.                    (* 01000000 *)
Definition FOFont : N := 2 ^ 19.
Definition FOMedia : N := 2 ^ 20.
Definition FOWebRTC : N := 2 ^ 21.                 (* 010000000 *)
Definition FOGenericHide : N := 2 ^ 22.
Definition FOGenericBlock : N := 2 ^ 23.
Definition FOEmpty : N := 2 ^ 24.                  (* 0100000000 *)
Definition FOWebsocket : N := 2 ^ 25.
Definition FOImportant : N := 2 ^ 26.
Definition FOExplicitCancel : N := 2 ^ 27.         (* 01000000000 *)
Definition FOUnknown : N := 2 ^ 29.                (* 04000000000 *)

(** filter.h:78-80 *)
Definition FOResourcesOnly : N :=
  fold_left N.lor [FOScript; FOImage; FOStylesheet; FOObject; FOXmlHttpRequest;
    FOObjectSubrequest; FOSubdocument; FODocument; FOOther; FOXBL; FOFont;
    FOMedia; FOWebRTC; FOWebsocket; FOPing] 0.
(** filter.h:81-82 *)
Definition FOUnsupportedSoSkipCheck : N :=
  fold_left N.lor [FOPopup; FOCSP; FOElemHide; FOGenericHide; FOGenericBlock;
    FOEmpty; FOUnknown] 0.
(** filter.h:84-85 *)
Definition BehavioralFilterOnly : N :=
  fold_left N.lor [FORedirect; FOImportant; FOExplicitCancel; FOThirdParty;
    FONotThirdParty] 0.

(** [(x & m) != 0] in a C condition. *)
Definition has (x m : N) : bool := negb (N.land x m =? 0).
