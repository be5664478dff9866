(* Options.v -- the options of the Bidi resolver.
   Models bidi/scanner.go:443-518 and the loop over the options in newScanner (scanner.go:56-60). *)
From Coq Require Import List ZArith Bool.
From Verif Require Import Base Scanner.
Import ListNotations.
Open Scope Z_scope.

(* scanner.go:447-452: the bits of bidiScanner.mode, a byte *)
Definition optionRecognizeLegacy : Z := 2.
Definition optionOuterR2L : Z := 4.
Definition optionTesting : Z := 8.
Definition optionIgnoreParSep : Z := 16.

(* sc.hasMode: scanner.go:516-518 *)
Definition hasMode (mode m : Z) : bool := 0 <? Z.land mode m.

(* Option: scanner.go:445, a function that may change the mode (no option changes anything else); None is nil. *)
Definition Option := option (Z -> Z).

(* the common body of scanner.go:460-467, 493-500 and 507-514 for bit m *)
Definition switch (m : Z) (b : bool) (mode : Z) : Z :=
  if (negb (hasMode mode m) && b) || (hasMode mode m && negb b) then Z.lor mode m else mode.

(* scanner.go:460-467 *)
Definition RecognizeLegacy (b : bool) : Option := Some (switch optionRecognizeLegacy b).
(* scanner.go:471-478; direction 1 is RightToLeft (doc.go:80-89), a Go int *)
Definition DefaultDirection (dir : Z) : Option :=
  if dir =? 1 then Some (fun mode => Z.lor mode optionOuterR2L) else None.
(* scanner.go:493-500 *)
Definition TestMode (b : bool) : Option := Some (switch optionTesting b).
(* scanner.go:507-514 *)
Definition IgnoreParagraphSeparators (b : bool) : Option := Some (switch optionIgnoreParSep b).

(* scanner.go:56-60: the mode of a new scanner is 0 (scanner.go:46) *)
Definition apply_options (mode : Z) (opts : list Option) : Z :=
  fold_left (fun mode opt => match opt with Some f => f mode | None => mode end) opts mode.

(* The mode as the record of flags that the model of the scanner takes (Scanner.v): every test of the mode in
   the package is one of these (scanner.go:108, 162, 218). *)
Definition mode_of (mode : Z) : Scanner.mode :=
  mkmode (hasMode mode optionOuterR2L) (hasMode mode optionTesting) (hasMode mode optionIgnoreParSep).
(* newScanner's mode from the options given to ResolveParagraph (resolver.go:58-59) *)
Definition configure (opts : list Option) : Scanner.mode := mode_of (apply_options 0 opts).
