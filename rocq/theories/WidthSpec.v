(* WidthSpec.v -- which characters are wide: UAX#11, section 5, stated without the code.  And the
   lookup of emoji classes, emoji/emoji.go. *)
From Coq Require Import List ZArith Bool.
From Verif Require Import Base Width.
Import ListNotations.
Open Scope Z_scope.

(* emoji/emoji.go:35-43, for set up classes: the smallest of the six classes (emojiclasses.go:22-27)
   whose table contains the rune; table c r is unicode.Is of the table of class c. *)
Definition EmojisClassForRune (table : Z -> Z -> bool) (r : Z) : Z :=
  match find (fun c => table c r) [0; 1; 2; 3; 4; 5] with Some c => c | None => -1 end.

(* UAX#11, section 5: wide and fullwidth characters are wide, ambiguous ones are wide in an East Asian
   context, all others (also neutral ones) are treated as narrow. *)
Definition uax11_wide (asian : bool) (k : kind) : bool :=
  match k with
  | EastAsianWide | EastAsianFullwidth => true
  | EastAsianAmbiguous => asian
  | EastAsianNarrow | EastAsianHalfwidth | Neutral => false
  end.

(* Is a context East Asian?  A context made by the package (or used before) says so by its resolver,
   another one by its fields: forced, or a script of the list, or a locale that matches.  Without a
   context: no. *)
Definition east_asian (Zzzz : Z) (script_of : Z -> Z) (asian_script matches : Z -> bool) (c : option context) : bool :=
  match c with
  | None => false
  | Some ctx =>
      match resolve ctx with
      | Some ToWide => true
      | Some ToNarrow => false
      | None => ForceEastAsian ctx || asian_script (if Script ctx =? Zzzz then script_of (Locale ctx) else Script ctx)
                || matches (Locale ctx)
      end
  end.
