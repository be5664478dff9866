(* Classes.v -- lookup of code-point classes in the tables of the repository.  The class functions of
   Grapheme.v, Words.v and WidthSpec.v take the tables as a parameter; here they are. *)
From Coq Require Import List ZArith Bool.
From Verif Require Import Base ClassTables WidthSpec.
From Verif Require Grapheme Words.
Import ListNotations.
Open Scope Z_scope.

(* unicode.Is(rangetable.New(...), r), packages unicode and golang.org/x/text/unicode/rangetable *)
Definition in_range (r : Z) (x : Z * Z) : bool := (fst x <=? r) && (r <=? snd x).
Definition Is (t : ranges) (r : Z) : bool := existsb (in_range r) t.

(* graphemeclasses.go:67-2594: rangeFromGraphemeClass after the set-up, by class *)
Definition rangeFromGraphemeClass : list ranges :=
  [GraphemeTab.CR; GraphemeTab.LF; GraphemeTab.Prepend; GraphemeTab.Control; GraphemeTab.Extend;
    GraphemeTab.Regional_Indicator; GraphemeTab.SpacingMark; GraphemeTab.L; GraphemeTab.V; GraphemeTab.T;
    GraphemeTab.LV; GraphemeTab.LVT; GraphemeTab.ZWJ].
(* uax29classes.go:72-4137 *)
Definition rangeFromUAX29Class : list ranges :=
  [WordTab.ALetter; WordTab.CR; WordTab.Double_Quote; WordTab.Extend; WordTab.ExtendNumLet; WordTab.Format;
    WordTab.Hebrew_Letter; WordTab.Katakana; WordTab.LF; WordTab.MidLetter; WordTab.MidNum; WordTab.MidNumLet;
    WordTab.Newline; WordTab.Numeric; WordTab.Regional_Indicator; WordTab.Single_Quote; WordTab.WSegSpace;
    WordTab.ZWJ].
(* emojiclasses.go:49-865 *)
Definition rangeFromEmojisClass : list ranges :=
  [EmojiTab.Emoji; EmojiTab.Emoji_Presentation; EmojiTab.Emoji_Modifier; EmojiTab.Emoji_Modifier_Base;
    EmojiTab.Emoji_Component; EmojiTab.Extended_Pictographic].

Definition lookup (ts : list ranges) (c r : Z) : bool :=
  match zget ts c with Some t => Is t r | None => false end.
Definition gtable : Z -> Z -> bool := lookup rangeFromGraphemeClass.
Definition wtable : Z -> Z -> bool := lookup rangeFromUAX29Class.
Definition etable : Z -> Z -> bool := lookup rangeFromEmojisClass.
Definition pict : Z -> bool := Is EmojiTab.Extended_Pictographic.

(* The classes of the two breakers and of package emoji, with these tables. *)
Definition gclass : Z -> Z := Grapheme.CodePointClassFor gtable pict.
Definition wclass : Z -> Z := Words.CodePointClassFor wtable pict.
Definition eclass : Z -> Z := EmojisClassForRune etable.
