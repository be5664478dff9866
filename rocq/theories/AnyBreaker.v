(* AnyBreaker.v -- the breakers of the library as unicode breakers of one segmenter.

   segment/segment.go:107-127: NewSegmenter takes any number of uax.UnicodeBreaker; the segmenter
   knows them only by this interface (automata.go:13-19).  The interface value is a sum of the
   four breakers here. *)
From Coq Require Import List ZArith.
From Verif Require Import Base.
From Verif Require Grapheme Words Line SimpleWord.
Import ListNotations.
Open Scope Z_scope.

Inductive unicode_breaker :=
| Graphemes (b : option Grapheme.gbreaker)
| WordBreaks (b : option Words.wbreaker)
| LineBreaks (b : option Line.lbreaker)
| Spaces (b : SimpleWord.swb).

(* the oracles: class tables of the three packages, emoji, combining marks and unicode.IsSpace *)
Record tables := mktables { tg : Z -> Z -> bool; tw : Z -> Z -> bool; tl_ : Z -> Z -> bool; tpict : Z -> bool; tcomb : Z -> bool; tspace : Z -> bool }.

(* segment/segment.go:457-465: the calls for one rune go to the breaker behind the interface *)
Definition any_step (t : tables) (b : unicode_breaker) (r : Z) : unicode_breaker * Z * list Z :=
  match b with
  | Graphemes b => let '(b', lam, ps) := Grapheme.gb_step (tg t) (tpict t) b r in (Graphemes b', lam, ps)
  | WordBreaks b => let '(b', lam, ps) := Words.wb_step (tw t) (tpict t) b r in (WordBreaks b', lam, ps)
  | LineBreaks b => let '(b', lam, ps) := Line.lb_step (tl_ t) (tcomb t) b r in (LineBreaks b', lam, ps)
  | Spaces b => let '(b', lam, ps) := SimpleWord.swb_step (tspace t) b r in (Spaces b', lam, ps)
  end.

(* grapheme.go:98-121, uax29.go:120-143, uax14.go:128-177, segment/simplewordbreak.go:29-32 *)
Inductive kind := KGraphemes | KWords | KLines | KSpaces.
Definition new_breaker (k : kind) : unicode_breaker :=
  match k with
  | KGraphemes => Graphemes (Some Grapheme.NewBreaker)
  | KWords => WordBreaks (Some Words.NewWordBreaker)
  | KLines => LineBreaks (Some Line.NewLineWrap)
  | KSpaces => Spaces SimpleWord.NewSimpleWordBreaker
  end.
