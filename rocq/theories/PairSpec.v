(* PairSpec.v -- the breaks of the four breakers, as rules on the runes before and after a position. *)
From Coq Require Import List ZArith Bool.
From Verif Require Import Base BreakSpec LineSpec LineCor LineAgree AnyBreaker.
From Verif Require Grapheme GraphemeSpec Words WordSpec Line.
Import ListNotations.
Open Scope Z_scope.

(* the classes of a rune *)
Definition gcls (t : tables) : Z -> Z := Grapheme.CodePointClassFor (tg t) (tpict t).
Definition wcls (t : tables) : Z -> Z := Words.CodePointClassFor (tw t) (tpict t).
Definition lcl (t : tables) : Z -> Z := lcls (tl_ t) (tcomb t).

(* what each of them breaks at on its own (C18, C24, C39, C12); the runes before the position are given last first *)
Definition rules (t : tables) (k : kind) (l r : list Z) : bool :=
  match k with
  | KGraphemes => GraphemeSpec.gb_break false (gcls t) l r
  | KWords => WordSpec.wb_break true (wcls t) l r
  | KLines => line_break code_break (lcl t) l r
  | KSpaces => negb (Bool.eqb (tspace t (hd 0 l)) (tspace t (hd 0 r)))
  end.
(* a break wherever one of the two breaks *)
Definition union (a b : list Z -> list Z -> bool) (l r : list Z) : bool := a l r || b l r.

(* The runes that the line breaker takes for a CR are CRs for the other breaker as well. *)
Definition cr_agree (t : tables) (k : kind) (text : list Z) : Prop :=
  forall r, In r text -> lcl t r = Line.CR -> match k with KGraphemes => gcls t r = Grapheme.CR | KWords => wcls t r = Words.CR | _ => True end.
(* no CR directly behind a hard line break *)
Definition no_hard_cr (t : tables) (text : list Z) : Prop :=
  forall l a b r, text = l ++ a :: b :: r -> lcl t b = Line.CR -> Line.one_of (lcl t a) hard = false.
(* what a line breaker asks for when it has to share a segmenter with a breaker of kind k *)
Definition beside_lines (t : tables) (k : kind) (text : list Z) : Prop := cr_agree t k text /\ (k = KSpaces -> no_hard_cr t text).
(* What two breakers ask of a text: with lines see above; the simple breaker takes a NUL for the end of the text. *)
Definition fit (t : tables) (p s : kind) (text : list Z) : Prop :=
  (p = KLines -> beside_lines t s text) /\ (s = KLines -> beside_lines t p text) /\
  (p = KSpaces \/ s = KSpaces -> tspace t 0 = false /\ Forall (fun r => r <> 0) text).
