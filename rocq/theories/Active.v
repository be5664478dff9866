(* Active.v -- how many recognisers of a breaker are told about a rune. *)
From Coq Require Import List ZArith Lia Bool.
From Verif Require Import Base PrioQ Recognizer Line.
From Verif Require Grapheme Words.
Import ListNotations.
Open Scope Z_scope.

(* The breaker b after it has read the runes rs (segment.go:457-465 hands them over one by one). *)
Definition after {B} (bstep : B -> Z -> B * Z * list Z) (b : B) (rs : list Z) : B :=
  fold_left (fun b r => fst (fst (bstep b r))) rs b.

(* Recognisers subscribed when rune r is published: those that stayed, and those started for r
   (automata.go:237-257 sends the event to each of them).  None: the breaker has panicked. *)
Definition gtold (table : Z -> Z -> bool) (pict : Z -> bool) (b : option Grapheme.gbreaker) (r : Z) : option nat :=
  do b0 <- b; do b1 <- Grapheme.StartRulesFor (Grapheme.CodePointClassFor table pict r) b0; Some (length (q (Grapheme.gpub b1))).
Definition wtold (table : Z -> Z -> bool) (pict : Z -> bool) (b : option Words.wbreaker) (r : Z) : option nat :=
  do b0 <- b; do b1 <- Words.StartRulesFor (Words.CodePointClassFor table pict r) b0; Some (length (q (Words.wpub b1))).
Definition ltold (table : Z -> Z -> bool) (comb : Z -> bool) (b : option lbreaker) (r : Z) : option nat :=
  do b0 <- b; let (b1, c) := CodePointClassFor table comb r b0 in do b2 <- StartRulesFor c b1; Some (length (q (lpub b2))).

(* Characters a number may consist of, by their class after LB1: prefix, postfix, opening, hyphen, digit, symbol, separator,
   closing; and combining marks, which count as the character before them. *)
Definition number_part (c : Z) : bool := one_of c [PR; PO; OP; HY; NU; SY; IS; CL; CP; CM; ZWJ].
(* length of the run of such characters at the end of a text *)
Fixpoint run_back (f : Z -> bool) (l : list Z) : nat := match l with c :: t => if f c then S (run_back f t) else 0%nat | [] => 0%nat end.
Definition number_run (cs : list Z) : nat := run_back number_part (rev cs).

(* All events a breaker sends while it reads a text. *)
Fixpoint work {B} (told : B -> Z -> option nat) (bstep : B -> Z -> B * Z * list Z) (b : B) (rs : list Z) : option nat :=
  match rs with
  | [] => Some 0%nat
  | r :: t => do n <- told b r; do m <- work told bstep (fst (fst (bstep b r))) t; Some (n + m)%nat
  end.
