(* Grapheme.v -- model of grapheme/grapheme.go: the grapheme breaker and its rules.
   The rules are recognisers (Recognizer.v) subscribed to a rune publisher (PrioQ.v). *)
From Coq Require Import List ZArith Lia Bool.
From Verif Require Import Base PrioQ Recognizer.
Import ListNotations.
Open Scope Z_scope.

(* graphemeclasses.go:23-39, grapheme.go:125 *)
Definition CR : Z := 0.
Definition LF : Z := 1.
Definition Prepend : Z := 2.
Definition Control : Z := 3.
Definition Extend : Z := 4.
Definition RI : Z := 5.
Definition SpacingMark : Z := 6.
Definition cL : Z := 7.
Definition cV : Z := 8.
Definition cT : Z := 9.
Definition cLV : Z := 10.
Definition cLVT : Z := 11.
Definition ZWJ : Z := 12.
Definition Pictographic : Z := 13.
Definition Any : Z := 999.
Definition eot : Z := 1001.

(* grapheme.go:212-217 *)
Definition GlueJOIN : Z := 10000.
Definition GlueBANG : Z := -20000.
Definition penalty999 : Z := -10.

(* The state functions of the rules, grapheme.go:231-358. *)
Inductive glabel := NewLine | CRLF | RControl | GB6 | GB6_next | GB7 | GB7_next | GB8 | GB8_next | GB9 | GB9a | GB9b
  | GB11 | GB11Cont | GB11Finish | GB12 | GB12Cont.

(* State shared by the recognisers through UserData: the blocked classes (grapheme.go:82, 160-167). *)
Definition blocked : Type := list Z.
Definition is_blocked (c : Z) (g : blocked) : bool := existsb (Z.eqb c) g.
Definition unblock (c : Z) (g : blocked) : blocked := filter (fun d => negb (d =? c)) g.
Definition block (c : Z) (g : blocked) : blocked := c :: unblock c g.

(* grapheme.go:231-358; a rule does not look at the rune itself *)
Definition gstep (l : glabel) (g : blocked) (r : rec glabel) (rune c : Z) : blocked * (rec glabel * option glabel) :=
  match l with
  | NewLine => (* 231-241 *)
      (g, if c =? LF then DoAccept r [GlueBANG; GlueBANG] else if c =? CR then Proceed r CRLF else DoAbort r)
  | CRLF => (* 243-250 *)
      (g, if c =? LF then DoAccept r [GlueBANG; 3 * GlueJOIN] else DoAccept r [0; GlueBANG; GlueBANG])
  | RControl => (g, DoAccept r [GlueBANG; GlueBANG]) (* 252-256 *)
  | GB6 => (g, Proceed r GB6_next) (* 258-262 *)
  | GB6_next => (* 264-270 *)
      (g, if (c =? cL) || (c =? cV) || (c =? cLV) || (c =? cLVT) then DoAccept r [0; GlueJOIN] else DoAbort r)
  | GB7 => (g, Proceed r GB7_next) (* 272-276 *)
  | GB7_next => (g, if (c =? cV) || (c =? cT) then DoAccept r [0; GlueJOIN] else DoAbort r) (* 278-284 *)
  | GB8 => (g, Proceed r GB8_next) (* 286-291 *)
  | GB8_next => (g, if c =? cT then DoAccept r [0; GlueJOIN] else DoAbort r) (* 293-300 *)
  | GB9 => (g, DoAccept r [0; GlueJOIN]) (* 302-306 *)
  | GB9a => (g, DoAccept r [0; GlueJOIN]) (* 308-312 *)
  | GB9b => (g, DoAccept r [GlueJOIN]) (* 314-318 *)
  | GB11 => (g, Stay r GB11Cont) (* 320-323 *)
  | GB11Cont => (* 325-334 *)
      (g, if c =? ZWJ then Proceed r GB11Finish else if c =? Extend then Proceed r GB11Cont else DoAbort r)
  | GB11Finish => (g, if c =? Pictographic then DoAccept r [0; GlueJOIN] else DoAbort r) (* 336-341 *)
  | GB12 => (block RI g, Stay r GB12Cont) (* 343-348 *)
  | GB12Cont => (unblock RI g, if c =? RI then DoAccept r [0; GlueJOIN] else DoAbort r) (* 350-358 *)
  end.

(* grapheme.go:102-118: the rules started by a class *)
Definition rules (c : Z) : list glabel :=
  if c =? CR then [NewLine] else if c =? LF then [NewLine] else if c =? Control then [RControl]
  else if c =? cL then [GB6] else if c =? cV then [GB7] else if c =? cLV then [GB7]
  else if c =? cLVT then [GB8] else if c =? cT then [GB8]
  else if c =? Extend then [GB9] else if c =? ZWJ then [GB9] else if c =? SpacingMark then [GB9a]
  else if c =? Prepend then [GB9b] else if c =? Pictographic then [GB11] else if c =? RI then [GB12] else [].

(* grapheme.go:76-84; the publisher holds the recognisers.  longestMatch and penalties are the
   results of the current round, rules is a constant, emojirules and weight are never read. *)
Record gbreaker := mkgb { gpub : @pqueue (rec glabel); gblk : blocked }.
(* grapheme.go:98-121 *)
Definition NewBreaker : gbreaker := mkgb empty_pq [].

(* grapheme.go:144-156 *)
Fixpoint subscribe (ls : list glabel) (c : Z) (p : @pqueue (rec glabel)) : option (@pqueue (rec glabel)) :=
  match ls with
  | [] => Some p
  | l :: r => do p' <- Push Done p (NewRecognizer c l); subscribe r c p'
  end.
Definition StartRulesFor (c : Z) (b : gbreaker) : option gbreaker :=
  if is_blocked c (gblk b) then Some b
  else do p <- subscribe (rules c) c (gpub b); Some (mkgb p (gblk b)).

(* grapheme.go:372-381 *)
Definition setPenalty1 (ps : list Z) (p : Z) : list Z :=
  match ps with
  | [] => [0; p]
  | [a] => [a; p]
  | a :: b :: t => if b =? 0 then a :: p :: t else ps
  end.

(* grapheme.go:172-192, 195-199, 205-207: result is the breaker, LongestActiveMatch() and Penalties() *)
Definition ProceedWithRune (r c : Z) (b : gbreaker) : option (gbreaker * Z * list Z) :=
  do (g, longest, pens, rel, p) <- Publish Done (RuneEvent gstep r c) MatchLength (gblk b) (gpub b);
  Some (mkgb p g, Z.max 1 longest, setPenalty1 pens penalty999).

Section Classes.
(* unicode.Is on the range table of each class, and on emoji.Extended_Pictographic.  The class set-up
   (SetupGraphemeClasses) is assumed to have been called. *)
Context (table : Z -> Z -> bool) (pict : Z -> bool).

(* grapheme.go:47-58 *)
Definition ClassForRune (r : Z) : Z :=
  if r =? 0 then eot
  else match find (fun c => table c r) [0; 1; 2; 3; 4; 5; 6; 7; 8; 9; 10; 11; 12] with Some c => c | None => Any end.
(* grapheme.go:129-137 *)
Definition CodePointClassFor (r : Z) : Z :=
  let c := ClassForRune r in if (c =? Any) && pict r then Pictographic else c.

(* One round of the segmenter with this breaker (segment.go:457-465).  None is a breaker that panicked. *)
Definition gb_step (b : option gbreaker) (r : Z) : option gbreaker * Z * list Z :=
  let c := CodePointClassFor r in
  match (do b0 <- b; do b1 <- StartRulesFor c b0; ProceedWithRune r c b1) with
  | Some (b', lam, ps) => (Some b', lam, ps)
  | None => (None, 0, [])
  end.
End Classes.
