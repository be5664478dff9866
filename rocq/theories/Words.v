(* Words.v -- model of uax29/uax29.go: the word breaker and its rules. *)
From Coq Require Import List ZArith Lia Bool.
From Verif Require Import Base PrioQ Recognizer.
Import ListNotations.
Open Scope Z_scope.

(* uax29classes.go:23-44, uax29.go:147 *)
Definition ALetter : Z := 0.
Definition CR : Z := 1.
Definition Double_Quote : Z := 2.
Definition Extend : Z := 3.
Definition ExtendNumLet : Z := 4.
Definition Format : Z := 5.
Definition Hebrew_Letter : Z := 6.
Definition Katakana : Z := 7.
Definition LF : Z := 8.
Definition MidLetter : Z := 9.
Definition MidNum : Z := 10.
Definition MidNumLet : Z := 11.
Definition Newline : Z := 12.
Definition Numeric : Z := 13.
Definition RI : Z := 14.
Definition Single_Quote : Z := 15.
Definition WSegSpace : Z := 16.
Definition ZWJ : Z := 17.
Definition Pictographic : Z := 18.
Definition Other : Z := 999.
Definition eot : Z := 1001.

(* uax29.go:226-231 *)
Definition Suppress : Z := 10000.
Definition Must : Z := -10000.
Definition penalty999 : Z := 10.

(* The state functions, uax29.go:235-576. *)
Inductive wlabel := NewLine | CRLF | WB3c | Pictography | WB3d | WB3d_end | WB4 | WB5 | WB5_10_end | WB6_7 | WB6_7_cont | WB6_7_end
  | WB7a | WB7a_end | WB7bc | WB7bc_cont | WB7bc_end | WB8 | WB9 | WB8_9_end | WB10 | WB11 | WB11_cont | WB11_end
  | WB13 | WB13_end | WB13a | WB13a_end | WB13b | WB13b_end | WB15 | WB15_end.

(* State shared through UserData: blockedRI and previousClass (uax29.go:104-105). *)
Definition shared : Type := bool * Z.

(* uax29.go:288-294: class is ignored (and MatchLen++) *)
Definition ignored (c : Z) : bool := (c =? Extend) || (c =? Format) || (c =? ZWJ).
(* uax29.go:346-348, 469-471: p := make([]int, n+1+2); p[len-1] = p[1] = Suppress, n = MatchLen-Expect *)
Definition mid_pens (n : Z) : list Z := 0 :: Suppress :: repeat 0 (Z.to_nat n) ++ [Suppress].
Definition ah (c : Z) : bool := (c =? ALetter) || (c =? Hebrew_Letter).

Definition wstep (l : wlabel) (g : shared) (r : rec wlabel) (rune c : Z) : shared * (rec wlabel * option wlabel) :=
  (* `if checkIgnoredCharacters(rec, c) { return self }; body` *)
  let skipping (self : wlabel) (body : rec wlabel * option wlabel) := (g, if ignored c then Proceed r self else body) in
  let suppress := DoAccept r [0; Suppress] in
  match l with
  | NewLine => (* 235-246 *)
      (g, if (c =? LF) || (c =? Newline) then DoAccept r [Must; Must] else if c =? CR then Proceed r CRLF else DoAbort r)
  | CRLF => (* 248-256 *)
      (g, if c =? LF then DoAccept r [Must; 3 * Suppress] else DoAccept r [0; Must; Must])
  | WB3c => (g, Proceed r Pictography) (* 258-261 *)
  | Pictography => (g, if c =? Pictographic then suppress else DoAbort r) (* 263-270 *)
  | WB3d => (g, Proceed r WB3d_end) (* 272-276 *)
  | WB3d_end => (g, if c =? WSegSpace then suppress else DoAbort r) (* 278-286 *)
  | WB5 => (g, Proceed r WB5_10_end) (* 297-301 *)
  | WB5_10_end => skipping WB5_10_end (if ah c then suppress else DoAbort r) (* 304-314 *)
  | WB6_7 => (g, Proceed r WB6_7_cont) (* 317-321 *)
  | WB6_7_cont => (* 324-336 *)
      skipping WB6_7_cont
        (if (c =? MidLetter) || (c =? MidNumLet) || (c =? Single_Quote)
         then (mkrec (matchLen r + 1) (matchLen r + 1) (penalties r) (nextStep r), Some WB6_7_end)
         else DoAbort r)
  | WB6_7_end => (* 339-352 *)
      skipping WB6_7_end (if ah c then DoAccept r (mid_pens (matchLen r - expect r)) else DoAbort r)
  | WB7a => (g, Proceed r WB7a_end) (* 355-359 *)
  | WB7a_end => skipping WB7a_end (if c =? Single_Quote then suppress else DoAbort r) (* 362-372 *)
  | WB7bc => (g, Proceed r WB7bc_cont) (* 375-379 *)
  | WB7bc_cont => skipping WB7bc_cont (if c =? Double_Quote then Proceed r WB7bc_end else DoAbort r) (* 381-391 *)
  | WB7bc_end => skipping WB7bc_end (if c =? Hebrew_Letter then DoAccept r [0; Suppress; Suppress] else DoAbort r) (* 393-403 *)
  | WB8 => (g, Proceed r WB8_9_end) (* 406-410 *)
  | WB9 => (g, Proceed r WB8_9_end) (* 413-417 *)
  | WB8_9_end => skipping WB8_9_end (if c =? Numeric then suppress else DoAbort r) (* 420-430 *)
  | WB10 => (g, Proceed r WB5_10_end) (* 433-437 *)
  | WB11 => (g, Proceed r WB11_cont) (* 440-444 *)
  | WB11_cont => (* 447-459 *)
      skipping WB11_cont
        (if (c =? MidNum) || (c =? MidNumLet) || (c =? Single_Quote)
         then (mkrec (matchLen r + 1) (matchLen r + 1) (penalties r) (nextStep r), Some WB11_end)
         else DoAbort r)
  | WB11_end => (* 462-476 *)
      skipping WB11_end (if c =? Numeric then DoAccept r (mid_pens (matchLen r - expect r)) else DoAbort r)
  | WB13 => (g, Proceed r WB13_end) (* 479-483 *)
  | WB13_end => skipping WB13_end (if c =? Katakana then suppress else DoAbort r) (* 486-496 *)
  | WB13a => (g, Proceed r WB13a_end) (* 499-503 *)
  | WB13a_end => skipping WB13a_end (if c =? ExtendNumLet then suppress else DoAbort r) (* 506-516 *)
  | WB13b => (g, Proceed r WB13b_end) (* 519-523 *)
  | WB13b_end => (* 526-536 *)
      skipping WB13b_end (if ah c || (c =? Numeric) || (c =? Katakana) then suppress else DoAbort r)
  | WB15 => ((true, snd g), Proceed r WB15_end) (* 539-545 *)
  | WB15_end => (* 548-560 *)
      if ignored c then (g, Proceed r WB15_end)
      else ((false, snd g), if c =? RI then suppress else DoAbort r)
  | WB4 => (* 564-576 *)
      let prev := snd g in
      (g, if ignored c && negb (prev =? LF) && negb (prev =? Newline) && negb (prev =? CR) then suppress else DoAbort r)
  end.

(* uax29.go:123-137 *)
Definition rules (c : Z) : list wlabel :=
  if c =? CR then [NewLine] else if c =? LF then [NewLine] else if c =? Newline then [NewLine]
  else if c =? ZWJ then [WB3c; WB4] else if c =? WSegSpace then [WB3d]
  else if c =? Extend then [WB4] else if c =? Format then [WB4]
  else if c =? ALetter then [WB5; WB6_7; WB9; WB13a]
  else if c =? Hebrew_Letter then [WB5; WB6_7; WB7a; WB7bc; WB9; WB13a]
  else if c =? Numeric then [WB8; WB10; WB11; WB13a]
  else if c =? ExtendNumLet then [WB13a; WB13b]
  else if c =? Katakana then [WB13; WB13a]
  else if c =? RI then [WB15] else [].

(* uax29.go:98-106; penalties is the result of the current round, weight is never read *)
Record wbreaker := mkwb { wpub : @pqueue (rec wlabel); wlong : Z; wsh : shared }.
(* uax29.go:120-143; previousClass starts as 0 *)
Definition NewWordBreaker : wbreaker := mkwb empty_pq 0 (false, 0).

(* uax29.go:164-179: Expect is set to the current longest match *)
Fixpoint subscribe (ls : list wlabel) (e : Z) (p : @pqueue (rec wlabel)) : option (@pqueue (rec wlabel)) :=
  match ls with
  | [] => Some p
  | l :: r => do p' <- Push Done p (NewRecognizer e l); subscribe r e p'
  end.
Definition StartRulesFor (c : Z) (b : wbreaker) : option wbreaker :=
  if (c =? RI) && fst (wsh b) then Some b
  else do p <- subscribe (rules c) (wlong b) (wpub b); Some (mkwb p (wlong b) (wsh b)).

(* uax29.go:583-592 *)
Definition setPenalty1 (ps : list Z) (p : Z) : list Z :=
  match ps with
  | [] => [0; p]
  | [a] => [a; p]
  | a :: b :: t => if b =? 0 then a :: p :: t else ps
  end.

(* uax29.go:199-207, 213-215, 221-223: result is the breaker, LongestActiveMatch() and Penalties() *)
Definition ProceedWithRune (r c : Z) (b : wbreaker) : option (wbreaker * Z * list Z) :=
  do (g, longest, pens, rel, p) <- Publish Done (RuneEvent wstep r c) MatchLength (wsh b) (wpub b);
  Some (mkwb p longest (fst g, c), longest, setPenalty1 pens penalty999).

Section Classes.
(* unicode.Is on the range table of each class, and on emoji.Extended_Pictographic *)
Context (table : Z -> Z -> bool) (pict : Z -> bool).

(* uax29.go:67-78 *)
Definition ClassForRune (r : Z) : Z :=
  if r =? 0 then eot
  else match find (fun c => table c r) [0; 1; 2; 3; 4; 5; 6; 7; 8; 9; 10; 11; 12; 13; 14; 15; 16; 17] with Some c => c | None => Other end.
(* uax29.go:151-159 *)
Definition CodePointClassFor (r : Z) : Z :=
  let c := ClassForRune r in if (c =? Other) && pict r then Pictographic else c.

(* One round of the segmenter with this breaker (segment.go:457-465).  None is a breaker that panicked. *)
Definition wb_step (b : option wbreaker) (r : Z) : option wbreaker * Z * list Z :=
  let c := CodePointClassFor r in
  match (do b0 <- b; do b1 <- StartRulesFor c b0; ProceedWithRune r c b1) with
  | Some (b', lam, ps) => (Some b', lam, ps)
  | None => (None, 0, [])
  end.
End Classes.
