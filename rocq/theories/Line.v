(* Line.v -- model of uax14/uax14.go and uax14/rules.go: the line breaker and its rules.
   The file with the class tables and constants (uax14classes.go) is generated and not part of the
   repository; the constants are those of the generator's template, the tables are an oracle. *)
From Coq Require Import List ZArith Lia Bool.
From Verif Require Import Base PrioQ Recognizer.
Import ListNotations.
Open Scope Z_scope.

(* uax14/internal/generator/generator.go:52-55, 139-144 *)
Definition AI : Z := 0.   Definition AL : Z := 1.   Definition B2 : Z := 2.   Definition BA : Z := 3.
Definition BB : Z := 4.   Definition BK : Z := 5.   Definition CB : Z := 6.   Definition CJ : Z := 7.
Definition CL : Z := 8.   Definition CM : Z := 9.   Definition CP : Z := 10.  Definition CR : Z := 11.
Definition EB : Z := 12.  Definition EM : Z := 13.  Definition EX : Z := 14.  Definition GL : Z := 15.
Definition H2 : Z := 16.  Definition H3 : Z := 17.  Definition HL : Z := 18.  Definition HY : Z := 19.
Definition ID : Z := 20.  Definition IN : Z := 21.  Definition IS : Z := 22.  Definition JL : Z := 23.
Definition JT : Z := 24.  Definition JV : Z := 25.  Definition LF : Z := 26.  Definition NL : Z := 27.
Definition NS : Z := 28.  Definition NU : Z := 29.  Definition OP : Z := 30.  Definition PO : Z := 31.
Definition PR : Z := 32.  Definition QU : Z := 33.  Definition RI : Z := 34.  Definition SA : Z := 35.
Definition SG : Z := 36.  Definition SP : Z := 37.  Definition SY : Z := 38.  Definition WJ : Z := 39.
Definition XX : Z := 40.  Definition ZW : Z := 41.  Definition ZWJ : Z := 42.
(* uax14.go:68-72 *)
Definition sot : Z := 1000.
Definition eot : Z := 1001.

(* uax14.go:278-281, 368-372 *)
Definition noBreak : Z := 10000.
Definition Suppress : Z := 10000.
Definition Must : Z := -19000.
Definition DefaultPenalty : Z := 1.

(* uax14.go:379-387: math.Pow(1.3, 31-w) truncated (no power is near an integer except 1.3^0 = 1);
   all weights in use are below 32 *)
Definition p (w : Z) : Z :=
  let q := 31 - w in let r := 13 ^ q / 10 ^ q in if r =? DefaultPenalty then DefaultPenalty + 1 else r.
(* uax14.go:391-399; l is at least 1 at every call *)
Definition ps (w first l : Z) : list Z := 0 :: first :: repeat (p w) (Z.to_nat (l - 1)).

(* The state functions of rules.go:126-755.  rule_LB2 and finish_LB25 are never used. *)
Inductive llabel := LB3 | NewLine | CRLF | HardBreak | LB7 | LB8 | LB8_end | LB8a | LB11 | LB12 | LB13 | LB14 | LB14_end
  | LB15 | LB15_end | LB16 | LB16_end | LB17 | LB17_end | LB18 | LB19 | LB20 | LB21 | LB21x | LB21a | LB21a_end | LB21b | LB21b_end
  | LB22 | LB22_end | LB23_1 | LB23_2 | LB23_1_end | LB23_2_end | LB23a_1 | LB23a_2 | LB23a_1_end | LB23a_2_end
  | LB24_1 | LB24_2 | LB24_1_end | LB24_2_end | LB25 | LB25_2 | LB25_3 | LB25_4 | LB25_5
  | LB26_1 | LB26_2 | LB26_3 | LB26_1_end | LB26_2_end | LB26_3_end | LB27 | LB27_2 | LB27_1_end | LB27_2_end
  | LB28 | LB28_end | LB29 | LB29_end | LB30_1 | LB30_2 | LB30_1_end | LB30_2_end | LB30a | LB30a_end | LB30b | LB30b_end.

(* State shared through UserData (uax14.go:113-115): blockedRI, lastClass, substituted. *)
Record shared := mksh { blockedRI : bool; lastClass : Z; substituted : bool }.

Definition one_of (c : Z) (l : list Z) : bool := existsb (Z.eqb c) l.

Definition lstep (l : llabel) (g : shared) (r : rec llabel) (rune c : Z) : shared * (rec llabel * option llabel) :=
  let accept ps := (g, DoAccept r ps) in
  let abort := (g, DoAbort r) in
  let go l' := (g, Proceed r l') in                                  (* rec.MatchLen++; return l' *)
  let stay := (g, Stay r l) in                                       (* return the same function *)
  let on cs ps := if one_of c cs then accept ps else abort in
  match l with
  | LB3 => accept [0; Must]                                          (* 126-128 *)
  | NewLine =>                                                       (* 130-140 *)
      if one_of c [BK; NL; LF] then (g, DoAccept (fst (Proceed r CRLF)) [Must])
      else if c =? CR then go CRLF else abort
  | CRLF =>                                                          (* 142-148 *)
      if c =? LF then accept [Must; Suppress; Suppress] else accept [0; Must; Suppress]
  | HardBreak => on [BK; NL; LF; CR] [0; Suppress]                   (* 150-157 *)
  | LB7 => accept [0; Suppress]                                      (* 160-162 *)
  | LB8 => go LB8_end                                                (* 168-171 *)
  | LB8_end => if c =? SP then stay else accept [0; - p 8]           (* 174-180 *)
  | LB8a => accept [p 8]                                             (* 185-187 *)
  | LB11 => accept [p 11; p 11]                                      (* 192-194 *)
  | LB12 =>                                                          (* 211-219 *)
      if one_of (lastClass g) [SP; BA; HY] then accept [p 12] else accept [p 12; p 12]
  | LB13 => accept [0; p 13]                                         (* 224-226 *)
  | LB14 => go LB14_end                                              (* 231-234 *)
  | LB14_end => if c =? SP then stay else accept [0; p 14]           (* 237-243 *)
  | LB15 => go LB15_end                                              (* 248-251 *)
  | LB15_end => if c =? SP then stay else on [OP] [0; p 15]          (* 254-263 *)
  | LB16 => go LB16_end                                              (* 269-272 *)
  | LB16_end => if c =? SP then stay else on [NS] [0; p 16]          (* 275-284 *)
  | LB17 => go LB17_end                                              (* 289-292 *)
  | LB17_end => if c =? SP then stay else on [B2] [0; p 17]          (* 295-304 *)
  | LB18 => accept [- p 18]                                          (* 309-311 *)
  | LB19 => accept [p 19; p 19]                                      (* 316-318 *)
  | LB20 =>                                                          (* 323-329 *)
      if (lastClass g =? CB) && substituted g then accept [- p 20; p 20] else accept [- p 20; - p 20]
  | LB21 => accept [0; p 21]                                         (* 335-337 *)
  | LB21x => accept [p 21]                                           (* 340-342 *)
  | LB21a => go LB21a_end                                            (* 347-350 *)
  | LB21a_end => on [HY; BA] [p 21]                                  (* 353-359 *)
  | LB21b => go LB21b_end                                            (* 364-367 *)
  | LB21b_end => on [HL] [0; p 21]                                   (* 370-376 *)
  | LB22 => go LB22_end                                              (* 386-389 *)
  | LB22_end => on [IN] [0; p 22]                                    (* 392-398 *)
  | LB23_1 => go LB23_1_end                                          (* 403-406 *)
  | LB23_2 => go LB23_2_end                                          (* 409-412 *)
  | LB23_1_end => on [NU] [0; p 23]                                  (* 415-421 *)
  | LB23_2_end => on [AL; HL] [0; p 23]                              (* 424-430 *)
  | LB23a_1 => go LB23a_1_end                                        (* 436-439 *)
  | LB23a_2 => go LB23a_2_end                                        (* 442-445 *)
  | LB23a_1_end => on [ID; EB; EM] [0; p 23]                         (* 448-454 *)
  | LB23a_2_end => on [PO] [0; p 23]                                 (* 457-463 *)
  | LB24_1 => go LB24_1_end                                          (* 469-472 *)
  | LB24_2 => go LB24_2_end                                          (* 475-478 *)
  | LB24_1_end => on [AL; HL] [0; p 23]                              (* 481-487 *)
  | LB24_2_end => on [PR; PO] [0; p 23]                              (* 490-496 *)
  | LB25 => go LB25_2                                                (* 505-508 *)
  | LB25_2 =>                                                        (* 510-520 *)
      if one_of c [OP; HY] then go LB25_3 else if c =? NU then go LB25_4 else abort
  | LB25_3 => if c =? NU then go LB25_4 else abort                   (* 522-529 *)
  | LB25_4 =>                                                        (* 531-543 *)
      if one_of c [NU; SY; IS] then go LB25_4 else if one_of c [CL; CP] then go LB25_5
      else if one_of c [PR; PO] then accept (ps 25 (p 25) (matchLen r)) else accept (ps 25 0 (matchLen r))
  | LB25_5 =>                                                        (* 545-551 *)
      if one_of c [PR; PO] then accept (ps 25 (p 25) (matchLen r)) else accept (ps 25 0 (matchLen r))
  | LB26_1 => go LB26_1_end                                          (* 560-563 *)
  | LB26_2 => go LB26_2_end                                          (* 566-569 *)
  | LB26_3 => go LB26_3_end                                          (* 572-575 *)
  | LB26_1_end => on [JL; JV; H2; H3] [0; p 26]                      (* 578-584 *)
  | LB26_2_end => on [JV; JT] [0; p 26]                              (* 587-593 *)
  | LB26_3_end => on [JT] [0; p 26]                                  (* 596-602 *)
  | LB27 => go LB27_1_end                                            (* 612-615 *)
  | LB27_2 => go LB27_2_end                                          (* 618-621 *)
  | LB27_1_end => on [IN; PO] [0; p 27]                              (* 624-630 *)
  | LB27_2_end => on [JL; JV; JT; H2; H3] [0; p 27]                  (* 633-639 *)
  | LB28 => go LB28_end                                              (* 644-647 *)
  | LB28_end => on [AL; HL] [0; p 28]                                (* 650-656 *)
  | LB29 => go LB29_end                                              (* 661-664 *)
  | LB29_end => on [AL; HL] [0; p 29]                                (* 667-673 *)
  | LB30_1 => go LB30_1_end                                          (* 682-685 *)
  | LB30_2 => go LB30_2_end                                          (* 688-691 *)
  | LB30_1_end => on [OP] [0; p 30]                                  (* 694-700 *)
  | LB30_2_end => on [AL; HL; NU] [0; p 30]                          (* 703-709 *)
  | LB30a => (mksh true (lastClass g) (substituted g), Proceed r LB30a_end) (* 715-720 *)
  | LB30a_end =>                                                     (* 725-737 *)
      if (c =? RI) && substituted g then stay
      else (mksh false (lastClass g) (substituted g), if c =? RI then DoAccept r [0; p 30] else DoAbort r)
  | LB30b => go LB30b_end                                            (* 742-745 *)
  | LB30b_end => on [EM] [0; p 30]                                   (* 748-755 *)
  end.

(* uax14.go:131-170: the map of rules *)
Definition rules (c : Z) : list llabel :=
  if c =? eot then [LB3]
  else if one_of c [NL; LF; BK; CR] then [NewLine; HardBreak]
  else if c =? SP then [LB7; LB18] else if c =? ZW then [LB7; LB8] else if c =? WJ then [LB11] else if c =? GL then [LB12]
  else if c =? CL then [LB13; LB16] else if c =? CP then [LB13; LB16; LB30_2]
  else if c =? EX then [LB13; LB22] else if c =? IS then [LB13; LB29] else if c =? SY then [LB13; LB21b]
  else if c =? OP then [LB14; LB25_2] else if c =? QU then [LB15; LB19] else if c =? B2 then [LB17]
  else if c =? BA then [LB21] else if c =? CB then [LB20] else if c =? HY then [LB21; LB25_2] else if c =? NS then [LB21]
  else if c =? BB then [LB21x]
  else if c =? AL then [LB22; LB23_1; LB24_2; LB28; LB30_1] else if c =? HL then [LB21a; LB22; LB23_1; LB24_2; LB28; LB30_1]
  else if c =? ID then [LB22; LB23a_2] else if c =? EB then [LB22; LB23a_2; LB30b] else if c =? EM then [LB22; LB23a_2]
  else if c =? IN then [LB22] else if c =? NU then [LB22; LB23_2; LB25_3; LB30_1] else if c =? RI then [LB30a]
  else if c =? PR then [LB23a_1; LB24_1; LB25; LB27_2] else if c =? PO then [LB24_1; LB25]
  else if c =? JL then [LB26_1; LB27] else if c =? JV then [LB26_2; LB27] else if c =? H2 then [LB26_2; LB27]
  else if c =? JT then [LB26_3; LB27] else if c =? H3 then [LB26_3; LB27] else if c =? ZWJ then [LB8a] else [].

(* uax14.go:106-116; penalties is the result of the current round, shadow is never read *)
Record lbreaker := mklb { lpub : @pqueue (rec llabel); llong : Z; lsh : shared }.
(* uax14.go:128-177 *)
Definition NewLineWrap : lbreaker := mklb empty_pq 0 (mksh false sot false).

(* uax14.go:200-205: Expect is set to the class, and never read *)
Fixpoint subscribe (ls : list llabel) (e : Z) (pq : @pqueue (rec llabel)) : option (@pqueue (rec llabel)) :=
  match ls with
  | [] => Some pq
  | l :: r => do pq' <- Push Done pq (NewRecognizer e l); subscribe r e pq'
  end.
(* uax14.go:196-225 *)
Definition StartRulesFor (c : Z) (b : lbreaker) : option lbreaker :=
  if (c =? RI) && blockedRI (lsh b) then Some b
  else do pq <- subscribe (rules c) c (lpub b); Some (mklb pq (llong b) (lsh b)).

(* uax14.go:408-418 *)
Definition setPenalty1 (ps : list Z) (p : Z) : list Z :=
  match ps with
  | [] => [0; p]
  | [a] => [a; p]
  | a :: b :: t => if b =? 0 then a :: p :: t else ps
  end.
(* uax14.go:316-327: both branches set the second penalty if it is missing or 0 *)
Definition patch (inner : bool) (x : list Z) : list Z := setPenalty1 x (if inner then noBreak else DefaultPenalty).
(* uax14.go:328-333 *)
Definition lift1 (p : Z) : Z := if p >? DefaultPenalty then p + noBreak else p.

(* uax14.go:311-341, 343-346, 352-354: result is the breaker, LongestActiveMatch() and Penalties() *)
Definition ProceedWithRune (r c : Z) (b : lbreaker) : option (lbreaker * Z * list Z) :=
  do (g, longest, pens, rel, pq) <- Publish Done (RuneEvent lstep r c) MatchLength (lsh b) (lpub b);
  let inner := substituted g && (lastClass g =? c) in
  Some (mklb pq longest (mksh (blockedRI g) (if c =? eot then sot else c) (substituted g)),
        Z.max 1 longest, map lift1 (patch inner pens)).

Section Classes.
(* unicode.Is on the range table of each class, and on Mn or Mc *)
Context (table : Z -> Z -> bool) (mark : Z -> bool).

(* uax14.go:80-93 *)
Definition all_classes : list Z := map Z.of_nat (seq 0 43).
Definition ClassForRune (r : Z) : Z :=
  if r =? 0 then eot else match find (fun c => table c r) all_classes with Some c => c | None => XX end.
(* uax14.go:237-249 *)
Definition resolve (r c : Z) : Z :=
  if one_of c [AI; SG; XX] then AL else if c =? SA then (if mark r then CM else AL) else if c =? CJ then NS else c.
(* uax14.go:260-276 with the class before substitution returned in [substituted] *)
Definition substitute (c last : Z) : Z :=
  if one_of c [CM; ZWJ] then (if one_of last [sot; BK; CR; LF; NL; SP; ZW] then AL else last) else c.
(* uax14.go:183-190 *)
Definition CodePointClassFor (r : Z) (b : lbreaker) : lbreaker * Z :=
  let g := lsh b in
  let c := resolve r (ClassForRune r) in
  let c' := substitute c (lastClass g) in
  (mklb (lpub b) (llong b) (mksh (blockedRI g) (lastClass g) (negb (c =? c'))), c').

(* One round of the segmenter with this breaker (segment.go:457-465).  None is a breaker that panicked. *)
Definition lb_step (b : option lbreaker) (r : Z) : option lbreaker * Z * list Z :=
  match (do b0 <- b; let (b1, c) := CodePointClassFor r b0 in do b2 <- StartRulesFor c b1; ProceedWithRune r c b2) with
  | Some (b', lam, ps) => (Some b', lam, ps)
  | None => (None, 0, [])
  end.
End Classes.
