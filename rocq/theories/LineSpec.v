(* LineSpec.v -- the rules of UAX#14 (Unicode 10) in their order, with numbers as regular expressions
   (section 8.2, example 7), written down as a function of the classes left and right of a position.
   Classes are those after LB1; left is nearest first.  No reference to the breaker. *)
From Coq Require Import List ZArith Lia Bool.
From Verif Require Import Base Line.
Import ListNotations.
Open Scope Z_scope.

(* What the rules want to know about a position. *)
Record ctx := mkctx {
  cb : Z;        (* class before, combining marks absorbed (LB9, LB10); sot at the start *)
  cs_ : Z;       (* class before, spaces skipped *)
  ca : Z;        (* class after *)
  cmark : bool;  (* a combining mark follows that belongs to the character before (LB9) *)
  czwj : bool;   (* behind ZWJ *)
  chl : bool;    (* behind HL (HY | BA) *)
  codd : bool;   (* behind an odd number of regional indicators *)
  cnum : bool;   (* behind NU (SY | IS)* *)
  cnumc : bool;  (* behind NU (SY | IS)* (CL | CP)? *)
  cnext : bool   (* the character after is followed by NU *)
}.
Definition hard : list Z := [BK; CR; LF; NL].
Definition decide (x : ctx) : bool :=
  let a := cb x in let b := ca x in let s := cs_ x in
  if b =? eot then true                                                                   (* LB3; U+0000 ends a text *)
  else if a =? BK then true                                                               (* LB4 *)
  else if a =? CR then negb (b =? LF) else if one_of a [LF; NL] then true                 (* LB5 *)
  else if one_of b hard then false                                                        (* LB6 *)
  else if one_of b [SP; ZW] then false                                                    (* LB7 *)
  else if s =? ZW then true                                                               (* LB8 *)
  else if czwj x && one_of b [ID; EB; EM] then false                                      (* LB8a *)
  else if cmark x then false                                                              (* LB9 *)
  else if (a =? WJ) || (b =? WJ) then false                                               (* LB11 *)
  else if a =? GL then false                                                              (* LB12 *)
  else if (b =? GL) && negb (one_of a [SP; BA; HY]) then false                            (* LB12a *)
  else if one_of b [CL; CP; EX; IS; SY] then false                                        (* LB13 *)
  else if s =? OP then false                                                              (* LB14 *)
  else if (s =? QU) && (b =? OP) then false                                               (* LB15 *)
  else if one_of s [CL; CP] && (b =? NS) then false                                       (* LB16 *)
  else if (s =? B2) && (b =? B2) then false                                               (* LB17 *)
  else if a =? SP then true                                                               (* LB18 *)
  else if (a =? QU) || (b =? QU) then false                                               (* LB19 *)
  else if (a =? CB) || (b =? CB) then true                                                (* LB20 *)
  else if one_of b [BA; HY; NS] || (a =? BB) then false                                   (* LB21 *)
  else if chl x then false                                                                (* LB21a *)
  else if (a =? SY) && (b =? HL) then false                                               (* LB21b *)
  else if one_of a [AL; HL; EX; ID; EB; EM; IN; NU] && (b =? IN) then false               (* LB22 *)
  else if one_of a [AL; HL] && (b =? NU) || (a =? NU) && one_of b [AL; HL] then false     (* LB23 *)
  else if (a =? PR) && one_of b [ID; EB; EM] || one_of a [ID; EB; EM] && (b =? PO) then false   (* LB23a *)
  else if one_of a [PR; PO] && one_of b [AL; HL] || one_of a [AL; HL] && one_of b [PR; PO] then false   (* LB24 *)
  else if one_of a [PR; PO] && ((b =? NU) || one_of b [OP; HY] && cnext x) || one_of a [OP; HY] && (b =? NU)
       || cnum x && one_of b [NU; SY; IS; CL; CP] || cnumc x && one_of b [PR; PO] then false   (* LB25 *)
  else if (a =? JL) && one_of b [JL; JV; H2; H3] || one_of a [JV; H2] && one_of b [JV; JT]
       || one_of a [JT; H3] && (b =? JT) then false                                       (* LB26 *)
  else if one_of a [JL; JV; JT; H2; H3] && one_of b [IN; PO] || (a =? PR) && one_of b [JL; JV; JT; H2; H3] then false   (* LB27 *)
  else if one_of a [AL; HL] && one_of b [AL; HL] then false                               (* LB28 *)
  else if (a =? IS) && one_of b [AL; HL] then false                                       (* LB29 *)
  else if one_of a [AL; HL; NU] && (b =? OP) || (a =? CP) && one_of b [AL; HL; NU] then false   (* LB30 *)
  else if codd x && (b =? RI) then false                                                  (* LB30a *)
  else if (a =? EB) && (b =? EM) then false                                               (* LB30b *)
  else true.                                                                              (* LB31 *)

(* LB9, LB10: characters with their combining marks; a mark without a character is AL. *)
Definition mark (c : Z) : bool := one_of c [CM; ZWJ].
Definition takes (u : Z * bool) : bool := negb (one_of (fst u) (hard ++ [SP; ZW; eot])).
Fixpoint units (l : list Z) : list (Z * bool) :=
  match l with
  | [] => []
  | c :: r =>
      if mark c then
        match units r with
        | u :: us => if takes u then (fst u, true) :: us else (AL, false) :: u :: us
        | [] => [(AL, false)]
        end
      else (c, false) :: units r
  end.
Definition last_class (us : list (Z * bool)) : Z := match us with (c, _) :: _ => if c =? eot then sot else c | [] => sot end.
Fixpoint nonspace (us : list (Z * bool)) : Z := match us with (c, _) :: r => if c =? SP then nonspace r else c | [] => sot end.
Definition is_cls (cs : list Z) (us : list (Z * bool)) : bool := match us with (c, _) :: _ => one_of c cs | [] => false end.
Fixpoint odd_ri (us : list (Z * bool)) : bool := match us with (c, _) :: r => (c =? RI) && negb (odd_ri r) | [] => false end.
Fixpoint in_number (us : list (Z * bool)) : bool :=
  match us with (c, _) :: r => (c =? NU) || one_of c [SY; IS] && in_number r | [] => false end.
Definition closed_number (us : list (Z * bool)) : bool := in_number us || is_cls [CL; CP] us && in_number (tl us).
Fixpoint next_unmarked (r : list Z) : Z := match r with c :: t => if mark c then next_unmarked t else c | [] => sot end.
Definition belongs (us : list (Z * bool)) (b : Z) : bool := mark b && match us with u :: _ => takes u | [] => false end.

Definition uax14_ctx (l r : list Z) : ctx :=
  let us := units l in
  let b := hd sot r in
  mkctx (last_class us) (nonspace us) (if mark b then AL else b) (belongs us b) (hd sot l =? ZWJ)
        (is_cls [HY; BA] us && is_cls [HL] (tl us)) (odd_ri us) (in_number us) (closed_number us) (next_unmarked (tl r) =? NU).
Definition uax14_break (l r : list Z) : bool := decide (uax14_ctx l r).

(* The same with the five places where the code treats combining marks differently:
   nothing is special behind ZWJ; a mark after HL HY or HL BA, or after CL or CP behind a number, ends
   the context; a mark after a regional indicator starts a new pair; NU must follow OP or HY directly. *)
Definition bare (us : list (Z * bool)) : bool := match us with (_, m) :: _ => negb m | [] => true end.
Fixpoint odd_ri_code (us : list (Z * bool)) : bool := match us with (c, m) :: r => (c =? RI) && (m || negb (odd_ri_code r)) | [] => false end.
Definition code_ctx (l r : list Z) : ctx :=
  let us := units l in
  let b := hd sot r in
  mkctx (last_class us) (nonspace us) (if mark b then AL else b) (belongs us b) false
        (bare us && is_cls [HY; BA] us && is_cls [HL] (tl us)) (odd_ri_code us) (in_number us)
        (in_number us || bare us && is_cls [CL; CP] us && in_number (tl us)) (hd sot (tl r) =? NU).
Definition code_break (l r : list Z) : bool := decide (code_ctx l r).
