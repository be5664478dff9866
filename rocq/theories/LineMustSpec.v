(* LineMustSpec.v -- mandatory line breaks, and those of them that are reported as such. *)
From Coq Require Import List ZArith Bool.
From Verif Require Import Base Line LineSpec.
Import ListNotations.
Open Scope Z_scope.

(* The classes of the runes before a position, last first, and behind it.  LB3, LB4, LB5: the break is mandatory at the end of the text and behind a
   hard line break (NUL has the class of the end). *)
Definition next_class (r : list Z) : Z := match r with [] => eot | b :: _ => b end.
Definition mandatory (l r : list Z) : bool := (next_class r =? eot) || match l with a :: _ => one_of a hard | [] => false end.

(* doc.go:133-137: "Mandatory breaks will have a penalty/merit of <= -10000". *)
Definition reported (p : Z) : bool := p <=? -10000.

(* classes before which UAX#14 has a rule against breaks whatever is in front: LB6, LB7; and with lower precedence LB11, LB12a, LB13, LB19, LB21 *)
Definition never_before : list Z := [BK; CR; NL; SP; ZW].
Definition rarely_before : list Z := never_before ++ [LF; WJ; GL; CL; CP; EX; IS; SY; QU; BA; HY; NS].
(* behind a hard line break: is it reported when the class b follows? *)
Definition seen_hard (l : list Z) (b : Z) : bool :=
  match l with
  | a :: l' => if a =? CR then negb (one_of b never_before)
               else one_of a hard && (((a =? LF) && (next_class l' =? CR)) || negb (one_of b rarely_before))
  | [] => false
  end.
(* at the end: the classes behind which a break is forbidden hide it *)
Definition hides_end : list Z := [WJ; GL; QU; BB; HY; BA; CM; ZWJ].
