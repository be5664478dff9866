(* RuleSpec.v -- which rule of UAX#9 governs which sequence of classes, and what it makes of them.
   Independent of the rule table of the code. *)
From Coq Require Import List ZArith Bool.
From Verif Require Import Base Scrap ReorderSpec.
Import ListNotations.
Open Scope Z_scope.

(* The sections of UAX#9; sJoin is not one of them: equal classes are joined. *)
Inductive section := sW4 | sW5 | sW6 | sW7 | sN1 | sN2 | sJoin.

(* The direction a class counts for in N1: numbers are R. *)
Definition n1_side (c : Z) : option Z :=
  if c =? cL then Some cL else if (c =? cR) || (c =? cEN) || (c =? cAN) then Some cR else None.

Definition governs (w : list Z) : option section :=
  match w with
  | [a] =>
      if (a =? cES) || (a =? cET) || (a =? cCS) then Some sW6
      else if a =? cEN then Some sW7
      else if a =? cNI then Some sN2 else None
  | [a; b] =>
      if (a =? cET) && (b =? cEN) || (a =? cEN) && (b =? cET) then Some sW5
      else if (a =? b) && ((a =? cNI) || (a =? cL) || (a =? cR)) then Some sJoin else None
  | [a; b; c] =>
      if (a =? c) && ((a =? cEN) && ((b =? cES) || (b =? cCS)) || (a =? cAN) && (b =? cCS)) then Some sW4
      else if b =? cNI then
        match n1_side a, n1_side c with
        | Some x, Some y => if x =? y then Some sN1 else None
        | _, _ => None
        end
      else None
  | _ => None
  end.

(* The classes after the rule.  [e]: the embedding direction.  [strong]: the last strong class. *)
Definition rewritten (s : section) (e strong : Z) (w : list Z) : list Z :=
  match s, w with
  | sW4, [a; _; _] => [a; a; a]
  | sW5, [_; _] => [cEN; cEN]
  | sW6, [_] => [cNI]
  | sW7, [_] => if strong =? cL then [cL] else w
  | sN1, [a; _; c] => [a; match n1_side a with Some x => x | None => cNI end; c]
  | sN2, [_] => [e]
  | _, _ => w
  end.

(* The positions of scraps, with classes given for each of them. *)
Definition attributed_as (cs : list Z) (m : list scrap) : list (Z * Z) :=
  flat_map (fun x => map (fun p => (p, fst x)) (zrange (sl (snd x)) (sr (snd x)))) (combine cs m).

Example governs_ex : governs [cEN; cNI; cAN] = Some sN1 /\ governs [cL; cNI; cEN] = None /\ governs [cAN; cES; cAN] = None /\
  rewritten sN1 cL cL [cEN; cNI; cAN] = [cEN; cR; cAN].
Proof. repeat split; reflexivity. Qed.
