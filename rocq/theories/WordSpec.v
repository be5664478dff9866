(* WordSpec.v -- word boundaries, UAX#29 (Unicode 13) section 4.1.1, rules WB3-WB999 in the order
   of the standard, on code-point classes. *)
From Coq Require Import List ZArith Bool.
From Verif Require Import Words.
Import ListNotations.
Open Scope Z_scope.

Definition newline (c : Z) : bool := (c =? Newline) || (c =? CR) || (c =? LF).
Definition extend (c : Z) : bool := (c =? Extend) || (c =? Format) || (c =? ZWJ).
Definition AHLetter (c : Z) : bool := (c =? ALetter) || (c =? Hebrew_Letter).
Definition MidNumLetQ (c : Z) : bool := (c =? MidNumLet) || (c =? Single_Quote).

(* WB4: skip what belongs to the neighbouring character *)
Fixpoint skip (l : list Z) : list Z := match l with c :: t => if extend c then skip t else l | [] => [] end.
(* the next character in that direction is a P / a P and then a Q *)
Definition one (P : Z -> bool) (l : list Z) : bool := match skip l with c :: _ => P c | [] => false end.
Definition two (P Q : Z -> bool) (l : list Z) : bool := match skip l with c :: t => P c && one Q t | [] => false end.
(* how many regional indicators come immediately before *)
Fixpoint ri_run (l : list Z) : nat :=
  match l with c :: t => if extend c then ri_run t else if c =? RI then S (ri_run t) else 0%nat | [] => 0%nat end.

(* Is there a boundary between left (nearest first) and right?
   [adjacent7b] weakens WB7b: the Hebrew letter must follow the double quote immediately. *)
Definition wb_boundary (adjacent7b : bool) (left right : list Z) : bool :=
  match left, right with
  | a :: _, c :: after =>
      if (a =? CR) && (c =? LF) then false                                                      (* WB3 *)
      else if newline a then true                                                               (* WB3a *)
      else if newline c then true                                                               (* WB3b *)
      else if (a =? ZWJ) && (c =? Pictographic) then false                                      (* WB3c *)
      else if (a =? WSegSpace) && (c =? WSegSpace) then false                                   (* WB3d *)
      else if extend c then false                                                               (* WB4 *)
      else if one AHLetter left && AHLetter c then false                                        (* WB5 *)
      else if one AHLetter left && ((c =? MidLetter) || MidNumLetQ c) && one AHLetter after then false        (* WB6 *)
      else if two (fun m => (m =? MidLetter) || MidNumLetQ m) AHLetter left && AHLetter c then false          (* WB7 *)
      else if one (Z.eqb Hebrew_Letter) left && (c =? Single_Quote) then false                  (* WB7a *)
      else if one (Z.eqb Hebrew_Letter) left && (c =? Double_Quote)
              && (if adjacent7b then match after with d :: _ => d =? Hebrew_Letter | [] => false end
                  else one (Z.eqb Hebrew_Letter) after) then false                              (* WB7b *)
      else if two (Z.eqb Double_Quote) (Z.eqb Hebrew_Letter) left && (c =? Hebrew_Letter) then false          (* WB7c *)
      else if one (Z.eqb Numeric) left && (c =? Numeric) then false                             (* WB8 *)
      else if one AHLetter left && (c =? Numeric) then false                                    (* WB9 *)
      else if one (Z.eqb Numeric) left && AHLetter c then false                                 (* WB10 *)
      else if two (fun m => (m =? MidNum) || MidNumLetQ m) (Z.eqb Numeric) left && (c =? Numeric) then false  (* WB11 *)
      else if one (Z.eqb Numeric) left && ((c =? MidNum) || MidNumLetQ c) && one (Z.eqb Numeric) after then false (* WB12 *)
      else if one (Z.eqb Katakana) left && (c =? Katakana) then false                           (* WB13 *)
      else if one (fun x => AHLetter x || (x =? Numeric) || (x =? Katakana) || (x =? ExtendNumLet)) left && (c =? ExtendNumLet) then false (* WB13a *)
      else if one (Z.eqb ExtendNumLet) left && (AHLetter c || (c =? Numeric) || (c =? Katakana)) then false   (* WB13b *)
      else if (c =? RI) && Nat.odd (ri_run left) then false                                     (* WB15/16 *)
      else true                                                                                 (* WB999 *)
  | _, _ => true                                                                                (* WB1, WB2 *)
  end.

(* Boundary between two pieces of a text of runes. *)
Definition wb_break (adjacent7b : bool) (cls : Z -> Z) (left right : list Z) : bool :=
  wb_boundary adjacent7b (map cls left) (map cls right).
