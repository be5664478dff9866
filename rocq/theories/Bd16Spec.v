(* Bd16Spec.v -- definition BD16 of UAX#9 (version 13), written down without reference to the code.
   The text is a list of characters with their positions. *)
From Coq Require Import List ZArith Lia Bool.
From Verif Require Import Base.
Import ListNotations.
Open Scope Z_scope.

Section BD16.
Context (table : list (Z * Z)).   (* BidiBrackets.txt: opening bracket, its Bidi_Paired_Bracket *)
Context (canon : Z -> Z).         (* canonical equivalent of a character *)

Definition opening (r : Z) : Prop := In r (map fst table).
Definition closing (r : Z) : Prop := In r (map snd table).
Definition is_opening (r : Z) : bool := existsb (fun p => fst p =? r) table.
Definition is_closing (r : Z) : bool := existsb (fun p => snd p =? r) table.

(* Bidi_Paired_Bracket of an opening bracket. *)
Definition paired (r : Z) : Z :=
  match find (fun p => fst p =? r) table with Some p => snd p | None => r end.

(* Steps 1-5 of BD16: search from the top of the stack, pop through the element found. *)
Fixpoint bd_pop (c : Z) (stk : list (Z * Z)) : option (Z * list (Z * Z)) :=
  match stk with
  | [] => None
  | (x, q) :: t => if x =? c then Some (q, t) else bd_pop c t
  end.

(* The pairs found in the text, given the stack (top first); processing stops for the remainder of
   the sequence when an opening bracket meets a full stack of 63 elements. *)
Fixpoint bd16 (stk : list (Z * Z)) (txt : list (Z * Z)) : list (Z * Z) :=
  match txt with
  | [] => []
  | (r, p) :: t =>
      if is_opening r
      then if (length stk <? 63)%nat then bd16 ((canon (paired r), p) :: stk) t else []
      else if is_closing r
      then match bd_pop (canon r) stk with
           | Some (q, stk') => (q, p) :: bd16 stk' t
           | None => bd16 stk t
           end
      else bd16 stk t
  end.

(* BD16 does not stop early on this text. *)
Fixpoint bd_fits (stk : list (Z * Z)) (txt : list (Z * Z)) : bool :=
  match txt with
  | [] => true
  | (r, p) :: t =>
      if is_opening r
      then (length stk <? 63)%nat && bd_fits ((canon (paired r), p) :: stk) t
      else if is_closing r
      then match bd_pop (canon r) stk with
           | Some (q, stk') => bd_fits stk' t
           | None => bd_fits stk t
           end
      else bd_fits stk t
  end.

(* Positions ascend from lo. *)
Fixpoint ascending (lo : Z) (txt : list (Z * Z)) : Prop :=
  match txt with
  | [] => True
  | (_, p) :: t => lo <= p /\ ascending (p + 1) t
  end.

(* Pairs do not cross, and no position occurs in two of them. *)
Definition nested_or_apart (p q : Z * Z) : Prop :=
  fst p < snd p /\ fst q < snd q /\
  (snd p < fst q \/ snd q < fst p \/ (fst p < fst q /\ snd q < snd p) \/ (fst q < fst p /\ snd p < snd q)).
End BD16.

(* The canonical equivalents among the paired brackets of Unicode 13: U+2329 and U+232A. *)
Definition canon13 (r : Z) : Z := if r =? 9001 then 12296 else if r =? 9002 then 12297 else r.
