(* GraphemeSpec.v -- extended grapheme cluster boundaries, UAX#29 (Unicode 13) section 3.1.1,
   rules GB3-GB999 in the order of the standard, on code-point classes. *)
From Coq Require Import List ZArith Bool.
From Verif Require Import Grapheme.
Import ListNotations.
Open Scope Z_scope.

Definition is_one_of (c : Z) (l : list Z) : bool := existsb (Z.eqb c) l.
Definition newline_or_control (c : Z) : bool := is_one_of c [Control; CR; LF].

(* \p{Extended_Pictographic} Extend*, nearest first *)
Fixpoint pict_extend (l : list Z) : bool :=
  match l with
  | c :: t => if c =? Extend then pict_extend t else c =? Pictographic
  | [] => false
  end.
(* how many regional indicators come immediately before *)
Fixpoint ri_run (l : list Z) : nat :=
  match l with c :: t => if c =? RI then S (ri_run t) else 0%nat | [] => 0%nat end.

(* [prepend_rule] switches GB9b. Left context nearest first. *)
Definition gb_boundary (prepend_rule : bool) (left : list Z) (c : Z) : bool :=
  match left with
  | [] => true                                                                          (* GB1 *)
  | a :: before =>
      if (a =? CR) && (c =? LF) then false                                              (* GB3 *)
      else if newline_or_control a then true                                            (* GB4 *)
      else if newline_or_control c then true                                            (* GB5 *)
      else if (a =? cL) && is_one_of c [cL; cV; cLV; cLVT] then false                   (* GB6 *)
      else if is_one_of a [cLV; cV] && is_one_of c [cV; cT] then false                  (* GB7 *)
      else if is_one_of a [cLVT; cT] && (c =? cT) then false                            (* GB8 *)
      else if is_one_of c [Extend; ZWJ] then false                                      (* GB9 *)
      else if c =? SpacingMark then false                                               (* GB9a *)
      else if prepend_rule && (a =? Prepend) then false                                 (* GB9b *)
      else if (a =? ZWJ) && (c =? Pictographic) && pict_extend before then false        (* GB11 *)
      else if (a =? RI) && (c =? RI) && Nat.odd (ri_run left) then false                (* GB12/13 *)
      else true                                                                         (* GB999 *)
  end.

(* Boundary between two pieces of a text of runes. *)
Definition gb_break (prepend_rule : bool) (cls : Z -> Z) (left right : list Z) : bool :=
  match right with [] => true | r :: _ => gb_boundary prepend_rule (map cls left) (cls r) end.
