(* BreakSpec.v -- specification of a segmentation by a boundary predicate on contexts. *)
From Coq Require Import List ZArith.
Import ListNotations.

(* [brk left right]: is there a boundary between a non-empty left context (nearest first) and a
   non-empty right context?  The end of text is always a boundary. *)
Section Split.
Context {C : Type} (brk : list C -> list C -> bool).
Fixpoint split_text (left open rest : list C) : list (list C) :=
  match rest with
  | [] => []
  | r :: t =>
      match t with
      | [] => [open ++ [r]]
      | _ :: _ => if brk (r :: left) t then (open ++ [r]) :: split_text (r :: left) [] t
                  else split_text (r :: left) (open ++ [r]) t
      end
  end.
Definition segmentation (text : list C) : list (list C) := split_text [] [] text.
End Split.

(* The positions at which a list of segments ends, counted from k. *)
Fixpoint bounds {C : Type} (k : nat) (segs : list (list C)) : list nat :=
  match segs with [] => [] | w :: r => (k + length w)%nat :: bounds (k + length w) r end.
