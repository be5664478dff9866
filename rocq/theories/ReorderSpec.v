(* ReorderSpec.v -- what reordering, splitting and iterating should do, independent of the code. *)
From Coq Require Import List ZArith Lia Bool.
From Verif Require Import Base Scrap.
Import ListNotations.
Open Scope Z_scope.

(* Reverse every maximal block of elements satisfying f; [acc] is the reverse of the block so far. *)
Fixpoint rev_blocks {A} (f : A -> bool) (acc l : list A) : list A :=
  match l with
  | [] => acc
  | x :: t => if f x then rev_blocks f (x :: acc) t else acc ++ x :: rev_blocks f [] t
  end.

(* The text positions l, l+1, ..., r-1. *)
Definition zrange (l r : Z) : list Z := map (fun i => l + Z.of_nat i) (seq 0 (Z.to_nat (r - l))).

(* The text positions of a list of scraps, in the order of the scraps. *)
Definition positions (ss : list scrap) : list Z := flat_map (fun s => zrange (sl s) (sr s)) ss.

(* The positions of a list of scraps, together with an attribute of their scrap. *)
Definition attributed {B} (f : scrap -> B) (ss : list scrap) : list (Z * B) :=
  flat_map (fun s => map (fun p => (p, f s)) (zrange (sl s) (sr s))) ss.

(* The scraps cover the positions from a to b without gap or overlap. *)
Fixpoint tiles (a : Z) (ss : list scrap) (b : Z) : Prop :=
  match ss with
  | [] => a = b
  | s :: t => sl s = a /\ a <= sr s /\ tiles (sr s) t b
  end.

(* No scrap has children. *)
Definition flat (ss : list scrap) : Prop := Forall (fun s => kids s = []) ss.

(* Scraps with proper bounds and a proper class. *)
Definition proper (s : scrap) : Prop := 0 <= sl s /\ sl s <= sr s /\ sr s < 2 ^ 32 /\ clz s <> cNULL.

(* Cut a list of scraps at several positions: each part but the last is what is split off left. *)
Section Lines.
Context (sp : list scrap -> Z -> option (list scrap * list scrap)).
Fixpoint cut_lines (ss : list scrap) (ats : list Z) : option (list (list scrap)) :=
  match ats with
  | [] => Some [ss]
  | a :: r => do (x, y) <- sp ss a; do ls <- cut_lines y r; Some (x :: ls)
  end.
End Lines.

(* A line covering the positions from lo to hi, possibly with a copy of the isolate initiator, which
   covers nothing, in front.  Isolate formatting at the top level covers no text: it is the
   paragraph's own pair of delimiters. *)
Definition line (lo : Z) (ss : list scrap) (hi : Z) : Prop :=
  exists pre body, ss = pre ++ body /\ tiles lo body hi /\
    Forall (fun s => isisolate s = true -> sl s = sr s) body /\
    (pre = [] /\ match body with f :: _ => isisolate f = false | [] => True end \/
     exists i, pre = [i] /\ isisolate i = true /\ sl i = sr i /\ 0 <= sl i <= lo).

(* The lines cover the text between lo, the cut positions, and hi. *)
Fixpoint lines_cover (lo : Z) (ats : list Z) (hi : Z) (ls : list (list scrap)) : Prop :=
  match ats, ls with
  | [], [l] => line lo l hi
  | a :: r, l :: t => line lo l a /\ lines_cover a r hi t
  | _, _ => False
  end.

(* Cut positions ascend between lo and hi. *)
Fixpoint cuts_in (lo : Z) (ats : list Z) (hi : Z) : Prop :=
  match ats with
  | [] => True
  | a :: r => lo <= a < hi /\ cuts_in a r hi
  end.

(* ---- iterators: every iterator is a cursor of its own ---- *)
Record cursor := mkc { c_cur : option scrap; c_rest : list scrap }.

(* Nested isolating run sequences, to depth n: every child is a non-empty list of scraps without
   gaps. *)
Fixpoint tree_ok (n : nat) (ch : list scrap) : Prop :=
  match n with
  | O => False
  | S n => ch <> [] /\ (exists lo hi, tiles lo ch hi) /\ Forall (fun s => Forall (tree_ok n) (kids s)) ch
  end.

(* A history of cursors, without the reversal. *)
Inductive ccall := CNew | CNext (i : nat) | CSeg (i : nat) | CEof (i : nat).
Inductive cans := XNone | XBool (b : bool) | XSeg (l r : Z).
Definition cstep (all : list scrap) (cs : list cursor) (c : ccall) : option (list cursor * cans) :=
  match c with
  | CNew => Some (cs ++ [mkc None all], XNone)
  | CNext i =>
      do cu <- nth_error cs i;
      match c_rest cu with
      | [] => Some (cs, XBool false)
      | x :: t => Some (nset cs i (mkc (Some x) t), XBool true)
      end
  | CSeg i =>
      do cu <- nth_error cs i;
      match c_cur cu with
      | None => Some (cs, XSeg 0 0)
      | Some s => Some (cs, XSeg (sl s) (sr s))
      end
  | CEof i =>
      do cu <- nth_error cs i;
      Some (cs, XBool (match c_cur cu, c_rest cu with Some _, [] => true | _, _ => false end))
  end.
Fixpoint cruns (all : list scrap) (cs : list cursor) (l : list ccall) : option (list cursor * list cans) :=
  match l with
  | [] => Some (cs, [])
  | c :: t => do (cs, a) <- cstep all cs c; do (cs, r) <- cruns all cs t; Some (cs, a :: r)
  end.

(* ---- rule L2 of UAX#9, for one line, embedding level 0 (emb = false) or 1 ---- *)

(* Levels by rules I1 and I2. *)
Definition uax_level (emb : bool) (s : scrap) : Z :=
  if emb then (if (clz s =? cL) || (clz s =? cEN) || (clz s =? cAN) then 2 else 1)
  else if (clz s =? cEN) || (clz s =? cAN) then 2 else if clz s =? cR then 1 else 0.

(* Reverse all blocks of level at least 2, then all of level at least 1. *)
Definition rule_L2 (emb : bool) (ss : list scrap) : list scrap :=
  rev_blocks (fun s => 1 <=? uax_level emb s) [] (rev_blocks (fun s => 2 <=? uax_level emb s) [] ss).

(* No two number scraps next to each other. *)
Definition number (s : scrap) : bool := (clz s =? cEN) || (clz s =? cAN).
Fixpoint numbers_apart (ss : list scrap) : Prop :=
  match ss with
  | a :: ((b :: _) as t) => number a && number b = false /\ numbers_apart t
  | _ => True
  end.
