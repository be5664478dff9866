(* InPlace.v -- the loops of bidi/reordering.go that work in place, index by index, as they are in the code.
   Reorder.v has the same functions on lists (reverse_seg, rev, order_loop); InPlaceProofs.v shows that they
   agree.  A loop that does not end within its fuel gives NoFuel, an index out of range Panic. *)
From Coq Require Import List ZArith Lia Bool.
From Verif Require Import Base Scrap Reorder.
Import ListNotations.
Open Scope Z_scope.

(* scraps[i], scraps[j] = scraps[j], scraps[i] *)
Definition swap {A} (l : list A) (i j : Z) : res (list A) :=
  let* a := lift (zget l j) in
  let* b := lift (zget l i) in
  let* l := lift (zset l i a) in
  lift (zset l j b).

(* The loop of reverse: reordering.go:271-273. *)
Fixpoint reverse_loop {A} (n : nat) (l : list A) (i j : Z) : res (list A) :=
  if i <? j then
    match n with
    | O => NoFuel
    | S n => let* l := swap l i j in reverse_loop n l (i + 1) (j - 1)
    end
  else Ok l.

(* reverse: reordering.go:266-275. *)
Definition reverse_go {A} (n : nat) (l : list A) (i j : Z) : res (list A) :=
  let (i, j) := if i >? j then (j, i) else (i, j) in
  reverse_loop n l i (Z.min (j - 1) (zlen l - 1)).

(* reverseWithoutIsolates: reordering.go:277-293. *)
Definition reverseWithoutIsolates_go (n : nat) (l : list scrap) (i j : Z) : res (list scrap) :=
  if zlen l =? 0 then Ok l
  else
    let (i, j) := if i >? j then (j, i) else (i, j) in
    let j := Z.min j (zlen l) in
    let* a := lift (zget l i) in
    let i := if isisolate a then i + 1 else i in
    let* b := lift (zget l (j - 1)) in
    let j := if isisolate b then j - 1 else j in
    reverse_go n l i j.

(* The loop of SegmentIterator: reordering.go:504-509. *)
Fixpoint iter_loop {A} (n : nat) (l : list A) (i mid : Z) : res (list A) :=
  if i <? mid then
    match n with
    | O => NoFuel
    | S n => let* l := swap l i (zlen l - i - 1) in iter_loop n l (i + 1) mid
    end
  else Ok l.
Definition iter_reverse {A} (n : nat) (l : list A) : res (list A) := iter_loop n l 0 (zlen l / 2).

(* The automaton of reorder on scraps without children, the array being changed in place:
   reordering.go:204-253 with i = 0, j = len(scraps).  [st] is false for state 0, true for state 1;
   [last] is the variable j after line 210. *)
Fixpoint automaton (n : nat) (emb : bool) (l : list scrap) (last pos start : Z) (st : bool) : res (list scrap) :=
  match n with
  | O => NoFuel
  | S n =>
      let* s := lift (zget l pos) in
      let* (l, start, st) :=
        if negb st then
          if level s emb >? 0 then Ok (l, pos, true) else Ok (l, start, st)
        else if level s emb =? 0 then
          let* l := reverse_go (length l) l start pos in Ok (l, 0, false)
        else if pos =? last then
          let* l := reverse_go (length l) l start (pos + 1) in Ok (l, start, st)
        else Ok (l, start, st) in
      if (pos =? last) || (clz s =? cNULL) then Ok l else automaton n emb l last (pos + 1) start st
  end.
Definition automaton_go (n : nat) (emb : bool) (l : list scrap) : res (list scrap) :=
  if zlen l <=? 0 then Ok l else automaton n emb l (Z.min (zlen l - 1) (zlen l - 1)) 0 0 false.
