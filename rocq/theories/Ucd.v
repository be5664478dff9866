(* Ucd.v -- model of internal/ucdparse/gentables.go: collecting the range table of a category.
   Output's text is modelled by the entries it prints. *)
From Coq Require Import List ZArith Bool.
From Verif Require Import Base.
Import ListNotations.
Open Scope Z_scope.

(* gentables.go:21-27; the zero value is a new collector (internal/tablegen/main.go:122).  Code points
   are below 2^31 - 1, so hi+1 does not wrap. *)
Record collector := mkrt { cnt : Z; latinOffset : Z; switch32 : Z; ranges : list (Z * Z); lo : Z; hi : Z }.
Definition new_collector : collector := mkrt 0 0 0 [] 0 0.

(* unicode.MaxLatin1 *)
Definition MaxLatin1 : Z := 255.

(* gentables.go:32-49 *)
Definition Append (rt : collector) (l r : Z) : collector :=
  if l =? hi rt + 1 then mkrt (cnt rt) (latinOffset rt) (switch32 rt) (ranges rt) (lo rt) r
  else
    mkrt (cnt rt + 1)
         (if (latinOffset rt =? 0) && (hi rt >? MaxLatin1) then cnt rt else latinOffset rt)
         (if (switch32 rt =? 0) && ((lo rt >? 65536) || (hi rt >? 65536)) then cnt rt else switch32 rt)
         (ranges rt ++ [(lo rt, hi rt)]) l r.

(* internal/tablegen/main.go:87-94: one Append per line of the file *)
Definition collect (rs : list (Z * Z)) : collector := fold_left (fun rt x => Append rt (fst x) (snd x)) rs new_collector.

(* gentables.go:52-77: the entries printed under R16 and R32, and LatinOffset (0 if not printed) *)
Definition Output (rt : collector) : list (Z * Z) * list (Z * Z) * Z :=
  if switch32 rt >? 0
  then (firstn (Z.to_nat (switch32 rt)) (ranges rt), skipn (Z.to_nat (switch32 rt)) (ranges rt), latinOffset rt)
  else (ranges rt, [], latinOffset rt).

(* ---- Specification ---- *)
(* is a code point in one of the ranges? *)
Definition within (c : Z) (x : Z * Z) : Prop := fst x <= c <= snd x.
Definition member (c : Z) (rs : list (Z * Z)) : Prop := Exists (within c) rs.
(* sorted, non-overlapping, non-empty ranges above [k] *)
Fixpoint sorted_from (k : Z) (rs : list (Z * Z)) : Prop :=
  match rs with [] => True | (l, r) :: t => k < l /\ l <= r /\ sorted_from r t end.
(* the last maximal block of adjacent ranges, which starts with (l, r) *)
Fixpoint last_block (l r : Z) (rs : list (Z * Z)) : Z * Z :=
  match rs with [] => (l, r) | (a, b) :: t => if a =? r + 1 then last_block l b t else last_block a b t end.
