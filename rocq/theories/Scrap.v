(* Scrap.v -- bidi class codes, directional contexts and scraps.
   Models bidi/scrap.go and the class constants of bidi/scanner.go:414-419. *)
From Coq Require Import List ZArith Lia Bool.
From Verif Require Import Base.
Import ListNotations.
Open Scope Z_scope.

(* ---- Bidi classes ----
   The classes of golang.org/x/text/unicode/bidi (trieval.go: constants L..PDI) followed by the
   package's own pseudo classes; bidi/scanner.go:414-419. *)
Definition cL := 0.    Definition cR := 1.    Definition cEN := 2.   Definition cES := 3.
Definition cET := 4.   Definition cAN := 5.   Definition cCS := 6.   Definition cB := 7.
Definition cS := 8.    Definition cWS := 9.   Definition cON := 10.  Definition cBN := 11.
Definition cNSM := 12. Definition cAL := 13.  Definition cControl := 14.
Definition cLRO := 16. Definition cRLO := 17. Definition cLRE := 18. Definition cRLE := 19.
Definition cPDF := 20. Definition cLRI := 21. Definition cRLI := 22. Definition cFSI := 23.
Definition cPDI := 24.
Definition cBRACKO := 25. Definition cBRACKC := 26. Definition cNI := 27. Definition cMAX := 28.
Definition cNULL := 999.

(* `charpos` is uint32 (scrap.go:9). *)
Definition u32 (x : Z) : Z := x mod 2 ^ 32.

(* ---- directional context: scrap.go:167-172 ---- *)
Record dirctx := mkdc { edir : Z; strong : Z; odist : Z; mpos : Z }.

(* dirContext{}: the zero value. *)
Definition dc0 : dirctx := mkdc 0 0 0 0.

(* dc.Context: scrap.go:179-187. *)
Definition dcContext (dc : dirctx) : Z :=
  if strong dc =? cNI then edir dc else if strong dc =? cAL then cR else strong dc.

(* dc.StrongContext: scrap.go:190-195. *)
Definition dcStrong (dc : dirctx) : Z := if strong dc =? cAL then cR else strong dc.

(* opposite: scrap.go:113-121. *)
Definition opposite (d : Z) : Z :=
  if d =? cL then cR else if (d =? cR) || (d =? cAL) then cL else cNI.

(* dc.SetStrongType: scrap.go:204-221 (the tracing is left out). *)
Definition set_strong (dc : dirctx) (c at_ : Z) : dirctx :=
  if negb ((c =? cL) || (c =? cR) || (c =? cAL) || (c =? cNI)) then dc
  else if (c =? edir dc) && (mpos dc <? at_) then mkdc (edir dc) c (odist dc) at_
  else if (c =? opposite (edir dc)) && (mpos dc <? at_)
       then mkdc (edir dc) c (Z.min (u32 (at_ - mpos dc)) 65535) (mpos dc)
  else mkdc (edir dc) c (odist dc) (mpos dc).

(* dc.SetEmbedding: scrap.go:228-235; the direction is 0 for LeftToRight, 1 for RightToLeft,
   other values leave the context alone. *)
Definition set_embedding (dc : dirctx) (dir : Z) : dirctx :=
  if dir =? 0 then mkdc cL (strong dc) (odist dc) (mpos dc)
  else if dir =? 1 then mkdc cR (strong dc) (odist dc) (mpos dc) else dc.

(* ---- scraps: scrap.go:33-38 ----
   Children are held by value: appending to a Go slice that shares its array with another scrap is
   not modelled as visible to the other. *)
Inductive scrap := mks : Z -> Z -> Z -> dirctx -> list (list scrap) -> scrap.

Definition clz (s : scrap) := match s with mks c _ _ _ _ => c end.
Definition sl (s : scrap) := match s with mks _ l _ _ _ => l end.
Definition sr (s : scrap) := match s with mks _ _ r _ _ => r end.
Definition sctx (s : scrap) := match s with mks _ _ _ d _ => d end.
Definition kids (s : scrap) := match s with mks _ _ _ _ k => k end.

(* scrap{}: the zero value (its class is 0, that is L). *)
Definition scrap0 : scrap := mks 0 0 0 dc0 [].

(* s.bidiclz = c *)
Definition with_clz (s : scrap) (c : Z) : scrap := mks c (sl s) (sr s) (sctx s) (kids s).

(* s.l, s.r = l, r *)
Definition with_lr (s : scrap) (l r : Z) : scrap := mks (clz s) l r (sctx s) (kids s).

(* s.context = d *)
Definition with_ctx (s : scrap) (d : dirctx) : scrap := mks (clz s) (sl s) (sr s) d (kids s).

(* s.children = k *)
Definition with_kids (s : scrap) (k : list (list scrap)) : scrap :=
  mks (clz s) (sl s) (sr s) (sctx s) k.

(* s.clear: scrap.go:54-59. *)
Definition cleared : scrap := mks cNULL 0 0 dc0 [].

(* s.len: scrap.go:81-86. *)
Definition slen (s : scrap) : Z := if clz s =? cNULL then 0 else u32 (sr s - sl s).

(* s.contains: scrap.go:88-90. *)
Definition scontains (s : scrap) (pos : Z) : bool := (sl s <=? pos) && (pos <? sr s).

(* s.appendAllChildrenOf: scrap.go:71-78 (with appendChild, :61-69; nil children do not occur). *)
Definition append_kids (s other : scrap) : scrap := with_kids s (kids s ++ kids other).

(* collapse: scrap.go:94-101. *)
Definition collapse (dest src : scrap) (c : Z) : scrap :=
  mks c (sl dest) (sr src) (sctx dest) (kids dest ++ kids src).

(* s.e, (s) o: scrap.go:104-111. *)
Definition se (s : scrap) : Z := edir (sctx s).
Definition so (s : scrap) : Z := opposite (edir (sctx s)).

(* (s) HasEmbeddingMatchAfter: scrap.go:138-140. *)
Definition has_match_after (s other : scrap) : bool := sl other <=? mpos (sctx s).

(* (s) HasOppositeAfter: scrap.go:142-145. *)
Definition has_opposite_after (s other : scrap) : bool :=
  sl other <=? u32 (mpos (sctx s) + odist (sctx s)).

(* isbracket: brackets.go:11-14. *)
Definition isbracket (s : scrap) : bool := (clz s =? cBRACKO) || (clz s =? cBRACKC).

(* isisolate: scanner.go:319-325. *)
Definition isisolate (s : scrap) : bool :=
  (clz s =? cLRI) || (clz s =? cRLI) || (clz s =? cFSI) || (clz s =? cPDI).
