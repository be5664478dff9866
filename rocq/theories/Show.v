(* Show.v -- names of Bidi classes and readable forms of scraps, runs and levels.
   Models classString (bidi/scanner.go:422-441), the String methods of bidi/doc.go, scrap.go and reordering.go,
   and TokenType.String (internal/ucdparse/tokentype_string.go).  Texts are lists of bytes. *)
From Coq Require Import List ZArith Bool String.
From Verif Require Import Base Generator Scrap Reorder.
Import ListNotations.
Open Scope Z_scope.

(* scanner.go:422-426 *)
Definition claszname : list Z := bytes "LRENESETANCSBSWSONBNNSMALControlNumLRORLOLRERLEPDFLRIRLIFSIPDI----------".
Definition claszadd : list Z := bytes "BRACKOBRACKCNI<max>------".
Definition claszindex : list Z := [0; 1; 2; 4; 6; 8; 10; 12; 13; 14; 16; 18; 20; 23; 25; 32; 35; 38; 41; 44; 47; 50; 53; 56; 59; 62].
Definition claszaddinx : list Z := [0; 6; 12; 14; 19; 20].
(* int64(i) of a uint *)
Definition to_int64 (i : Z) : Z := if i <? 2 ^ 63 then i else i - 2 ^ 64.
(* s[index[i]:index[i+1]] *)
Definition piece (s index : list Z) (i : Z) : res (list Z) :=
  let* a := lift (zget index i) in let* b := lift (zget index (i + 1)) in lift (zslice s a b).
(* scanner.go:429-441; a class is a Go uint *)
Definition classString (i : Z) : res (list Z) :=
  if i =? cNULL then Ok (bytes "cNULL")
  else if cPDI <? i then
    if (cPDI <? i) && (i <=? cMAX) then piece claszadd claszaddinx (i - cBRACKO)
    else Ok (bytes "bidi_class(" ++ itoa (to_int64 i) ++ bytes ")")
  else piece claszname claszindex i.

(* doc.go:92-100; directions are booleans in Reorder.v *)
Definition dirString (d : Z) : list Z :=
  if d =? 0 then bytes "L2R" else if d =? 1 then bytes "R2L" else bytes "unknown direction".

(* scrap.go:40-51; r - 1 is computed in uint32 *)
Definition scrapString (s : scrap) : res (list Z) :=
  let* c := classString (clz s) in
  if (clz s =? cBRACKO) || (clz s =? cBRACKC) then Ok (bytes "[" ++ itoa (sl s) ++ bytes "." ++ c ++ bytes "]")
  else if sl s =? u32 (sr s - 1) then Ok (bytes "[" ++ itoa (sl s) ++ bytes "." ++ c ++ bytes "]")
  else if sl s =? sr s then Ok (bytes "|" ++ c ++ bytes "|")
  else Ok (bytes "[" ++ itoa (sl s) ++ bytes "-" ++ c ++ bytes "-" ++ itoa (sr s) ++ bytes "]").

(* scrap.go:174-176: two bytes for each angle quote *)
Definition ctxString (dc : dirctx) : res (list Z) :=
  let* e := classString (edir dc) in let* s := classString (strong dc) in
  Ok ([194; 171] ++ bytes "e:" ++ e ++ bytes " " ++ s ++ [194; 187]).

(* reordering.go:33-39: the loop over the scraps *)
Fixpoint levelsString (l : list scrap) : res (list Z) :=
  match l with
  | [] => Ok []
  | s :: t =>
      let* c := classString (clz s) in let* rest := levelsString t in
      Ok (bytes "[" ++ itoa (sl s) ++ bytes "-" ++ c ++ bytes "-" ++ itoa (sr s) ++ bytes "] " ++ rest)
  end.
Definition ResolvedLevelsString (rl : levels) : res (list Z) := levelsString (lv_scraps rl).

(* reordering.go:174-176: the loop over the scraps; three bytes for the ellipsis *)
Fixpoint runScraps (l : list scrap) : res (list Z) :=
  match l with
  | [] => Ok []
  | s :: t =>
      let* c := classString (clz s) in let* rest := runScraps t in
      Ok (bytes " " ++ itoa (sl s) ++ [226; 128; 166] ++ itoa (sr s) ++ bytes "|" ++ c ++ rest)
  end.
(* reordering.go:172-179 *)
Definition runString (r : Run) : res (list Z) :=
  let* t := runScraps (r_scraps r) in
  Ok (bytes "(" ++ dirString (if r_dir r then 1 else 0) ++ bytes " " ++ itoa (r_len r) ++ t ++ bytes ")").

(* internal/ucdparse/tokentype_string.go:19-28; a token type is an int8 *)
Definition tokenTypeString (i : Z) : res (list Z) :=
  String_ (bytes "TokenType") [] (bytes "undefinedeofemptyDocumentdocRootsingleDataItemrangeDataItem") [0; 9; 12; 25; 32; 46; 59] i.
