(* RangeTable.v -- range tables as package unicode of the Go library reads them, and the text in which
   internal/ucdparse/gentables.go prints them. *)
From Coq Require Import String Ascii List ZArith Bool.
From Verif Require Import Base Ucd.
From Verif Require Generator.
Import ListNotations.
Open Scope Z_scope.

(* unicode.RangeTable: ranges (lo, hi, stride) of 16 and 32 bits *)
Definition entry : Type := Z * Z * Z.
Record rtable := mktab { R16 : list entry; R32 : list entry; LatinOffset : Z }.

(* The loop and the binary search of unicode.is16 and unicode.is32 (package unicode, letter.go); the middle is
   (lo+hi)/2. *)
Definition linearMax : Z := 18.
Definition stride_hit (r : Z) (e : entry) : bool := let '(l, _, s) := e in (s =? 1) || ((r - l) mod s =? 0).
Fixpoint linear (rs : list entry) (r : Z) : bool :=
  match rs with
  | [] => false
  | (l, h, s) :: t => if r <? l then false else if r <=? h then stride_hit r (l, h, s) else linear t r
  end.
Fixpoint bsearch (fuel : nat) (rs : list entry) (r lo hi : Z) : res bool :=
  match fuel with
  | O => NoFuel
  | S k =>
      if lo <? hi
      then let m := (lo + hi) / 2 in
           let* e := lift (zget rs m) in
           let '(l, h, s) := e in
           if (l <=? r) && (r <=? h) then Ok (stride_hit r e)
           else if r <? l then bsearch k rs r lo m else bsearch k rs r (m + 1) hi
      else Ok false
  end.
Definition is16 (rs : list entry) (r : Z) : res bool :=
  if (zlen rs <=? linearMax) || (r <=? MaxLatin1) then Ok (linear rs r) else bsearch (S (length rs)) rs r 0 (zlen rs).
Definition is32 (rs : list entry) (r : Z) : res bool :=
  if zlen rs <=? linearMax then Ok (linear rs r) else bsearch (S (length rs)) rs r 0 (zlen rs).

(* unicode.Is and unicode.isExcludingLatin; r is an int32, compared as uint32 with the 16-bit ranges *)
Definition u32 (r : Z) : Z := r mod 2 ^ 32.
Definition u16 (r : Z) : Z := r mod 2 ^ 16.
Definition last_hi (rs : list entry) : Z := match rev rs with [] => -1 | (_, h, _) :: _ => h end.
Definition first_lo (rs : list entry) : Z := match rs with [] => 2 ^ 32 | (l, _, _) :: _ => l end.
Definition from32 (t : rtable) (r : Z) : res bool :=
  if (0 <? zlen (R32 t)) && (first_lo (R32 t) <=? r) then is32 (R32 t) (u32 r) else Ok false.
Definition Is (t : rtable) (r : Z) : res bool :=
  if (0 <? zlen (R16 t)) && (u32 r <=? last_hi (R16 t)) then is16 (R16 t) (u16 r) else from32 t r.
Definition isExcludingLatin (t : rtable) (r : Z) : res bool :=
  if (LatinOffset t <? zlen (R16 t)) && (u32 r <=? last_hi (R16 t)) then is16 (skipn (Z.to_nat (LatinOffset t)) (R16 t)) (u16 r) else from32 t r.

(* The table that a collector prints: all strides are 1. *)
Definition with_stride (x : Z * Z) : entry := (fst x, snd x, 1).
Definition table_of (rt : collector) : rtable :=
  let '(a, b, off) := Output rt in mktab (map with_stride a) (map with_stride b) off.

(* ---- the text of a table: gentables.go:52-77 ---- *)
(* %#04x: at least four lower case hexadecimal digits behind 0x; a rune has at most 6 *)
Definition hex_width (v : Z) : nat := if v <? 16 ^ 4 then 4%nat else if v <? 16 ^ 5 then 5%nat else if v <? 16 ^ 6 then 6%nat else if v <? 16 ^ 7 then 7%nat else 8%nat.
Definition hex04 (v : Z) : list Z := Generator.bytes "0x" ++ Generator.hexdigits (hex_width v) v.
Definition print_range (x : Z * Z) : list Z :=
  [9; 9] ++ Generator.bytes "{" ++ hex04 (fst x) ++ Generator.bytes ", " ++ hex04 (snd x) ++ Generator.bytes ", 1}," ++ [10].
Fixpoint print_ranges (switch i : Z) (rs : list (Z * Z)) : list Z :=
  match rs with
  | [] => []
  | x :: t => (if (0 <? switch) && (i =? switch) then [9] ++ Generator.bytes "}," ++ [10; 9] ++ Generator.bytes "R32: []unicode.Range32{" ++ [10] else [])
              ++ print_range x ++ print_ranges switch (i + 1) t
  end.
Definition print_table (cat : list Z) (rt : collector) : list Z :=
  Generator.bytes "var _" ++ cat ++ Generator.bytes " = &unicode.RangeTable{ // " ++ Generator.itoa (cnt rt) ++ Generator.bytes " entries" ++ [10; 9] ++
  Generator.bytes "R16: []unicode.Range16{" ++ [10] ++ print_ranges (switch32 rt) 0 (ranges rt) ++
  (if 0 <? latinOffset rt then [9] ++ Generator.bytes "}," ++ [10; 9] ++ Generator.bytes "LatinOffset: " ++ Generator.itoa (latinOffset rt) ++ Generator.bytes "," ++ [10] ++ Generator.bytes "}" ++ [10; 10]
   else [9] ++ Generator.bytes "}," ++ [10] ++ Generator.bytes "}" ++ [10; 10]).
(* internal/tablegen/main.go:128-137 and 152-158: head of the file and the variables *)
Definition print_preamble (package : list Z) : list Z :=
  Generator.bytes "// Code generated by UAX table generator --- DO NOT EDIT." ++ [10; 10] ++ Generator.bytes "package " ++ package ++ [10; 10] ++ Generator.bytes "import ""unicode""" ++ [10; 10].
Definition print_var (k : list Z) : list Z := Generator.bytes "    " ++ k ++ Generator.bytes " *unicode.RangeTable = _" ++ k ++ [10].
Definition print_var_section (ks : list (list Z)) : list Z := Generator.bytes "var (" ++ [10] ++ concat (map print_var ks) ++ Generator.bytes ")" ++ [10].
(* the file; maps are iterated in any order, hence two orders *)
Definition print_file (package : list Z) (tables : list (list Z * collector)) (vars : list (list Z)) : list Z :=
  print_preamble package ++ concat (map (fun x => print_table (fst x) (snd x)) tables) ++ print_var_section vars.
