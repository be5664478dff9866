(* Generator.v -- the generators of the class tables: grapheme/internal/generator/generator.go and its three
   sisters in uax29, uax14 and emoji, which differ only in names (recorded in [spec]).  Texts are lists of bytes.
   Files that cannot be opened, timing and verbose messages are left out. *)
From Coq Require Import String Ascii List ZArith Bool.
From Verif Require Import Base LineBuf UcdParse.
Import ListNotations.
Open Scope Z_scope.

Definition bytes (s : string) : list Z := map (fun a => Z.of_nat (nat_of_ascii a)) (list_ascii_of_string s).
Definition newline : list Z := [10].

(* what the four programs differ in: the package, the type of the classes, how comments call them, the last
   class, the class names *)
Record spec := mkspec { g_package : list Z; g_type : list Z; g_title : list Z; g_last : list Z; g_names : list (list Z) }.
(* grapheme/internal/generator/generator.go:54-68 *)
Definition grapheme_spec : spec := mkspec (bytes "grapheme") (bytes "GraphemeClass") (bytes "Grapheme") (bytes "ZWJ")
  (map bytes ["CR"; "LF"; "Prepend"; "Control"; "Extend"; "Regional_Indicator"; "SpacingMark"; "L"; "V"; "T"; "LV"; "LVT"; "ZWJ"]%string).
(* uax29/internal/generator/generator.go:59-62 *)
Definition uax29_spec : spec := mkspec (bytes "uax29") (bytes "UAX29Class") (bytes "UAX#29") (bytes "ZWJ")
  (map bytes ["ALetter"; "CR"; "Double_Quote"; "Extend"; "ExtendNumLet"; "Format"; "Hebrew_Letter"; "Katakana"; "LF"; "MidLetter";
    "MidNum"; "MidNumLet"; "Newline"; "Numeric"; "Regional_Indicator"; "Single_Quote"; "WSegSpace"; "ZWJ"]%string).
(* uax14/internal/generator/generator.go:53-56 *)
Definition uax14_spec : spec := mkspec (bytes "uax14") (bytes "UAX14Class") (bytes "UAX#14") (bytes "ZWJ")
  (map bytes ["AI"; "AL"; "B2"; "BA"; "BB"; "BK"; "CB"; "CJ"; "CL"; "CM"; "CP"; "CR"; "EB"; "EM"; "EX"; "GL"; "H2"; "H3"; "HL"; "HY";
    "ID"; "IN"; "IS"; "JL"; "JT"; "JV"; "LF"; "NL"; "NS"; "NU"; "OP"; "PO"; "PR"; "QU"; "RI"; "SA"; "SG"; "SP"; "SY"; "WJ"; "XX"; "ZW"; "ZWJ"]%string).
(* emoji/internal/generator/generator.go:53-60 *)
Definition emoji_spec : spec := mkspec (bytes "emoji") (bytes "EmojisClass") (bytes "Emoji") (bytes "Extended_Pictographic")
  (map bytes ["Emoji"; "Emoji_Presentation"; "Emoji_Modifier"; "Emoji_Modifier_Base"; "Emoji_Component"; "Extended_Pictographic"]%string).

(* ---- loading the file ---- *)
(* generator.go:92-94: the runes from l to r *)
Definition upto (l r : Z) : list Z := map (fun i => l + Z.of_nat i) (seq 0 (Z.to_nat (r - l + 1))).
(* generator.go:88-95: the map from class names to lists, as an association list *)
Fixpoint put (tbl : list (list Z * list Z)) (key : list Z) (rs : list Z) : list (list Z * list Z) :=
  match tbl with
  | [] => [(key, rs)]
  | (k, l) :: t => if list_eqb k key then (k, l ++ rs) :: t else (k, l) :: put t key rs
  end.
(* generator.go:86-95: the loop body; a range up to the largest int32 is never left (r++ wraps around) *)
Definition add_token (tbl : list (list Z * list Z)) (t : token) : res (list (list Z * list Z)) :=
  let '(from, to) := Range t in
  let* key := Field t 1 in
  if to =? 2 ^ 31 - 1 then NoFuel else Ok (put tbl key (upto from to)).
(* generator.go:85-96: m bounds the rounds *)
Fixpoint load_loop (isNd : Z -> bool) (m n : nat) (sc : scanner) (tbl : list (list Z * list Z)) : res (list (list Z * list Z) * scanner) :=
  match m with
  | 0%nat => NoFuel
  | S m' =>
      let* (ok, sc) := Next isNd n sc in
      if ok then let* tbl := add_token tbl (Tok sc) in load_loop isNd m' n sc tbl else Ok (tbl, sc)
  end.
(* generator.go:71-112: the lists and the error checked behind the loop (a fatal one if not NoErr) *)
Definition load (isNd : Z -> bool) (n : nat) (input : bufscan) : res (list (list Z * list Z) * tokerr) :=
  let* sc := New n input in
  let* (tbl, sc) := load_loop isNd n n sc [] in
  Ok (tbl, Error (Tok sc)).

(* ---- printing ---- *)
(* one hexadecimal digit, and the k last digits of v *)
Definition lowerhex (d : Z) : Z := if d <? 10 then 48 + d else 87 + d.
Fixpoint hexdigits (k : nat) (v : Z) : list Z :=
  match k with 0%nat => [] | S k' => hexdigits k' (v / 16) ++ [lowerhex (v mod 16)] end.
(* fmt %+q of a rune: fmt.fmtQc and strconv.AppendQuoteRuneToASCII of Go 1.16 *)
Definition valid_rune (r : Z) : bool := ((0 <=? r) && (r <? 55296)) || ((57343 <? r) && (r <=? 1114111)).
Definition quote_rune (r : Z) : list Z :=
  let r := if valid_rune r then r else 65533 in
  [39] ++
  (if (r =? 39) || (r =? 92) then [92; r]
   else if (32 <=? r) && (r <? 127) then [r]
   else if r =? 7 then [92; 97]
   else if r =? 8 then [92; 98]
   else if r =? 12 then [92; 102]
   else if r =? 10 then [92; 110]
   else if r =? 13 then [92; 114]
   else if r =? 9 then [92; 116]
   else if r =? 11 then [92; 118]
   else if r <? 32 then [92; 120] ++ hexdigits 2 r
   else if r <? 65536 then [92; 117] ++ hexdigits 4 r
   else [92; 85] ++ hexdigits 8 r) ++ [39].
(* generator.go:181-182, 189-191, 195-197: the template for a list of runes; i counts the runes *)
Fixpoint print_runes (i : Z) (rs : list Z) : list Z :=
  match rs with
  | [] => []
  | r :: t => (if 0 <? i then [44; 32] ++ (if (i + 2) mod 8 =? 0 then [10; 32; 32; 32; 32] else []) else []) ++ quote_rune r ++ print_runes (i + 1) t
  end.
(* generator.go:229-235: one round of the loop *)
Definition print_class (g : spec) (key : list Z) (rs : list Z) : list Z :=
  newline ++ bytes "    // Range for " ++ g_title g ++ bytes " class " ++ key ++ newline ++
  bytes "    " ++ key ++ bytes " = rangetable.New(" ++ print_runes 0 rs ++ bytes ")" ++ newline ++
  bytes "    rangeFrom" ++ g_type g ++ bytes "[int(" ++ key ++ bytes "Class)] = " ++ key ++ newline.
(* the name of the function: the type name in the plural *)
Definition setup_name (g : spec) : list Z := bytes "setup" ++ g_type g ++ bytes "es".
(* generator.go:224-237: the classes come in the order in which the map is walked, which is not determined *)
Definition generateRanges (g : spec) (tbl : list (list Z * list Z)) : list Z :=
  newline ++ bytes "func " ++ setup_name g ++ bytes "() {" ++ newline ++
  bytes "    rangeFrom" ++ g_type g ++ bytes " = make([]*unicode.RangeTable, int(" ++ g_last g ++ bytes "Class)+1)" ++ newline ++
  concat (map (fun kl => print_class g (fst kl) (snd kl)) tbl) ++ bytes "}" ++ newline.

(* fmt %d and strconv.FormatInt: m bounds the number of digits (19 suffice for an int64) *)
Fixpoint udigits (m : nat) (v : Z) : list Z :=
  match m with 0%nat => [] | S m' => (if v <? 10 then [] else udigits m' (v / 10)) ++ [48 + v mod 10] end.
Definition itoa (v : Z) : list Z := if v <? 0 then 45 :: udigits 20 (- v) else udigits 20 v.
(* generator.go:198-211: the start indices; a and b are the numbers of the line breaking test *)
Fixpoint startinxs (a b : Z) (out : list Z) (total : Z) (names : list (list Z)) : list Z :=
  match names with
  | [] => out
  | s :: t =>
      let total := total + zlen s + 5 in
      startinxs a b (out ++ (if b <? (a + zlen out) mod 80 then [44; 10; 32; 32; 32; 32] else [44; 32]) ++ itoa total) total t
  end.
(* generator.go:162: the names in one string *)
Definition all_names (names : list (list Z)) : list Z := concat (map (fun s => s ++ bytes "Class") names).
(* the numbers in the array of start indices *)
Fixpoint starts (total : Z) (names : list (list Z)) : list Z :=
  match names with [] => [] | s :: t => (total + zlen s + 5) :: starts (total + zlen s + 5) t end.

(* generator.go:150-152: the lines of the constants, i counts the classes *)
Fixpoint print_consts (g : spec) (i : Z) (names : list (list Z)) : list Z :=
  match names with
  | [] => []
  | s :: t => bytes "    " ++ s ++ bytes "Class " ++ g_type g ++ bytes " = " ++ itoa i ++ newline ++ print_consts g (i + 1) t
  end.
(* generator.go:142-145: the variables; [brk] tells after which ones the line ends (modten, in emoji modeight) *)
Fixpoint print_vars (brk : Z -> bool) (i : Z) (names : list (list Z)) : list Z :=
  match names with
  | [] => bytes "unused *unicode.RangeTable" ++ newline
  | s :: t => s ++ bytes ", " ++ (if brk (i + 1) then newline ++ bytes "    " else []) ++ print_vars brk (i + 1) t
  end.
Definition modten (i : Z) : bool := i mod 10 =? 0.
Definition modeight (i : Z) : bool := (i + 2) mod 8 =? 0.

(* ---- the generated function String ---- *)
(* generator.go:166-178: [pseudo] lists the pseudo classes with their names, [index] is the array, [names] the string *)
Definition String_ (type : list Z) (pseudo : list (Z * list Z)) (names : list Z) (index : list Z) (c : Z) : res (list Z) :=
  match find (fun p => c =? fst p) pseudo with
  | Some (_, s) => Ok s
  | None =>
      if (c <? 0) || (zlen index - 1 <=? c) then Ok (type ++ bytes "(" ++ itoa c ++ bytes ")")
      else let* a := lift (zget index c) in let* b := lift (zget index (c + 1)) in lift (zslice names a b)
  end.
