(* UcdSpec.v -- specification of files of the Unicode Character Database (UAX#44, section 4.2, and the
   comments in internal/ucdparse/linebuf.go): lines, data items, test items. *)
From Coq Require Import List ZArith Bool.
From Verif Require Import Base.
Import ListNotations.
Open Scope Z_scope.

(* ---- lines ---- *)
(* The first line of a text and what follows it: lines end with CR LF, CR or LF. *)
Fixpoint first_line (s : list Z) : list Z * list Z :=
  match s with
  | [] => ([], [])
  | b :: t =>
      if b =? 10 then ([], t)
      else if b =? 13 then ([], match t with c :: t' => if c =? 10 then t' else t | [] => [] end)
      else let '(l, r) := first_line t in (b :: l, r)
  end.
(* The lines of a text; behind the last line end there is a line only if there is text. *)
Inductive lines_of : list Z -> list (list Z) -> Prop :=
| lines_none : lines_of [] []
| lines_one s l r ls : s <> [] -> first_line s = (l, r) -> lines_of r ls -> lines_of s (l :: ls).
(* no stretch of 64K without a line feed *)
Definition short_lines (s : list Z) : Prop :=
  forall a b c, s = a ++ b ++ c -> ~ In 10 b -> zlen b < 65536.

(* blanks: space and horizontal tab *)
Definition blank (b : Z) : Prop := b = 32 \/ b = 9.
(* lines without a data item: only blanks, or the first non-blank is # *)
Definition no_item (l : list Z) : Prop :=
  Forall blank l \/ exists g c, Forall blank g /\ l = g ++ 35 :: c.

(* ---- data items ---- *)
(* a hexadecimal number: its digits, most significant first *)
Definition digit_char (upper : bool) (d : Z) : Z := if d <? 10 then 48 + d else if upper then 55 + d else 87 + d.
Definition numeral (s : list Z) (v : Z) : Prop :=
  exists ds : list (bool * Z), ds <> [] /\ Forall (fun x => 0 <= snd x < 16) ds /\
    s = map (fun x => digit_char (fst x) (snd x)) ds /\ v = fold_left (fun acc x => acc * 16 + snd x) ds 0.
(* fields are separated by semicolons *)
Fixpoint join (fs : list (list Z)) : list Z :=
  match fs with [] => [] | f :: t => 59 :: f ++ join t end.
(* an ASCII character that can stand in a field *)
Definition field_char (b : Z) : Prop := 0 <= b < 128 /\ b <> 59 /\ b <> 35 /\ b <> 10 /\ b <> 13.
(* A data item: code point or range, at least one field, optionally a comment. *)
Record item := mkitem { it_from : Z; it_to : option Z; it_fields : list (list Z); it_comment : option (list Z) }.
(* how an item is written *)
Definition written (it : item) (l : list Z) : Prop :=
  exists h range gap, numeral h (it_from it) /\
    match it_to it with None => range = [] | Some v => exists h2, range = [46; 46] ++ h2 /\ numeral h2 v end /\
    Forall blank gap /\
    l = h ++ range ++ gap ++ join (it_fields it) ++ match it_comment it with None => [] | Some c => 35 :: c end.
(* well-formed: fields of ASCII characters, numbers below 2^31, the comment has no further # *)
Definition item_ok (it : item) : Prop :=
  it_from it < 2 ^ 31 /\ match it_to it with Some v => v < 2 ^ 31 | None => True end /\
  it_fields it <> [] /\ Forall (Forall field_char) (it_fields it) /\
  match it_comment it with Some c => ~ In 35 c | None => True end.
(* the code cannot cope with an empty first field if there are others *)
Definition first_field_there (it : item) : Prop :=
  match it_fields it with [] :: _ :: _ => False | _ => True end.

(* white space around a field does not count: strip it on both sides (ASCII) *)
Definition is_white (b : Z) : bool := ((9 <=? b) && (b <=? 13)) || (b =? 32).
Fixpoint strip_left (s : list Z) : list Z :=
  match s with b :: t => if is_white b then strip_left t else s | [] => [] end.
Definition strip (s : list Z) : list Z := rev (strip_left (rev (strip_left s))).
(* white space at the end; the fields without the white space at the end of the line *)
Definition rstrip (s : list Z) : list Z := rev (strip_left (rev s)).
Fixpoint rstrip_last (fs : list (list Z)) : list (list Z) :=
  match fs with [] => [] | f :: t => match t with [] => [rstrip f] | _ => f :: rstrip_last t end end.

(* ---- files ---- *)
(* the items of a file with their line numbers; [n] is the number of the first line *)
Inductive contents : Z -> list (list Z) -> list (Z * item) -> Prop :=
| contents_nil n : contents n [] []
| contents_skip n l ls its : no_item l -> contents (n + 1) ls its -> contents n (l :: ls) its
| contents_item n l ls it its : written it l -> item_ok it -> first_field_there it -> contents (n + 1) ls its ->
    contents n (l :: ls) ((n, it) :: its).

(* ---- what the generators should produce ---- *)
Definition item_range (it : item) : Z * Z := (it_from it, match it_to it with Some v => v | None => it_from it end).
(* the category of an item: its [f]-th field, where the code points are field 1; empty if there is none *)
Definition category (f : nat) (it : item) : list Z := strip (nth (f - 2) (it_fields it) []).
(* the ranges of a category, in the order of the file *)
Definition ranges_in (f : nat) (cat : list Z) (its : list item) : list (Z * Z) :=
  map item_range (filter (fun it => if list_eq_dec Z.eq_dec (category f it) cat then true else false) its).
(* a line of BidiBrackets.txt: bracket, partner, type *)
Definition bracket_line (it : item) (partner : Z) : Prop :=
  exists g1 h g2 rest, Forall blank g1 /\ Forall blank g2 /\ numeral h partner /\ partner < 2 ^ 31 /\
    it_fields it = (g1 ++ h ++ g2) :: rest.
Definition opening (it : item) : Prop := strip (nth 1 (it_fields it) []) = [111].
(* the pairs of the opening brackets, in the order of the file *)
Inductive bracket_pairs : list item -> list (Z * Z) -> Prop :=
| bp_nil : bracket_pairs [] []
| bp_open it its p ps : bracket_line it p -> opening it -> bracket_pairs its ps -> bracket_pairs (it :: its) ((it_from it, p) :: ps)
| bp_other it its ps : ~ opening it -> bracket_pairs its ps -> bracket_pairs (it :: its) ps.

(* ---- break tests ---- *)
(* A test (GraphemeBreakTest.txt etc.): segments of code points; between code points stands the sign for
   "no break", around segments the sign for "break". *)
Definition break_sign : list Z := [195; 183].      (* U+00F7 *)
Definition nobreak_sign : list Z := [195; 151].    (* U+00D7 *)
Inductive seg_words : list Z -> list (list Z) -> Prop :=
| sw_one c h : numeral h c -> seg_words [c] [h]
| sw_more c h cs ws : numeral h c -> seg_words cs ws -> seg_words (c :: cs) (h :: nobreak_sign :: ws).
Inductive test_words : list (list Z) -> list (list Z) -> Prop :=
| tw_end : test_words [] [break_sign]
| tw_seg s ws segs ts : seg_words s ws -> test_words segs ts -> test_words (s :: segs) (break_sign :: ws ++ ts).
(* words separated by blanks *)
Inductive spaced : list (list Z) -> list Z -> Prop :=
| sp_nil g : Forall blank g -> spaced [] g
| sp_last g w : Forall blank g -> spaced [w] (g ++ w)
| sp_cons g w b ws t : Forall blank g -> blank b -> spaced ws t -> spaced (w :: ws) (g ++ w ++ b :: t).

(* The tests of a test file: lines that do not start with #; the text before the first #, and the comment
   up to a further #. *)
Fixpoint before_hash (s : list Z) : list Z * option (list Z) :=
  match s with
  | [] => ([], None)
  | b :: t => if b =? 35 then ([], Some t) else let '(x, y) := before_hash t in (b :: x, y)
  end.
