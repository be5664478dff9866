(* GString.v -- model of grapheme/string.go.  Strings are lists of bytes. *)
From Coq Require Import List ZArith Bool.
From Verif Require Import Base RuneWrite Segmenter Utf8 Grapheme.
Import ListNotations.
Open Scope Z_scope.

(* string.go:190-199: the runes the reader delivers before its end of file.  It does not advance at
   the end, so the end of file is permanent.  n bounds the runes. *)
Fixpoint rr_items (n : nat) (s : list Z) : list (Z * Z) :=
  match n with
  | 0%nat => []
  | S n' => let '(r, size) := DecodeRune s in
            if r =? RuneError then [] else (r, size) :: rr_items n' (skipn (Z.to_nat size) s)
  end.
Definition rr (s : list Z) : reader := mkrd (rr_items (length s) s) EOF.

(* string.go:71-74, 120-123: content and breaks; shortString and midString differ in the width of
   the breaks only (8 or 16 bits) *)
Record gstring := mkgs { content : list Z; breaks : list Z }.

(* string.go:84-89, 133-138: br is an int, the entries are cut to the given width *)
Fixpoint break_loop (bits br : Z) (segs : list (list Z)) : list Z :=
  match segs with
  | [] => []
  | g :: t => let br' := br + zlen (encode g) in (br' mod 2 ^ bits) :: break_loop bits br' t
  end.

Section Classes.
Context (table : Z -> Z -> bool) (pict : Z -> bool).

(* string.go:169-183: the byte position and the segmenter; never nil.  A negative start panics. *)
Definition prepareBreaking (n : nat) (s : list Z) : res (state (@Deque.deque atom) (option gbreaker)) :=
  let* (start, _) := PositionOfFirstLegalRune n s in
  let* input := lift (zslice s start (zlen s)) in
  Init deque_ops (rr input) (NewSegmenter [Some NewBreaker]).

(* string.go:76-94 (bits = 8) and 125-143 (bits = 16); n bounds the loops *)
Definition makeString (bits : Z) (n : nat) (s : list Z) : res gstring :=
  let* breaker := prepareBreaking n s in
  let* (outs, ended, _) := loop deque_ops (gb_step table pict) n breaker in
  if ended then Ok (mkgs s (0 :: break_loop bits 0 (map fst outs))) else NoFuel.

(* string.go:40-49, 65-67 *)
Definition StringFromString (n : nat) (s : list Z) : res gstring :=
  if zlen s <? 255 then makeString 8 n s
  else if zlen s <? 65535 then makeString 16 n s
  else Panic.
End Classes.

(* string.go:96-105, 145-154 *)
Definition Nth (g : gstring) (n : Z) : res (list Z) :=
  if (n <? 0) || (n >? Z.max (zlen (breaks g) - 2) 0) then Panic
  else if zlen (breaks g) <? 2 then Ok []
  else
    let* l := lift (zget (breaks g) n) in
    let* r := lift (zget (breaks g) (n + 1)) in
    lift (zslice (content g) l r).
(* string.go:107-112, 156-161 *)
Definition Len (g : gstring) : Z := if zlen (breaks g) <? 2 then 0 else zlen (breaks g) - 1.
(* string.go:114-116, 163-165 *)
Definition String (g : gstring) : list Z := content g.
