(* MarkupSpec.v -- what out-of-line markup means: invisible delimiters in the text.
   The documentation (bidi/scanner.go:388-402): a client's markup function is asked for a text position and
   answers with delimiters to be inserted there, "a Bidi delimiter of byte-length zero". *)
From Coq Require Import List ZArith Bool.
From Verif Require Import Base Scrap Scanner.
Import ListNotations.
Open Scope Z_scope.

(* the delimiters of Unicode, U+2066, U+2067 and U+2069, with length 0 *)
Definition invisible_LRI : Z * Z := (8294, 0).
Definition invisible_RLI : Z * Z := (8295, 0).
Definition invisible_PDI : Z * Z := (8297, 0).

(* the delimiters for the answer of a markup function: a PDI comes first *)
Definition delimiters (d : Z) : list (Z * Z) :=
  if d =? MarkupLRI then [invisible_LRI]
  else if d =? MarkupRLI then [invisible_RLI]
  else if d =? MarkupPDI then [invisible_PDI]
  else if d =? MarkupPDI + MarkupLRI then [invisible_PDI; invisible_LRI]
  else if d =? MarkupPDI + MarkupRLI then [invisible_PDI; invisible_RLI]
  else [].
(* the answers a client may give *)
Definition documented (f : Z -> Z) : Prop := forall p, f p <= 0 \/
  In (f p) [MarkupLRI; MarkupRLI; MarkupPDI; MarkupPDI + MarkupLRI; MarkupPDI + MarkupRLI].

(* the text with its delimiters: those for a position come before the character at this position, those for the
   end of the text behind all characters *)
Fixpoint woven (f : Z -> Z) (pos : Z) (input : list (Z * Z)) : list (Z * Z) :=
  delimiters (f pos) ++ match input with [] => [] | (r, len) :: t => (r, len) :: woven f (pos + len) t end.

(* no delimiters at the start *)
Definition not_at_start (f : Z -> Z) (p : Z) : Z := if p =? 0 then 0 else f p.
