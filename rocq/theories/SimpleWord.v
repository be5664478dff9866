(* SimpleWord.v -- model of segment/simplewordbreak.go. *)
From Coq Require Import List ZArith Lia Bool.
From Verif Require Import Base.
Import ListNotations.
Open Scope Z_scope.

Section SimpleWord.
(* unicode.IsSpace *)
Context (isSpace : Z -> bool).

(* simplewordbreak.go:33-37 *)
Definition spaceType : Z := 0.
Definition wordType : Z := 1.
Definition eofType : Z := 2.
(* simplewordbreak.go:21-24 *)
Definition PenaltyBeforeWhitespace : Z := 100.
Definition PenaltyAfterWhitespace : Z := -100.

(* simplewordbreak.go:7-12; the array matchLen[3] as a function; nil penalties are [] *)
Record swb := mkswb { wpen : list Z; wlen : Z -> Z; wtype : Z }.
(* simplewordbreak.go:29-32 *)
Definition NewSimpleWordBreaker : swb := mkswb [] (fun _ => 0) spaceType.

(* simplewordbreak.go:42-50 *)
Definition CodePointClassFor (r : Z) : Z :=
  if isSpace r then spaceType else if r =? 0 then eofType else wordType.

Definition upd (f : Z -> Z) (i v : Z) : Z -> Z := fun j => if j =? i then v else f j.

(* simplewordbreak.go:60-88 *)
Definition ProceedWithRune (r cls : Z) (w : swb) : swb :=
  if negb (r =? 0) && (cls =? wtype w) then
    mkswb [] (upd (wlen w) (wtype w) (wlen w (wtype w) + 1)) (wtype w)
  else
    let pen := if negb (cls =? wtype w) && (wlen w (wtype w) >? 0)
               then [0; if wtype w =? spaceType then PenaltyAfterWhitespace else PenaltyBeforeWhitespace]
               else wpen w in
    if negb (r =? 0) && negb (cls =? wtype w) then
      mkswb pen (upd (upd (wlen w) (wtype w) 0) cls 1) cls
    else if r =? 0 then mkswb pen (wlen w) eofType
    else mkswb pen (wlen w) (wtype w).

(* simplewordbreak.go:91-99 *)
Definition LongestActiveMatch (w : swb) : Z := wlen w (wtype w).

(* One round of the segmenter with this breaker (StartRulesFor, 53-57, only allocates). *)
Definition swb_step (w : swb) (r : Z) : swb * Z * list Z :=
  let w' := ProceedWithRune r (CodePointClassFor r) w in
  (w', LongestActiveMatch w', wpen w').
End SimpleWord.
