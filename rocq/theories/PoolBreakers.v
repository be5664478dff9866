(* PoolBreakers.v -- grapheme, word and line breakers of one program, in any number, with one pool of recognisers
   (instance of Pool.v). *)
From Coq Require Import List ZArith Bool.
From Verif Require Import Base PrioQ Recognizer Pool.
From Verif Require Grapheme Words Line.
Import ListNotations.
Open Scope Z_scope.

(* the state functions of all breakers *)
Inductive label := OfG (l : Grapheme.glabel) | OfW (l : Words.wlabel) | OfL (l : Line.llabel).
(* the fields of a breaker besides the publisher (grapheme.go:76-84, uax29.go:98-106, uax14.go:106-116) *)
Inductive fields := FG (b : Grapheme.blocked) | FW (long : Z) (sh : Words.shared) | FL (long : Z) (sh : Line.shared).
Definition rename {A B} (f : A -> B) (r : rec A) : rec B := mkrec (expect r) (matchLen r) (penalties r) (option_map f (nextStep r)).
Definition asG (r : rec label) : rec Grapheme.glabel := mkrec (expect r) (matchLen r) (penalties r) (match nextStep r with Some (OfG l) => Some l | _ => None end).
Definition asW (r : rec label) : rec Words.wlabel := mkrec (expect r) (matchLen r) (penalties r) (match nextStep r with Some (OfW l) => Some l | _ => None end).
Definition asL (r : rec label) : rec Line.llabel := mkrec (expect r) (matchLen r) (penalties r) (match nextStep r with Some (OfL l) => Some l | _ => None end).
(* A state function works on the breaker in UserData.  A breaker of another kind: the type assertion panics (grapheme.go:345, 352,
   uax29.go:542, 553, 568, rules.go:213, 324, 716, 727), which ends the recogniser here; it never happens. *)
Definition step_all (l : label) (g : fields) (r : rec label) (rune c : Z) : fields * (rec label * option label) :=
  match l, g with
  | OfG l, FG b => let '(b', (r', n)) := Grapheme.gstep l b (asG r) rune c in (FG b', (rename OfG r', option_map OfG n))
  | OfW l, FW long b => let '(b', (r', n)) := Words.wstep l b (asW r) rune c in (FW long b', (rename OfW r', option_map OfW n))
  | OfL l, FL long b => let '(b', (r', n)) := Line.lstep l b (asL r) rune c in (FL long b', (rename OfL r', option_map OfL n))
  | _, _ => (g, (r, None))
  end.

Section Classes.
(* class tables of the three packages, Extended_Pictographic, Mn or Mc *)
Context (tg tw tl : Z -> Z -> bool) (pict mark : Z -> bool).
(* CodePointClassFor, and StartRulesFor up to the loop over the rules (grapheme.go:129-156, uax29.go:151-179, uax14.go:183-225) *)
Definition begin_all (_ : nat) (r : Z) (g : fields) : fields * Z * Z * list label :=
  match g with
  | FG b => let c := Grapheme.CodePointClassFor tg pict r in (g, c, c, if Grapheme.is_blocked c b then [] else map OfG (Grapheme.rules c))
  | FW long sh => let c := Words.CodePointClassFor tw pict r in (g, c, long, if (c =? Words.RI) && fst sh then [] else map OfW (Words.rules c))
  | FL long sh =>
      let (b, c) := Line.CodePointClassFor tl mark r (Line.mklb empty_pq long sh) in
      (FL (Line.llong b) (Line.lsh b), c, c, if (c =? Line.RI) && Line.blockedRI (Line.lsh b) then [] else map OfL (Line.rules c))
  end.
(* ProceedWithRune behind PublishRuneEvent (grapheme.go:172-207, uax29.go:199-223, uax14.go:311-354) *)
Definition finish_all (_ : nat) (c : Z) (g : fields) (longest : Z) (pens : list Z) : fields * Z * list Z :=
  match g with
  | FG b => (g, Z.max 1 longest, Grapheme.setPenalty1 pens Grapheme.penalty999)
  | FW _ sh => (FW longest (fst sh, c), longest, Words.setPenalty1 pens Words.penalty999)
  | FL _ sh =>
      let inner := Line.substituted sh && (Line.lastClass sh =? c) in
      (FL longest (Line.mksh (Line.blockedRI sh) (if c =? Line.eot then Line.sot else c) (Line.substituted sh)),
       Z.max 1 longest, map Line.lift1 (Line.patch inner pens))
  end.
(* which kind of breaker, newly made *)
Inductive kind := AGrapheme | AWord | ALine.
Definition made (k : kind) : fields :=
  match k with
  | AGrapheme => FG (Grapheme.gblk Grapheme.NewBreaker)
  | AWord => FW (Words.wlong Words.NewWordBreaker) (Words.wsh Words.NewWordBreaker)
  | ALine => FL (Line.llong Line.NewLineWrap) (Line.lsh Line.NewLineWrap)
  end.
(* A program: breaker b is of kind (kinds b) and gets the runes (texts b). *)
Definition program (kinds : nat -> kind) (texts : nat -> list Z) : world label fields := world0 (fun b => made (kinds b)) texts.
Definition run_all : list (nat * nat) -> world label fields -> option (world label fields) := prun step_all begin_all finish_all.
End Classes.
