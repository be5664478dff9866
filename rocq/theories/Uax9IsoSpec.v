(* Uax9IsoSpec.v -- UAX#9 for texts with isolates (LRI, RLI and PDI; no FSI, no brackets): the rules are
   applied to every isolating run sequence by itself.  A text is a list of items: characters and isolates.
   An isolate is neutral in the sequence around it; its content is a sequence of its own (rules X5a to X5c,
   X10), whose sos and eos are its own direction, its level being the higher one. *)
From Coq Require Import List ZArith Bool.
From Verif Require Import Scrap Scanner Uax9Spec ResolverText.
Import ListNotations.
Open Scope Z_scope.

(* A character: class, length in bytes.  An isolate: class and length of the initiator, the content, the
   length of the PDI. *)
Inductive item :=
| Char (c n : Z)
| Isolate (c n : Z) (content : list item) (m : Z).

(* The text: classes and lengths of its characters. *)
Fixpoint flat (it : item) : list (Z * Z) :=
  match it with
  | Char c n => [(c, n)]
  | Isolate c n content m => (c, n) :: flat_map flat content ++ [(cPDI, m)]
  end.

(* The isolating run sequence: initiator and PDI are neutral, and for rule W1 they are ON. *)
Definition sequence (its : list item) : list Z :=
  flat_map (fun it => match it with Char c _ => [c] | Isolate _ _ _ _ => [cON; cON] end) its.

Definition inner_dir (c : Z) : Z := if c =? cRLI then cR else cL.

(* Every byte of the sequence gets the class of its character; [inner]: what is inside the isolates. *)
Fixpoint weave (rs : list Z) (its : list (item * list Z)) : list Z :=
  match its with
  | [] => []
  | (Char _ n, _) :: t => repeat (hd cNULL rs) (Z.to_nat n) ++ weave (tl rs) t
  | (Isolate _ n _ m, inner) :: t =>
      repeat (hd cNULL rs) (Z.to_nat n) ++ inner ++ repeat (hd cNULL (tl rs)) (Z.to_nat m) ++ weave (tl (tl rs)) t
  end.
Fixpoint inside_of (it : item) : list Z :=
  match it with
  | Char _ _ => []
  | Isolate c _ content _ => weave (uax9 (inner_dir c) (sequence content)) (combine content (map inside_of content))
  end.
(* The classes of the bytes of a text. *)
Definition uax9_iso (e : Z) (its : list item) : list Z := weave (uax9 e (sequence its)) (combine its (map inside_of its)).

(* What the text around an isolate is at its bytes: the initiator, the content and the PDI get the class
   of the initiator in the sequence around. *)
Definition width (it : item) : Z := fold_right Z.add 0 (map snd (flat it)).
Fixpoint paint (rs : list Z) (its : list item) : list Z :=
  match its with
  | [] => []
  | Char _ n :: t => repeat (hd cNULL rs) (Z.to_nat n) ++ paint (tl rs) t
  | (Isolate _ _ _ _ as it) :: t => repeat (hd cNULL rs) (Z.to_nat (width it)) ++ paint (tl (tl rs)) t
  end.
Definition uax9_around (e : Z) (its : list item) : list Z := paint (uax9 e (sequence its)) its.

(* a RLI R WS EN PDI b, with initiators and PDI of three bytes *)
Example uax9_iso_ex :
  uax9_iso cL [Char cR 2; Isolate cRLI 3 [Char cL 1; Char cWS 1; Char cR 2; Char cET 1] 3; Char cR 2] =
    [cR; cR; cR; cR; cR; cL; cR; cR; cR; cR; cR; cR; cR; cR; cR] /\
  uax9_iso cL [Char cL 1; Isolate cLRI 3 [Char cR 2; Char cWS 1] 3; Char cR 2] =
    [cL; cL; cL; cL; cR; cR; cL; cL; cL; cL; cR; cR].
Proof. split; reflexivity. Qed.

(* ---- the class of a byte in a tree of scraps ----
   That of the innermost scrap with this byte; the characters of an isolate count for the level around. *)
Fixpoint first (l : list (option Z)) : option Z :=
  match l with [] => None | Some c :: _ => Some c | None :: t => first t end.
Fixpoint at_byte (x : Z) (s : scrap) : option Z :=
  match s with
  | mks c l r _ ks =>
      if is_isolate c then None
      else if (l <=? x) && (x <? r)
           then Some (match first (flat_map (fun k => map (at_byte x) k) ks) with Some d => d | None => c end)
           else None
  end.
Definition class_at (w : list scrap) (x : Z) : option Z := first (map (at_byte x) w).
