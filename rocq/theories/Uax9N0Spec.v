(* Uax9N0Spec.v -- UAX#9, section 3.3.5, rule N0, and the rules W1 to W7, N0, N1 and N2 together, for an
   isolating run sequence in which no non-spacing mark follows a bracket.  Nothing here is taken from the
   code except the names of the classes; ON characters with a Bidi_Paired_Bracket_Type have the classes
   BRACKO and BRACKC.  The pairs are those of BD16 (Bd16Spec.v), given by the positions of the brackets. *)
From Coq Require Import List ZArith Bool.
From Verif Require Import Scrap Uax9Spec.
Import ListNotations.
Open Scope Z_scope.

Definition is_bracket (c : Z) : bool := (c =? cBRACKO) || (c =? cBRACKC).
Definition other (e : Z) : Z := if e =? cL then cR else cL.
(* In this rule numbers count as R. *)
Definition is_left (c : Z) : bool := c =? cL.
Definition is_right (c : Z) : bool := (c =? cR) || (c =? cEN) || (c =? cAN).
Definition has (d c : Z) : bool := if d =? cL then is_left c else is_right c.
Definition last_dir (d : Z) (cs : list Z) : Z := fold_left (fun d c => if is_left c then cL else if is_right c then cR else d) cs d.

(* N0 b, c, d: the class of a pair, given the strong class before it and the classes inside; NI if
   there is no strong class inside. *)
Definition pair_class (e before : Z) (inside : list Z) : Z :=
  if existsb (has e) inside then e
  else if existsb (has (other e)) inside then (if before =? other e then other e else e)
  else cNI.

(* The characters: class and position.  The classes given to brackets so far are the list [given]:
   position and class. *)
Definition now (given : list (Z * Z)) (x : Z * Z) : Z :=
  match find (fun g => fst g =? snd x) given with Some g => snd g | None => fst x end.
Definition in_front (txt : list (Z * Z)) (p : Z) : list (Z * Z) := filter (fun x => snd x <? p) txt.
Definition within (txt : list (Z * Z)) (p q : Z) : list (Z * Z) := filter (fun x => (p <? snd x) && (snd x <? q)) txt.

(* One pair; the pairs in the order of their opening brackets. *)
Definition N0_pair (e : Z) (txt : list (Z * Z)) (given : list (Z * Z)) (pr : Z * Z) : list (Z * Z) :=
  let k := pair_class e (last_dir e (map (now given) (in_front txt (fst pr)))) (map (now given) (within txt (fst pr) (snd pr))) in
  if k =? cNI then given else (fst pr, k) :: (snd pr, k) :: given.
Fixpoint insert (pr : Z * Z) (l : list (Z * Z)) : list (Z * Z) :=
  match l with [] => [pr] | x :: t => if fst pr <? fst x then pr :: l else x :: insert pr t end.
Definition in_order (l : list (Z * Z)) : list (Z * Z) := fold_right insert [] l.
Definition N0_given (e : Z) (txt pairs : list (Z * Z)) : list (Z * Z) := fold_left (N0_pair e txt) (in_order pairs) [].
Definition N0 (e : Z) (txt pairs : list (Z * Z)) : list Z := map (now (N0_given e txt pairs)) txt.

(* Brackets that have not got a class are neutral. *)
Definition plain_bracket (c : Z) : Z := if is_bracket c then cON else c.

Definition weak_rules (e : Z) (cs : list Z) : list Z := W7 e (W6 (W5 e (W4 e (W3 (W2 e (W1 e cs)))))).
Definition uax9_full (e : Z) (cs pos : list Z) (pairs : list (Z * Z)) : list Z :=
  N12 e e (map plain_bracket (N0 e (combine (weak_rules e cs) pos) pairs)).

(* The examples of the standard, rule N0: in a right-to-left paragraph AB(CD[&ef]!)gh, and in a
   left-to-right one smith (fabrikam ARABIC) HEBREW and ARABIC (HEBREW) text. *)
Example uax9_full_ex :
  uax9_full cR [cR; cR; cBRACKO; cR; cR; cBRACKO; cON; cL; cL; cBRACKC; cON; cBRACKC; cL; cL] [0;1;2;3;4;5;6;7;8;9;10;11;12;13] [(5, 9); (2, 11)] =
    [cR; cR; cR; cR; cR; cR; cR; cL; cL; cR; cR; cR; cL; cL] /\
  uax9_full cL [cL; cWS; cBRACKO; cL; cWS; cR; cBRACKC; cWS; cR] [0;1;2;3;4;5;6;7;8] [(2, 6)] =
    [cL; cL; cL; cL; cL; cR; cL; cL; cR] /\
  uax9_full cL [cR; cWS; cBRACKO; cR; cBRACKC; cWS; cL] [0;1;2;3;4;5;6] [(2, 4)] = [cR; cR; cR; cR; cR; cL; cL].
Proof. repeat split; reflexivity. Qed.
