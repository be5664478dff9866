(* Uax9Spec.v -- UAX#9, section 3.3.4 and 3.3.5: the rules W1 to W7, N1 and N2 for an isolating run
   sequence without brackets, stated on the classes of its characters.  Nothing here is taken from the
   code except the names of the classes (Scrap.v).  [e] is the embedding direction, which is also the
   direction of the start and of the end of the sequence (sos, eos). *)
From Coq Require Import List ZArith Bool.
From Verif Require Import Scrap.
Import ListNotations.
Open Scope Z_scope.

(* W1: a non-spacing mark gets the class of the character before it. *)
Fixpoint W1 (prev : Z) (cs : list Z) : list Z :=
  match cs with
  | [] => []
  | c :: t => let c := if c =? cNSM then prev else c in c :: W1 c t
  end.

Definition is_strong (c : Z) : bool := (c =? cL) || (c =? cR) || (c =? cAL).

(* W2: a European number after the strong class AL becomes an Arabic number. *)
Fixpoint W2 (strong : Z) (cs : list Z) : list Z :=
  match cs with
  | [] => []
  | c :: t => (if (c =? cEN) && (strong =? cAL) then cAN else c) :: W2 (if is_strong c then c else strong) t
  end.

(* W3: AL becomes R. *)
Definition W3 (cs : list Z) : list Z := map (fun c => if c =? cAL then cR else c) cs.

(* W4: a single separator between two numbers of the same type. *)
Fixpoint W4 (prev : Z) (cs : list Z) : list Z :=
  match cs with
  | [] => []
  | c :: t =>
      let next := hd cNULL t in
      (if ((c =? cES) || (c =? cCS)) && (prev =? cEN) && (next =? cEN) then cEN
       else if (c =? cCS) && (prev =? cAN) && (next =? cAN) then cAN else c) :: W4 c t
  end.

(* Terminators, and then a European number. *)
Fixpoint en_ahead (cs : list Z) : bool :=
  match cs with
  | [] => false
  | c :: t => if c =? cET then en_ahead t else c =? cEN
  end.

(* W5: terminators next to a European number. *)
Fixpoint W5 (prev : Z) (cs : list Z) : list Z :=
  match cs with
  | [] => []
  | c :: t => let c := if (c =? cET) && ((prev =? cEN) || en_ahead t) then cEN else c in c :: W5 c t
  end.

(* W6: the other separators and terminators are neutral. *)
Definition W6 (cs : list Z) : list Z := map (fun c => if (c =? cES) || (c =? cET) || (c =? cCS) then cON else c) cs.

(* W7: a European number after the strong class L becomes L. *)
Fixpoint W7 (strong : Z) (cs : list Z) : list Z :=
  match cs with
  | [] => []
  | c :: t => (if (c =? cEN) && (strong =? cL) then cL else c) :: W7 (if is_strong c then c else strong) t
  end.

(* Neutrals, as far as they occur here; numbers count as R. *)
Definition NI_class (c : Z) : bool := (c =? cB) || (c =? cS) || (c =? cWS) || (c =? cON).
Definition side (c : Z) : Z := if c =? cL then cL else cR.
Fixpoint side_ahead (e : Z) (cs : list Z) : Z :=
  match cs with
  | [] => e
  | c :: t => if NI_class c then side_ahead e t else side c
  end.

(* N1, N2: neutrals between two characters of the same direction get this direction, others that of the
   embedding. *)
Fixpoint N12 (e before : Z) (cs : list Z) : list Z :=
  match cs with
  | [] => []
  | c :: t =>
      if NI_class c then (if before =? side_ahead e t then before else e) :: N12 e before t
      else c :: N12 e (side c) t
  end.

Definition uax9 (e : Z) (cs : list Z) : list Z :=
  N12 e e (W7 e (W6 (W5 e (W4 e (W3 (W2 e (W1 e cs))))))).

(* Each byte gets the class of its character. *)
Definition spread (cs : list Z) (lens : list Z) : list Z :=
  flat_map (fun x => repeat (fst x) (Z.to_nat (snd x))) (combine cs lens).

(* The maximal runs of equal classes, [solo] classes not being joined: class and length. *)
Fixpoint runs_of (solo : Z -> bool) (l : list (Z * Z)) : list (Z * Z) :=
  match l with
  | [] => []
  | (c, n) :: t =>
      match runs_of solo t with
      | (d, m) :: u => if (c =? d) && negb (solo c) then (c, n + m) :: u else (c, n) :: (d, m) :: u
      | [] => [(c, n)]
      end
  end.

(* An example of the standard: rule W4 to W7, N1 and N2 at work. *)
Example uax9_ex :
  uax9 cL [cR; cWS; cR; cNSM; cWS; cL; cES; cET; cEN; cCS; cEN; cWS] = [cR; cR; cR; cR; cL; cL; cL; cL; cL; cL; cL; cL] /\
  uax9 cR [cL; cWS; cES; cWS; cL; cWS; cR; cON; cEN] = [cL; cL; cL; cL; cL; cR; cR; cR; cEN] /\
  uax9 cR [cAL; cCS; cEN; cCS; cEN; cWS; cL] = [cR; cR; cAN; cAN; cAN; cR; cL].
Proof. repeat split; reflexivity. Qed.
