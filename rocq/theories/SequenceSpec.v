(* SequenceSpec.v -- isolating run sequences and their brackets, without reference to the code.
   The brackets, isolate initiators and PDIs of a text are given as (class, character, position). *)
From Coq Require Import List ZArith Bool.
From Verif Require Import Base Scrap.
Import ListNotations.
Open Scope Z_scope.

Definition mark := (Z * Z * Z)%type.
Definition initiates (c : Z) : bool := (c =? cLRI) || (c =? cRLI) || (c =? cFSI).

(* Every bracket with the positions of the initiators whose isolates it is in, the innermost first. *)
Fixpoint homes (open : list Z) (ms : list mark) : list (list Z * (Z * Z)) :=
  match ms with
  | [] => []
  | (c, r, p) :: t =>
      if c =? cPDI then homes (tl open) t
      else if initiates c then homes (p :: open) t
      else (open, (r, p)) :: homes open t
  end.
(* The position of the innermost initiator; 0 outside of all isolates. *)
Definition home (open : list Z) : Z := hd 0 open.
(* The brackets of one isolating run sequence, given by the position of its initiator. *)
Definition sequence (z : Z) (l : list (list Z * (Z * Z))) : list (Z * Z) :=
  map snd (filter (fun x => home (fst x) =? z) l).

(* Every PDI has an initiator, and no initiator is at the beginning of the text. *)
Fixpoint matched (depth : nat) (ms : list mark) : bool :=
  match ms with
  | [] => true
  | (c, r, p) :: t =>
      if c =? cPDI then match depth with O => false | S d => matched d t end
      else if initiates c then (0 <? p) && matched (S depth) t
      else matched depth t
  end.

(* The position of the last initiator; 0 if there is none. *)
Fixpoint last_initiator (z : Z) (ms : list mark) : Z :=
  match ms with
  | [] => z
  | (c, r, p) :: t => last_initiator (if initiates c then p else z) t
  end.
