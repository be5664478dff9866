(* DequeSpec.v -- specification of the look-ahead queue: an unbounded list. Independent of Deque.v
   except for the names of operations and answers. *)
From Coq Require Import List ZArith Bool.
From Verif Require Import Deque.
Import ListNotations.
Open Scope Z_scope.

Section Spec.
Context {A : Type}.

(* Legal positions of a list. *)
Definition inb (l : list A) (i : Z) : bool := (0 <=? i) && (i <? Z.of_nat (length l)).

(* One operation on the ideal queue: [None] where the documentation says "panics". *)
Definition lexec (o : @op A) (l : list A) : option (@ans A * list A) :=
  match o with
  | OPushBack a => Some (RUnit, l ++ [a])
  | OPushFront a => Some (RUnit, a :: l)
  | OPopFront => match l with [] => None | a :: t => Some (RElem a, t) end
  | OPopBack => match rev l with [] => None | a :: t => Some (RElem a, rev t) end
  | OFront => match l with [] => None | a :: _ => Some (RElem a, l) end
  | OBack => match rev l with [] => None | a :: _ => Some (RElem a, l) end
  | OAt i => if inb l i then match nth_error l (Z.to_nat i) with
                             | Some a => Some (RElem a, l) | None => None end
             else None
  | OSetAt i a => if inb l i
                  then Some (RUnit, firstn (Z.to_nat i) l ++ a :: skipn (S (Z.to_nat i)) l)
                  else None
  | ORotate n => (* n steps front-to-back; for n negative, -n steps back-to-front *)
      let k := Z.to_nat (n mod Z.of_nat (length l)) in
      Some (RUnit, match l with [] => [] | _ => skipn k l ++ firstn k l end)
  | OClear => Some (RUnit, [])
  | OLen => Some (RLen (Z.of_nat (length l)), l)
  end.

Fixpoint lrun (ops : list (@op A)) (l : list A) : list (option (@ans A)) :=
  match ops with
  | [] => []
  | o :: rest => match lexec o l with
                 | Some (r, l') => Some r :: lrun rest l'
                 | None => [None]
                 end
  end.
End Spec.
