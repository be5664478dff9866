(* PropertiesDeque.v -- C01: the look-ahead buffer is a lossless double-ended queue. *)
From Coq Require Import List ZArith Bool.
From Verif Require Import Base Deque DequeSpec DequeProofs.
Import ListNotations.
Open Scope Z_scope.

(* Every program of queue operations, started on the zero-value queue, gives answer by answer
   (panics included) what an unbounded list gives. *)
Theorem C01_deque_refines_list :
  forall (A : Type) (z : A) (ops : list (@op A)),
    run z ops (@empty_deque A) = lrun ops [].
Proof. intros. exact (run_ok z ops _ _ rep_empty). Qed.
Print Assumptions C01_deque_refines_list.

(* Non-vacuity: grows beyond the first 64 slots with a wrapped head, rotates both ways, shrinks. *)
Example C01_nonvacuous :
  let ops := map OPushBack (map Z.of_nat (seq 0 40)) ++ repeat OPopFront 20
             ++ map OPushFront [100; 101; 102] ++ map OPushBack (map Z.of_nat (seq 40 70))
             ++ [ORotate 5; ORotate (-12); OLen; OFront; OBack; OSetAt 3 7; OAt 3]
             ++ repeat OPopBack 80 ++ [OLen; OFront; OAt 13; OAt 12; OClear; OPushBack 1; OPopFront; OPopFront] in
  skipn (40 + 20 + 3 + 70 + 2) (run 0 ops empty_deque) =
    [Some (RLen 93); Some (RElem 103); Some (RElem 102); Some RUnit; Some (RElem 7)] ++
    map (fun i => Some (RElem (Z.of_nat i))) [] ++ skipn (40 + 20 + 3 + 70 + 7) (lrun ops []).
Proof. vm_compute. reflexivity. Qed.

(* Reachable panics: popping the empty queue and an index equal to the length. *)
Example C01_panics :
  run 0 [OPushBack 1; OAt 0; OAt 1] empty_deque = [Some RUnit; Some (RElem 1); None] /\
  run 0 [OPopBack] empty_deque = [None].
Proof. vm_compute. auto. Qed.
