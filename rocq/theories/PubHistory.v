(* PubHistory.v -- histories of a DefaultRunePublisher: subscribe, publish, subscribe, ... *)
From Coq Require Import List ZArith Lia Bool Permutation.
From Verif Require Import Base PrioQ PrioQProofs Recognizer.
Import ListNotations.
Open Scope Z_scope.

Section History.
Context {Sub : Type} (done : Sub -> bool) (mlen : Sub -> Z).
Context {E G : Type} (ev : E -> G -> Sub -> G * Sub * list Z).

(* A client's call: SubscribeMe (prioq.go:28-32) or PublishRuneEvent (automata.go:229-265). *)
Inductive hop := HSub (s : Sub) | HPub (e : E).

(* What the client sees of a publish: longest match, penalties, and who was unsubscribed. *)
Definition hout : Type := Z * list Z * list Sub.

Fixpoint hrun (ops : list hop) (g : G) (p : @pqueue Sub) : option (list hout * G * @pqueue Sub) :=
  match ops with
  | [] => Some ([], g, p)
  | HSub s :: r => do p1 <- Push done p s; hrun r g p1
  | HPub e :: r =>
      do (g1, longest, tot, rel, p1) <- Publish done (ev e) mlen g p;
      do (os, g2, p2) <- hrun r g1 p1;
      Some ((longest, tot, rel) :: os, g2, p2)
  end.

Definition subscribed (ops : list hop) : list Sub :=
  flat_map (fun o => match o with HSub s => [s] | HPub _ => [] end) ops.
Definition released (os : list hout) : list Sub := flat_map (fun o => snd o) os.

End History.
Arguments hop : clear implicits.

(* Subscribers which do not communicate: the publisher is a bag of subscribers. *)
Section Bag.
Context {Sub : Type} (done : Sub -> bool) (mlen : Sub -> Z).
Context {E : Type} (ev1 : E -> Sub -> Sub * list Z).

(* Specification: one publish on a bag. *)
Definition bag_publish (e : E) (l : list Sub) : Z * list Z * list Sub * list Sub :=
  let outs := map (ev1 e) l in
  (longest_of done mlen (map fst outs),
   map (fun j => sum_at (map snd outs) j) (seq 0 (max_len (map snd outs))),
   filter done (map fst outs),
   filter (fun s => negb (done s)) (map fst outs)).

Fixpoint bag_run (ops : list (hop Sub E)) (l : list Sub) : list (Z * list Z * list Sub) * list Sub :=
  match ops with
  | [] => ([], l)
  | HSub s :: r => bag_run r (s :: l)
  | HPub e :: r => let '(lg, tot, rel, l1) := bag_publish e l in
                   let '(os, l2) := bag_run r l1 in ((lg, tot, rel) :: os, l2)
  end.
End Bag.
