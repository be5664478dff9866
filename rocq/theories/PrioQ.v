(* PrioQ.v -- model of prioq.go (the queue inside uax.DefaultRunePublisher) and of
   PublishRuneEvent (automata.go).  Panics are [None]. *)
From Coq Require Import List ZArith Lia Bool.
From Verif Require Import Base.
Import ListNotations.
Open Scope Z_scope.

Section PrioQ.
(* A subscriber's state; [done] is RuneSubscriber.Done (automata.go:189-194). *)
Context {Sub : Type} (done : Sub -> bool).

(* prioq.go:18-23 (penaltiesTotal is a scratch buffer, overwritten by each PublishRuneEvent) *)
Record pqueue := mkpq { q : list Sub; gap : Z }.

(* The zero value DefaultRunePublisher{} / NewRunePublisher (automata.go:212-216). *)
Definition empty_pq : pqueue := mkpq [] 0.

(* prioq.go:26 *)
Definition pLen (p : pqueue) : Z := zlen (q p).

(* prioq.go:36-41; Go nil is the inner None *)
Definition pTop (p : pqueue) : option (option Sub) :=
  if pLen p =? 0 then Some None
  else do s <- zget (q p) (pLen p - 1); Some (Some s).

(* Go `q[i], q[j] = q[j], q[i]` *)
Definition swap (l : list Sub) (i j : Z) : option (list Sub) :=
  do a <- zget l i; do b <- zget l j;
  do l1 <- zset l i b; zset l1 j a.

(* prioq.go:104-116 *)
Definition bubbleUp (p : pqueue) (i : Z) : option pqueue :=
  do l <- (if i <? gap p - 1 then
             if gap p <? pLen p then swap (q p) i (gap p - 1)
             else if i <? pLen p - 1 then swap (q p) i (pLen p - 1)
             else Some (q p)
           else Some (q p));
  if gap p >? 0 then
    do s <- zget l (gap p - 1);
    Some (mkpq l (if done s then gap p - 1 else gap p))
  else Some (mkpq l (gap p)).

(* prioq.go:119-128 *)
Definition bubbleDown (p : pqueue) (i : Z) : option pqueue :=
  do l <- (if i >=? gap p then if gap p <? i then swap (q p) i (gap p) else Some (q p)
           else Some (q p));
  if gap p <? zlen l then
    do s <- zget l (gap p);
    Some (mkpq l (if done s then gap p else gap p + 1))
  else Some (mkpq l (gap p)).

(* prioq.go:54-59: the self-check of Fix.  A finished subscriber before the gap panics, and so
   does an index beyond the queue. *)
Definition check (p : pqueue) : option pqueue :=
  if (gap p <=? pLen p) && forallb (fun s => negb (done s)) (firstn (Z.to_nat (gap p)) (q p))
  then Some p else None.

(* prioq.go:46-62 *)
Definition Fix (p : pqueue) (at_ : Z) : option pqueue :=
  if at_ <? pLen p then
    do s <- zget (q p) at_;
    do p' <- (if done s then bubbleUp p at_ else bubbleDown p at_);
    check p'
  else Some p.

(* prioq.go:65-72 *)
Definition Push (p : pqueue) (s : Sub) : option pqueue :=
  let l := pLen p in
  let p1 := mkpq (q p ++ [s]) (gap p) in
  if done s then Some p1 else bubbleDown p1 l.

(* prioq.go:75-88; Go nil is the inner None.  The slot old[n-1] = nil is not reachable any more. *)
Definition Pop (p : pqueue) : option (option Sub * pqueue) :=
  if pLen p =? 0 then Some (None, p)
  else
    do s <- zget (q p) (pLen p - 1);
    let l := firstn (Z.to_nat (pLen p - 1)) (q p) in
    Some (Some s, mkpq l (if gap p >? zlen l then gap p - 1 else gap p)).

(* prioq.go:93-101 *)
Definition PopDone (p : pqueue) : option (option Sub * pqueue) :=
  if pLen p =? 0 then Some (None, p)
  else
    do t <- pTop p;
    match t with
    | Some s => if done s then Pop p else Some (None, p)
    | None => None
    end.

(* ---- automata.go: PublishRuneEvent ---- *)
(* [G] is state shared between subscribers (e.g. the breaker's blocked flags), [ev] is
   RuneSubscriber.RuneEvent for the published rune and class: it may change the shared state and
   the subscriber and returns penalties.  [mlen] is RuneSubscriber.MatchLength. *)
Context {G : Type} (ev : G -> Sub -> G * Sub * list Z) (mlen : Sub -> Z).

(* automata.go:242-250: add penalties into the running total *)
Fixpoint add_pens (tot pens : list Z) : list Z :=
  match pens, tot with
  | [], _ => tot
  | p :: ps, [] => p :: add_pens [] ps
  | p :: ps, t :: ts => (t + p) :: add_pens ts ps
  end.

(* automata.go:238-258: body of the loop, i counting down to 0 *)
Fixpoint publish_loop (n : nat) (g : G) (p : pqueue) (longest : Z) (tot : list Z)
  : option (G * pqueue * Z * list Z) :=
  match n with
  | O => Some (g, p, longest, tot)
  | S i =>
      do s <- zget (q p) (Z.of_nat i);
      let '(g', s', pens) := ev g s in
      do l <- zset (q p) (Z.of_nat i) s';       (* the subscriber object changed in place *)
      let tot' := add_pens tot pens in
      let longest' := if negb (done s') && (mlen s' >? longest) then mlen s' else longest in
      do p' <- Fix (mkpq l (gap p)) (Z.of_nat i);
      publish_loop i g' p' longest' tot'
  end.

(* automata.go:261-263: release all finished subscribers.  Fuel: one more than the queue length;
   None = panic or out of fuel.  Returns the subscribers told Unsubscribed(), in call order. *)
Fixpoint release_loop (fuel : nat) (p : pqueue) (rel : list Sub) : option (list Sub * pqueue) :=
  match fuel with
  | O => None
  | S f =>
      do (s, p') <- PopDone p;
      match s with
      | None => Some (rev rel, p')
      | Some s => release_loop f p' (s :: rel)
      end
  end.

(* automata.go:229-265 *)
Definition Publish (g : G) (p : pqueue) : option (G * Z * list Z * list Sub * pqueue) :=
  do (g', p', longest, tot) <- publish_loop (length (q p)) g p 0 [];
  do (rel, p'') <- release_loop (S (length (q p'))) p' [];
  Some (g', longest, tot, rel, p'').
End PrioQ.
