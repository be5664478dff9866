(* Pool.v -- model of the pool of recognisers (automata.go:74-114), which is shared by all breakers of a program, also those
   of different kinds in different goroutines.  Recognisers are objects with an address here. *)
From Coq Require Import List ZArith Bool.
From Verif Require Import Base PrioQ Recognizer.
Import ListNotations.
Open Scope Z_scope.

Section Pool.
(* State functions of all breakers, and the state of a breaker that is reached through UserData *)
Context {L G : Type} (step : L -> G -> rec L -> Z -> Z -> G * (rec L * option L)).
(* Breaker b: CodePointClassFor and the head of StartRulesFor for a rune give its state, the class, the value of Expect, and the rules
   to start; the rest of ProceedWithRune for a class gives its state, LongestActiveMatch and Penalties. *)
Context (begin : nat -> Z -> G -> G * Z * Z * list L) (finish : nat -> Z -> G -> Z -> list Z -> G * Z * list Z).

(* Where a breaker is in its work on a rune r of class c: start rules; publish to the subscribers below i; release *)
Inductive phase := Idle | Starting (r c e : Z) (ls : list L) | Publishing (r c : Z) (i : nat) | Releasing (r c : Z) | Crashed.
(* A breaker: its publisher's queue (of recognisers or of addresses), its state, the runes to come, the results of
   PublishRuneEvent so far, and the answers to the segmenter. *)
Record breaker (A : Type) := mkb { queue : @pqueue A; state : G; text : list Z; at_ : phase; longest : Z; total : list Z; answers : list (Z * list Z) }.
Arguments mkb {A}. Arguments queue {A}. Arguments state {A}. Arguments text {A}. Arguments at_ {A}. Arguments longest {A}. Arguments total {A}. Arguments answers {A}.
Definition crash {A} (x : breaker A) : breaker A := mkb (queue x) (state x) (text x) Crashed (longest x) (total x) (answers x).

(* an object: the recogniser and its UserData (a breaker) *)
Record cell := mkcell { what : rec L; user : nat }.
Definition blank : rec L := mkrec 0 0 [] None.
(* All objects, the idle objects of the pool, the first address never used, the objects the pool has thrown away, all breakers *)
Record world := mkw { heap : nat -> cell; idle : list nat; fresh : nat; gone : list nat; breakers : nat -> breaker nat }.
Definition set_at {A} (f : nat -> A) (i : nat) (x : A) : nat -> A := fun j => if Nat.eqb j i then x else f j.
Definition done_in (h : nat -> cell) (a : nat) : bool := Done (what (h a)).

(* BorrowObject: an idle object, or a new one if there is none at place k (which idle object is handed out is up to the pool) *)
Definition borrow (k : nat) (w : world) : nat * list nat * nat :=
  match nth_error (idle w) k with
  | Some a => (a, firstn k (idle w) ++ skipn (S k) (idle w), fresh w)
  | None => (fresh w, idle w, S (fresh w))
  end.

(* One step of breaker b.  k: which object the pool hands out, or whether it throws a returned object away (it has a limit on idle objects, which is
   not set in the code).  None: there is nothing to do. *)
Definition pstep (b k : nat) (w : world) : option world :=
  let x := breakers w b in
  let put x' := Some (mkw (heap w) (idle w) (fresh w) (gone w) (set_at (breakers w) b x')) in
  match at_ x with
  | Idle =>                                        (* segment.go:459-461 *)
      match text x with
      | [] => None
      | r :: t => let '(g, c, e, ls) := begin b r (state x) in put (mkb (queue x) g t (Starting r c e ls) (longest x) (total x) (answers x))
      end
  | Starting r c e [] => put (mkb (queue x) (state x) (text x) (Publishing r c (length (q (queue x)))) 0 [] (answers x))   (* automata.go:230-238 *)
  | Starting r c e (l :: ls) =>                    (* automata.go:99-105, grapheme.go:150-152 *)
      let '(a, idle', fresh') := borrow k w in
      let h := set_at (heap w) a (mkcell (NewPooledRecognizer (what (heap w a)) e l) b) in
      Some (mkw h idle' fresh' (gone w)
        (set_at (breakers w) b
           (match Push (done_in h) (queue x) a with
            | Some p => mkb p (state x) (text x) (Starting r c e ls) (longest x) (total x) (answers x)
            | None => crash x
            end)))
  | Publishing r c (S i) =>                        (* automata.go:238-258 *)
      match zget (q (queue x)) (Z.of_nat i) with
      | None => put (crash x)
      | Some a =>
          let u := user (heap w a) in
          let y := breakers w u in
          let '(g, s, pens) := RuneEvent step r c (state y) (what (heap w a)) in
          let h := set_at (heap w) a (mkcell s u) in
          let bs := set_at (breakers w) u (mkb (queue y) g (text y) (at_ y) (longest y) (total y) (answers y)) in
          let x := bs b in
          let tot := add_pens (total x) pens in
          let long := if negb (Done s) && (MatchLength s >? longest x) then MatchLength s else longest x in
          Some (mkw h (idle w) (fresh w) (gone w)
            (set_at bs b
               (match Fix (done_in h) (queue x) (Z.of_nat i) with
                | Some p => mkb p (state x) (text x) (Publishing r c i) long tot (answers x)
                | None => crash x
                end)))
      end
  | Publishing r c 0%nat => put (mkb (queue x) (state x) (text x) (Releasing r c) (longest x) (total x) (answers x))
  | Releasing r c =>                               (* automata.go:261-263, 108-114 *)
      match PopDone (done_in (heap w)) (queue x) with
      | None => put (crash x)
      | Some (None, p) =>
          let '(g, lam, ps) := finish b c (state x) (longest x) (total x) in
          put (mkb p g (text x) Idle (longest x) (total x) (answers x ++ [(lam, ps)]))
      | Some (Some a, p) =>
          let '(idle', gone') := if Nat.eqb k 0 then (a :: idle w, gone w) else (idle w, a :: gone w) in
          Some (mkw (set_at (heap w) a (mkcell (release (what (heap w a))) (user (heap w a)))) idle' (fresh w) gone'
            (set_at (breakers w) b (mkb p (state x) (text x) (Releasing r c) (longest x) (total x) (answers x))))
      end
  | Crashed => None
  end.
(* a schedule: the breaker that makes the next step and the choice of the pool *)
Fixpoint prun (sched : list (nat * nat)) (w : world) : option world :=
  match sched with
  | [] => Some w
  | (b, k) :: r => match pstep b k w with Some w' => prun r w' | None => None end
  end.
(* new breakers, and the pool as made by init (automata.go:82-95) *)
Definition new_breaker {A} (g : G) (runes : list Z) : breaker A := mkb empty_pq g runes Idle 0 [] [].
Definition world0 (g0 : nat -> G) (texts : nat -> list Z) : world := mkw (fun _ => mkcell blank 0) [] 0 [] (fun b => new_breaker (g0 b) (texts b)).
End Pool.
Arguments mkb {L G A}. Arguments queue {L G A}. Arguments state {L G A}. Arguments text {L G A}. Arguments at_ {L G A}. Arguments longest {L G A}. Arguments total {L G A}. Arguments answers {L G A}.
Arguments breaker : clear implicits. Arguments phase : clear implicits. Arguments world : clear implicits. Arguments cell : clear implicits.
