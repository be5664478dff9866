(* Deque.v -- model of segment/deque.go (ring-buffer double-ended queue of atoms).
   The element type is a parameter [A] with a zero value [z] (Go: atom and atom{}).
   Panics are [None]. *)
From Coq Require Import List ZArith Lia Bool.
From Verif Require Import Base.
Import ListNotations.
Open Scope Z_scope.

Section Deque.
Context {A : Type} (z : A).

(* segment/deque.go:22-27 *)
Record deque := mkq { buf : list A; head : Z; tail : Z; count : Z }.

(* The zero value `deque{}` (segment.go: `s.deque = &deque{}`). *)
Definition empty_deque : deque := mkq [] 0 0 0.

(* segment/deque.go:45 *)
Definition minCapacity : Z := 64.

(* `x & (len(q.buf) - 1)`, Go's bitwise modulus on two's complement ints. *)
Definition bmod (x : Z) (q : deque) : Z := Z.land x (zlen (buf q) - 1).

(* segment/deque.go:266-273 *)
Definition prev (q : deque) (i : Z) : Z := bmod (i - 1) q.
Definition next (q : deque) (i : Z) : Z := bmod (i + 1) q.

(* segment/deque.go:48-50 *)
Definition Len (q : deque) : Z := count q.

(* Go `copy(dst[off:], src)`: copies min(len) elements, returns the new dst. *)
Definition copy_at (dst : list A) (off : nat) (src : list A) : list A :=
  firstn off dst ++ firstn (length dst - off) src ++ skipn (off + length src) dst.

(* segment/deque.go:299-311 *)
Definition resize (q : deque) : option deque :=
  let newBuf := repeat z (Z.to_nat (Z.shiftl (count q) 1)) in
  do newBuf' <-
    (if tail q >? head q then
       do s <- zslice (buf q) (head q) (tail q); Some (copy_at newBuf 0 s)
     else
       do s1 <- zslice (buf q) (head q) (zlen (buf q));
       let n := Nat.min (length newBuf) (length s1) in
       do s2 <- zslice (buf q) 0 (tail q);
       Some (copy_at (copy_at newBuf 0 s1) n s2));
  Some (mkq newBuf' 0 (count q) (count q)).

(* segment/deque.go:276-287 *)
Definition growIfFull (q : deque) : option deque :=
  if count q <? zlen (buf q) then Some q
  else if zlen (buf q) =? 0 then Some (mkq (repeat z (Z.to_nat minCapacity)) (head q) (tail q) (count q))
  else if count q =? zlen (buf q) then resize q
  else Some q.

(* segment/deque.go:290-294 *)
Definition shrinkIfExcess (q : deque) : option deque :=
  if (zlen (buf q) >? minCapacity) && (Z.shiftl (count q) 2 =? zlen (buf q)) then resize q else Some q.

(* segment/deque.go:55-63 *)
Definition PushBack (q : deque) (a : A) : option deque :=
  do q1 <- (if count q >=? zlen (buf q) then growIfFull q else Some q);
  do b <- zset (buf q1) (tail q1) a;
  Some (mkq b (head q1) (next q1 (tail q1)) (count q1 + 1)).

(* segment/deque.go:66-75 *)
Definition PushFront (q : deque) (a : A) : option deque :=
  do q1 <- growIfFull q;
  let h := prev q1 (head q1) in
  do b <- zset (buf q1) h a;
  Some (mkq b h (tail q1) (count q1 + 1)).

(* segment/deque.go:80-94 *)
Definition PopFront (q : deque) : option (A * deque) :=
  if count q <=? 0 then None
  else
    do a <- zget (buf q) (head q);
    do b <- zset (buf q) (head q) z;
    do q' <- shrinkIfExcess (mkq b (next q (head q)) (tail q) (count q - 1));
    Some (a, q').

(* segment/deque.go:99-116 *)
Definition PopBack (q : deque) : option (A * deque) :=
  if count q <=? 0 then None
  else
    let t := prev q (tail q) in
    do a <- zget (buf q) t;
    do b <- zset (buf q) t z;
    do q' <- shrinkIfExcess (mkq b (head q) t (count q - 1));
    Some (a, q').

(* segment/deque.go:121-129 *)
Definition Front (q : deque) : option A :=
  if count q <=? 0 then None else zget (buf q) (head q).

(* segment/deque.go:134-142 *)
Definition Back (q : deque) : option A :=
  if count q <=? 0 then None else zget (buf q) (prev q (tail q)).

(* segment/deque.go:147-149 (no emptiness check; the projection `.r` is left to the caller) *)
Definition LastAtom (q : deque) : option A := zget (buf q) (prev q (tail q)).

(* segment/deque.go:163-172 (At) and 177-183 (AtomAt, read access) *)
Definition At (q : deque) (i : Z) : option A :=
  if (i <? 0) || (i >=? count q) then None else zget (buf q) (bmod (head q + i) q).

(* segment/deque.go:187-195 (SetAt).  With AtomAt (177-183) the caller obtains a pointer into the
   buffer and updates it in place; this is [At] followed by [SetAt] at the same index. *)
Definition SetAt (q : deque) (i : Z) (a : A) : option deque :=
  if (i <? 0) || (i >=? count q) then None
  else do b <- zset (buf q) (bmod (head q + i) q) a; Some (mkq b (head q) (tail q) (count q)).

(* segment/deque.go:202-213.  The loop `for h := head; h != tail; h = (h+1) & modBits` runs at most
   len(buf) times; fuel = len(buf) (lemma [clear_loop_fuel]); None = out of fuel or index panic. *)
Fixpoint clear_loop (fuel : nat) (q : deque) (b : list A) (h : Z) : option (list A) :=
  if h =? tail q then Some b
  else match fuel with
       | O => None
       | S f => do b' <- zset b h z; clear_loop f q b' (bmod (h + 1) q)
       end.
Definition Clear (q : deque) : option deque :=
  do b <- clear_loop (length (buf q)) q (buf q) (head q);
  Some (mkq b 0 0 0).

(* segment/deque.go:239-248: one step of rotating back to front *)
Definition rot_back (q : deque) : option deque :=
  let h := bmod (head q - 1) q in
  let t := bmod (tail q - 1) q in
  do a <- zget (buf q) t;
  do b <- zset (buf q) h a;
  do b' <- zset b t z;
  Some (mkq b' h t (count q)).

(* segment/deque.go:253-262: one step of rotating front to back *)
Definition rot_front (q : deque) : option deque :=
  do a <- zget (buf q) (head q);
  do b <- zset (buf q) (tail q) a;
  do b' <- zset b (head q) z;
  Some (mkq b' (bmod (head q + 1) q) (bmod (tail q + 1) q) (count q)).

Fixpoint iter_opt (n : nat) (f : deque -> option deque) (q : deque) : option deque :=
  match n with O => Some q | S n' => do q' <- f q; iter_opt n' f q' end.

(* segment/deque.go:218-263.  `n %= q.count` is Go's truncated remainder. *)
Definition Rotate (q : deque) (n0 : Z) : option deque :=
  if count q <=? 1 then Some q
  else
    let n := Z.rem n0 (count q) in
    if n =? 0 then Some q
    else if head q =? tail q then
      Some (mkq (buf q) (bmod (head q + n) q) (bmod (tail q + n) q) (count q))
    else if n <? 0 then iter_opt (Z.to_nat (- n)) rot_back q
    else iter_opt (Z.to_nat n) rot_front q.

(* ---- a client: sequences of operations on a queue ---- *)

Inductive op :=
| OPushBack (a : A) | OPushFront (a : A) | OPopFront | OPopBack | OFront | OBack
| OAt (i : Z) | OSetAt (i : Z) (a : A) | ORotate (n : Z) | OClear | OLen.

(* Observable answer of an operation. *)
Inductive ans := RUnit | RElem (a : A) | RLen (n : Z).

Definition exec (o : op) (q : deque) : option (ans * deque) :=
  match o with
  | OPushBack a => do q' <- PushBack q a; Some (RUnit, q')
  | OPushFront a => do q' <- PushFront q a; Some (RUnit, q')
  | OPopFront => do (a, q') <- PopFront q; Some (RElem a, q')
  | OPopBack => do (a, q') <- PopBack q; Some (RElem a, q')
  | OFront => do a <- Front q; Some (RElem a, q)
  | OBack => do a <- Back q; Some (RElem a, q)
  | OAt i => do a <- At q i; Some (RElem a, q)
  | OSetAt i a => do q' <- SetAt q i a; Some (RUnit, q')
  | ORotate n => do q' <- Rotate q n; Some (RUnit, q')
  | OClear => do q' <- Clear q; Some (RUnit, q')
  | OLen => Some (RLen (Len q), q)
  end.

(* Answers of a program of operations, up to and including the first panic (None). *)
Fixpoint run (ops : list op) (q : deque) : list (option ans) :=
  match ops with
  | [] => []
  | o :: rest => match exec o q with
                 | Some (r, q') => Some r :: run rest q'
                 | None => [None]
                 end
  end.
End Deque.
