(* Reorder.v -- resolved levels: splitting, reordering, runs and segment iterators.
   Models bidi/reordering.go.  Directions: false is LeftToRight, true is RightToLeft (doc.go:82-90).
   Go slices of scraps are lists held by value; reorder and split work in place, so the caller's
   copy is to be considered consumed.  Panics are None. *)
From Coq Require Import List ZArith Lia Bool.
From Verif Require Import Base Scrap.
Import ListNotations.
Open Scope Z_scope.

Definition L2R := false.
Definition R2L := true.

(* Apply a partial function to all elements, in order. *)
Definition mapM {A B} (f : A -> option B) : list A -> option (list B) :=
  fix go l := match l with
              | [] => Some []
              | x :: t => do y <- f x; do r <- go t; Some (y :: r)
              end.

(* ---- splitting ---- *)

(* irsContains: reordering.go:113-115; panics for an empty slice. *)
Definition irsContains (scraps : list scrap) (pos : Z) : option bool :=
  do f <- zget scraps 0;
  do e <- zget scraps (zlen scraps - 1);
  Some ((sl f <=? pos) && (pos <? sr e)).

(* The loop over the children of the scrap to cut: reordering.go:75-88.  The result is the new list
   of children and the children of the rest; [sp] is the function split. *)
Definition split_kids (sp : list scrap -> Z -> option (list scrap * list scrap)) (at_ : Z) :=
  fix go (done ks : list (list scrap)) : option (list (list scrap) * list (list scrap)) :=
    match ks with
    | [] => Some (done, [])
    | ch :: t =>
        do b <- irsContains ch at_;
        if b then do (prefix, suffix) <- sp ch at_; Some (done ++ [prefix], suffix :: t)
        else go (done ++ [ch]) t
    end.

(* split: reordering.go:62-111; the recursion is bounded by the nesting depth of the scraps, [n]
   bounds that (running out of it is a panic, it is shown not to happen for n > depth).
   The loop over the scraps is [split_loop]: [first] is scraps[0], [done] are the scraps before s. *)
Fixpoint split (n : nat) (scraps : list scrap) (at_ : Z) : option (list scrap * list scrap) :=
  match n with
  | O => None
  | S n =>
      do b <- irsContains scraps at_;
      if negb b then Some (scraps, [])
      else
        do first <- zget scraps 0;
        (fix loop (done todo : list scrap) : option (list scrap * list scrap) :=
           match todo with
           | [] => None (* panic: did not find cut line *)
           | s :: t =>
               if negb (scontains s at_) then loop (done ++ [s]) t
               else do (ks, restch) <- split_kids (split n) at_ [] (kids s);
                    let s' := mks (clz s) (sl s) at_ (sctx s) ks in
                    let rest := mks (clz s) at_ (sr s) dc0 restch in
                    Some (done ++ [s'], (if isisolate first then [first] else []) ++ rest :: t)
           end) [] scraps
  end.

(* validcharpos: reordering.go:548-553. *)
Definition validcharpos (p diff : Z) : Z := if diff <? p then p - diff else 0.

(* shiftzero: reordering.go:117-126. *)
Definition shiftzero (scraps : list scrap) (offset : Z) : list scrap :=
  map (fun s => with_lr s (validcharpos (sl s) offset) (validcharpos (sr s) offset)) scraps.

(* ResolvedLevels: reordering.go:28-31. *)
Record levels := mklv { lv_emb : bool; lv_scraps : list scrap }.

(* rl.Split: reordering.go:52-60; both parts get the zero value LeftToRight as their embedding
   direction. *)
Definition Split (n : nat) (rl : levels) (at_ : Z) (shift0 : bool) : option (levels * levels) :=
  do (p, s) <- split n (lv_scraps rl) (u32 at_);
  Some (mklv L2R p, mklv L2R (if shift0 then shiftzero s (u32 at_) else s)).

(* ---- reordering ---- *)

(* level: reordering.go:255-263. *)
Definition level (s : scrap) (embedded : bool) : Z :=
  if (clz s =? cEN) || (clz s =? cAN) then 2
  else if ((clz s =? cL) && embedded) || ((clz s =? cR) && negb embedded) then 1 else 0.

(* reverse: reordering.go:266-275, for 0 <= i <= j <= len: reverses the segment [i,j). *)
Definition reverse_seg {A} (l : list A) (i j : nat) : list A :=
  firstn i l ++ rev (firstn (j - i) (skipn i l)) ++ skipn j l.

(* reverseWithoutIsolates(ch, 0, len(ch)): reordering.go:277-293. *)
Definition reverseWithoutIsolates (l : list scrap) : list scrap :=
  match l with
  | [] => l
  | f :: _ =>
      let i := if isisolate f then 1%nat else 0%nat in
      let j := if isisolate (last l f) then (length l - 1)%nat else length l in
      if (i <=? j)%nat then reverse_seg l i j else reverse_seg l j i
  end.

(* findEmbeddingDir: reordering.go:295-312. *)
Definition findEmbeddingDir (l : list scrap) (inherited : bool) : option bool :=
  match l with
  | [] => Some inherited
  | f :: _ =>
      if clz f =? cLRI then Some L2R
      else if clz f =? cRLI then Some R2L
      else if (clz f =? cPDI) || (clz f =? cFSI) then None
      else Some inherited
  end.

(* The automaton of reorder, without the treatment of children: reordering.go:212-251.
   [done] are the scraps before pos, already ordered; [start] is startRunR; [st] is the state 0 or 1.
   The loop ends at the last scrap or at a scrap of class cNULL. *)
Fixpoint order_loop (emb : bool) (done : list scrap) (start : nat) (st : bool) (todo : list scrap) : list scrap :=
  match todo with
  | [] => done
  | s :: t =>
      let pos := length done in
      let '(done', start', st') :=
        if negb st
        then if 0 <? level s emb then (done ++ [s], pos, true) else (done ++ [s], start, false)
        else if level s emb =? 0 then (reverse_seg done start pos ++ [s], 0%nat, false)
        else if (length t =? 0)%nat then (reverse_seg (done ++ [s]) start (pos + 1), start, true)
        else (done ++ [s], start, true) in
      if clz s =? cNULL then done' ++ t else order_loop emb done' start' st' t
  end.

(* The scraps the automaton visits: up to the first one of class cNULL. *)
Definition visit (f : scrap -> option scrap) : list scrap -> option (list scrap) :=
  fix go l := match l with
              | [] => Some []
              | s :: t => do s' <- f s;
                          if clz s =? cNULL then Some (s' :: t) else do r <- go t; Some (s' :: r)
              end.

(* The treatment of the children of a scrap in reorder: reordering.go:216-230. *)
Fixpoint reorder_kids (emb : bool) (s : scrap) {struct s} : option scrap :=
  match s with
  | mks c l r d ks =>
      do ks' <- mapM (fun ch =>
                  do dir <- findEmbeddingDir ch emb;
                  do ch1 <- visit (reorder_kids dir) ch;
                  let ch2 := order_loop dir [] 0 false ch1 in
                  Some (if Bool.eqb dir emb then ch2 else reverseWithoutIsolates ch2)) ks;
      Some (mks c l r d ks')
  end.

(* reorder(scraps, 0, len(scraps), embedded): reordering.go:204-253. *)
Definition reorder (emb : bool) (scraps : list scrap) : option (list scrap) :=
  do v <- visit (reorder_kids emb) scraps;
  Some (order_loop emb [] 0 false v).

(* ---- runs ---- *)

(* Run: reordering.go:157-162. *)
Record Run := mkrun { r_dir : bool; r_len : Z; r_scraps : list scrap }.

(* directionFromBidiClass: reordering.go:421-433. *)
Definition dirFromClass (s : scrap) (emb : bool) : bool :=
  if (clz s =? cL) || (clz s =? cLRI) then L2R
  else if (clz s =? cR) || (clz s =? cRLI) then R2L
  else if (clz s =? cEN) || (clz s =? cAN) then L2R
  else emb.

(* run: reordering.go:164-170. *)
Definition run (s : scrap) (emb : bool) : Run := mkrun (dirFromClass s emb) (slen s) [s].

(* r.concat for a run of the same direction: reordering.go:181-198; panics for a run without scraps. *)
Definition concat (r other : Run) : option Run :=
  if r_len other =? 0 then Some r
  else if negb (Bool.eqb (r_dir other) (r_dir r)) then None
  else
    do lscr <- zget (r_scraps r) (zlen (r_scraps r) - 1);
    do ofst <- zget (r_scraps other) 0;
    let len := r_len r + r_len other in
    if sr lscr =? sl ofst
    then Some (mkrun (r_dir r) len (removelast (r_scraps r) ++ with_lr lscr (sl lscr) (sr ofst) :: tl (r_scraps other)))
    else Some (mkrun (r_dir r) len (r_scraps r ++ r_scraps other)).

(* The value of the variable `last` of flatten: it is always the last run, or the zero value. *)
Definition run0 : Run := mkrun L2R 0 [].
Definition last_run (runs : list Run) : Run := last runs run0.

(* extendRuns: reordering.go:350-380 (with runappend, :414-419). *)
Definition extendRuns (s : scrap) (runs : list Run) (emb : bool) : option (list Run) :=
  if slen s =? 0 then Some runs
  else
    let lr := last_run runs in
    if r_len lr =? 0 then Some (runs ++ [run s emb])
    else if Bool.eqb (r_dir lr) (dirFromClass s emb)
    then do r <- concat lr (run s emb); Some (removelast runs ++ [r])
    else Some (runs ++ [run s emb]).

(* The effect of the discarded `last.concat(childRuns[0])` on the last run: the scrap array is
   shared, so that a last scrap adjacent to the first one of the child is extended; the length of
   the run is not. *)
Definition concat_shared (r other : Run) : option Run :=
  if r_len other =? 0 then Some r
  else
    do lscr <- zget (r_scraps r) (zlen (r_scraps r) - 1);
    do ofst <- zget (r_scraps other) 0;
    if sr lscr =? sl ofst
    then Some (mkrun (r_dir r) (r_len r) (removelast (r_scraps r) ++ [with_lr lscr (sl lscr) (sr ofst)]))
    else Some r.

(* appendRuns: reordering.go:399-412. *)
Definition appendRuns (child runs : list Run) : option (list Run) :=
  match child with
  | [] => Some runs
  | c :: t =>
      if Bool.eqb (r_dir c) (r_dir (last_run runs))
      then do r <- concat_shared (last_run runs) c; Some (removelast runs ++ r :: t)
      else Some (runs ++ child)
  end.

(* cutScrapAt: reordering.go:382-397, for a child f...e. *)
Definition cutScrapAt (s f e : scrap) : scrap * scrap :=
  (mks (clz s) (sl s) (sl f) dc0 [], mks (clz s) (sr e) (sr s) dc0 []).

(* flatten: reordering.go:314-348.  [flat_scrap] is the body of the loop for one scrap, including
   the loop over the children. *)
Fixpoint flat_scrap (emb : bool) (s : scrap) (runs : list Run) {struct s} : option (list Run) :=
  match s with
  | mks c l r d ks =>
      (fix kidloop (s : scrap) (ks : list (list scrap)) (runs : list Run) {struct ks} : option (list Run) :=
         match ks with
         | [] => extendRuns s runs emb
         | ch :: t =>
             match ch with
             | [] => kidloop s t runs
             | f :: _ =>
                 let (cut, rest) := cutScrapAt s f (last ch f) in
                 do runs <- extendRuns cut runs emb;
                 let emb' := if isisolate f then dirFromClass f (r_dir (last_run runs))
                             else r_dir (last_run runs) in
                 do chruns <-
                   (fix loop (l : list scrap) (rs : list Run) {struct l} : option (list Run) :=
                      match l with
                      | [] => Some rs
                      | x :: l => do rs <- flat_scrap emb' x rs; loop l rs
                      end) ch [];
                 do runs <- appendRuns chruns runs;
                 kidloop rest t runs
             end
         end) (mks c l r d ks) ks runs
  end.

Definition flatten (scraps : list scrap) (emb : bool) : option (list Run) :=
  let emb := match scraps with f :: _ => if isisolate f then dirFromClass f emb else emb | [] => emb end in
  (fix loop (l : list scrap) (rs : list Run) {struct l} : option (list Run) :=
     match l with
     | [] => Some rs
     | x :: l => do rs <- flat_scrap emb x rs; loop l rs
     end) scraps [].

(* rl.Reorder: reordering.go:442-450. *)
Definition Reorder (rl : levels) : option (list Run) :=
  match lv_scraps rl with
  | [] => Some []
  | scraps => do rscr <- reorder (lv_emb rl) scraps; flatten rscr (lv_emb rl)
  end.

(* rl.DirectionAt: reordering.go:453-460. *)
Definition DirectionAt (scraps : list scrap) (pos : Z) : bool :=
  match find (fun s => (sl s <=? pos) && (pos <? sr s)) scraps with
  | Some s => dirFromClass s L2R
  | None => L2R
  end.

(* ---- segment iterators ----
   An iterator refers to the array of scraps of its run, which all iterators of the run share. *)

(* SegmentIterator: reordering.go:467-474, without the reference and the flag reverse. *)
Record iter := mkit { it_dir : bool; it_int : Z; it_eof : bool }.

(* The state of a run with the iterators created for it so far. *)
Record irun := mkir { ir_dir : bool; ir_scraps : list scrap; ir_its : list iter }.

(* The calls a client can make: create an iterator, Next and Segment of iterator i. *)
Inductive icall := INew (reverse : bool) | INext (i : nat) | ISeg (i : nat) | IEof (i : nat).
Inductive ians := ANone | ABool (b : bool) | ASeg (d : bool) (l r : Z).

(* r.SegmentIterator: reordering.go:497-512; it.Next: :521-530; it.Segment: :538-544;
   it.EOF: :533-535.  A call on an iterator that does not exist is a panic (None). *)
Definition istep (st : irun) (c : icall) : option (irun * ians) :=
  match c with
  | INew rv =>
      let sc := if rv then rev (ir_scraps st) else ir_scraps st in
      Some (mkir (ir_dir st) sc (ir_its st ++ [mkit (ir_dir st) 0 false]), ANone)
  | INext i =>
      do it <- nth_error (ir_its st) i;
      if zlen (ir_scraps st) <=? it_int it then Some (st, ABool false)
      else let n := it_int it + 1 in
           let it' := mkit (it_dir it) n (if n =? zlen (ir_scraps st) then true else it_eof it) in
           Some (mkir (ir_dir st) (ir_scraps st) (nset (ir_its st) i it'), ABool true)
  | ISeg i =>
      do it <- nth_error (ir_its st) i;
      if it_int it =? 0 then Some (st, ASeg (it_dir it) 0 0)
      else do s <- zget (ir_scraps st) (it_int it - 1); Some (st, ASeg (it_dir it) (sl s) (sr s))
  | IEof i => do it <- nth_error (ir_its st) i; Some (st, ABool (it_eof it))
  end.

(* A history of calls with its answers. *)
Fixpoint iruns (st : irun) (cs : list icall) : option (irun * list ians) :=
  match cs with
  | [] => Some (st, [])
  | c :: t => do (st, a) <- istep st c; do (st, r) <- iruns st t; Some (st, a :: r)
  end.
