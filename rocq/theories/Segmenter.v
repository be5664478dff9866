(* Segmenter.v -- model of segment/segment.go: the segmenter's state machine.
   The functions are written against a record of queue operations; [deque_ops] instantiates it with
   the ring buffer of Deque.v (the real code), [list_ops] with plain lists (used in proofs). *)
From Coq Require Import List ZArith Lia Bool.
From Verif Require Import Base RuneWrite.
From Verif Require Deque.
Import ListNotations.
Open Scope Z_scope.

(* segment/deque.go:30-34 *)
Record atom := mkatom { ar : Z; ap0 : Z; ap1 : Z }.
(* doc.go: InfinitePenalty *)
Definition InfinitePenalty : Z := 10000.
(* segment/deque.go:37 *)
Definition eotAtom : atom := mkatom 0 InfinitePenalty InfinitePenalty.
Definition zeroAtom : atom := mkatom 0 0 0.
(* math.MaxInt64 *)
Definition MaxInt : Z := 9223372036854775807.

(* Errors a segmenter can hold: io.EOF, ErrBoundReached (segment.go:68), ErrNotInitialized
   (segment.go:103), or an error of the client's reader. *)
Inductive error := EOF | ErrBoundReached | ErrNotInitialized | ErrReader (code : Z).

(* Queue interface used by the segmenter (segment/deque.go). *)
Record qops (Q : Type) := mkqops {
  q_new : Q;                              (* &deque{} *)
  q_len : Q -> Z;
  q_push : Q -> atom -> option Q;
  q_pop : Q -> option (atom * Q);
  q_at : Q -> Z -> option atom;
  q_set : Q -> Z -> atom -> option Q;     (* write through the pointer returned by AtomAt *)
  q_last : Q -> option atom;              (* LastRune reads this atom's rune *)
  q_clear : Q -> option Q }.
Arguments mkqops {Q}. Arguments q_new {Q}. Arguments q_len {Q}. Arguments q_push {Q}.
Arguments q_pop {Q}. Arguments q_at {Q}. Arguments q_set {Q}. Arguments q_last {Q}. Arguments q_clear {Q}.

Definition deque_ops : qops (@Deque.deque atom) :=
  mkqops Deque.empty_deque Deque.Len (Deque.PushBack zeroAtom) (Deque.PopFront zeroAtom)
         Deque.At Deque.SetAt Deque.LastAtom (Deque.Clear zeroAtom).

Definition list_ops : qops (list atom) :=
  mkqops [] zlen (fun l a => Some (l ++ [a]))
         (fun l => match l with [] => None | a :: t => Some (a, t) end)
         zget zset (fun l => zget l (zlen l - 1)) (fun _ => Some []).

Section Segmenter.
Context {Q : Type} (O : qops Q).
(* A breaker's state; [bstep] is one round of CodePointClassFor, StartRulesFor, ProceedWithRune,
   giving the new state, LongestActiveMatch() and Penalties().  Breakers are distinct objects. *)
Context {B : Type} (bstep : B -> Z -> B * Z * list Z).

(* An io.RuneReader: the runes still to come with their sizes, and the error after them (returned
   with size 0). *)
Record reader := mkrd { items : list (Z * Z); fin : error }.

(* segment.go:78-92 (maxSegmentLen is never read) *)
Record state := mkS {
  dq : option Q; rdr : option reader; brks : list B; rbuf : runewrite;
  lastp : Z * Z; pos : Z; boz : bool * bool; lam : Z; bpos : Z;
  atEOF : bool; inUse : bool; err : option error }.

(* segment.go:114-121 (the default breaker is chosen by the caller of the model) *)
Definition NewSegmenter (bs : list B) : state :=
  mkS None None bs rw_zero (0, 0) 0 (false, false) 0 0 false false None.

(* segment.go:147-160 *)
Definition init (s : state) : res state :=
  match dq s with
  | None => Ok (mkS (Some (q_new O)) (rdr s) (brks s) (rbuf s) (lastp s) (pos s) (boz s) (lam s)
                    (-1) (atEOF s) (inUse s) (err s))
  | Some d =>
      let* d' := lift (q_clear O d) in
      Ok (mkS (Some d') (rdr s) (brks s) (rbuf s) (0, 0) 0 (boz s) 0 (-1) false false (err s))
  end.

(* segment.go:126-133 *)
Definition Init (rd : reader) (s : state) : res state :=
  init (mkS (dq s) (Some rd) (brks s) (Reset (rbuf s) None) (lastp s) (pos s) (boz s) (lam s)
            (bpos s) (atEOF s) (inUse s) (err s)).

(* segment.go:138-145, with runeread (651-672): every rune has size 1 *)
Definition InitFromSlice (b : list Z) (s : state) : res state :=
  init (mkS (dq s) (Some (mkrd (map (fun r => (r, 1)) b) EOF)) (brks s) (Reset (rbuf s) (Some b))
            (lastp s) (pos s) (boz s) (lam s) (bpos s) (atEOF s) (inUse s) (err s)).

(* segment.go:190-198: a buffer given by its contents and capacity *)
Definition RuneBuffer (buf : list Z) (cap max : Z) (s : state) : res state :=
  if inUse s then Panic
  else if zlen buf >? 0 then
    let w := rbuf s in
    Ok (mkS (dq s) (rdr s) (brks s)
            (mkrw max (backing w) (rstart w) (rend w) buf cap false)
            (lastp s) (pos s) (boz s) (lam s) (bpos s) (atEOF s) (inUse s) (err s))
  else Ok s.

(* segment.go:202-207; None = nil *)
Definition Err (s : state) : option error :=
  match err s with Some EOF => None | e => e end.

(* segment.go:219-222 *)
Definition BreakOnZero (b0 b1 : bool) (s : state) : state :=
  mkS (dq s) (rdr s) (brks s) (rbuf s) (lastp s) (pos s) (b0, b1) (lam s) (bpos s) (atEOF s) (inUse s) (err s).

(* segment.go:225-233 *)
Definition isPossibleBreak (p : Z) (breakOnZero : bool) : bool :=
  if p >=? InfinitePenalty then false
  else if negb breakOnZero && (p =? 0) then false
  else true.

(* segment.go:304-308 *)
Definition setErr (e : error) (s : state) : state :=
  mkS (dq s) (rdr s) (brks s) (rbuf s) (lastp s) (pos s) (boz s) (lam s) (bpos s) (atEOF s) (inUse s)
      (match err s with None | Some EOF => Some e | Some e' => Some e' end).

Definition set_rbuf (w : runewrite) (s : state) : state :=
  mkS (dq s) (rdr s) (brks s) w (lastp s) (pos s) (boz s) (lam s) (bpos s) (atEOF s) (inUse s) (err s).

(* the condition in segment.go:513: is this atom a break? *)
Definition breakable (boz : bool * bool) (multi : bool) (a : atom) : bool :=
  isPossibleBreak (ap0 a) (fst boz) || (multi && isPossibleBreak (ap1 a) (snd boz)).

(* segment.go:510-519: the scan; returns the index of the first break, or None, and the final i.
   n bounds the iterations by `to`. *)
Fixpoint find_loop (n : nat) (test : atom -> bool) (d : Q) (i to_ boundDist : Z) : res (option Z * Z) :=
  if (i <? to_) && (i <=? boundDist) then
    match n with
    | 0%nat => NoFuel
    | S n' => let* a := lift (q_at O d i) in
              if test a then Ok (Some i, i) else find_loop n' test d (i + 1) to_ boundDist
    end
  else Ok (None, i).

(* segment.go:503-529 *)
Definition findBreakOpportunity (s : state) (d : Q) (to_ boundDist : Z) : res Z :=
  if (to_ - 1 <? 0) || (boundDist <? 0) then Ok (-1)
  else
    let* (found, i) := find_loop (Z.to_nat to_) (breakable (boz s) (zlen (brks s) >? 1)) d 0 to_ boundDist in
    match found with
    | Some b => Ok b
    | None => if i =? boundDist + 1 then Ok boundDist else Ok (-1)
    end.

(* segment.go:551-556: add p to one of the two penalties of atom `at` *)
Definition add_at (d : Q) (sel : bool) (at_ p : Z) : res Q :=
  let* a := lift (q_at O d at_) in
  lift (q_set O d at_ (if sel then mkatom (ar a) (ap0 a) (ap1 a + p) else mkatom (ar a) (ap0 a + p) (ap1 a))).

(* segment.go:550-565: distribute from the back of the queue *)
Fixpoint insert_loop (d : Q) (sel : bool) (at_ : Z) (ps : list Z) : res Q :=
  match ps with
  | [] => Ok d
  | p :: r => let* d' := add_at d sel at_ p in insert_loop d' sel (at_ - 1) r
  end.

(* segment.go:543-566; sel = false: primary *)
Definition insertPenalties (d : Q) (sel : bool) (ps : list Z) : res Q :=
  let l := q_len O d in
  let ps := if zlen ps >? l then firstn (Z.to_nat l) ps else ps in
  insert_loop d sel (l - 1) ps.

(* segment.go:455-463: all breakers see the rune; inxForBreaker (533-538) is 0 for the first *)
Fixpoint feed (sel : bool) (bs : list B) (r lm : Z) (d : Q) : res (list B * Z * Q) :=
  match bs with
  | [] => Ok ([], lm, d)
  | b :: rest =>
      let '(b', l, ps) := bstep b r in
      let lm' := if l >? lm then l else lm in
      let* d' := insertPenalties d sel ps in
      let* (bs', lm'', d'') := feed true rest r lm' d' in
      Ok (b' :: bs', lm'', d'')
  end.

(* segment.go:392-412.  Returns the error (None = nil). *)
Definition readRune (s : state) (d : Q) : res (state * Q * option error) :=
  if atEOF s then Ok (s, d, Some EOF)
  else
    match rdr s with
    | None => Panic
    | Some rd =>
        match items rd with
        | (r, sz) :: rest =>
            let* d' := lift (q_push O d (mkatom r 0 0)) in
            Ok (mkS (dq s) (Some (mkrd rest (fin rd))) (brks s) (rbuf s) (lastp s) (pos s + sz) (boz s)
                    (lam s) (bpos s) (atEOF s) (inUse s) (err s), d', None)
        | [] =>
            match fin rd with
            | EOF =>
                let* d' := lift (q_push O d eotAtom) in
                Ok (mkS (dq s) (rdr s) (brks s) (rbuf s) (lastp s) (pos s) (boz s)
                        (lam s) (bpos s) true (inUse s) (err s), d', None)
            | e =>
                Ok (mkS (dq s) (rdr s) (brks s) (rbuf s) (lastp s) (pos s) (boz s)
                        (lam s) (bpos s) true (inUse s) (err s), d, Some e)
            end
        end
    end.

Definition bound_dist (bound p l : Z) : Z := if bound <? MaxInt then bound - p + l else bound.

(* segment.go:424-485.  skipRead (436-445) can only be set when positionOfBreakOpportunity >= 0,
   which the loop condition excludes, so it is always false. *)
Fixpoint readEnough (fuel : nat) (s : state) (d : Q) (bound : Z) : res (state * Q * option error) :=
  if bpos s <? 0 then
    match fuel with
    | 0%nat => NoFuel
    | S f =>
        if pos s - lam s >? bound then Ok (s, d, Some ErrBoundReached)
        else
          let* (s1, d1, e) := readRune s d in
          match e with
          | Some e => Ok (s1, d1, Some e)
          | None =>
              let qlen := q_len O d1 in
              let* a := lift (q_last O d1) in
              let* (bs, lm, d2) := feed false (brks s1) (ar a) 0 d1 in
              let* bp := findBreakOpportunity s1 d2 (qlen - lm) (bound_dist bound (pos s1) qlen) in
              readEnough f (mkS (dq s1) (rdr s1) bs (rbuf s1) (lastp s1) (pos s1) (boz s1)
                                lm bp (atEOF s1) (inUse s1) (err s1)) d2 bound
          end
    end
  else Ok (s, d, None).

(* segment.go:597-602: pop n atoms and write them; returns the penalties of the last one *)
Fixpoint pop_loop (n : nat) (d : Q) (w : runewrite) (lp : Z * Z) : res (Q * runewrite * (Z * Z)) :=
  match n with
  | 0%nat => Ok (d, w, lp)
  | S n' => let* (a, d') := lift (q_pop O d) in
            pop_loop n' d' (fst (WriteRune w (ar a))) (ap0 a, ap1 a)
  end.

(* segment.go:579-614 *)
Definition getFrontSegment (s : state) (d : Q) (bound : Z) : res (state * Q) :=
  let w := SetMark (rbuf s) in
  let len := q_len O d in
  let l := Z.min (len - 1) (bpos s) in
  if l <? 0 then Panic
  else
    let l := if (pos s - len) + l >=? bound then bound - pos s + len else l in
    if l <? 0 then
      Ok (mkS (dq s) (rdr s) (brks s) w (0, 0) (pos s) (boz s) (lam s) (bpos s) (atEOF s) (inUse s) (err s), d)
    else
      let* (d', w', lp) := pop_loop (Z.to_nat (l + 1)) d w (0, 0) in
      let* bp := findBreakOpportunity s d' (q_len O d' - lam s) (bound_dist bound (pos s) (q_len O d')) in
      Ok (mkS (dq s) (rdr s) (brks s) w' lp (pos s) (boz s) (lam s) bp (atEOF s) (inUse s) (err s), d').

Definition set_dq (d : Q) (s : state) : state :=
  mkS (Some d) (rdr s) (brks s) (rbuf s) (lastp s) (pos s) (boz s) (lam s) (bpos s) (atEOF s) (inUse s) (err s).
Definition set_inUse (s : state) : state :=
  mkS (dq s) (rdr s) (brks s) (rbuf s) (lastp s) (pos s) (boz s) (lam s) (bpos s) (atEOF s) true (err s).

(* Iterations of the read loop: every one consumes a rune, the end of text, or ends the loop. *)
Definition read_fuel (s : state) : nat :=
  match rdr s with Some rd => length (items rd) + 3 | None => 1 end.

(* segment.go:352-380.  A nil queue or reader is not noticed before it is used. *)
Definition next (bound : Z) (s : state) : res (bool * state) :=
  let s := match rdr s with None => setErr ErrNotInitialized s | Some _ => s end in
  let s := set_inUse s in
  if negb (atEOF s) then
    if (bpos s <? 0) then
      match dq s with
      | None => if pos s - lam s >? bound
                then Ok (false, set_rbuf (Reset (rbuf s) None) (setErr ErrBoundReached s))
                else Panic
      | Some d =>
          let* (s1, d1, e) := readEnough (read_fuel s) s d bound in
          let s1 := set_dq d1 s1 in
          match e with
          | None | Some EOF =>
              if pos s1 - q_len O d1 >? bound then Ok (false, s1)
              else if bpos s1 <? 0 then Ok (false, set_rbuf (Reset (rbuf s1) None) s1)
              else let* (s2, d2) := getFrontSegment s1 d1 bound in Ok (true, set_dq d2 s2)
          | Some e => Ok (false, set_rbuf (Reset (rbuf s1) None) (setErr e s1))
          end
      end
    else
      match dq s with
      | None => Panic
      | Some d => if pos s - q_len O d >? bound then Ok (false, s)
                  else let* (s2, d2) := getFrontSegment s d bound in Ok (true, set_dq d2 s2)
      end
  else
    if bpos s <? 0 then Ok (false, set_rbuf (Reset (rbuf s) None) s)
    else match dq s with
         | None => Panic
         | Some d => let* (s2, d2) := getFrontSegment s d bound in Ok (true, set_dq d2 s2)
         end.

(* segment.go:279-281 and 299-301 *)
Definition Next (s : state) : res (bool * state) := next MaxInt s.
Definition BoundedNext (bound : Z) (s : state) : res (bool * state) := next (bound - 1) s.

(* segment.go:253-262: Runes, Text (Bytes: 239-245, is the UTF-8 encoding of the same) *)
Definition Text (s : state) : res (list Z) := lift (Runes (rbuf s)).
(* segment.go:268-270 *)
Definition Penalties (s : state) : Z * Z := lastp s.

(* ---- clients ---- *)
Inductive call := CNext | CBounded (b : Z).
Definition bound_of (c : call) : Z := match c with CNext => MaxInt | CBounded b => b - 1 end.

(* One call, then read Text() and Penalties() if it returned true. *)
Definition exec (c : call) (s : state) : res (option (list Z * (Z * Z)) * state) :=
  let* (b, s') := next (bound_of c) s in
  if b then let* t := Text s' in Ok (Some (t, Penalties s'), s') else Ok (None, s').

Fixpoint run (cs : list call) (s : state) : res (list (option (list Z * (Z * Z))) * state) :=
  match cs with
  | [] => Ok ([], s)
  | c :: r => let* (o, s1) := exec c s in let* (os, s2) := run r s1 in Ok (o :: os, s2)
  end.

(* The usual client loop `for seg.Next() { use(seg.Text()) }`, at most n rounds; the flag says
   whether Next returned false within them. *)
Fixpoint loop (n : nat) (s : state) : res (list (list Z * (Z * Z)) * bool * state) :=
  match n with
  | 0%nat => Ok ([], false, s)
  | S n' => let* (o, s1) := exec CNext s in
            match o with
            | None => Ok ([], true, s1)
            | Some x => let* (xs, f, s2) := loop n' s1 in Ok (x :: xs, f, s2)
            end
  end.
End Segmenter.
Arguments reader : clear implicits.
Arguments state : clear implicits.
