(* Scanner.v -- the bidi scanner: from runes to the scraps it sends to the parser.
   Models bidi/scanner.go.  The channel is not modelled here: the result is the list of all scraps
   that are sent, in order (see Pipe.v for the two goroutines).  Panics are None. *)
From Coq Require Import List ZArith Lia Bool.
From Verif Require Import Base Scrap Brackets.
Import ListNotations.
Open Scope Z_scope.

(* Scanner options: scanner.go:447-452, as flags; optionRecognizeLegacy has no effect. *)
Record mode := mkmode { m_r2l : bool; m_test : bool; m_ignore : bool }.

(* A bracketPairHandler with its chaining: brackets.go:67-74; pointers are positions in the list of
   all handlers. *)
Record hrec := mkhr { h_bd : handler; h_first : Z; h_last : Z; h_next : option nat }.

(* bidiScanner: scanner.go:27-37.  The input is the list of runes with their lengths in bytes that
   the rune scanner will still deliver.  The map IRS is an association list, newest first. *)
Record scst := mksc {
  s_rest : list (Z * Z); s_mpos : Z; s_mk : Z;
  s_hs : list hrec; s_irs : list (Z * nat); s_stack : list Z; s_bd : nat; s_ctx : list dirctx }.

(* newScanner: scanner.go:45-62. *)
Definition newScanner (input : list (Z * Z)) : scst :=
  mksc input 0 (-1) [mkhr new_handler 0 0 None] [(0, 0%nat)] [0] 0 [].

(* The constants for markup: scanner.go:396-402. *)
Definition MarkupLRI : Z := cLRI * 256.
Definition MarkupRLI : Z := cRLI * 256.
Definition MarkupPDI : Z := cPDI.

(* markupToBidi: scanner.go:64-74. *)
Definition markupToBidi (m : Z) : Z :=
  if (m =? MarkupLRI) || (m =? MarkupPDI + MarkupLRI) then cLRI
  else if (m =? MarkupRLI) || (m =? MarkupPDI + MarkupRLI) then cRLI
  else if m =? MarkupPDI then cPDI else 0.

Section Scan.
Context (md : mode).
(* The bidi properties of a rune, from package x/text/unicode/bidi: its class, and 1 for an opening,
   2 for a closing bracket. *)
Context (props : Z -> Z * Z).
(* unicode.IsUpper *)
Context (upper : Z -> bool).
(* The client's markup function, possibly nil. *)
Context (markup : option (Z -> Z)).

(* The part of nextRune that reads from the input: scanner.go:99-121.  None at the end.  The
   lengths of the rune scanner and of LookupRune agree, as both come from decoding the rune. *)
Definition read_rune (st : scst) : option (Z * Z * Z) * scst :=
  match s_rest st with
  | [] => (None, st)
  | (r, len) :: rest =>
      let st := mksc rest (s_mpos st) (s_mk st) (s_hs st) (s_irs st) (s_stack st) (s_bd st) (s_ctx st) in
      let (c, b) := props r in
      if (c =? cB) && negb (m_ignore md) then (None, st)
      else
        let c := if c =? cB then cWS else c in
        let c := if b =? 1 then cBRACKO else if b =? 2 then cBRACKC else c in
        (Some (r, len, c), st)
  end.

(* nextRune: scanner.go:79-122. *)
Definition nextRune (st : scst) (pos : Z) : option (Z * Z * Z) * scst :=
  let set m k := mksc (s_rest st) m k (s_hs st) (s_irs st) (s_stack st) (s_bd st) (s_ctx st) in
  match markup with
  | None => read_rune st
  | Some f =>
      if 0 <? s_mk st then (Some (0, 0, markupToBidi (s_mk st)), set pos 0)
      else if (s_mpos st <? pos) && (0 <? f pos) then
        if 0 <? Z.land (f pos) MarkupPDI then (Some (0, 0, cPDI), set pos (f pos - MarkupPDI))
        else (Some (0, 0, markupToBidi (f pos)), set pos 0)
      else read_rune st
  end.

(* The overriding of classes in test mode: scanner.go:162-168, setTestingIRSDelimiter :374-384. *)
Definition test_class (r c : Z) : Z :=
  if m_test md then
    if upper r then cR
    else if r =? 62 then cLRI else if r =? 60 then cRLI else if r =? 61 then cPDI else c
  else c.

(* applyRulesW1to3: scanner.go:237-264. *)
Definition applyRulesW1to3 (c : Z) (cur : scrap) : Z :=
  if c =? cNSM then
    if clz cur =? cLRI then cL else if clz cur =? cRLI then cR else if clz cur =? cPDI then cNI else clz cur
  else if (c =? cEN) && (strong (sctx cur) =? cAL) then cAN
  else if c =? cAL then cR
  else if (c =? cS) || (c =? cWS) || (c =? cON) then cNI
  else c.

(* inheritStrongTypes: scanner.go:289-315. *)
Definition inheritStrongTypes (dest src : scrap) (lastAL : Z) : scrap :=
  let d := sctx src in
  with_ctx dest
    (if clz dest =? cLRI then mkdc cL (strong d) (odist d) (mpos d)
     else if clz dest =? cRLI then mkdc cR (strong d) (odist d) (mpos d)
     else
       let d := if 0 <=? lastAL then set_strong d cAL (u32 lastAL) else d in
       if (clz src =? cL) || (clz src =? cLRI) then set_strong d cL (sl src)
       else if (clz src =? cR) || (clz src =? cRLI) then set_strong d cR (sl src)
       else if clz src =? cAL then set_strong d cAL (sl src) else d).

(* Look up the map IRS. *)
Fixpoint irs_find (m : list (Z * nat)) (k : Z) : option nat :=
  match m with
  | [] => None
  | (x, v) :: t => if x =? k then Some v else irs_find t k
  end.

(* Follow the field next to the last handler: scanner.go:344-347; [n] bounds the number of handlers. *)
Fixpoint last_irs (hs : list hrec) (n : nat) (i : nat) : option nat :=
  match n with
  | O => None
  | S n => do h <- nth_error hs i;
           match h_next h with None => Some i | Some j => last_irs hs n j end
  end.

(* handleIsolatingRunSwitch: scanner.go:327-353. *)
Definition handleIsolatingRunSwitch (st : scst) (s : scrap) : option scst :=
  if clz s =? cPDI then
    match s_stack st with
    | [] => Some st
    | _ =>
        do h <- nth_error (s_hs st) (s_bd st);
        let hs := nset (s_hs st) (s_bd st) (mkhr (h_bd h) (h_first h) (sl s) (h_next h)) in
        let stk := removelast (s_stack st) in
        do bd <- match stk with
                 | [] => Some (s_bd st)
                 | t :: _ => irs_find (s_irs st) (last stk t)
                 end;
        Some (mksc (s_rest st) (s_mpos st) (s_mk st) hs (s_irs st) stk bd (s_ctx st))
    end
  else
    do i0 <- irs_find (s_irs st) 0;
    do i <- last_irs (s_hs st) (length (s_hs st)) i0;
    do h <- nth_error (s_hs st) i;
    let new := length (s_hs st) in
    let hs := nset (s_hs st) i (mkhr (h_bd h) (h_first h) (h_last h) (Some new)) ++ [mkhr new_handler (sl s) 0 None] in
    Some (mksc (s_rest st) (s_mpos st) (s_mk st) hs ((sl s, new) :: s_irs st) (s_stack st ++ [sl s]) new (s_ctx st)).

(* prepareRuleBD16: scanner.go:266-285; the scrap is returned unchanged. *)
Definition prepareRuleBD16 (st : scst) (r : Z) (s : scrap) : option scst :=
  if negb (isbracket s) then Some st
  else
    do h <- nth_error (s_hs st) (s_bd st);
    Some (mksc (s_rest st) (s_mpos st) (s_mk st)
            (nset (s_hs st) (s_bd st) (mkhr (bd16_step (h_bd h) (r, s)) (h_first h) (h_last h) (h_next h)))
            (s_irs st) (s_stack st) (s_bd st) (s_ctx st)).

(* findBD16ForPos: scanner.go:355-370; the answer is the position of the handler. *)
Fixpoint bd16_walk (hs : list hrec) (n : nat) (pos : Z) (i best : nat) : option nat :=
  match n with
  | O => None
  | S n =>
      do h <- nth_error hs i;
      match h_next h with
      | None => Some best
      | Some j =>
          bd16_walk hs n pos j
            (if (h_first h <=? pos) && ((h_last h =? 0) || (pos <=? h_last h)) then i else best)
      end
  end.
Definition findBD16ForPos (st : scst) (pos : Z) : option nat :=
  do i <- irs_find (s_irs st) 0; bd16_walk (s_hs st) (length (s_hs st)) pos i i.

(* initialOuterScrap: scanner.go:215-232. *)
Definition initialOuterScrap (setIRS : bool) : scrap :=
  if m_r2l md
  then mks (if setIRS then cRLI else cNULL) 0 0 (set_embedding dc0 1) []
  else mks (if setIRS then cLRI else cNULL) 0 0 (set_embedding dc0 0) [].

(* The stopper: scanner.go:208-213. *)
Definition stopper : scrap := mks cNULL 0 0 dc0 [].

(* The condition for the current scrap to be finished: scanner.go:176. *)
Definition finished (cur la : scrap) : bool :=
  (clz cur =? cNULL) || negb (clz cur =? clz la) || isbracket cur || isisolate cur.

(* Set the context stack. *)
Definition with_ctxs (st : scst) (c : list dirctx) : scst :=
  mksc (s_rest st) (s_mpos st) (s_mk st) (s_hs st) (s_irs st) (s_stack st) (s_bd st) c.

(* One round of the loop of Scan: scanner.go:150-199.  The result is the list of scraps sent and
   either the end or the state for the next round. *)
Definition scan_step (st : scst) (cur : scrap) (lastAL : Z) :
  option (list scrap * option (scst * scrap * Z)) :=
  let (inp, st) := nextRune st (sr cur) in
  match inp with
  | None =>
      do st <- (if isisolate cur then handleIsolatingRunSwitch st cur else Some st);
      Some ([cur; stopper], None)
  | Some (r, len, c) =>
      let c := test_class r c in
      let isAL := c =? cAL in
      let c := applyRulesW1to3 c cur in
      let la := mks c (sr cur) (u32 (sr cur + len)) dc0 [] in
      if finished cur la then
        do st <- (if negb (clz cur =? cNULL) && isisolate cur then handleIsolatingRunSwitch st cur else Some st);
        let out := if clz cur =? cNULL then [] else [cur] in
        let '(st, cur) :=
          if isisolate la && negb (clz la =? cPDI) then (with_ctxs st (s_ctx st ++ [sctx cur]), cur)
          else match s_ctx st with
               | [] => (st, cur)
               | x :: _ => if clz cur =? cPDI
                           then (with_ctxs st (removelast (s_ctx st)), with_ctx cur (last (s_ctx st) x))
                           else (st, cur)
               end in
        let la := inheritStrongTypes la cur lastAL in
        do st <- prepareRuleBD16 st r la;
        Some (out, Some (st, la, if isAL then sl la else lastAL))
      else Some ([], Some (st, collapse cur la (clz cur), lastAL))
  end.

(* Scan: scanner.go:146-201.  [n] bounds the rounds: at most three per rune. *)
Fixpoint scan_loop (n : nat) (st : scst) (cur : scrap) (lastAL : Z) : res (list scrap) :=
  match n with
  | O => NoFuel
  | S n =>
      let* (out, next) := lift (scan_step st cur lastAL) in
      match next with
      | None => Ok out
      | Some (st, cur, al) => let* more := scan_loop n st cur al in Ok (out ++ more)
      end
  end.

Definition Scan (input : list (Z * Z)) : res (list scrap) :=
  scan_loop (3 * length input + 4) (newScanner input) (initialOuterScrap false) (-1).
End Scan.
