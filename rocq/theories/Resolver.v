(* Resolver.v -- the bidi parser: from the scanner's scraps to resolved levels.
   Models bidi/resolver.go and the actions of bidi/actions.go.  The scraps which the scanner sends
   are the list p_pipe; reading takes its first element.  Slices are held by value; where Go's code
   shares an array between the stack and a result, the result is written back unchanged.
   Running out of fuel (NoFuel) is distinct from a panic. *)
From Coq Require Import List ZArith Lia Bool.
From Verif Require Import Base Scrap Brackets Trie Rules Reorder Scanner.
Import ListNotations.
Open Scope Z_scope.

(* parser: resolver.go:69-77, without the scanner and the dictionary.  Of spIRS only the length
   matters (p_depth).  p_store is the state of the scanner's bracket handlers, of any type. *)
Section Store.
Context {store : Type}.
Record pst := mkp {
  p_stack : list scrap; p_sp : nat; p_eof : bool; p_pipe : list scrap; p_depth : nat; p_store : store }.

Definition with_sp (p : pst) (sp : nat) : pst := mkp (p_stack p) sp (p_eof p) (p_pipe p) (p_depth p) (p_store p).
Definition with_stack (p : pst) (s : list scrap) : pst := mkp s (p_sp p) (p_eof p) (p_pipe p) (p_depth p) (p_store p).
Definition with_depth (p : pst) (d : nat) : pst := mkp (p_stack p) (p_sp p) (p_eof p) (p_pipe p) d (p_store p).
Definition with_store (p : pst) (b : store) : pst := mkp (p_stack p) (p_sp p) (p_eof p) (p_pipe p) (p_depth p) b.

(* Receiving from the channel, which is closed after its last element: a closed channel delivers the
   zero value.  nextInputScrap: resolver.go:119-127. *)
Definition receive (pipe : list scrap) : scrap * list scrap :=
  match pipe with [] => (scrap0, []) | s :: t => (s, t) end.

(* The loop of read: resolver.go:137-145. *)
Fixpoint read_loop (n : nat) (p : pst) : nat * pst :=
  match n with
  | O => (O, p)
  | S n =>
      let (s, pipe) := receive (p_pipe p) in
      if clz s =? cNULL then (O, mkp (p_stack p) (p_sp p) true pipe (p_depth p) (p_store p))
      else let (k, p) := read_loop n (mkp (p_stack p ++ [s]) (p_sp p) (p_eof p) pipe (p_depth p) (p_store p)) in
           (S k, p)
  end.

(* read: resolver.go:132-149; n <= 0 is n = 0. *)
Definition read (n : nat) (p : pst) : nat * bool * pst :=
  if (n =? 0)%nat || p_eof p then (O, false, p)
  else let (k, p) := read_loop n p in (k, true, p).

(* Assigning the elements of rhs to stack[at:]: resolver.go:157-159. *)
Definition overwrite (stack : list scrap) (at_ : nat) (rhs : list scrap) : option (list scrap) :=
  if (at_ + length rhs <=? length stack)%nat
  then Some (firstn at_ stack ++ rhs ++ skipn (at_ + length rhs) stack) else None.

(* reduce: resolver.go:154-163. *)
Definition reduce (p : pst) (n : nat) (rhs : list scrap) (startIRS : nat) : option pst :=
  do stack <- overwrite (p_stack p) (p_sp p) rhs;
  let diff := Z.of_nat (length rhs) - Z.of_nat n in
  let pos := Nat.max startIRS (p_sp p + length rhs) in
  let from := Z.of_nat pos - diff in
  if (pos <=? length stack)%nat && (0 <=? from) && (from <=? zlen stack)
  then Some (with_stack p (firstn pos stack ++ skipn (Z.to_nat from) stack)) else None.

End Store.
Arguments pst : clear implicits.

(* ---- the actions of the rules: right-hand side, jump, and the flag newL ---- *)

(* squash: actions.go:304-318. *)
Definition squash (c : Z) (n : nat) (jmp : Z) (m : list scrap) : option (list scrap * Z * bool) :=
  do first <- nth_error m 0;
  do last <- nth_error m (n - 1);
  Some ([mks c (sl first) (sr last) (sctx first) (flat_map kids (firstn n m))], jmp, false).

(* makeMidSwapRule: actions.go:320-330: the whole rest of the stack is returned. *)
Definition midswap (c : Z) (jmp : Z) (m : list scrap) : option (list scrap * Z * bool) :=
  match m with
  | a :: b :: t => Some (a :: with_clz b c :: t, jmp, false)
  | _ => None
  end.

(* The actions of N1-3 and N1-4: actions.go:181-209; the result of collapse is dropped. *)
Definition drop_third (c : Z) (m : list scrap) : option (list scrap * Z * bool) :=
  match m with
  | a :: b :: d :: _ => Some ([a; append_kids (with_clz b c) d], 1, false)
  | _ => None
  end.

(* The actions of N1-5 and N1-8: actions.go:211-222, 234-245. *)
Definition first_two (m : list scrap) : option (list scrap * Z * bool) :=
  match m with a :: b :: _ :: _ => Some ([a; b], 1, false) | _ => None end.

Definition action (r : rule) (m : list scrap) : option (list scrap * Z * bool) :=
  match r with
  | W4_1 | W4_2 => squash cEN 3 (-2) m
  | W4_3 => squash cAN 3 (-2) m
  | W5_1 | W5_2 => squash cEN 2 (-2) m
  | W6_1 | W6_2 | W6_3 => squash cNI 1 0 m
  | W6x => squash cNI 2 (-1) m
  | W7 => (* actions.go:133-151 *)
      do a <- nth_error m 0;
      Some (if dcContext (sctx a) =? cL then ([with_clz a cL], 0, true) else (m, 1, true))
  | N1_1 => squash cL 3 0 m
  | N1_2 => squash cR 3 0 m
  | N1_3 => drop_third cAN m
  | N1_4 => drop_third cEN m
  | N1_5 | N1_8 => first_two m
  | N1_6 | N1_7 | N1_9 | N1_10 => midswap cR 2 m
  | N2 => (* actions.go:258-272 *)
      do a <- nth_error m 0; Some ([with_clz a (se a)], -1, false)
  | LL => squash cL 2 0 m
  | RR => squash cR 2 0 m
  end.

Section Parser.
Context (tr : trie) (tab : list (option rule)).
(* The bracket handlers belong to the scanner, which runs concurrently.  Their state is of any type;
   findCorrespondingBracket (resolver.go:470-480) may change it, which stands for progress of the
   scanner; changeBracketBidiClass (resolver.go:482-485) records the class of an opening bracket. *)
Context {store : Type} (findBr : store -> scrap -> option scrap * store) (changeBr : store -> scrap -> store).
Notation pst := (pst store).

(* The scraps from the stack pointer on: p.stack[p.sp:len(p.stack)]. *)
Definition tail_at (p : pst) : option (list scrap) :=
  if (p_sp p <=? length (p_stack p))%nat then Some (skipn (p_sp p) (p_stack p)) else None.

Definition match_at (p : pst) (minlen : Z) : res (option rule * option rule) :=
  let* m := lift (tail_at p) in matchRulesLHS tr tab (map clz m) minlen.

(* max(lo, p.sp + jmp) *)
Definition jump (lo sp : nat) (jmp : Z) : nat := Z.to_nat (Z.max (Z.of_nat lo) (Z.of_nat sp + jmp)).

(* Application of a rule: resolver.go:218-224 and 283-285.  UpdateClosingBrackets has no effect
   (see Brackets.v: update_closing). *)
Definition apply_rule (p : pst) (r : rule) (startIRS lo : nat) : res pst :=
  let* m := lift (tail_at p) in
  let* (rhs, jmp, _) := lift (action r m) in
  let* p := lift (reduce p (lhsLen r) rhs startIRS) in
  Ok (with_sp p (jump lo (p_sp p) jmp)).

(* performRuleN0: resolver.go:407-468; returns the jump. *)
Definition performRuleN0 (p : pst) : option (pst * Z) :=
  do s <- nth_error (p_stack p) (p_sp p);
  let (answer, b) := findBr (p_store p) s in
  let p := with_store p b in
  let set s' := with_stack p (nset (p_stack p) (p_sp p) s') in
  if clz s =? cBRACKO then
    match answer with
    | None => Some (p, 1)
    | Some closeBr =>
        let '(c, jmp) :=
          if has_match_after closeBr s then (se s, -2)
          else if has_opposite_after closeBr s then (if dcStrong (sctx s) =? so s then so s else se s, -2)
          else (cNI, -1) in
        let s' := with_clz s c in
        Some (with_store (set s') (changeBr b s'), jmp)
    end
  else
    let c := match answer with Some openBr => clz openBr | None => cNI end in
    Some (set (with_clz s c), if c =? cNI then 1 else -2).

(* pass2: resolver.go:263-287; [n] bounds the rounds. *)
Fixpoint pass2 (n : nat) (startIRS : nat) (p : pst) : res pst :=
  match n with
  | O => NoFuel
  | S n =>
      let* passed := lift (match p_sp p with
                           | O => Some false
                           | S k => do s <- nth_error (p_stack p) k; Some (clz s =? cPDI)
                           end) in
      if passed || (length (p_stack p) <=? p_sp p)%nat then Ok p
      else
        let* s := lift (nth_error (p_stack p) (p_sp p)) in
        if isbracket s then
          let* (p, jmp) := lift (performRuleN0 p) in
          pass2 n startIRS (with_sp p (jump startIRS (p_sp p) jmp))
        else
          let* (rule, short) := match_at p 2 in
          match (match rule with
                 | Some r => if pass r <? 2 then short else rule
                 | None => short
                 end) with
          | None => pass2 n startIRS (with_sp p (S (p_sp p)))
          | Some r => if pass r <? 2 then pass2 n startIRS (with_sp p (S (p_sp p)))
                      else let* p := apply_rule p r startIRS 0 in pass2 n startIRS p
          end
  end.

(* The beginning of a round of pass 1: fill up the lookahead; resolver.go:183-185. *)
Definition fill (p : pst) : pst := let '(_, _, p) := read (3 + p_sp p - length (p_stack p)) p in p.

(* pass1 from the loop on (resolver.go:181-227), and parseIRS (:304-341).  [n] bounds the rounds and
   the recursion. *)
Fixpoint pass1_loop (n : nat) (startIRS : nat) (walk : bool) (short : option rule) (p : pst) : res (bool * pst) :=
  match n with
  | O => NoFuel
  | S n =>
      let p := fill p in
      if (length (p_stack p) =? p_sp p)%nat then (if p_eof p then Ok (false, p) else Panic)
      else if walk then
        match (match short with Some r => if 1 <? pass r then None else Some r | None => None end) with
        | None =>
            let* s := lift (nth_error (p_stack p) (p_sp p)) in
            if clz s =? cPDI then Ok (true, with_sp p (S (p_sp p)))
            else if isisolate s then
              (* applySubIRS: resolver.go:230-250 *)
              let start := p_sp p in
              let* (rhs, runlen, ok, p) := parseIRS n start p in
              let p := with_sp p start in
              if ok then
                let* p := lift (reduce p runlen rhs startIRS) in
                pass1_loop n startIRS false None p
              else if (runlen =? 0)%nat then Panic
              else
                let* rhs := match rhs with x :: t => Ok (with_clz x cNI :: t) | [] => Panic end in
                let* p := lift (reduce p runlen rhs startIRS) in
                pass1_loop n startIRS false None (with_sp p (jump startIRS (p_sp p) (-2)))
            else pass1_loop n startIRS false None (with_sp p (S (p_sp p)))
        | Some r => let* p := apply_rule p r startIRS startIRS in pass1_loop n startIRS false None p
        end
      else
        let* (rule, short) := match_at p 0 in
        match (match rule with Some r => if 1 <? pass r then None else Some r | None => None end) with
        | None => pass1_loop n startIRS true short p
        | Some r => let* p := apply_rule p r startIRS startIRS in pass1_loop n startIRS false None p
        end
  end
(* The result: the scraps, the length of the run, the flag ok, and the parser. *)
with parseIRS (n : nat) (startIRS : nat) (p : pst) : res (list scrap * nat * bool * pst) :=
  match n with
  | O => NoFuel
  | S n =>
      let p := with_depth p (S (p_depth p)) in
      (* pass1: resolver.go:172-177 *)
      let p := with_sp p (S startIRS) in
      let '(_, ok, p) := read 3 p in
      let* (ok, p) := if ok then pass1_loop n (S startIRS) false None p else Ok (false, p) in
      let* p := if ok || (p_depth p =? 1)%nat then pass2 n startIRS (with_sp p startIRS) else Ok p in
      let runlen := (p_sp p - startIRS)%nat in
      let* result :=
        if ok && (1 <? p_depth p)%nat then
          let* f := lift (nth_error (p_stack p) startIRS) in
          let* e := lift (nth_error (p_stack p) (startIRS + runlen - 1)) in
          Ok [mks cNI (sl f) (sr e) dc0 [firstn runlen (skipn startIRS (p_stack p))]]
        else Ok (skipn startIRS (p_stack p)) in
      Ok (result, runlen, ok, with_depth p (p_depth p - 1))
  end.

(* ResolveLevels: resolver.go:98-115, for the scraps sent by the scanner.  The result is the levels
   and what the scanner could not send. *)
Definition ResolveLevels (n : nat) (md : mode) (pipe : list scrap) (b : store) : res (levels * list scrap) :=
  let initial := initialOuterScrap md true in
  let* (runs, _, _, p) := parseIRS n 0 (mkp [initial] 0 false pipe 0 b) in
  let* e := lift (zget runs (zlen runs - 1)) in
  Ok (mklv (dirFromClass initial L2R) (runs ++ [mks cPDI (sr e) (sr e) dc0 []]), p_pipe p).
End Parser.

(* ---- the scanner's handlers ----
   The state of the scanner at its end; the input and the memory of markup are left out, as nothing is read any more. *)
Definition at_rest (st : scst) : scst := mksc [] 0 0 (s_hs st) (s_irs st) (s_stack st) (s_bd st) (s_ctx st).
Section Final.
Context (md : mode) (props : Z -> Z * Z) (upper : Z -> bool) (markup : option (Z -> Z)).
Fixpoint scan_final (n : nat) (st : scst) (cur : scrap) (lastAL : Z) : res scst :=
  match n with
  | O => NoFuel
  | S n =>
      let* (out, next) := lift (scan_step md props upper markup st cur lastAL) in
      match next with
      | None => let st := snd (nextRune md props markup st (sr cur)) in
                let* st := lift (if isisolate cur then handleIsolatingRunSwitch st cur else Some st) in Ok (at_rest st)
      | Some (st, cur, al) => scan_final n st cur al
      end
  end.
Definition ScanFinal (input : list (Z * Z)) : res scst :=
  scan_final (3 * length input + 4) (newScanner input) (initialOuterScrap md false) (-1).
End Final.

(* findCorrespondingBracket, for the scanner at rest; a panic of findBD16ForPos does not occur, it is
   shown as an answer "not found". *)
Definition findBracket (st : scst) (s : scrap) : option scrap * scst :=
  (do i <- findBD16ForPos st (sl s);
   do h <- nth_error (s_hs st) i;
   do p <- find_pairing (pairs (h_bd h)) s;
   Some (if clz s =? cBRACKO then pg_close p else pg_open p), st).

(* changeBracketBidiClass *)
Definition changeBracket (st : scst) (s : scrap) : scst :=
  match (do i <- findBD16ForPos st (sl s); do h <- nth_error (s_hs st) i; Some (i, h)) with
  | None => st
  | Some (i, h) =>
      mksc (s_rest st) (s_mpos st) (s_mk st)
        (nset (s_hs st) i (mkhr (mkh (bstack (h_bd h)) (change_opening (pairs (h_bd h)) s)) (h_first h) (h_last h) (h_next h)))
        (s_irs st) (s_stack st) (s_bd st) (s_ctx st)
  end.

(* ResolveParagraph: resolver.go:58-65, for texts in which brackets are looked up only when the scanner
   is at rest, that is, texts without isolates.  [n] bounds the rounds of the parser. *)
Definition ResolveParagraph (n : nat) (md : mode) (props : Z -> Z * Z) (upper : Z -> bool)
    (markup : option (Z -> Z)) (input : list (Z * Z)) : res (levels * list scrap) :=
  let* (t, tab) := prepareRulesTrie in
  let* ss := Scan md props upper markup input in
  let* st := ScanFinal md props upper markup input in
  ResolveLevels t tab findBracket changeBracket n md ss st.
