(* Shared.v -- the two goroutines of ResolveParagraph and the memory they share: the handlers for
   bracket pairs and the map IRS of the scanner.  Models resolver.go:98-149, 172-341, 407-485 and
   scanner.go:146-213, 327-370 as two processes: the parser of Pipe.v, in which the bracket handlers are
   not an oracle but are read and changed in the current state of the scanner.
   One lookup (findBD16ForPos and the search of a pairing) is one step, as is one call of
   handleIsolatingRunSwitch and of prepareRuleBD16; the program makes smaller steps. *)
From Coq Require Import List ZArith Lia Bool.
From Verif Require Import Base Scrap Brackets Trie Rules Reorder Scanner Resolver.
Import ListNotations.
Open Scope Z_scope.

(* ---- processes ---- *)
Inductive sproc (A : Type) : Type :=
| SDone : A -> sproc A
| STau : sproc A -> sproc A
| SRecv : (scrap -> sproc A) -> sproc A                    (* receive from the channel *)
| SFind : scrap -> (option scrap -> sproc A) -> sproc A    (* findCorrespondingBracket: resolver.go:470-480 *)
| SChange : scrap -> sproc A -> sproc A                    (* changeBracketBidiClass: resolver.go:482-485 *)
| SLook : Z -> sproc A -> sproc A.                         (* findBD16ForPos after W7: resolver.go:220-223 *)
Arguments SDone {A} _.
Arguments STau {A} _.
Arguments SRecv {A} _.
Arguments SFind {A} _ _.
Arguments SChange {A} _ _.
Arguments SLook {A} _ _.

(* Sequencing; a panic or exhausted fuel ends the process. *)
Fixpoint sbind {A B} (m : sproc (res A)) (f : A -> sproc (res B)) : sproc (res B) :=
  match m with
  | SDone (Ok a) => f a
  | SDone Panic => SDone Panic
  | SDone NoFuel => SDone NoFuel
  | STau m => STau (sbind m f)
  | SRecv k => SRecv (fun s => sbind (k s) f)
  | SFind s k => SFind s (fun a => sbind (k a) f)
  | SChange s m => SChange s (sbind m f)
  | SLook x m => SLook x (sbind m f)
  end.
Notation "'let%' x := e 'in' f" := (sbind e (fun x => f)) (at level 200, x pattern, e at level 100, f at level 200, right associativity).

(* ---- the parser: the definitions of Resolver.v; the fields p_pipe and p_store are not used ---- *)
Section ParserS.
Context (tr : trie) (tab : list (option rule)).
Notation pst := (pst unit).

(* read: resolver.go:132-149. *)
Fixpoint read_loopS (n : nat) (p : pst) : sproc (res (nat * pst)) :=
  match n with
  | O => SDone (Ok (O, p))
  | S n =>
      SRecv (fun s =>
        if clz s =? cNULL then SDone (Ok (O, mkp (p_stack p) (p_sp p) true (p_pipe p) (p_depth p) (p_store p)))
        else let% (k, p) := read_loopS n (mkp (p_stack p ++ [s]) (p_sp p) (p_eof p) (p_pipe p) (p_depth p) (p_store p)) in
             SDone (Ok (S k, p)))
  end.
Definition readS (n : nat) (p : pst) : sproc (res (nat * bool * pst)) :=
  if (n =? 0)%nat || p_eof p then SDone (Ok (O, false, p))
  else let% (k, p) := read_loopS n p in SDone (Ok (k, true, p)).
Definition fillS (p : pst) : sproc (res pst) :=
  let% (_, _, p) := readS (3 + p_sp p - length (p_stack p)) p in SDone (Ok p).

(* Application of a rule in pass 1: resolver.go:218-224.  UpdateClosingBrackets has no effect
   (Brackets.v: update_closing), but the handler for it is looked up. *)
Definition apply_ruleS (p : pst) (r : rule) (startIRS lo : nat) : sproc (res pst) :=
  let% m := SDone (lift (tail_at p)) in
  let% (rhs, jmp, newL) := SDone (lift (action r m)) in
  let% p := SDone (lift (reduce p (lhsLen r) rhs startIRS)) in
  let q := with_sp p (jump lo (p_sp p) jmp) in
  if newL then let% s := SDone (lift (nth_error (p_stack p) (p_sp p))) in SLook (sl s) (SDone (Ok q))
  else SDone (Ok q).

(* performRuleN0: resolver.go:407-468. *)
Definition performRuleN0S (p : pst) : sproc (res (pst * Z)) :=
  let% s := SDone (lift (nth_error (p_stack p) (p_sp p))) in
  SFind s (fun answer =>
    let set s' := with_stack p (nset (p_stack p) (p_sp p) s') in
    if clz s =? cBRACKO then
      match answer with
      | None => SDone (Ok (p, 1))
      | Some closeBr =>
          let '(c, jmp) :=
            if has_match_after closeBr s then (se s, -2)
            else if has_opposite_after closeBr s then (if dcStrong (sctx s) =? so s then so s else se s, -2)
            else (cNI, -1) in
          let s' := with_clz s c in
          SChange s' (SDone (Ok (set s', jmp)))
      end
    else
      let c := match answer with Some openBr => clz openBr | None => cNI end in
      SDone (Ok (set (with_clz s c), if c =? cNI then 1 else -2))).

(* pass2: resolver.go:263-287. *)
Fixpoint pass2S (n : nat) (startIRS : nat) (p : pst) : sproc (res pst) :=
  match n with
  | O => SDone NoFuel
  | S n =>
      let% passed := SDone (lift (match p_sp p with
                                  | O => Some false
                                  | S k => do s <- nth_error (p_stack p) k; Some (clz s =? cPDI)
                                  end)) in
      if passed || (length (p_stack p) <=? p_sp p)%nat then SDone (Ok p)
      else
        let% s := SDone (lift (nth_error (p_stack p) (p_sp p))) in
        if isbracket s then
          let% (p, jmp) := performRuleN0S p in
          pass2S n startIRS (with_sp p (jump startIRS (p_sp p) jmp))
        else
          let% (rule, short) := SDone (match_at tr tab p 2) in
          match (match rule with
                 | Some r => if pass r <? 2 then short else rule
                 | None => short
                 end) with
          | None => pass2S n startIRS (with_sp p (S (p_sp p)))
          | Some r => if pass r <? 2 then pass2S n startIRS (with_sp p (S (p_sp p)))
                      else let% p := SDone (apply_rule p r startIRS 0) in pass2S n startIRS p
          end
  end.

(* pass1 and parseIRS: resolver.go:172-250, 304-341. *)
Fixpoint pass1S (n : nat) (startIRS : nat) (walk : bool) (short : option rule) (p : pst) : sproc (res (bool * pst)) :=
  match n with
  | O => SDone NoFuel
  | S n =>
      let% p := fillS p in
      STau (
      if (length (p_stack p) =? p_sp p)%nat then SDone (if p_eof p then Ok (false, p) else Panic)
      else if walk then
        match (match short with Some r => if 1 <? pass r then None else Some r | None => None end) with
        | None =>
            let% s := SDone (lift (nth_error (p_stack p) (p_sp p))) in
            if clz s =? cPDI then SDone (Ok (true, with_sp p (S (p_sp p))))
            else if isisolate s then
              let start := p_sp p in
              let% (rhs, runlen, ok, p) := parseS n start p in
              let p := with_sp p start in
              if ok then
                let% p := SDone (lift (reduce p runlen rhs startIRS)) in
                pass1S n startIRS false None p
              else if (runlen =? 0)%nat then SDone Panic
              else
                let% rhs := SDone (match rhs with x :: t => Ok (with_clz x cNI :: t) | [] => Panic end) in
                let% p := SDone (lift (reduce p runlen rhs startIRS)) in
                pass1S n startIRS false None (with_sp p (jump startIRS (p_sp p) (-2)))
            else pass1S n startIRS false None (with_sp p (S (p_sp p)))
        | Some r => let% p := apply_ruleS p r startIRS startIRS in pass1S n startIRS false None p
        end
      else
        let% (rule, short) := SDone (match_at tr tab p 0) in
        match (match rule with Some r => if 1 <? pass r then None else Some r | None => None end) with
        | None => pass1S n startIRS true short p
        | Some r => let% p := apply_ruleS p r startIRS startIRS in pass1S n startIRS false None p
        end)
  end
with parseS (n : nat) (startIRS : nat) (p : pst) : sproc (res (list scrap * nat * bool * pst)) :=
  match n with
  | O => SDone NoFuel
  | S n =>
      let p := with_depth p (S (p_depth p)) in
      let p := with_sp p (S startIRS) in
      let% (_, ok, p) := readS 3 p in
      let% (ok, p) := if ok then pass1S n (S startIRS) false None p else SDone (Ok (false, p)) in
      STau (
      let% p := if ok || (p_depth p =? 1)%nat then pass2S n startIRS (with_sp p startIRS) else SDone (Ok p) in
      let runlen := (p_sp p - startIRS)%nat in
      let% result := SDone (
        if ok && (1 <? p_depth p)%nat then
          let* f := lift (nth_error (p_stack p) startIRS) in
          let* e := lift (nth_error (p_stack p) (startIRS + runlen - 1)) in
          Ok [mks cNI (sl f) (sr e) dc0 [firstn runlen (skipn startIRS (p_stack p))]]
        else Ok (skipn startIRS (p_stack p))) in
      SDone (Ok (result, runlen, ok, with_depth p (p_depth p - 1))))
  end.

(* ResolveLevels: resolver.go:98-115. *)
Definition ResolveS (n : nat) (md : mode) : sproc (res levels) :=
  let initial := initialOuterScrap md true in
  let% (runs, _, _, p) := parseS n 0 (mkp [initial] 0 false [] 0 tt) in
  let% e := SDone (lift (zget runs (zlen runs - 1))) in
  SDone (Ok (mklv (dirFromClass initial L2R) (runs ++ [mks cPDI (sr e) (sr e) dc0 []]))).
End ParserS.

(* ---- the scanner ---- *)

(* What follows after the scraps of a round have been sent. *)
Inductive cont : Type :=
| CEnd                                                                 (* close the channel: scanner.go:157-158, 212 *)
| CPrep (r : Z) (la : scrap) (isAL : bool) (cur : scrap) (al : Z)      (* the lookahead becomes current: 184-194 *)
| CScan (cur : scrap) (al : Z).                                        (* the next round *)

Section Head.
Context (md : mode) (props : Z -> Z * Z) (upper : Z -> bool) (markup : option (Z -> Z)).

(* The first half of a round, up to the sending of the current scrap: scanner.go:150-183, 195-198. *)
Definition scan_head (st : scst) (cur : scrap) (al : Z) : option (scst * list scrap * cont) :=
  let (inp, st) := nextRune md props markup st (sr cur) in
  match inp with
  | None =>
      do st <- (if isisolate cur then handleIsolatingRunSwitch st cur else Some st);
      Some (st, [cur; stopper], CEnd)
  | Some (r, len, c) =>
      let c := test_class md upper r c in
      let isAL := c =? cAL in
      let c := applyRulesW1to3 c cur in
      let la := mks c (sr cur) (u32 (sr cur + len)) dc0 [] in
      if finished cur la then
        do st <- (if negb (clz cur =? cNULL) && isisolate cur then handleIsolatingRunSwitch st cur else Some st);
        Some (st, if clz cur =? cNULL then [] else [cur], CPrep r la isAL cur al)
      else Some (st, [], CScan (collapse cur la (clz cur)) al)
  end.

(* The second half: scanner.go:184-194. *)
Definition scan_tail (st : scst) (r : Z) (la : scrap) (isAL : bool) (cur : scrap) (al : Z) : option (scst * scrap * Z) :=
  let '(st, cur) :=
    if isisolate la && negb (clz la =? cPDI) then (with_ctxs st (s_ctx st ++ [sctx cur]), cur)
    else match s_ctx st with
         | [] => (st, cur)
         | x :: _ => if clz cur =? cPDI
                     then (with_ctxs st (removelast (s_ctx st)), with_ctx cur (last (s_ctx st) x))
                     else (st, cur)
         end in
  let la := inheritStrongTypes la cur al in
  do st <- prepareRuleBD16 st r la;
  Some (st, la, if isAL then sl la else al).

(* The scanner as a process; its state, with the shared handlers, is always there. *)
Inductive ssender : Type :=
| Running (st : scst) (cur : scrap) (al : Z)       (* at the head of its loop *)
| Sending (st : scst) (q : list scrap) (k : cont)  (* about to send the scraps q *)
| Broken (st : scst)                               (* has panicked *)
| Ended (st : scst).                               (* has closed the channel and ended *)
Definition memory (s : ssender) : scst :=
  match s with Running st _ _ | Sending st _ _ | Broken st | Ended st => st end.
Definition with_memory (s : ssender) (st : scst) : ssender :=
  match s with
  | Running _ cur al => Running st cur al
  | Sending _ q k => Sending st q k
  | Broken _ => Broken st
  | Ended _ => Ended st
  end.

(* A silent step of the scanner; None if it has none. *)
Definition scanner_step (s : ssender) : option ssender :=
  match s with
  | Running st cur al =>
      Some (match scan_head st cur al with Some (st', q, k) => Sending st' q k | None => Broken st end)
  | Sending st [] CEnd => Some (Ended st)
  | Sending st [] (CPrep r la isAL cur al) =>
      Some (match scan_tail st r la isAL cur al with Some (st', cur', al') => Running st' cur' al' | None => Broken st end)
  | Sending st [] (CScan cur al) => Some (Running st cur al)
  | _ => None
  end.

Context {A : Type}.
Notation config := (ssender * sproc A)%type.

(* A step of the parser, alone or with the scanner; None if it cannot make one. *)
Definition parser_step (c : config) : option config :=
  match c with
  | (s, STau p) => Some (s, p)
  | (s, SFind x k) => Some (s, k (fst (findBracket (memory s) x)))
  | (s, SChange x p) => Some (with_memory s (changeBracket (memory s) x), p)
  | (s, SLook _ p) => Some (s, p)
  | (Sending st (x :: q) k, SRecv f) => Some (Sending st q k, f x)
  | (Ended st, SRecv f) => Some (Ended st, f scrap0)
  | _ => None
  end.

Definition sstep (c d : config) : Prop :=
  (exists s, scanner_step (fst c) = Some s /\ d = (s, snd c)) \/ parser_step c = Some d.

Inductive sreach : config -> config -> Prop :=
| sreach_refl c : sreach c c
| sreach_step a b c : sstep a b -> sreach b c -> sreach a c.

Definition sstuck (c : config) : Prop := forall d, ~ sstep c d.

(* The scanner's next step changes the map IRS or the chain of handlers: the current scrap is an isolate
   that ends here (handleIsolatingRunSwitch).  The parser's next step reads them. *)
Definition table (st : scst) : list (Z * nat) * list (Z * Z * option nat) :=
  (s_irs st, map (fun h => (h_first h, h_last h, h_next h)) (s_hs st)).
Definition scanner_writes (s : ssender) : Prop := exists s', scanner_step s = Some s' /\ table (memory s') <> table (memory s).
Definition parser_reads (p : sproc A) : Prop :=
  match p with SFind _ _ | SChange _ _ | SLook _ _ => True | _ => False end.
Definition racing (c : config) : Prop := scanner_writes (fst c) /\ parser_reads (snd c).
End Head.

Definition start_shared (md : mode) (input : list (Z * Z)) : ssender :=
  Running (newScanner input) (initialOuterScrap md false) (-1).
