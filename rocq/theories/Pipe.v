(* Pipe.v -- the two goroutines of ResolveParagraph and the unbuffered channel between them.
   Models resolver.go:98-149 (ResolveLevels, nextInputScrap, read) and scanner.go:146-213 (Scan, post,
   stop) as two processes.  A send and a receive happen together; after close, a receive delivers the
   zero value.  Everything between two communications is a silent step. *)
From Coq Require Import List ZArith Lia Bool.
From Verif Require Import Base Scrap Brackets Trie Rules Reorder Scanner Resolver.
Import ListNotations.
Open Scope Z_scope.

(* ---- processes that receive scraps ---- *)
Inductive proc (A : Type) : Type :=
| Done : A -> proc A
| Tau : proc A -> proc A
| Recv : (scrap -> proc A) -> proc A.
Arguments Done {A} _.
Arguments Tau {A} _.
Arguments Recv {A} _.

(* Sequencing; a panic or exhausted fuel ends the process. *)
Fixpoint pbind {A B} (m : proc (res A)) (f : A -> proc (res B)) : proc (res B) :=
  match m with
  | Done (Ok a) => f a
  | Done Panic => Done Panic
  | Done NoFuel => Done NoFuel
  | Tau m => Tau (pbind m f)
  | Recv k => Recv (fun s => pbind (k s) f)
  end.
Notation "'let+' x := e 'in' f" := (pbind e (fun x => f)) (at level 200, x pattern, e at level 100, f at level 200, right associativity).

(* ---- the parser as a process: the definitions of Resolver.v with receives instead of the list ---- *)
Section ParserP.
Context (tr : trie) (tab : list (option rule)).
Context {store : Type} (findBr : store -> scrap -> option scrap * store) (changeBr : store -> scrap -> store).
Notation pst := (pst store).

(* read: resolver.go:132-149. *)
Fixpoint read_loopP (n : nat) (p : pst) : proc (res (nat * pst)) :=
  match n with
  | O => Done (Ok (O, p))
  | S n =>
      Recv (fun s =>
        if clz s =? cNULL then Done (Ok (O, mkp (p_stack p) (p_sp p) true (p_pipe p) (p_depth p) (p_store p)))
        else let+ (k, p) := read_loopP n (mkp (p_stack p ++ [s]) (p_sp p) (p_eof p) (p_pipe p) (p_depth p) (p_store p)) in
             Done (Ok (S k, p)))
  end.
Definition readP (n : nat) (p : pst) : proc (res (nat * bool * pst)) :=
  if (n =? 0)%nat || p_eof p then Done (Ok (O, false, p))
  else let+ (k, p) := read_loopP n p in Done (Ok (k, true, p)).
Definition fillP (p : pst) : proc (res pst) :=
  let+ (_, _, p) := readP (3 + p_sp p - length (p_stack p)) p in Done (Ok p).

(* pass1 and parseIRS: resolver.go:172-250, 304-341. *)
Fixpoint pass1P (n : nat) (startIRS : nat) (walk : bool) (short : option rule) (p : pst) : proc (res (bool * pst)) :=
  match n with
  | O => Done NoFuel
  | S n =>
      let+ p := fillP p in
      Tau (
      if (length (p_stack p) =? p_sp p)%nat then Done (if p_eof p then Ok (false, p) else Panic)
      else if walk then
        match (match short with Some r => if 1 <? pass r then None else Some r | None => None end) with
        | None =>
            let+ s := Done (lift (nth_error (p_stack p) (p_sp p))) in
            if clz s =? cPDI then Done (Ok (true, with_sp p (S (p_sp p))))
            else if isisolate s then
              let start := p_sp p in
              let+ (rhs, runlen, ok, p) := parseP n start p in
              let p := with_sp p start in
              if ok then
                let+ p := Done (lift (reduce p runlen rhs startIRS)) in
                pass1P n startIRS false None p
              else if (runlen =? 0)%nat then Done Panic
              else
                let+ rhs := Done (match rhs with x :: t => Ok (with_clz x cNI :: t) | [] => Panic end) in
                let+ p := Done (lift (reduce p runlen rhs startIRS)) in
                pass1P n startIRS false None (with_sp p (jump startIRS (p_sp p) (-2)))
            else pass1P n startIRS false None (with_sp p (S (p_sp p)))
        | Some r => let+ p := Done (apply_rule p r startIRS startIRS) in pass1P n startIRS false None p
        end
      else
        let+ (rule, short) := Done (match_at tr tab p 0) in
        match (match rule with Some r => if 1 <? pass r then None else Some r | None => None end) with
        | None => pass1P n startIRS true short p
        | Some r => let+ p := Done (apply_rule p r startIRS startIRS) in pass1P n startIRS false None p
        end)
  end
with parseP (n : nat) (startIRS : nat) (p : pst) : proc (res (list scrap * nat * bool * pst)) :=
  match n with
  | O => Done NoFuel
  | S n =>
      let p := with_depth p (S (p_depth p)) in
      let p := with_sp p (S startIRS) in
      let+ (_, ok, p) := readP 3 p in
      let+ (ok, p) := if ok then pass1P n (S startIRS) false None p else Done (Ok (false, p)) in
      Tau (
      let+ p := Done (if ok || (p_depth p =? 1)%nat then pass2 tr tab findBr changeBr n startIRS (with_sp p startIRS) else Ok p) in
      let runlen := (p_sp p - startIRS)%nat in
      let+ result := Done (
        if ok && (1 <? p_depth p)%nat then
          let* f := lift (nth_error (p_stack p) startIRS) in
          let* e := lift (nth_error (p_stack p) (startIRS + runlen - 1)) in
          Ok [mks cNI (sl f) (sr e) dc0 [firstn runlen (skipn startIRS (p_stack p))]]
        else Ok (skipn startIRS (p_stack p))) in
      Done (Ok (result, runlen, ok, with_depth p (p_depth p - 1))))
  end.

(* ResolveLevels: resolver.go:98-115. *)
Definition ResolveP (n : nat) (md : mode) (b : store) : proc (res levels) :=
  let initial := initialOuterScrap md true in
  let+ (runs, _, _, p) := parseP n 0 (mkp [initial] 0 false [] 0 b) in
  let+ e := Done (lift (zget runs (zlen runs - 1))) in
  Done (Ok (mklv (dirFromClass initial L2R) (runs ++ [mks cPDI (sr e) (sr e) dc0 []]))).
End ParserP.

(* ---- the scanner as a process ---- *)
Inductive sender : Type :=
| Scanning (st : scst) (cur : scrap) (al : Z)                               (* at the head of its loop *)
| Posting (q : list scrap) (next : option (scst * scrap * Z))               (* about to send the scraps q *)
| Crashed                                                                   (* has panicked *)
| Exited.                                                                   (* has closed the channel and ended *)

Section System.
Context (md : mode) (props : Z -> Z * Z) (upper : Z -> bool) (markup : option (Z -> Z)).
Context {A : Type}.

(* A step of one goroutine, or of both at a communication. *)
Inductive cstep : sender * proc A -> sender * proc A -> Prop :=
| step_scan st cur al p out next : scan_step md props upper markup st cur al = Some (out, next) ->
    cstep (Scanning st cur al, p) (Posting out next, p)
| step_crash st cur al p : scan_step md props upper markup st cur al = None ->
    cstep (Scanning st cur al, p) (Crashed, p)
| step_loop st cur al p : cstep (Posting [] (Some (st, cur, al)), p) (Scanning st cur al, p)
| step_close p : cstep (Posting [] None, p) (Exited, p)
| step_tau s p : cstep (s, Tau p) (s, p)
| step_comm x q next k : cstep (Posting (x :: q) next, Recv k) (Posting q next, k x)
| step_closed k : cstep (Exited, Recv k) (Exited, k scrap0).

Inductive reach : sender * proc A -> sender * proc A -> Prop :=
| reach_refl c : reach c c
| reach_step a b c : cstep a b -> reach b c -> reach a c.

Definition stuck (c : sender * proc A) : Prop := forall d, ~ cstep c d.
End System.

(* The start: both goroutines run. *)
Definition start_scanner (md : mode) (input : list (Z * Z)) : sender :=
  Scanning (newScanner input) (initialOuterScrap md false) (-1).
