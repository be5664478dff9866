(* Setup.v -- model of the set-up of the class tables (emoji/emoji.go, grapheme/grapheme.go, uax29/uax29.go, uax14/uax14.go
   and the generated files with the tables), and of goroutines that call it and look up classes. *)
From Coq Require Import List ZArith Bool.
From Verif Require Import Base.
From Verif Require Grapheme Words Line WidthSpec.
Import ListNotations.
Open Scope Z_scope.

(* packages emoji, grapheme, uax29, uax14 *)
Inductive pkg := PE | PG | PW | PL.
Definition pkg_eqb (p q : pkg) : bool := match p, q with PE, PE | PG, PG | PW, PW | PL, PL => true | _, _ => false end.
(* the classes in the order of the loops in emoji.go:36, grapheme.go:51, uax29.go:71, uax14.go:84 *)
Definition ids (p : pkg) : list Z :=
  match p with
  | PE => [0; 1; 2; 3; 4; 5]
  | PG => [0; 1; 2; 3; 4; 5; 6; 7; 8; 9; 10; 11; 12]
  | PW => [0; 1; 2; 3; 4; 5; 6; 7; 8; 9; 10; 11; 12; 13; 14; 15; 16; 17]
  | PL => Line.all_classes
  end.
(* emoji.go:42, grapheme.go:57, uax29.go:77, uax14.go:92 *)
Definition none (p : pkg) : Z := match p with PE => -1 | PG => Grapheme.Any | PW => Words.Other | PL => Line.XX end.
(* grapheme.go:125, uax29.go:147 *)
Definition pictographic (p : pkg) : Z := match p with PG => Grapheme.Pictographic | _ => Words.Pictographic end.

(* a sync.Once: not used, its function is run by goroutine t, done *)
Inductive ostate := Idle | Busy (t : nat) | Done.
(* The memory shared by all goroutines, by package: the variable setupOnce; is the variable rangeFrom...Class not nil;
   has its element c been assigned; has the exported variable of class c been assigned.  What is assigned never changes. *)
Record mem := mkmem { once : pkg -> ostate; made : pkg -> bool; slot : pkg -> Z -> bool; var : pkg -> Z -> bool }.
Definition mem0 : mem := mkmem (fun _ => Idle) (fun _ => false) (fun _ _ => false) (fun _ _ => false).
Definition set1 {A} (f : pkg -> A) (p : pkg) (a : A) : pkg -> A := fun q => if pkg_eqb q p then a else f q.
Definition set2 {A} (f : pkg -> Z -> A) (p : pkg) (c : Z) (a : A) : pkg -> Z -> A := fun q d => if pkg_eqb q p && (d =? c) then a else f q d.

(* What a goroutine does, one access to the shared memory at a time.  Look: the rest of a loop over the classes, followed
   by the look-up of Pict if [pic] *)
Inductive instr :=
| Enter (p : pkg) | Make (p : pkg) | SetVar (p : pkg) (c : Z) | SetSlot (p : pkg) (c : Z) | Leave (p : pkg)
| IsNil (p : pkg) | Look (p : pkg) (r : Z) (cs : list Z) (pic : bool) | Pict (p : pkg) (r : Z) | Say (z : Z).
(* a goroutine: what is left to do, the classes found so far, and whether it has panicked *)
Record thread := mkth { code : list instr; said : list Z; dead : bool }.

Section Tables.
(* the contents of the tables: unicode.Is of the table of class c; the order of the classes in the generated file
   uax14classes.go, which is not in the repository *)
Context (member : pkg -> Z -> Z -> bool) (orderL : list Z).

(* emojiclasses.go:49-864, graphemeclasses.go:67-2593, uax29classes.go:72-4136: the order of the assignments *)
Definition order (p : pkg) : list Z :=
  match p with
  | PE => [0; 1; 2; 3; 4; 5]
  | PG => [0; 1; 4; 5; 7; 9; 3; 6; 10; 12; 2; 8; 11]
  | PW => [1; 4; 8; 14; 6; 13; 17; 10; 3; 2; 0; 16; 15; 12; 7; 9; 5; 11]
  | PL => orderL
  end.
Definition body (p : pkg) : list instr := Make p :: flat_map (fun c => [SetVar p c; SetSlot p c]) (order p).

(* One step of goroutine t; None if it has to wait, has ended or has panicked.  Enter and Leave: sync.Once.Do waits while
   another goroutine runs the function. *)
Definition tstep (t : nat) (m : mem) (th : thread) : option (mem * thread) :=
  if dead th then None
  else
    match code th with
    | [] => None
    | i :: rest =>
        let go m' := Some (m', mkth rest (said th) false) in
        let say z := Some (m, mkth rest (said th ++ [z]) false) in
        let panic := Some (m, mkth rest (said th) true) in
        match i with
        | Enter p =>
            match once m p with
            | Idle => Some (mkmem (set1 (once m) p (Busy t)) (made m) (slot m) (var m), mkth (body p ++ Leave p :: rest) (said th) false)
            | Busy _ => None
            | Done => go m
            end
        | Leave p => go (mkmem (set1 (once m) p Done) (made m) (slot m) (var m))
        | Make p => go (mkmem (once m) (set1 (made m) p true) (set1 (slot m) p (fun _ => false)) (var m))
        | SetVar p c => go (mkmem (once m) (made m) (slot m) (set2 (var m) p c true))
        | SetSlot p c => if made m p then go (mkmem (once m) (made m) (set2 (slot m) p c true) (var m)) else panic
        | IsNil p => go m
        | Look p r [] pic => if pic then Some (m, mkth (Pict p r :: rest) (said th) false) else say (none p)
        | Look p r (c :: cs) pic =>
            if made m p then
              if slot m p c && member p c r then say c else Some (m, mkth (Look p r cs pic :: rest) (said th) false)
            else panic
        | Pict p r => if var m PE 5 then say (if member PE 5 r then pictographic p else none p) else panic
        | Say z => say z
        end
    end.

(* The functions of the packages, as far as they concern the tables. *)
Inductive call :=
| SetupE | SetupG | SetupW | SetupL | NewG | NewW | NewL
| ClassG (r : Z) | ClassW (r : Z) | ClassL (r : Z) | EmojiClass (r : Z) | BreakerG (r : Z) | BreakerW (r : Z) | BreakerL (r : Z)
| StringOf (rs : list Z) | WidthOf (r : Z).
Definition look (p : pkg) (pic : bool) (r : Z) : list instr := if r =? 0 then [Say Grapheme.eot] else [Look p r (ids p) pic].
Definition expand (c : call) : list instr :=
  match c with
  | SetupE => [Enter PE]                          (* emoji.go:50-52 *)
  | SetupG => [Enter PG; Enter PE]                (* grapheme.go:66-69 *)
  | SetupW => [Enter PW; Enter PE]                (* uax29.go:88-91 *)
  | SetupL => [Enter PL]                          (* uax14.go:100-102 *)
  | NewG => []                                    (* grapheme.go:98-121 *)
  | NewW => [IsNil PW; Enter PW; Enter PE]        (* uax29.go:120-143 *)
  | NewL => [IsNil PL; Enter PL]                  (* uax14.go:124-178 *)
  | ClassG r => look PG false r                   (* grapheme.go:47-58 *)
  | ClassW r => look PW false r                   (* uax29.go:66-78 *)
  | ClassL r => look PL false r                   (* uax14.go:79-93 *)
  | EmojiClass r => [Look PE r (ids PE) false]    (* emoji.go:35-43 *)
  | BreakerG r => look PG true r                  (* grapheme.go:129-137 *)
  | BreakerW r => look PW true r                  (* uax29.go:151-159 *)
  | BreakerL r => look PL false r                 (* uax14.go:182-184, before the class is resolved *)
  | StringOf rs => [Enter PG; Enter PE] ++ flat_map (look PG true) rs   (* string.go:40-49: the runes segmented *)
  | WidthOf r => [Look PE r (ids PE) false]       (* width.go:67-70: a grapheme that begins with r *)
  end.
Definition start (cs : list call) : thread := mkth (flat_map expand cs) [] false.

(* All goroutines; a schedule names the goroutine that makes the next step. *)
Definition sys := (mem * list thread)%type.
Fixpoint put (t : nat) (th : thread) (ths : list thread) : list thread :=
  match ths, t with
  | [], _ => []
  | _ :: r, O => th :: r
  | x :: r, S k => x :: put k th r
  end.
Definition sstep (t : nat) (s : sys) : option sys :=
  match nth_error (snd s) t with
  | Some th => match tstep t (fst s) th with Some (m, th') => Some (m, put t th' (snd s)) | None => None end
  | None => None
  end.
Fixpoint run (sched : list nat) (s : sys) : option sys :=
  match sched with
  | [] => Some s
  | t :: r => match sstep t s with Some s' => run r s' | None => None end
  end.
Definition init (goroutines : list (list call)) : sys := (mem0, map start goroutines).
End Tables.

(* The next accesses of two goroutines are a data race: one of them writes what the other one reads or writes.  (The
   accesses to a sync.Once are synchronised.) *)
Inductive loc := LMade (p : pkg) | LSlot (p : pkg) (c : Z) | LVar (p : pkg) (c : Z).
Definition writes (i : instr) : list loc :=
  match i with Make p => [LMade p] | SetVar p c => [LVar p c] | SetSlot p c => [LSlot p c] | _ => [] end.
Definition reads (i : instr) : list loc :=
  match i with
  | SetSlot p c => [LMade p; LVar p c]
  | IsNil p => [LMade p]
  | Look p _ (c :: _) _ => [LMade p; LSlot p c]
  | Pict _ _ => [LVar PE 5]
  | _ => []
  end.
Definition conflict (i j : instr) : Prop := exists l, In l (writes i) /\ In l (writes j ++ reads j).
