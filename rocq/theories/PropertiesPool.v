(* PropertiesPool.v -- C77: breakers that share the pool of recognisers do not disturb each other. *)
From Coq Require Import List ZArith Lia Bool.
From Verif Require Import Base PrioQ PrioQProofs Recognizer Pool PoolProofs PoolMain PoolKeep PoolRace PoolBreakers PoolBreakersProofs.
From Verif Require Grapheme Words Line.
Import ListNotations.
Open Scope Z_scope.

(* Any number of grapheme, word and line breakers, each with any text, in any interleaving of their steps, with any choice of the
   pool: at each moment the answers of a breaker are a beginning of the answers it gives alone; it never panics, can always go on whatever the
   pool hands out, and ends after a number of steps of its own that does not depend on the others; then it has given all of them. *)
Theorem C77_independent :
  forall (tg tw tl : Z -> Z -> bool) (pict mark : Z -> bool) (kinds : nat -> kind) (texts : nat -> list Z) (b : nat),
  exists N, forall sched w, run_all tg tw tl pict mark sched (program kinds texts) = Some w ->
    (turns b sched <= N)%nat /\
    (exists rest, alone tg tw tl pict mark (kinds b) (texts b) = answers (breakers w b) ++ rest) /\
    at_ (breakers w b) <> Crashed /\
    (turns b sched = N <-> finished w b) /\
    (forall k, pstep step_all (begin_all tg tw tl pict mark) finish_all b k w = None <-> finished w b) /\
    (finished w b -> answers (breakers w b) = alone tg tw tl pict mark (kinds b) (texts b)).
Proof.
  intros. destruct (world_ok step_all (begin_all tg tw tl pict mark) finish_all (fun b => made (kinds b)) texts b) as (g & p & l & N & R & _ & H).
  apply rounds_made in R. subst l. exists N. intros sched w W. destruct (H sched w W) as (A & B & C & D & E & F). repeat (split; auto). intros X. apply (F X).
Qed.
Print Assumptions C77_independent.

(* The same for any rules, classes and states of breakers. *)
Theorem C77_any_rules :
  forall {L G} (step : L -> G -> rec L -> Z -> Z -> G * (rec L * option L)) (begin : nat -> Z -> G -> G * Z * Z * list L)
    (finish : nat -> Z -> G -> Z -> list Z -> G * Z * list Z) (g0 : nat -> G) (texts : nat -> list Z) (b : nat),
  exists g p l N, rounds step begin finish b (texts b) (g0 b) empty_pq = Some (g, p, l) /\ length l = length (texts b) /\
  forall sched w, reached step begin finish g0 texts sched w ->
    (turns b sched <= N)%nat /\ (exists rest, l = answers (breakers w b) ++ rest) /\ at_ (breakers w b) <> Crashed /\
    (turns b sched = N <-> finished w b) /\ (forall k, pstep step begin finish b k w = None <-> finished w b) /\
    (finished w b -> answers (breakers w b) = l /\ state (breakers w b) = g).
Proof. intros. apply world_ok. Qed.
Print Assumptions C77_any_rules.

(* A step of one breaker changes nothing another breaker can see: its fields, its queue, the recognisers in it. *)
Theorem C77_unseen :
  forall {L G} (step : L -> G -> rec L -> Z -> Z -> G * (rec L * option L)) begin finish (g0 : nat -> G) texts sched w b k w',
    reached step begin finish g0 texts sched w -> pstep step begin finish b k w = Some w' ->
    forall c, c <> b -> view w' c = view w c.
Proof.
  intros L G step begin finish g0 texts sched w b k w' R P. pose proof (pstep_ok step begin finish b k w (reached_ok _ _ _ _ _ _ _ R)) as H. rewrite P in H. apply H.
Qed.
Print Assumptions C77_unseen.

(* Each object is at one place: it waits in the pool, cleared, or the pool has thrown it away, or exactly one breaker has it, once, and is its UserData. *)
Theorem C77_exclusive :
  forall {L G} (step : L -> G -> rec L -> Z -> Z -> G * (rec L * option L)) begin finish (g0 : nat -> G) texts sched w,
    reached step begin finish g0 texts sched w ->
    NoDup (idle w) /\
    (forall a, In a (idle w) -> what (heap w a) = blank) /\
    (forall b, NoDup (held w b)) /\
    (forall b a, In a (held w b) -> ~ In a (idle w) /\ user (heap w a) = b /\ forall c, In a (held w c) -> c = b) /\
    (forall a, In a (gone w) -> ~ In a (idle w) /\ forall b, ~ In a (held w b)) /\
    (forall a, (a < fresh w)%nat <-> In a (idle w) \/ In a (gone w) \/ exists b, In a (held w b)).
Proof.
  intros L G step begin finish g0 texts sched w R. pose proof (reached_ok _ _ _ _ _ _ _ R) as O. pose proof (reached_kept _ _ _ _ _ _ _ R) as K.
  split; [apply (ok_idle w O)|]. split; [intros a I; apply (ok_blank w O); auto|]. split; [apply (ok_queue w O)|]. split.
  - intros b a I. split; [apply (ok_apart w O b a I)|]. split; [apply (ok_user w O b a I)|]. intros c J. rewrite <- (ok_user w O b a I). symmetry. apply (ok_user w O c a J).
  - split; [intros a I; apply (ok_gone' w O a I)|]. intros a. split; [apply K|]. intros [I|[I|[b I]]]; [apply (ok_low w O a I)|apply (ok_gone' w O a I)|apply (ok_low' w O b a I)].
Qed.
Print Assumptions C77_exclusive.

(* A recogniser from the pool, used or new, is as NewRecognizer would make it, nobody has it, and it is not in the pool any more. *)
Theorem C77_as_new :
  forall {L G} (step : L -> G -> rec L -> Z -> Z -> G * (rec L * option L)) begin finish (g0 : nat -> G) texts sched w k a idle' fresh',
    reached step begin finish g0 texts sched w -> borrow k w = (a, idle', fresh') ->
    (forall e l, NewPooledRecognizer (what (heap w a)) e l = NewRecognizer e l) /\ (forall b, ~ In a (held w b)) /\ ~ In a (gone w) /\ ~ In a idle'.
Proof.
  intros L G step begin finish g0 texts sched w k a idle' fresh' R B. destruct (borrow_ok w k a idle' fresh' (reached_ok _ _ _ _ _ _ _ R) B) as (E & H & J & I & _).
  split; [|split; [|split]; auto]. intros e l. rewrite E. reflexivity.
Qed.
Print Assumptions C77_as_new.

(* A step of breaker b changes the objects it touches, the breaker itself, and the pool if it borrows or returns; and it depends on nothing else. *)
Theorem C77_footprint :
  forall {L G} (step : L -> G -> rec L -> Z -> Z -> G * (rec L * option L)) begin finish (g0 : nat -> G) texts sched w b k w',
    reached step begin finish g0 texts sched w -> pstep step begin finish b k w = Some w' ->
    (forall a, ~ In a (touches b k w) -> heap w' a = heap w a) /\ (forall c, c <> b -> breakers w' c = breakers w c) /\
    (borrows w b = false -> returns w b = false -> same_pool w' w) /\
    forall v, breakers v b = breakers w b -> same_pool v w -> same_on (touches b k w) (heap v) (heap w) ->
      exists v', pstep step begin finish b k v = Some v' /\ breakers v' b = breakers w' b /\ same_pool v' w' /\ same_on (touches b k w) (heap v') (heap w').
Proof.
  intros L G step begin finish g0 texts sched w b k w' R P. pose proof (reached_ok _ _ _ _ _ _ _ R) as O. destruct (writes step begin finish b k w w' O P) as (A & B & C).
  repeat (split; [assumption|]). intros v. now apply (reads step begin finish b k w w' v O P).
Qed.
Print Assumptions C77_footprint.

(* Hence no data race outside of the pool: two breakers about to take a step have no object in common, except that the pool may be about to
   give the same object to either of them (its lock decides). *)
Theorem C77_race_free :
  forall {L G} (step : L -> G -> rec L -> Z -> Z -> G * (rec L * option L)) begin finish (g0 : nat -> G) texts sched w b c j k a,
    reached step begin finish g0 texts sched w -> b <> c -> In a (touches b j w) -> In a (touches c k w) ->
    borrows w b = true /\ borrows w c = true /\ a = fst (fst (borrow j w)) /\ a = fst (fst (borrow k w)).
Proof. intros L G step begin finish g0 texts sched w b c j k a R. apply disjoint. eapply reached_ok; eauto. Qed.
Print Assumptions C77_race_free.

(* ---- not vacuous ---- *)
(* a schedule that lets breakers 0, 1, 2 take turns as long as they have work *)
Fixpoint take_turns (k n : nat) (w : world label fields) (st : nat -> nat -> world label fields -> option (world label fields)) : list (nat * nat) * world label fields :=
  match n with
  | O => ([], w)
  | S n => let b := Nat.modulo n 3 in
           match st b k w with
           | Some w' => let (s, w2) := take_turns k n w' st in ((b, k) :: s, w2)
           | None => take_turns k n w st
           end
  end.
(* a: letter, 2: regional indicator, 3: mark, 4: line feed, 5: space *)
Definition ex_g (c r : Z) : bool := ((r =? 2) && (c =? Grapheme.RI)) || ((r =? 3) && (c =? Grapheme.Extend)) || ((r =? 4) && (c =? Grapheme.LF)).
Definition ex_w (c r : Z) : bool := ((r =? 97) && (c =? Words.ALetter)) || ((r =? 2) && (c =? Words.RI)) || ((r =? 3) && (c =? Words.Extend)) || ((r =? 4) && (c =? Words.LF)).
Definition ex_l (c r : Z) : bool := ((r =? 97) && (c =? Line.AL)) || ((r =? 2) && (c =? Line.RI)) || ((r =? 3) && (c =? Line.CM)) || ((r =? 4) && (c =? Line.LF)) || ((r =? 5) && (c =? Line.SP)).
Definition ex_kinds (b : nat) : kind := match b with O => AGrapheme | 1%nat => AWord | _ => ALine end.
Definition ex_texts (b : nat) : list Z := match b with O => [97; 3; 2; 2; 2; 4; 0] | 1%nat => [97; 97; 3; 2; 2; 97; 4; 0] | 2%nat => [97; 5; 97; 3; 2; 2; 4; 0] | _ => [] end.
Definition ex_none (r : Z) : bool := false.
Definition ex_run (k : nat) : list (nat * nat) * world label fields :=
  take_turns k (Z.to_nat 900) (program ex_kinds ex_texts) (pstep step_all (begin_all ex_g ex_w ex_l ex_none ex_none) finish_all).
Definition ex_sched : list (nat * nat) := fst (ex_run 0).
Definition ex_after (n : nat) : option (world label fields) := run_all ex_g ex_w ex_l ex_none ex_none (firstn n ex_sched) (program ex_kinds ex_texts).
(* Three breakers of different kinds finish, with the answers they give alone. *)
Example C77_independent_ex :
  option_map (fun w => (map (fun b => (answers (breakers w b), text (breakers w b))) [0; 1; 2]%nat, fresh w)) (run_all ex_g ex_w ex_l ex_none ex_none ex_sched (program ex_kinds ex_texts))
  = Some (map (fun b => (alone ex_g ex_w ex_l ex_none ex_none (ex_kinds b) (ex_texts b), [])) [0; 1; 2]%nat, 16%nat) /\
  alone ex_g ex_w ex_l ex_none ex_none AWord [97; 97; 3; 2; 2; 97; 4; 0]
  = [(1, [0; 10]); (1, [0; 10000]); (2, [0; 10000]); (1, [0; 10]); (0, [0; 10000]); (1, [0; 10]); (0, [-10000; -10000]); (0, [0; 10])].
Proof. split; vm_compute; reflexivity. Qed.
(* Object 1 serves the word breaker, then the grapheme breaker, then the line breaker; object 0 the line breaker, nobody, the word breaker. *)
Example C77_exclusive_ex :
  map (fun n => option_map (fun w => (held w 0, held w 1, held w 2, idle w)) (ex_after n)) [40; 100; 120]%nat =
  [Some ([9], [1; 3; 5; 7], [0; 2; 4; 6; 8], [])%nat;
   Some ([9; 1], [10; 11; 13; 15], [], [0; 2; 4; 3; 6; 5; 8; 7; 12; 14])%nat;
   Some ([], [10; 11; 13; 15; 0], [2; 1; 9; 4; 3], [6; 5; 8; 7; 12; 14])%nat] /\
  map (fun n => option_map (fun w => (user (heap w 0), user (heap w 1))) (ex_after n)) [40; 100; 120]%nat = [Some (2, 1); Some (2, 0); Some (1, 2)]%nat.
Proof. split; vm_compute; reflexivity. Qed.
(* A pool that keeps nothing: 40 objects, all thrown away in the end, and the same answers. *)
Example C77_exclusive_ex2 :
  option_map (fun w => (map (fun b => answers (breakers w b)) [0; 1; 2]%nat, fresh w, length (gone w), idle w)) (run_all ex_g ex_w ex_l ex_none ex_none (fst (ex_run 1)) (program ex_kinds ex_texts))
  = Some (map (fun b => alone ex_g ex_w ex_l ex_none ex_none (ex_kinds b) (ex_texts b)) [0; 1; 2]%nat, 40%nat, 40%nat, []).
Proof. vm_compute. reflexivity. Qed.
(* a used object is handed out as a new one, though its UserData is still the line breaker *)
Example C77_as_new_ex :
  option_map (fun w => (fst (fst (borrow 0 w)), what (heap w 0), user (heap w 0), NewPooledRecognizer (what (heap w 0)) 7 (OfG Grapheme.GB6))) (ex_after 100)
  = Some (0%nat, blank, 2%nat, NewRecognizer 7 (OfG Grapheme.GB6)).
Proof. vm_compute. reflexivity. Qed.
(* two breakers that compete for an object of the pool; objects touched at once *)
Example C77_race_free_ex :
  map (fun n => option_map (fun w => (touches 0 0 w, touches 1 0 w, touches 2 0 w)) (ex_after n)) [2; 100]%nat =
  [Some ([], [0], [0])%nat; Some ([9; 1], [0; 10; 11; 13; 15], [])%nat] /\
  option_map (fun w => (borrows w 1, borrows w 2, returns w 0, returns w 1)) (ex_after 2) = Some (true, true, false, false).
Proof. split; vm_compute; reflexivity. Qed.
