(* PropertiesSetup.v -- C76: class tables are set up before they are used, by any number of goroutines. *)
From Coq Require Import List ZArith Lia Bool Arith.
From Verif Require Import Base Setup SetupProofs SetupMain.
From Verif Require Grapheme Words Line WidthSpec.
Import ListNotations.
Open Scope Z_scope.

(* the file uax14classes.go, which is generated, assigns the tables of all line breaking classes *)
Definition complete (orderL : list Z) : Prop := forall c, In c Line.all_classes -> In c orderL.
(* a small world for the examples: "a" is an emoji of class 0 only, 7 is a control character of graphemes (class 1), 9 is
   pictographic, 5 is of class 14 of words *)
Definition world (p : pkg) (c r : Z) : bool :=
  match p with
  | PE => ((c =? 0) && (r =? 97)) || ((c =? 5) && (r =? 9))
  | PG => (c =? 1) && (r =? 7)
  | PW => (c =? 14) && (r =? 5)
  | PL => (c =? 2) && (r =? 65)
  end.

(* One goroutine alone (goroutine t of any program, all others not yet started) panics exactly if it needs a table that it
   has not set up before.  If it does not panic it finds the classes of complete tables. *)
Theorem C76_sequential :
  forall member orderL, complete orderL -> forall gs t g, nth_error gs t = Some g ->
    exists n m ths th, run member orderL (repeat t n) (init gs) = Some (m, ths) /\ nth_error ths t = Some th /\
      dead th = negb (ready member [] g) /\ (ready member [] g = true -> code th = [] /\ said th = flat_map (answers member) g).
Proof. intros member orderL C. exact (alone member orderL C). Qed.
Print Assumptions C76_sequential.
Example C76_sequential_ex :
  option_map (fun s => map (fun th => (said th, dead th)) (snd s)) (run world Line.all_classes (repeat 0%nat 77) (init [[SetupG; BreakerG 7; BreakerG 9; ClassG 9; EmojiClass 97; BreakerG 0]])) = Some [([1; 13; 999; 0; 1001], false)].
Proof. vm_compute. reflexivity. Qed.

(* Any number of goroutines, each of which sets up the tables before it needs them.  Whatever the schedule: no goroutine
   panics; at any time each has found a first part of the classes of complete tables, and all of them when it ends; the number
   of steps is bounded; and there is no deadlock. *)
Theorem C76_concurrent :
  forall member orderL, complete orderL -> forall gs, (forall g, In g gs -> ready member [] g = true) ->
    forall sched m ths, run member orderL sched (init gs) = Some (m, ths) ->
      length ths = length gs /\
      (forall t g th, nth_error gs t = Some g -> nth_error ths t = Some th -> dead th = false /\ prefix (said th) (flat_map (answers member) g) /\ (code th = [] -> said th = flat_map (answers member) g)) /\
      (length sched <= total orderL (init gs))%nat /\
      ((forall th, In th ths -> code th = []) \/ exists t s', sstep member orderL t (m, ths) = Some s').
Proof. intros member orderL C gs R sched m ths. exact (concurrent member orderL C gs sched m ths R). Qed.
Print Assumptions C76_concurrent.
Definition two : list (list call) := [[SetupG; ClassG 7]; [SetupE; EmojiClass 97; StringOf [9; 7]]].
(* two goroutines that take turns, as far as neither has to wait *)
Fixpoint turns (n : nat) (t : nat) (s : sys) : sys :=
  match n with
  | O => s
  | S k => match sstep world Line.all_classes t s with
           | Some s' => turns k (1 - t) s'
           | None => match sstep world Line.all_classes (1 - t) s with Some s' => turns k t s' | None => s end
           end
  end.
Example C76_concurrent_ex : forallb (fun g => ready world [] g) two = true /\
  map (fun th => (code th, said th, dead th)) (snd (turns 200 0 (init two))) = [([], [1], false); ([], [0; 13; 1], false)].
Proof. split; vm_compute; reflexivity. Qed.

(* A program never panics, whatever the schedule, exactly if each goroutine sets up what it needs by itself. *)
Theorem C76_safe_iff :
  forall member orderL, complete orderL -> forall gs,
    (forall sched m ths th, run member orderL sched (init gs) = Some (m, ths) -> In th ths -> dead th = false) <-> (forall g, In g gs -> ready member [] g = true).
Proof. intros member orderL C. exact (safe_iff member orderL C). Qed.
Print Assumptions C76_safe_iff.
Example C76_safe_iff_ex : ready world [] [NewL; BreakerL 65; ClassL 3] = true /\ ready world [] [SetupL; BreakerW 5] = false /\ ready world [] [SetupW; BreakerW 5; BreakerG 0] = true.
Proof. vm_compute. auto. Qed.

(* In any such program, each table is created once. *)
Theorem C76_once :
  forall member orderL, complete orderL -> forall gs, (forall g, In g gs -> ready member [] g = true) ->
    forall p sched, (creations member orderL p sched (init gs) <= 1)%nat.
Proof. intros member orderL C gs R p sched. exact (creations_le member orderL C _ p sched (init gs) (init_inv member orderL gs R)). Qed.
Print Assumptions C76_once.
Example C76_once_ex : creations world Line.all_classes PG (repeat 0%nat 60 ++ repeat 1%nat 60) (init two) = 1%nat.
Proof. vm_compute. reflexivity. Qed.

(* Data races.  If goroutines set up tables by the Setup functions and grapheme strings, there are none. *)
Theorem C76_race_free :
  forall member orderL, complete orderL -> forall gs, (forall g, In g gs -> ready member [] g = true /\ forallb no_new g = true) ->
    forall sched s t u i j, run member orderL sched (init gs) = Some s -> t <> u -> next s t i -> next s u j -> ~ conflict i j.
Proof.
  intros member orderL C gs R sched s t u i j H N NI NJ CF.
  destruct (races member orderL _ s t u i j (sinv_run member orderL C _ sched _ _ (init_inv member orderL gs (fun g I => proj1 (R g I))) H) N NI NJ CF) as (p & _ & ->).
  destruct NJ as (th & rest & NU & EC). apply nth_error_In in NU. assert (NN : nonil (code th)).
  { apply (nonil_run member orderL sched (init gs) s) with (2 := H) (3 := NU). intros x I. cbn [init snd] in I. apply in_map_iff in I. destruct I as (g & <- & I). exact (calls_nonil member g (proj2 (R g I))). }
  apply (NN p). rewrite EC. left. reflexivity.
Qed.
Print Assumptions C76_race_free.
Example C76_race_free_ex : forallb (fun g => ready world [] g && forallb no_new g) two = true /\ conflict (Make PG) (IsNil PG) /\ ~ conflict (Make PG) (Look PE 97 [0] false).
Proof.
  split; [vm_compute; reflexivity|]. split.
  - exists (LMade PG). cbn. auto.
  - intros (l & [<-|[]] & I). cbn in I. intuition discriminate.
Qed.

(* With the constructors of word breakers and line breakers, the only races are between the check for nil at uax29.go:138 or
   uax14.go:172 and the creation of the table.  (The result of the check is used for a trace message only, C76_concurrent
   holds in any case.) *)
Theorem C76_race_free_partial :
  forall member orderL, complete orderL -> forall gs, (forall g, In g gs -> ready member [] g = true) ->
    forall sched s t u i j, run member orderL sched (init gs) = Some s -> t <> u -> next s t i -> next s u j -> conflict i j ->
      exists p, i = Make p /\ j = IsNil p.
Proof. intros member orderL C gs R sched s t u i j H. exact (races member orderL _ s t u i j (sinv_run member orderL C _ sched _ _ (init_inv member orderL gs R) H)). Qed.
Print Assumptions C76_race_free_partial.
(* two word breakers, two line breakers *)
Theorem C76_race_refuted :
  forall member orderL c p, In (c, p) [(NewW, PW); (NewL, PL)] ->
    (forall g, In g [[c]; [c]] -> ready member [] g = true) /\
    exists sched s, run member orderL sched (init [[c]; [c]]) = Some s /\ next s 0 (Make p) /\ next s 1 (IsNil p) /\ conflict (Make p) (IsNil p).
Proof.
  intros member orderL c p I. split; [destruct I as [E|[E|[]]]; injection E as <- <-; intros g [<-|[<-|[]]]; reflexivity|]. exists [0%nat; 0%nat].
  destruct I as [E|[E|[]]]; injection E as <- <-; (eexists; split; [reflexivity|]; split; [eexists; eexists; split; reflexivity|]; split; [eexists; eexists; split; reflexivity|]; eexists; split; left; reflexivity).
Qed.
Print Assumptions C76_race_refuted.

(* uax11.Width panics as long as nobody has set up the emoji classes, and so does a new grapheme breaker. *)
Theorem C76_width_refuted :
  forall member orderL r, exists n m th, run member orderL (repeat 0%nat n) (init [[WidthOf r]]) = Some (m, [th]) /\ dead th = true.
Proof. intros member orderL r. exists 1%nat. eexists. eexists. split; reflexivity. Qed.
Print Assumptions C76_width_refuted.
Theorem C76_grapheme_breaker_refuted :
  forall member orderL r, r <> 0 -> exists n m th, run member orderL (repeat 0%nat n) (init [[NewG; BreakerG r]]) = Some (m, [th]) /\ dead th = true.
Proof. intros member orderL r N. exists 1%nat. eexists. eexists. unfold init, start. cbn [map flat_map expand look app]. unfold look. apply Z.eqb_neq in N. rewrite N. split; reflexivity. Qed.
Print Assumptions C76_grapheme_breaker_refuted.
(* It is not enough that another goroutine sets up the tables: 7 is a control character, but one schedule panics, another
   one finds no class, and a third one finds the class. *)
Theorem C76_unsynchronised_refuted :
  exists gs s1 s2 s3, let result sched := option_map (fun s => map (fun th => (said th, dead th)) (snd s)) (run world Line.all_classes sched (init gs)) in
    gs = [[SetupG]; [ClassG 7]] /\ result s1 = Some [([], false); ([], true)] /\ result s2 = Some [([], false); ([Grapheme.Any], false)] /\ result s3 = Some [([], false); ([1], false)].
Proof. exists [[SetupG]; [ClassG 7]], [1%nat], ([0; 0] ++ repeat 1 14)%nat, (repeat 0 44 ++ [1; 1])%nat. cbv zeta. split; [reflexivity|]. repeat split; vm_compute; reflexivity. Qed.
Print Assumptions C76_unsynchronised_refuted.

(* A goroutine sets up tables and starts goroutines afterwards (the go statement orders the two).  These find the tables without
   set-up of their own, and create word and line breakers without data races. *)
Theorem C76_after_main :
  forall member orderL, complete orderL -> forall cs sched0 m0 th0 gs sched m ths,
    ready member [] cs = true -> run member orderL sched0 (init [cs]) = Some (m0, [th0]) -> code th0 = [] ->
    (forall g, In g gs -> ready member (all_gives cs) g = true) -> run member orderL sched (spawn m0 gs) = Some (m, ths) ->
    length ths = length gs /\
    (forall t g th, nth_error gs t = Some g -> nth_error ths t = Some th -> dead th = false /\ prefix (said th) (flat_map (answers member) g) /\ (code th = [] -> said th = flat_map (answers member) g)) /\
    ((forall th, In th ths -> code th = []) \/ exists t s', sstep member orderL t (m, ths) = Some s') /\
    ((forall g, In g gs -> forallb (new_done (all_gives cs)) g = true) -> forall t u i j, t <> u -> next (m, ths) t i -> next (m, ths) u j -> ~ conflict i j).
Proof. intros member orderL C. exact (after_main member orderL C). Qed.
Print Assumptions C76_after_main.
Example C76_after_main_ex :
  let gs := [[NewW; BreakerW 5; BreakerW 9]; [NewW; ClassW 5; WidthOf 97]] in
  ready world [] [SetupW] = true /\ forallb (fun g => ready world (all_gives [SetupW]) g && forallb (new_done (all_gives [SetupW])) g) gs = true /\
  option_map (fun s => map (fun th => (said th, dead th)) (snd s))
    (match run world Line.all_classes (repeat 0%nat 54) (init [[SetupW]]) with Some (m, [mkth [] [] false]) => run world Line.all_classes (repeat 0%nat 38 ++ repeat 1%nat 19) (spawn m gs) | _ => None end)
  = Some [([14; 18], false); ([14; 0], false)].
Proof. repeat split; vm_compute; reflexivity. Qed.
