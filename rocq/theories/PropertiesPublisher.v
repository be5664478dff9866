(* PropertiesPublisher.v -- C13-C17: the rune publisher and its recognisers. *)
From Coq Require Import List ZArith Bool Permutation.
From Verif Require Import Base PrioQ PrioQProofs Recognizer PubHistory PubHistoryProofs.
Import ListNotations.
Open Scope Z_scope.

(* ---- C13 ---- *)
(* One publish: it does not panic, and the calls of RuneEvent -- recorded by [logged] in the order
   they are made, latest first -- are exactly one per subscriber.  Holds for subscribers that
   share state, finish or stay. *)
Theorem C13_each_subscriber_one_event :
  forall (Sub G I : Type) (done : Sub -> bool) (mlen : Sub -> Z) (ident : Sub -> I)
         (ev : G -> Sub -> G * Sub * list Z) (g : G) (p : @pqueue Sub),
    Inv done p -> alive done (q p) ->
    exists g' longest tot rel p',
      Publish done (logged ident ev) mlen (g, []) p = Some ((g', map ident (q p)), longest, tot, rel, p') /\
      Publish done ev mlen g p = Some (g', longest, tot, rel, p').
Proof. intros. now apply deliveries. Qed.
Print Assumptions C13_each_subscriber_one_event.

(* The premises hold in every history of subscribing unfinished subscribers and publishing. *)
Theorem C13_history_never_panics :
  forall (Sub E G : Type) (done : Sub -> bool) (mlen : Sub -> Z) (ev : E -> G -> Sub -> G * Sub * list Z)
         (ops : list (hop Sub E)) (g : G),
    alive done (subscribed ops) ->
    exists os g' p', hrun done mlen ev ops g empty_pq = Some (os, g', p') /\ Inv done p' /\ alive done (q p').
Proof. intros. apply hrun_ok; auto. apply Inv_empty. constructor. Qed.
Print Assumptions C13_history_never_panics.

(* ---- C14 ---- *)
(* In every history each subscriber, identified by a tag that events do not change, is released
   exactly once or still subscribed. *)
Theorem C14_released_exactly_once :
  forall (Sub E G I : Type) (done : Sub -> bool) (mlen : Sub -> Z) (ev : E -> G -> Sub -> G * Sub * list Z)
         (ident : Sub -> I) (ops : list (hop Sub E)) (g : G),
    (forall e g s g' s' pens, ev e g s = (g', s', pens) -> ident s' = ident s) ->
    alive done (subscribed ops) ->
    exists os g' p', hrun done mlen ev ops g empty_pq = Some (os, g', p') /\
      Permutation (map ident (subscribed ops)) (map ident (released os) ++ map ident (q p')).
Proof.
  intros. destruct (hrun_ok done mlen ev ops g empty_pq) as (os & g' & p' & X & _); auto.
  apply Inv_empty. constructor. exists os, g', p'. split; auto.
  exact (hrun_conserves done mlen ev ident H ops g empty_pq os g' p' (Inv_empty _) (Forall_nil _) H0 X).
Qed.
Print Assumptions C14_released_exactly_once.

(* One publish: precisely the finished ones are released, precisely the others are kept. *)
Theorem C14_finished_out_others_stay :
  forall (Sub G : Type) (done : Sub -> bool) (mlen : Sub -> Z) (ev : G -> Sub -> G * Sub * list Z)
         (g : G) (p : @pqueue Sub),
    Inv done p -> alive done (q p) ->
    exists g' longest tot rel p' outs,
      events ev g (rev (q p)) = (g', outs) /\
      Publish done ev mlen g p = Some (g', longest, tot, rel, p') /\
      Permutation (q p') (filter (fun s => negb (done s)) (map fst outs)) /\
      Permutation rel (filter done (map fst outs)).
Proof.
  intros. destruct (Publish_ok done ev mlen g p H H0) as (g' & lo & tot & rel & p' & outs & A & B & C & D & _).
  exists g', lo, tot, rel, p', outs. auto.
Qed.
Print Assumptions C14_finished_out_others_stay.

(* ---- C15 ---- *)
(* Penalties are position-wise sums, the length is the longest contribution, and the first result
   is the longest match of those still unfinished. *)
Theorem C15_penalties_are_sums :
  forall (Sub G : Type) (done : Sub -> bool) (mlen : Sub -> Z) (ev : G -> Sub -> G * Sub * list Z)
         (g : G) (p : @pqueue Sub),
    Inv done p -> alive done (q p) ->
    exists g' longest tot rel p' outs,
      events ev g (rev (q p)) = (g', outs) /\
      Publish done ev mlen g p = Some (g', longest, tot, rel, p') /\
      (forall j, nth j tot 0 = sum_at (map snd outs) j) /\
      length tot = max_len (map snd outs) /\
      longest = longest_of done mlen (map fst outs).
Proof.
  intros. destruct (Publish_ok done ev mlen g p H H0) as (g' & lo & tot & rel & p' & outs & A & B & C & D & E & F & K & L).
  exists g', lo, tot, rel, p', outs. auto.
Qed.
Print Assumptions C15_penalties_are_sums.

(* Whole histories of subscribers without shared state: the publisher is a bag, and results are
   functions of the bag -- so they do not depend on subscription order or queue swaps. *)
Theorem C15_history_refines_bag :
  forall (Sub E : Type) (done : Sub -> bool) (mlen : Sub -> Z) (ev1 : E -> Sub -> Sub * list Z)
         (ops : list (hop Sub E)),
    alive done (subscribed ops) ->
    exists os p', hrun done mlen (evu ev1) ops tt empty_pq = Some (os, tt, p') /\
      Forall2 out_eq os (fst (bag_run done mlen ev1 ops [])) /\
      Permutation (q p') (snd (bag_run done mlen ev1 ops [])).
Proof. intros. apply bag_refines; auto. apply Inv_empty. constructor. Qed.
Print Assumptions C15_history_refines_bag.

Theorem C15_order_independent :
  forall (Sub G : Type) (done : Sub -> bool) (mlen : Sub -> Z) (ev1 : Sub -> Sub * list Z)
         (g : G) (p1 p2 : @pqueue Sub),
    Inv done p1 -> Inv done p2 -> alive done (q p1) -> Permutation (q p1) (q p2) ->
    exists longest tot rel1 rel2 p1' p2',
      Publish done (fun g s => (g, fst (ev1 s), snd (ev1 s))) mlen g p1 = Some (g, longest, tot, rel1, p1') /\
      Publish done (fun g s => (g, fst (ev1 s), snd (ev1 s))) mlen g p2 = Some (g, longest, tot, rel2, p2') /\
      Permutation rel1 rel2 /\ Permutation (q p1') (q p2').
Proof. intros. eapply publish_order; eauto. Qed.
Print Assumptions C15_order_independent.

(* ---- C16 ---- *)
Theorem C16_queue_partition :
  forall (Sub : Type) (done : Sub -> bool) (ops : list (@pop Sub)) rs p,
    prun_ans done ops empty_pq = Some (rs, p) ->
    partitioned done (q p) /\ trace done ops rs (q p).
Proof. intros. destruct (prun_trace done ops p rs H) as [I T]. split; auto. now apply Inv_partitioned. Qed.
Print Assumptions C16_queue_partition.

(* The only way to panic is a Fix of a position that was never in the queue. *)
Theorem C16_no_panic :
  forall (Sub : Type) (done : Sub -> bool) (ops : list (@pop Sub)) o rs p,
    prun_ans done ops empty_pq = Some (rs, p) -> prun_ans done (ops ++ [o]) empty_pq = None ->
    exists i s', o = PSetFix i s' /\ ~ (0 <= i < zlen (q p)).
Proof. intros. eapply prun_panic; eauto. Qed.
Print Assumptions C16_no_panic.

(* ---- C17 ---- *)
(* Through the publisher, over any history and any rules (well-behaved or not): each recogniser
   contributes penalties at most once, and only the ones that were then released did. *)
Theorem C17_contributes_at_most_once :
  forall (L G : Type) (step : L -> G -> rec L -> Z -> Z -> G * (rec L * option L))
         (ops : list (hop (@trec L) (Z * Z))) (g : G),
    alive tdone (subscribed ops) -> NoDup (map fst (subscribed ops)) ->
    exists os g' lg p', hrun tdone tmlen (tev step) ops (g, []) empty_pq = Some (os, (g', lg), p') /\
      NoDup (map fst lg) /\ (forall i, In i (map fst lg) -> In i (map fst (released os))) /\
      NoDup (map fst (released os) ++ map fst (q p')) /\
      Permutation (map fst (subscribed ops)) (map fst (released os) ++ map fst (q p')).
Proof. intros. now apply contributes_once. Qed.
Print Assumptions C17_contributes_at_most_once.

(* Rules that return nil only through DoAbort/DoAccept: abort contributes nothing, acceptance
   exactly the penalties passed to DoAccept, an unfinished match nothing. *)
Theorem C17_accept_or_nothing :
  forall (L G : Type) (step : L -> G -> rec L -> Z -> Z -> G * (rec L * option L)) rune cls g r l,
    well_behaved step -> nextStep r = Some l -> 0 <= matchLen r ->
    forall g' r' pens, RuneEvent step rune cls g r = (g', r', pens) ->
    0 <= matchLen r' /\
    ((Done r' = false /\ pens = []) \/
     (Done r' = true /\ matchLen r' = 0 /\ pens = []) \/
     (Done r' = true /\ matchLen r' > 0 /\ pens = penalties r')).
Proof. intros L G step rune cls g r l W N M. exact (RuneEvent_result step rune cls g r l W N M). Qed.
Print Assumptions C17_accept_or_nothing.

(* A recogniser from the pool starts like a new one, whatever it was used for before. *)
Theorem C17_pool_is_clean :
  forall (L : Type) (r : rec L) c l, NewPooledRecognizer (release r) c l = NewRecognizer c l.
Proof. reflexivity. Qed.
Print Assumptions C17_pool_is_clean.

(* Taken by itself, a finished recogniser does react to a further rune: it returns the penalties
   of its acceptance again.  Only the publisher's release prevents double counting. *)
Theorem C17_finished_recognizer_silent_refuted :
  exists (step : unit -> unit -> rec unit -> Z -> Z -> unit * (rec unit * option unit)) r,
    well_behaved step /\
    (let '(_, r1, p1) := RuneEvent step 97 0 tt r in
     let '(_, r2, p2) := RuneEvent step 98 0 tt r1 in
     Done r1 = true /\ p1 = [0; 10000] /\ p2 = [0; 10000]).
Proof.
  exists (fun _ g r _ _ => (g, DoAccept r [0; 10000])), (NewRecognizer 1 tt). split.
  - intros l g r rune cls g' r' n M H. inversion H; subst. simpl. split; auto with zarith.
    intros _. right. exists r, [0; 10000]. split; auto.
  - vm_compute. auto.
Qed.
Print Assumptions C17_finished_recognizer_silent_refuted.

(* ---- non-vacuity: a history with three recognisers; the label counts the runes to go ---- *)
Definition ex_step (l : nat) (g : Z) (r : rec nat) (rune cls : Z) : Z * (rec nat * option nat) :=
  (g + 1, match l with
          | O => if cls =? 7 then DoAbort r else DoAccept r [rune; cls]
          | S l' => Proceed r l'
          end).
Example C13_C17_nonvacuous :
  exists os g lg p,
    hrun tdone tmlen (tev ex_step)
      [HSub (1%nat, NewRecognizer 5 2%nat); HSub (2%nat, NewRecognizer 5 0%nat); HPub (10, 1);
       HSub (3%nat, NewRecognizer 5 1%nat); HPub (20, 2); HPub (30, 3); HSub (4%nat, NewRecognizer 5 9%nat); HPub (40, 4)]
      (0, []) empty_pq = Some (os, (g, lg), p) /\
    map (fun o => fst o) os = [(1, [10; 1]); (2, []); (0, [60; 6]); (1, [])] /\
    g = 7 /\ lg = [(1%nat, [30; 3]); (3%nat, [30; 3]); (2%nat, [10; 1])].
Proof. vm_compute. eexists _, _, _, _. repeat split. Qed.

Example C16_nonvacuous :
  exists rs p,
    prun_ans (fun n => n <? 0) [PPush 1; PPush 2; PPush (-3); PPush 4; PSetFix 1 (-2); PPopDone; PPopDone; PPopDone; PPop] empty_pq
      = Some (rs, p) /\ q p = [1] /\ rs = [None; None; None; None; None; Some (-3); Some (-2); None; Some 4].
Proof. vm_compute. eexists _, _. repeat split. Qed.
