From Coq Require Import List ZArith Lia Bool Permutation.
From Verif Require Import Base PrioQ PrioQProofs Recognizer PubHistory.
Import ListNotations.
Open Scope Z_scope.

Section H.
Context {Sub : Type} (done : Sub -> bool) (mlen : Sub -> Z).
Context {E G : Type} (ev : E -> G -> Sub -> G * Sub * list Z).
Notation hop := (hop Sub E).

(* Only unfinished subscribers are subscribed. *)
Definition fresh_ops (ops : list hop) : Prop := alive done (subscribed ops).

Lemma Inv_empty : Inv done (@empty_pq Sub).
Proof. exists [], []. repeat split; constructor. Qed.

Lemma alive_perm (l l' : list Sub) : Permutation l l' -> alive done l -> alive done l'.
Proof. unfold alive. intros. eapply Permutation_Forall; eauto. Qed.

Lemma alive_filter (l : list Sub) : alive done (filter (fun s => negb (done s)) l).
Proof.
  unfold alive. apply Forall_forall. intros s H. apply filter_In in H. destruct H as [_ H].
  now destruct (done s).
Qed.

(* No history panics, and between calls nobody in the queue is finished. *)
Lemma hrun_ok : forall ops g p, Inv done p -> alive done (q p) -> fresh_ops ops ->
  exists os g' p', hrun done mlen ev ops g p = Some (os, g', p') /\ Inv done p' /\ alive done (q p').
Proof.
  induction ops as [|[s|e] ops IH]; intros g p I A F; simpl.
  - exists [], g, p. auto.
  - unfold fresh_ops in F. simpl in F. inversion F; subst.
    destruct (Push_ok done p s I) as [p1 [E1 [I1 P1]]]. rewrite E1. cbn [obind].
    apply IH; auto. eapply alive_perm; [symmetry; apply P1|]. constructor; auto.
  - destruct (Publish_ok done (ev e) mlen g p I A) as (g1 & lg & tot & rel & p1 & outs & _ & E1 & P1 & _ & I1 & _).
    rewrite E1. cbn [obind].
    destruct (IH g1 p1 I1) as (os & g2 & p2 & E2 & I2 & A2); auto.
    { eapply alive_perm; [symmetry; apply P1|]. apply alive_filter. }
    rewrite E2. cbn [obind]. exists ((lg, tot, rel) :: os), g2, p2. auto.
Qed.

(* ---- conservation of subscribers ---- *)
Context {I : Type} (ident : Sub -> I).
Context (ev_ident : forall e g s g' s' pens, ev e g s = (g', s', pens) -> ident s' = ident s).

Lemma events_ident : forall e l g g' outs, events (ev e) g l = (g', outs) ->
  map ident (map fst outs) = map ident l.
Proof.
  induction l as [|s l IH]; intros g g' outs H; simpl in H.
  - inversion H; subst. reflexivity.
  - destruct (ev e g s) as [[g1 s'] pens] eqn:Ee. destruct (events (ev e) g1 l) as [g2 rest] eqn:Er.
    inversion H; subst. simpl. erewrite ev_ident by eauto. erewrite IH by eauto. reflexivity.
Qed.

Lemma filter_split_perm {A} (f : A -> bool) l : Permutation l (filter (fun x => negb (f x)) l ++ filter f l).
Proof.
  induction l as [|a l IH]; simpl; auto. destruct (f a); simpl.
  - etransitivity; [apply perm_skip, IH|]. apply Permutation_middle.
  - apply perm_skip, IH.
Qed.

(* Every subscriber is, at any time, either still in the queue or was released, exactly once. *)
Lemma hrun_conserves : forall ops g p os g' p', Inv done p -> alive done (q p) -> fresh_ops ops ->
  hrun done mlen ev ops g p = Some (os, g', p') ->
  Permutation (map ident (q p) ++ map ident (subscribed ops)) (map ident (released os) ++ map ident (q p')).
Proof.
  induction ops as [|[s|e] ops IH]; intros g p os g' p' In A F H; simpl in H.
  - inversion H; subst. simpl. now rewrite app_nil_r.
  - unfold fresh_ops in F. simpl in F. inversion F; subst.
    destruct (Push_ok done p s In) as [p1 [E1 [I1 P1]]]. rewrite E1 in H. cbn [obind] in H.
    assert (A1 : alive done (q p1)) by (eapply alive_perm; [symmetry; apply P1|]; constructor; auto).
    specialize (IH _ _ _ _ _ I1 A1 H3 H).
    etransitivity; [|apply IH]. simpl. etransitivity; [symmetry; apply Permutation_middle|].
    change (ident s :: map ident (q p) ++ map ident (subscribed ops)) with (map ident (s :: q p) ++ map ident (subscribed ops)).
    apply Permutation_app_tail. apply Permutation_map. now symmetry.
  - destruct (Publish_ok done (ev e) mlen g p In A) as (g1 & lg & tot & rel & p1 & outs & Ev & E1 & P1 & R1 & I1 & _).
    rewrite E1 in H. cbn [obind] in H.
    assert (A1 : alive done (q p1)) by (eapply alive_perm; [symmetry; apply P1|]; apply alive_filter).
    destruct (hrun done mlen ev ops g1 p1) as [[[os2 g2] p2]|] eqn:E2; [|discriminate]. cbn [obind] in H.
    inversion H; subst. simpl. specialize (IH _ _ _ _ _ I1 A1 F E2).
    rewrite map_app. rewrite <- app_assoc.
    etransitivity; [|apply Permutation_app_head; apply IH].
    rewrite app_assoc. apply Permutation_app_tail.
    rewrite <- map_app.
    transitivity (map ident (map fst outs)).
    + rewrite (events_ident _ _ _ _ _ Ev). apply Permutation_map. apply Permutation_rev.
    + apply Permutation_map. etransitivity; [apply (filter_split_perm done)|].
      etransitivity; [apply Permutation_app_comm|].
      apply Permutation_app; now symmetry.
Qed.
End H.

(* ---- non-communicating subscribers refine the bag ---- *)
Section BagRef.
Context {Sub : Type} (done : Sub -> bool) (mlen : Sub -> Z).
Context {E : Type} (ev1 : E -> Sub -> Sub * list Z).
Definition evu (e : E) (g : unit) (s : Sub) : unit * Sub * list Z :=
  let '(s', pens) := ev1 e s in (tt, s', pens).

Definition out_eq (a b : Z * list Z * list Sub) : Prop :=
  fst a = fst b /\ Permutation (snd a) (snd b).

Lemma events_u e l : events (evu e) tt l = (tt, map (ev1 e) l).
Proof. induction l as [|s l IH]; simpl; auto. unfold evu at 1. destruct (ev1 e s) eqn:X. now rewrite IH. Qed.

Lemma nth_ext_seq (l : list Z) (f : nat -> Z) n : length l = n -> (forall j, nth j l 0 = f j) -> l = map f (seq 0 n).
Proof.
  intros L H. apply nth_ext with (d := 0) (d' := f 0%nat).
  - rewrite map_length, seq_length. auto.
  - intros j Hj. rewrite H. rewrite map_nth. rewrite seq_nth by lia. reflexivity.
Qed.

Lemma bag_refines : forall ops p l, Inv done p -> alive done (q p) -> fresh_ops done ops -> Permutation (q p) l ->
  exists os p', hrun done mlen evu ops tt p = Some (os, tt, p') /\
    Forall2 out_eq os (fst (bag_run done mlen ev1 ops l)) /\
    Permutation (q p') (snd (bag_run done mlen ev1 ops l)).
Proof.
  induction ops as [|[s|e] ops IH]; intros p l I A F P; simpl.
  - exists [], p. repeat split; auto.
  - unfold fresh_ops in F. simpl in F. inversion F; subst.
    destruct (Push_ok done p s I) as [p1 [E1 [I1 P1]]]. rewrite E1. cbn [obind].
    apply IH; auto.
    + eapply alive_perm; [symmetry; apply P1|]. constructor; auto.
    + etransitivity; [apply P1|]. now apply perm_skip.
  - destruct (Publish_ok done (evu e) mlen tt p I A)
      as (g1 & lg & tot & rel & p1 & outs & Ev & E1 & P1 & R1 & I1 & Tn & Tl & Lg).
    rewrite events_u in Ev. injection Ev as Hg Ho. subst g1.
    assert (PO : Permutation outs (map (ev1 e) l)).
    { rewrite <- Ho. apply Permutation_map. etransitivity; [symmetry; apply Permutation_rev|]. auto. }
    rewrite E1. cbn [obind].
    assert (FP : forall (f : Sub -> bool) l1 l2, Permutation l1 l2 -> Permutation (filter f l1) (filter f l2)).
    { intros f l1 l2 Hp. induction Hp; simpl; auto.
      - destruct (f x); auto.
      - destruct (f x), (f y); auto. apply perm_swap.
      - etransitivity; eauto. }
    destruct (IH p1 (filter (fun s => negb (done s)) (map fst (map (ev1 e) l)))) as (os & p2 & E2 & F2 & P2); auto.
    { eapply alive_perm; [symmetry; apply P1|]. apply alive_filter. }
    { etransitivity; [apply P1|]. apply FP. now apply Permutation_map. }
    rewrite E2. cbn [obind]. exists ((lg, tot, rel) :: os), p2.
    destruct (bag_run done mlen ev1 ops (filter (fun s => negb (done s)) (map fst (map (ev1 e) l)))) as [bos bl] eqn:B.
    simpl in *. repeat split; auto. constructor; auto. split.
    + simpl. f_equal.
      * rewrite Lg. apply longest_perm. now apply Permutation_map.
      * assert (PS : Permutation (map snd outs) (map snd (map (ev1 e) l))) by now apply Permutation_map.
        rewrite (nth_ext_seq tot (fun j => sum_at (map snd outs) j) _ Tl Tn).
        rewrite (max_len_perm _ _ PS). apply map_ext. intros j. now apply sum_at_perm.
    + simpl. etransitivity; [apply R1|]. apply FP. now apply Permutation_map.
Qed.
End BagRef.

(* ---- recognisers: one contribution each ---- *)
Section RecHistory.
Context {L G : Type} (step : L -> G -> rec L -> Z -> Z -> G * (rec L * option L)).

(* Recognisers tagged with an identity; the shared state carries a log of contributions. *)
Definition trec : Type := nat * rec L.
Definition tdone (s : trec) : bool := Done (snd s).
Definition tmlen (s : trec) : Z := MatchLength (snd s).
Definition tev (e : Z * Z) (gl : G * list (nat * list Z)) (s : trec) : (G * list (nat * list Z)) * trec * list Z :=
  let '(g', r', pens) := RuneEvent step (fst e) (snd e) (fst gl) (snd s) in
  ((g', match pens with [] => snd gl | _ => (fst s, pens) :: snd gl end), (fst s, r'), pens).

Lemma tev_ident e g s g' s' pens : tev e g s = (g', s', pens) -> fst s' = fst s.
Proof. unfold tev. destruct (RuneEvent _ _ _ _ _) as [[? ?] ?]. intros H. inversion H; auto. Qed.

Lemma RuneEvent_done rune cls g r g' r' pens : RuneEvent step rune cls g r = (g', r', pens) -> pens <> [] -> Done r' = true.
Proof.
  unfold RuneEvent. destruct (match nextStep r with Some _ => _ | None => _ end) as [g1 r1].
  intros H N. inversion H; subst. destruct (Done r') eqn:D; [reflexivity|]. exfalso. apply N. cbn. rewrite ?D. reflexivity.
Qed.

Lemma tevents_log : forall e l g lg g' lg' outs, events (tev e) (g, lg) l = ((g', lg'), outs) ->
  exists new, lg' = new ++ lg /\
    (forall i, In i (map fst new) -> In i (map fst (filter tdone (map fst outs)))) /\
    (NoDup (map fst l) -> NoDup (map fst new)) /\ incl (map fst new) (map fst l).
Proof.
  induction l as [|s l IH]; intros g lg g' lg' outs H; simpl in H.
  - inversion H; subst. exists []. simpl. split; [auto|]. split; [intros ? []|]. split; [intros _; constructor|intros ? []].
  - unfold tev in H at 1. destruct (RuneEvent step (fst e) (snd e) (fst (g, lg)) (snd s)) as [[g1 r'] pens] eqn:R.
    simpl in R. simpl in H.
    set (lg1 := match pens with [] => lg | _ => (fst s, pens) :: lg end) in *.
    destruct (events (tev e) (g1, lg1) l) as [[g2 lg2] rest] eqn:Er.
    inversion H; subst. destruct (IH _ _ _ _ _ Er) as [new [Hn [Hin [Hnd Hincl]]]].
    destruct pens as [|p0 ps].
    + exists new. simpl. split; [auto|]. split; [|split].
      * intros i Hi. specialize (Hin i Hi). unfold tdone at 1. simpl. destruct (Done r'); simpl; auto.
      * intros ND. inversion ND; auto.
      * intros i Hi. right. auto.
    + assert (D : Done r' = true) by (eapply RuneEvent_done; eauto; discriminate).
      exists (new ++ [(fst s, p0 :: ps)]). split; [|split; [|split]].
      * rewrite <- app_assoc. simpl. auto.
      * intros i Hi. simpl. unfold tdone at 1. simpl. rewrite D. simpl.
        rewrite map_app in Hi. apply in_app_or in Hi. destruct Hi as [Hi|[Hi|[]]]; auto.
      * intros ND. simpl in ND. inversion ND; subst. rewrite map_app. simpl.
        apply (Permutation_NoDup (l := fst s :: map fst new)).
        { apply Permutation_cons_append. }
        constructor; auto.
      * intros i Hi. rewrite map_app in Hi. apply in_app_or in Hi. destruct Hi as [Hi|[Hi|[]]]; simpl; auto.
Qed.

Lemma incl_perm_app {A} (a b c : list A) : Permutation a b -> incl b c -> incl a c.
Proof. intros P I x Hx. apply I. eapply Permutation_in; eauto. Qed.

Lemma NoDup_right {A} (a b : list A) : NoDup (a ++ b) -> NoDup b.
Proof. induction a; simpl; auto. intros H; inversion H; auto. Qed.
Lemma NoDup_left {A} (a b : list A) : NoDup (a ++ b) -> NoDup a.
Proof.
  induction a; simpl; intros H; [constructor|]. inversion H; subst. constructor; auto.
  intro X. apply H2. apply in_or_app; auto.
Qed.

Lemma contributes_once_gen : forall ops g lg p os g' lg' p',
  Inv tdone p -> alive tdone (q p) -> fresh_ops tdone ops ->
  NoDup (map fst lg ++ map fst (q p) ++ map fst (subscribed ops)) ->
  hrun tdone tmlen tev ops (g, lg) p = Some (os, (g', lg'), p') ->
  NoDup (map fst lg') /\
  (forall i, In i (map fst lg') -> In i (map fst lg) \/ In i (map fst (released os))).
Proof.
  induction ops as [|[s|e] ops IH]; intros g lg p os g' lg' p' In0 A F ND H; simpl in H.
  - inversion H; subst. split; auto. simpl in ND. rewrite app_nil_r in ND.
    clear -ND. induction (map fst lg'); [constructor|]. simpl in ND. inversion ND; subst. constructor; auto.
    intro X. apply H1. apply in_or_app; auto.
  - unfold fresh_ops in F. simpl in F. inversion F; subst.
    destruct (Push_ok tdone p s In0) as [p1 [E1 [I1 P1]]]. rewrite E1 in H. cbn [obind] in H.
    assert (A1 : alive tdone (q p1)) by (eapply alive_perm; [symmetry; apply P1|]; constructor; auto).
    apply (IH g lg p1 os g' lg' p'); auto.
    eapply Permutation_NoDup; [|exact ND]. apply Permutation_app_head.
    simpl. etransitivity; [symmetry; apply Permutation_middle|].
    change (fst s :: map fst (q p) ++ map fst (subscribed ops)) with (map fst (s :: q p) ++ map fst (subscribed ops)).
    apply Permutation_app_tail. apply Permutation_map. now symmetry.
  - destruct (Publish_ok tdone (tev e) tmlen (g, lg) p In0 A) as ([g1 lg1] & ln & tot & rel & p1 & outs & Ev & E1 & P1 & R1 & I1 & _).
    rewrite E1 in H. cbn [obind] in H.
    assert (A1 : alive tdone (q p1)) by (eapply alive_perm; [symmetry; apply P1|]; apply alive_filter).
    destruct (hrun tdone tmlen tev ops (g1, lg1) p1) as [[[os2 gl2] p2]|] eqn:E2; [|discriminate]. cbn [obind] in H.
    inversion H; subst.
    destruct (tevents_log _ _ _ _ _ _ _ Ev) as [new [Hn [Hin [Hnd Hincl]]]].
    assert (Eid : map fst (map fst outs) = map fst (rev (q p))).
    { apply (events_ident tev fst tev_ident) with (e := e) (g := (g, lg)) (g' := (g1, lg1)). auto. }
    (* parts of the NoDup *)
    assert (NDq : NoDup (map fst (rev (q p)))).
    { eapply Permutation_NoDup; [apply Permutation_map, Permutation_rev|].
      apply NoDup_right in ND. apply NoDup_left in ND. auto. }
    assert (Pq : Permutation (map fst (q p)) (map fst rel ++ map fst (q p1))).
    { transitivity (map fst (map fst outs)).
      - rewrite Eid. apply Permutation_map, Permutation_rev.
      - rewrite <- map_app. apply Permutation_map. etransitivity; [apply (filter_split_perm tdone)|].
        etransitivity; [apply Permutation_app_comm|]. apply Permutation_app; now symmetry. }
    assert (Inew : incl (map fst new) (map fst rel)).
    { intros i Hi. apply Hin in Hi. eapply Permutation_in; [|exact Hi]. apply Permutation_map. now symmetry. }
    assert (ND1 : NoDup (map fst lg1 ++ map fst (q p1) ++ map fst (subscribed ops))).
    { subst lg1. rewrite map_app.
      assert (ND' : NoDup (map fst lg ++ (map fst rel ++ map fst (q p1)) ++ map fst (subscribed ops))).
      { eapply Permutation_NoDup; [|exact ND]. apply Permutation_app_head. simpl. now apply Permutation_app_tail. }
      assert (ND2 : NoDup (map fst rel ++ (map fst lg ++ map fst (q p1) ++ map fst (subscribed ops)))).
      { eapply Permutation_NoDup; [|exact ND']. rewrite <- app_assoc. rewrite !app_assoc.
        apply Permutation_app_tail. apply Permutation_app_tail. apply Permutation_app_comm. }
      clear -ND2 Inew Hnd NDq. rewrite <- app_assoc.
      assert (NDn := Hnd NDq). clear Hnd NDq. revert ND2.
      generalize (map fst lg ++ map fst (q p1) ++ map fst (subscribed ops)) as rest. intros rest ND2.
      clear -NDn ND2 Inew.
      assert (NR : NoDup rest) by (apply NoDup_right in ND2; auto).
      assert (Dis : forall i, In i (map fst rel) -> ~ In i rest).
      { clear -ND2. induction (map fst rel) as [|a r IH]; simpl; intros i Hi; [destruct Hi|].
        simpl in ND2. inversion ND2; subst. destruct Hi as [->|Hi]; auto.
        intro X. apply H1. apply in_or_app; auto. }
      induction (map fst new) as [|a n IH]; simpl; auto.
      inversion NDn; subst. constructor.
      - intro X. apply in_app_or in X. destruct X as [X|X]; [contradiction|].
        apply (Dis a); auto. apply Inew. left; auto.
      - apply IH; auto. intros x Hx. apply Inew. right; auto. }
    destruct (IH _ _ _ _ _ _ _ I1 A1 F ND1 E2) as [N1 N2]. split; auto.
    intros i Hi. destruct (N2 i Hi) as [X|X].
    + subst lg1. rewrite map_app in X. apply in_app_or in X. destruct X as [X|X]; auto.
      right. simpl. rewrite map_app. apply in_or_app. left. auto.
    + right. simpl. rewrite map_app. apply in_or_app. auto.
Qed.

Lemma contributes_once ops g : fresh_ops tdone ops -> NoDup (map fst (subscribed ops)) ->
  exists os g' lg p', hrun tdone tmlen tev ops (g, []) empty_pq = Some (os, (g', lg), p') /\
    NoDup (map fst lg) /\ (forall i, In i (map fst lg) -> In i (map fst (released os))) /\
    NoDup (map fst (released os) ++ map fst (q p')) /\
    Permutation (map fst (subscribed ops)) (map fst (released os) ++ map fst (q p')).
Proof.
  intros F ND.
  destruct (hrun_ok tdone tmlen tev ops (g, []) empty_pq) as (os & [g' lg] & p' & H & _ & _); auto.
  { apply Inv_empty. } { constructor. }
  exists os, g', lg, p'. split; auto.
  destruct (contributes_once_gen ops g [] empty_pq os g' lg p') as [N1 N2]; auto.
  { apply Inv_empty. } { constructor. }
  assert (P := hrun_conserves tdone tmlen tev fst tev_ident ops (g, []) empty_pq os (g', lg) p'
                (Inv_empty _) (Forall_nil _) F H). simpl in P.
  split; auto. split; [|split]; auto.
  - intros i Hi. destruct (N2 i Hi) as [[]|]; auto.
  - eapply Permutation_NoDup; eauto.
Qed.

(* A recogniser rule that keeps its contract: accepting implies a positive match length, aborting
   a zero one, so a finished recogniser reports exactly the penalties it accepted with. *)
Lemma RuneEvent_result rune cls g r l : well_behaved step -> nextStep r = Some l -> 0 <= matchLen r ->
  forall g' r' pens, RuneEvent step rune cls g r = (g', r', pens) ->
  0 <= matchLen r' /\
  ((Done r' = false /\ pens = []) \/
   (Done r' = true /\ matchLen r' = 0 /\ pens = []) \/
   (Done r' = true /\ matchLen r' > 0 /\ pens = penalties r')).
Proof.
  intros W N M g' r' pens. unfold RuneEvent. rewrite N.
  destruct (step l g r rune cls) as [g1 [r1 n]] eqn:S. intros H. inversion H; subst. clear H.
  cbn [matchLen Done nextStep]. destruct (W l g r rune cls _ _ _ M S) as [M1 C]. split; auto.
  destruct n as [l'|]; simpl; auto. right.
  destruct (C eq_refl) as [[r0 X]|[r0 [ps [M0 X]]]]; inversion X; subst; simpl.
  - left. auto.
  - right. destruct (Z.gtb_spec (matchLen r0 + 1) 0); try lia. simpl. auto with zarith.
Qed.
End RecHistory.

(* ---- a delivery log ---- *)
Section Deliveries.
Context {Sub : Type} (done : Sub -> bool) (mlen : Sub -> Z) {G I : Type} (ident : Sub -> I).
Context (ev : G -> Sub -> G * Sub * list Z).
Definition logged (gl : G * list I) (s : Sub) : (G * list I) * Sub * list Z :=
  let '(g', s', pens) := ev (fst gl) s in ((g', ident s :: snd gl), s', pens).

Lemma logged_events : forall l g lg g' lg' outs, events logged (g, lg) l = ((g', lg'), outs) ->
  lg' = rev (map ident l) ++ lg /\ events ev g l = (g', outs).
Proof.
  induction l as [|s l IH]; intros g lg g' lg' outs H; simpl in *.
  - inversion H; subst. auto.
  - unfold logged in H at 1. simpl in H. destruct (ev g s) as [[g1 s'] pens] eqn:X.
    destruct (events logged (g1, ident s :: lg) l) as [[g2 lg2] rest] eqn:R. inversion H; subst.
    destruct (IH _ _ _ _ _ R) as [-> ->]. rewrite <- app_assoc. auto.
Qed.

Lemma deliveries g p : Inv done p -> alive done (q p) ->
  exists g' longest tot rel p',
    Publish done logged mlen (g, []) p = Some ((g', map ident (q p)), longest, tot, rel, p') /\
    Publish done ev mlen g p = Some (g', longest, tot, rel, p').
Proof.
  intros I0 A.
  assert (K : forall n g1 lg1 p1 lo tot,
    match publish_loop done logged mlen n (g1, lg1) p1 lo tot with
    | Some (g', p', lo', tot') => publish_loop done ev mlen n g1 p1 lo tot = Some (fst g', p', lo', tot')
    | None => publish_loop done ev mlen n g1 p1 lo tot = None
    end).
  { induction n as [|n IH]; intros; simpl; auto.
    destruct (zget (q p1) (Z.of_nat n)) as [s|]; cbn [obind]; auto.
    assert (X : logged (g1, lg1) s = let '(g', s', pens) := ev g1 s in ((g', ident s :: lg1), s', pens)) by reflexivity.
    destruct (ev g1 s) as [[g2 s'] pens]. rewrite X.
    destruct (zset (q p1) (Z.of_nat n) s') as [l|]; cbn [obind]; auto.
    destruct (Fix done _ _) as [p2|]; cbn [obind]; auto. apply IH. }
  destruct (Publish_ok done logged mlen (g, []) p I0 A) as ([g' lg'] & lo & tot & rel & p' & outs & Ev & E1 & _).
  destruct (logged_events _ _ _ _ _ _ Ev) as [L _].
  exists g', lo, tot, rel, p'. rewrite E1. split.
  - rewrite L, app_nil_r, <- map_rev, rev_involutive. reflexivity.
  - unfold Publish in *. specialize (K (length (q p)) g [] p 0 []).
    destruct (publish_loop done logged mlen (length (q p)) (g, []) p 0 []) as [[[[g2 p2] lo2] tot2]|]; [|discriminate].
    rewrite K. cbn [obind] in *. destruct (release_loop done (S (length (q p2))) p2 []) as [[rel2 p3]|]; [|discriminate].
    cbn [obind] in *. inversion E1; subst. reflexivity.
Qed.
End Deliveries.
