(* SegSim.v -- the segmenter over the ring buffer behaves like the segmenter over lists. *)
From Coq Require Import List ZArith Lia Bool.
From Verif Require Import Base RuneWrite Segmenter.
From Verif Require Deque DequeProofs.
Import ListNotations.
Open Scope Z_scope.

Notation DQ := (@Deque.deque atom).
Notation Rep := (@DequeProofs.Rep atom).
Notation OD := deque_ops.
Notation OL := list_ops.

Definition rrel {X Y} (R : X -> Y -> Prop) (x : res X) (y : res Y) : Prop :=
  match x, y with
  | Ok a, Ok b => R a b
  | Panic, Panic => True
  | NoFuel, NoFuel => True
  | _, _ => False
  end.

Lemma rrel_bind {X Y X' Y'} (R : X -> Y -> Prop) (R' : X' -> Y' -> Prop) x y f g :
  rrel R x y -> (forall a b, R a b -> rrel R' (f a) (g b)) -> rrel R' (rbind x f) (rbind y g).
Proof. destruct x, y; simpl; auto; try contradiction. Qed.

Section Sim.
Context {B : Type} (bstep : B -> Z -> B * Z * list Z).
Notation SD := (state DQ B).
Notation SL := (state (list atom) B).

Definition orel (x : option DQ) (y : option (list atom)) : Prop :=
  match x, y with Some d, Some l => Rep d l | None, None => True | _, _ => False end.

(* States that agree in everything but the representation of the queue. *)
Definition ssim (s : SD) (t : SL) : Prop :=
  orel (dq s) (dq t) /\ rdr s = rdr t /\ brks s = brks t /\ rbuf s = rbuf t /\ lastp s = lastp t /\
  pos s = pos t /\ boz s = boz t /\ lam s = lam t /\ bpos s = bpos t /\ atEOF s = atEOF t /\
  inUse s = inUse t /\ err s = err t.

Lemma ssim_eta s t : ssim s t ->
  exists l, orel (dq s) l /\ t = mkS l (rdr s) (brks s) (rbuf s) (lastp s) (pos s) (boz s) (lam s) (bpos s) (atEOF s) (inUse s) (err s).
Proof.
  destruct t. unfold ssim; simpl. intros (H & -> & -> & -> & -> & -> & -> & -> & -> & -> & -> & ->).
  eexists; split; eauto.
Qed.

Lemma ssim_mk d l a b c e f g h i j k m : orel d l ->
  ssim (mkS d a b c e f g h i j k m) (mkS l a b c e f g h i j k m).
Proof. unfold ssim; simpl. intuition. Qed.

Lemma sim_len d l : Rep d l -> q_len OD d = q_len OL l.
Proof. intros H. simpl. unfold Deque.Len. now apply DequeProofs.rep_len. Qed.

Lemma sim_push d l a : Rep d l -> rrel Rep (lift (q_push OD d a)) (lift (q_push OL l a)).
Proof.
  intros H. simpl. destruct (DequeProofs.PushBack_ok zeroAtom d l a H) as [q' [-> R]]. simpl. auto.
Qed.

Lemma sim_pop d l : Rep d l ->
  rrel (fun x y => fst x = fst y /\ Rep (snd x) (snd y)) (lift (q_pop OD d)) (lift (q_pop OL l)).
Proof.
  intros H. simpl. destruct l as [|a l].
  - unfold Deque.PopFront. rewrite (DequeProofs.rep_len _ _ H). simpl. auto.
  - destruct (DequeProofs.PopFront_ok zeroAtom d a l H) as [q' [-> R]]. simpl. auto.
Qed.

Lemma sim_at d l i : Rep d l -> q_at OD d i = q_at OL l i.
Proof. intros H. simpl. now apply DequeProofs.At_ok. Qed.

Lemma sim_set d l i a : Rep d l -> rrel Rep (lift (q_set OD d i a)) (lift (q_set OL l i a)).
Proof.
  intros H. simpl. pose proof (DequeProofs.SetAt_ok d l i a H) as S.
  destruct (zset l i a); [destruct S as [q' [-> R]]|rewrite S]; simpl; auto.
Qed.

Lemma sim_clear d l : Rep d l -> rrel Rep (lift (q_clear OD d)) (lift (q_clear OL l)).
Proof. intros H. simpl. destruct (DequeProofs.Clear_ok zeroAtom d l H) as [q' [-> R]]. simpl. auto. Qed.

Lemma sim_last d l a : Rep d (l ++ [a]) -> q_last OD d = Some a.
Proof. intros H. simpl. eapply DequeProofs.LastAtom_ok; eauto. Qed.

Lemma list_last l a : q_last OL (l ++ [a]) = Some a.
Proof.
  simpl. rewrite zlen_app. change (zlen [a]) with 1. replace (zlen l + 1 - 1) with (zlen l) by lia.
  rewrite zget_app. rewrite Z.ltb_irrefl, Z.sub_diag. reflexivity.
Qed.

Lemma sim_find_loop test d l to_ bd : Rep d l -> forall n i,
  find_loop OD n test d i to_ bd = find_loop OL n test l i to_ bd.
Proof.
  intros H. induction n as [|n IH]; intros i; simpl; auto.
  destruct (_ && _); auto. rewrite (DequeProofs.At_ok _ _ i H). destruct (zget l i); simpl; auto.
  destruct (test a); auto.
Qed.

Lemma sim_find s t d l to_ bd : ssim s t -> Rep d l ->
  findBreakOpportunity OD s d to_ bd = findBreakOpportunity OL t l to_ bd.
Proof.
  intros S H. destruct (ssim_eta _ _ S) as [x [_ ->]]. unfold findBreakOpportunity. simpl.
  destruct (_ || _); auto. rewrite (sim_find_loop _ d l to_ bd H). auto.
Qed.

Lemma sim_add d l sel i p : Rep d l -> rrel Rep (add_at OD d sel i p) (add_at OL l sel i p).
Proof.
  intros H. unfold add_at. rewrite (sim_at _ _ _ H). destruct (lift (q_at OL l i)) as [a| |]; simpl; auto.
  destruct sel; now apply sim_set.
Qed.

Lemma sim_insert_loop sel ps : forall d l i, Rep d l ->
  rrel Rep (insert_loop OD d sel i ps) (insert_loop OL l sel i ps).
Proof.
  induction ps as [|p ps IH]; intros d l i H; simpl; auto.
  eapply rrel_bind; [now apply sim_add|]. intros; auto.
Qed.

Lemma sim_insert sel ps d l : Rep d l -> rrel Rep (insertPenalties OD d sel ps) (insertPenalties OL l sel ps).
Proof. intros H. unfold insertPenalties. rewrite (sim_len _ _ H). now apply sim_insert_loop. Qed.

Lemma sim_feed : forall bs sel r lm d l, Rep d l ->
  rrel (fun x y => fst x = fst y /\ Rep (snd x) (snd y)) (feed OD bstep sel bs r lm d) (feed OL bstep sel bs r lm l).
Proof.
  induction bs as [|b bs IH]; intros sel r lm d l H; simpl; auto.
  destruct (bstep b r) as [[b' lb] ps].
  eapply rrel_bind; [now apply sim_insert|]. intros d' l' H'.
  eapply rrel_bind; [now apply IH|]. intros [[bs1 lm1] d1] [[bs2 lm2] l1] [E R]. simpl in *.
  inversion E; subst. auto.
Qed.

Definition prel (x : SD * DQ * option error) (y : SL * list atom * option error) : Prop :=
  ssim (fst (fst x)) (fst (fst y)) /\ Rep (snd (fst x)) (snd (fst y)) /\ snd x = snd y.

Lemma sim_readRune s t d l : ssim s t -> Rep d l ->
  rrel (fun x y => prel x y /\ (snd x = None -> exists l' a, snd (fst y) = l' ++ [a]))
       (readRune OD s d) (readRune OL t l).
Proof.
  intros S H. destruct (ssim_eta _ _ S) as [x [Ho ->]]. unfold readRune. cbn [atEOF rdr].
  destruct (atEOF s) eqn:E0.
  - simpl. split; [|discriminate]. split; [|split; auto]. rewrite <- E0. exact S || (unfold ssim; simpl; intuition congruence).
  - destruct (rdr s) as [[its f]|]; [|simpl; auto]. cbn [items fin].
    destruct its as [|[r sz] rest].
    + destruct f.
      * destruct (DequeProofs.PushBack_ok zeroAtom d l eotAtom H) as [q' [E R]].
        simpl. rewrite E. simpl. split; [|eauto]. split; [|split; auto]. apply ssim_mk; auto.
      * simpl. split; [|discriminate]. split; [|split; auto]. apply ssim_mk; auto.
      * simpl. split; [|discriminate]. split; [|split; auto]. apply ssim_mk; auto.
      * simpl. split; [|discriminate]. split; [|split; auto]. apply ssim_mk; auto.
    + destruct (DequeProofs.PushBack_ok zeroAtom d l (mkatom r 0 0) H) as [q' [E R]].
      simpl. rewrite E. simpl. split; [|eauto]. split; [|split; auto]. apply ssim_mk; auto.
Qed.

Lemma sim_readEnough : forall fuel s t d l bound, ssim s t -> Rep d l ->
  rrel prel (readEnough OD bstep fuel s d bound) (readEnough OL bstep fuel t l bound).
Proof.
  induction fuel as [|f IH]; intros s t d l bound S H.
  - destruct (ssim_eta _ _ S) as [x [Ho E]]. simpl. rewrite E at 1. cbn [bpos].
    destruct (bpos s <? 0); simpl; auto. split; auto.
  - simpl. assert (Eb : bpos t = bpos s) by (symmetry; apply S).
    assert (Ep : pos t = pos s) by (symmetry; apply S). assert (El : lam t = lam s) by (symmetry; apply S).
    rewrite Eb, Ep, El. destruct (bpos s <? 0); [|simpl; split; auto].
    destruct (pos s - lam s >? bound); [simpl; split; auto|].
    eapply rrel_bind; [now apply sim_readRune|].
    intros [[s1 d1] e] [[t1 l1] e'] [[S1 [R1 Ee]] Hl]. simpl in *. subst e'.
    destruct e as [e|]; [simpl; split; auto|].
    destruct (Hl eq_refl) as [l' [a ->]].
    rewrite (sim_last _ _ _ R1 : Deque.LastAtom d1 = Some a).
    pose proof (list_last l' a) as Q1. simpl in Q1. rewrite Q1. cbn [lift rbind].
    rewrite (sim_len _ _ R1 : Deque.Len d1 = _).
    destruct (ssim_eta _ _ S1) as [x1 [Ho1 ->]]. cbn [brks].
    eapply rrel_bind; [now apply sim_feed|].
    intros [[bs lm] d2] [[bs' lm'] l2] [E2 R2]. simpl in E2, R2. inversion E2; subst bs' lm'.
    rewrite (sim_find s1 _ d2 l2 _ _ S1 R2). cbn [pos].
    destruct (findBreakOpportunity OL _ l2 _ _) as [bp| |]; [|simpl; auto|simpl; auto]. cbn [rbind].
    apply IH; auto. cbn. apply ssim_mk; auto.
Qed.

Lemma sim_pop_loop : forall n d l w lp, Rep d l ->
  rrel (fun x y => snd (fst x) = snd (fst y) /\ snd x = snd y /\ Rep (fst (fst x)) (fst (fst y)))
    (pop_loop OD n d w lp) (pop_loop OL n l w lp).
Proof.
  induction n as [|n IH]; intros d l w lp H; cbn [pop_loop]; [simpl; auto|].
  eapply rrel_bind; [now apply sim_pop|]. intros [a d'] [b l'] [E R]. simpl in E, R. subst b. now apply IH.
Qed.

Definition qrel (x : SD * DQ) (y : SL * list atom) : Prop := ssim (fst x) (fst y) /\ Rep (snd x) (snd y).

Lemma sim_front s t d l bound : ssim s t -> Rep d l ->
  rrel qrel (getFrontSegment OD s d bound) (getFrontSegment OL t l bound).
Proof.
  intros S H. unfold getFrontSegment. rewrite (sim_len _ _ H).
  destruct (ssim_eta _ _ S) as [x [Ho E]]. rewrite E. cbn [rbuf bpos pos lam rdr brks lastp boz atEOF inUse err dq].
  destruct (_ <? 0); [simpl; auto|]. set (ll := if _ >=? _ then _ else _).
  destruct (ll <? 0). { simpl. split; auto. apply ssim_mk; auto. }
  eapply rrel_bind; [now apply sim_pop_loop|].
  intros [[d' w'] lp] [[l' w2] lp2] [E1 [E2 R]]. simpl in E1, E2, R. subst w2 lp2.
  rewrite <- E. rewrite (sim_find s t d' l' _ _ S R). rewrite !(sim_len _ _ R).
  destruct (findBreakOpportunity OL t l' _ _) as [bp| |]; simpl; auto. split; auto. apply ssim_mk; auto.
Qed.

Definition brel (x : bool * SD) (y : bool * SL) : Prop := fst x = fst y /\ ssim (snd x) (snd y).

Lemma sim_next bound s t : ssim s t -> rrel brel (next OD bstep bound s) (next OL bstep bound t).
Proof.
  intros S0. unfold next.
  assert (S1 : ssim (set_inUse (match rdr s with None => setErr ErrNotInitialized s | Some _ => s end))
                    (set_inUse (match rdr t with None => setErr ErrNotInitialized t | Some _ => t end))).
  { destruct (ssim_eta _ _ S0) as [x [Ho ->]]. cbn [rdr]. destruct (rdr s) eqn:Er; unfold set_inUse, setErr; simpl; rewrite ?Er; apply ssim_mk; auto. }
  set (s' := set_inUse _) in S1 |- *. set (t' := set_inUse (match rdr t with _ => _ end)) in S1 |- *.
  clearbody s' t'. clear S0 s t. rename s' into s, t' into t, S1 into S.
  destruct (ssim_eta _ _ S) as [x [Ho E]].
  assert (Ee : atEOF t = atEOF s) by (rewrite E; auto). assert (Eb : bpos t = bpos s) by (rewrite E; auto).
  assert (Ep : pos t = pos s) by (rewrite E; auto). assert (El : lam t = lam s) by (rewrite E; auto).
  assert (Er : rbuf t = rbuf s) by (rewrite E; auto). assert (Ed : dq t = x) by (rewrite E; auto).
  assert (Ef : read_fuel t = read_fuel s) by (rewrite E; auto).
  rewrite Ee, Eb, Ep, El, Er, Ed, Ef.
  destruct (negb (atEOF s)).
  - destruct (bpos s <? 0) eqn:Hb.
    + destruct (dq s) as [d|] eqn:Hd, x as [l|]; try contradiction.
      * eapply rrel_bind; [now apply sim_readEnough|].
        intros [[s1 d1] e] [[t1 l1] e'] [S1 [R1 E1]]. simpl in S1, R1, E1. subst e'.
        destruct (ssim_eta _ _ S1) as [x1 [Ho1 Et1]]. rewrite Et1.
        assert (SS : ssim (set_dq d1 s1) (set_dq l1 t1)).
        { rewrite Et1. unfold set_dq; simpl. apply ssim_mk; auto. }
        destruct e as [[]|]; unfold set_dq, set_rbuf, setErr in *; simpl;
          try (split; auto; apply ssim_mk; auto);
          rewrite (sim_len _ _ R1 : Deque.Len d1 = zlen l1); cbn [q_len OL];
          (destruct (_ >? bound); [simpl; split; auto; apply ssim_mk; auto|];
           destruct (bpos s1 <? 0); [simpl; split; auto; apply ssim_mk; auto|];
           eapply rrel_bind; [apply sim_front; auto; apply ssim_mk; auto|];
           intros [s2 d2] [t2 l2] [S2 R2]; simpl in S2, R2;
           destruct (ssim_eta _ _ S2) as [x2 [Ho2 Et2]]; rewrite Et2; simpl; split; auto; apply ssim_mk; auto).
      * destruct (_ >? bound); simpl; auto. split; auto. rewrite E. unfold set_rbuf, setErr; simpl. apply ssim_mk; auto.
        rewrite Hd; auto.
    + destruct (dq s) as [d|] eqn:Hd, x as [l|]; try contradiction; [|simpl; auto].
      rewrite (sim_len _ _ Ho). destruct (_ >? bound); [simpl; split; auto|].
      eapply rrel_bind; [apply sim_front; eauto|].
      intros [s2 d2] [t2 l2] [S2 R2]; simpl in S2, R2.
      destruct (ssim_eta _ _ S2) as [x2 [Ho2 Et2]]. rewrite Et2. simpl. split; auto. apply ssim_mk; auto.
  - destruct (bpos s <? 0) eqn:Hb.
    + simpl. split; auto. rewrite E. unfold set_rbuf; simpl. apply ssim_mk; auto.
    + destruct (dq s) as [d|] eqn:Hd, x as [l|]; try contradiction; [|simpl; auto].
      eapply rrel_bind; [apply sim_front; eauto|].
      intros [s2 d2] [t2 l2] [S2 R2]; simpl in S2, R2.
      destruct (ssim_eta _ _ S2) as [x2 [Ho2 Et2]]. rewrite Et2. simpl. split; auto. apply ssim_mk; auto.
Qed.

Lemma sim_init s t : ssim s t -> rrel ssim (init OD s) (init OL t).
Proof.
  intros S. destruct (ssim_eta _ _ S) as [x [Ho ->]]. unfold init. cbn [dq].
  destruct (dq s) as [d|] eqn:Hd, x as [l|]; try contradiction.
  - eapply rrel_bind; [apply sim_clear; eauto|]. intros d' l' R. simpl. apply ssim_mk; auto.
  - simpl. apply ssim_mk. simpl. apply DequeProofs.rep_empty.
Qed.

Lemma sim_Init rd s t : ssim s t -> rrel ssim (Init OD rd s) (Init OL rd t).
Proof.
  intros S. destruct (ssim_eta _ _ S) as [x [Ho ->]]. apply sim_init. simpl. apply ssim_mk; auto.
Qed.
Lemma sim_InitFromSlice b s t : ssim s t -> rrel ssim (InitFromSlice OD b s) (InitFromSlice OL b t).
Proof.
  intros S. destruct (ssim_eta _ _ S) as [x [Ho ->]]. apply sim_init. simpl. apply ssim_mk; auto.
Qed.
Lemma sim_new bs : ssim (NewSegmenter bs) (NewSegmenter bs).
Proof. apply ssim_mk. simpl. auto. Qed.
Lemma sim_boz b0 b1 s t : ssim s t -> ssim (BreakOnZero b0 b1 s) (BreakOnZero b0 b1 t).
Proof. intros S. destruct (ssim_eta _ _ S) as [x [Ho ->]]. apply ssim_mk; auto. Qed.
Lemma sim_RuneBuffer b c m s t : ssim s t -> rrel ssim (RuneBuffer b c m s) (RuneBuffer b c m t).
Proof.
  intros S. destruct (ssim_eta _ _ S) as [x [Ho E]]. unfold RuneBuffer. rewrite E at 1. cbn [inUse].
  destruct (inUse s); simpl; auto. destruct (zlen b >? 0); simpl; auto. rewrite E; simpl. apply ssim_mk; auto.
Qed.

Definition orl (x : option (list Z * (Z * Z)) * SD) (y : option (list Z * (Z * Z)) * SL) : Prop :=
  fst x = fst y /\ ssim (snd x) (snd y).

Lemma sim_exec c s t : ssim s t -> rrel orl (exec OD bstep c s) (exec OL bstep c t).
Proof.
  intros S. unfold exec. eapply rrel_bind; [now apply sim_next|].
  intros [b s'] [b' t'] [E S']. simpl in E, S'. subst b'. destruct b; [|simpl; split; auto].
  destruct (ssim_eta _ _ S') as [x [Ho Et]]. unfold Text, Penalties. rewrite Et at 1. cbn [rbuf].
  destruct (lift (Runes (rbuf s'))); simpl; auto. split; auto. simpl. rewrite Et. auto.
Qed.

Lemma sim_run : forall cs s t, ssim s t ->
  rrel (fun x y => fst x = fst y /\ ssim (snd x) (snd y)) (run OD bstep cs s) (run OL bstep cs t).
Proof.
  induction cs as [|c cs IH]; intros s t S; cbn [run]; [simpl; auto|].
  eapply rrel_bind; [now apply sim_exec|]. intros [o s1] [o' t1] [E S1]. simpl in E, S1. subst o'.
  eapply rrel_bind; [now apply IH|]. intros [os s2] [os' t2] [E S2]. simpl in E, S2. subst os'. simpl. auto.
Qed.

Lemma sim_loop : forall n s t, ssim s t ->
  rrel (fun x y => fst x = fst y /\ ssim (snd x) (snd y)) (loop OD bstep n s) (loop OL bstep n t).
Proof.
  induction n as [|n IH]; intros s t S; cbn [loop]; [simpl; auto|].
  eapply rrel_bind; [now apply sim_exec|]. intros [o s1] [o' t1] [E S1]. simpl in E, S1. subst o'.
  destruct o as [x|]; [|simpl; auto].
  eapply rrel_bind; [now apply IH|]. intros [[xs f] s2] [[xs' f'] t2] [E S2]. simpl in E, S2. inversion E; subst. simpl. auto.
Qed.
End Sim.
