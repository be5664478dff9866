(* PoolRace.v -- which objects a step of a breaker looks at and changes, and that breakers at work at the same time share none. *)
From Coq Require Import List ZArith Lia Bool Permutation.
From Verif Require Import Base PrioQ PrioQProofs Recognizer Pool PoolProofs PoolMain.
Import ListNotations.
Open Scope Z_scope.

(* ---- the queue asks only its own subscribers whether they are done ---- *)
Section Ext.
Context {A : Type} (d d' : A -> bool).
Lemma zget_In (l : list A) i a : zget l i = Some a -> In a l.
Proof. unfold zget. destruct (_ && _); [|discriminate]. apply nth_error_In. Qed.
Lemma bubbleUp_ext p i : (forall a, In a (q p) -> d a = d' a) -> bubbleUp d p i = bubbleUp d' p i.
Proof.
  intros E. unfold bubbleUp. match goal with |- obind ?e _ = _ => destruct e as [l|] eqn:O end; [|reflexivity]. cbn [obind].
  assert (P : Permutation l (q p)).
  { destruct (_ <? _); [destruct (_ <? _); [|destruct (_ <? _)]|]; try (injection O as <-; reflexivity); eapply swap_perm; eauto. }
  destruct (_ >? _); [|reflexivity]. destruct (zget l (gap p - 1)) as [s|] eqn:Z; [|reflexivity]. cbn [obind]. rewrite (E s); [reflexivity|]. apply (Permutation_in _ P). eapply zget_In; eauto.
Qed.
Lemma bubbleDown_ext p i : (forall a, In a (q p) -> d a = d' a) -> bubbleDown d p i = bubbleDown d' p i.
Proof.
  intros E. unfold bubbleDown. match goal with |- obind ?e _ = _ => destruct e as [l|] eqn:O end; [|reflexivity]. cbn [obind].
  assert (P : Permutation l (q p)).
  { destruct (_ >=? _); [destruct (_ <? _)|]; try (injection O as <-; reflexivity); eapply swap_perm; eauto. }
  destruct (gap p <? zlen l); [|reflexivity]. destruct (zget l (gap p)) as [s|] eqn:Z; [|reflexivity]. cbn [obind]. rewrite (E s); [reflexivity|]. apply (Permutation_in _ P). eapply zget_In; eauto.
Qed.
Lemma check_ext p : (forall a, In a (q p) -> d a = d' a) -> check d p = check d' p.
Proof.
  intros E. unfold check. replace (forallb (fun s => negb (d s)) (firstn (Z.to_nat (gap p)) (q p))) with (forallb (fun s => negb (d' s)) (firstn (Z.to_nat (gap p)) (q p))); [reflexivity|].
  assert (K : forall l, (forall a, In a l -> d a = d' a) -> forallb (fun s => negb (d' s)) l = forallb (fun s => negb (d s)) l).
  { induction l as [|x l IH]; intros H; cbn; auto. rewrite IH by (intros a I; apply H; now right). rewrite (H x) by now left. reflexivity. }
  apply K. intros a I. apply E. rewrite <- (firstn_skipn (Z.to_nat (gap p)) (q p)). apply in_app_iff. now left.
Qed.
Lemma Fix_ext p i : (forall a, In a (q p) -> d a = d' a) -> Fix d p i = Fix d' p i.
Proof.
  intros E. unfold Fix. destruct (_ <? _); [|reflexivity]. destruct (zget (q p) i) as [s|] eqn:Z; [|reflexivity]. cbn [obind]. rewrite <- (E s) by (eapply zget_In; eauto).
  destruct (d s).
  - rewrite <- bubbleUp_ext by auto. destruct (bubbleUp d p i) as [p'|] eqn:B; [|reflexivity]. cbn [obind]. apply check_ext. intros a I. apply E. eapply Permutation_in; [eapply bubbleUp_perm; eauto|auto].
  - rewrite <- bubbleDown_ext by auto. destruct (bubbleDown d p i) as [p'|] eqn:B; [|reflexivity]. cbn [obind]. apply check_ext. intros a I. apply E. eapply Permutation_in; [eapply bubbleDown_perm; eauto|auto].
Qed.
Lemma Push_ext p s : (forall a, In a (s :: q p) -> d a = d' a) -> Push d p s = Push d' p s.
Proof.
  intros E. unfold Push. rewrite <- (E s) by now left. destruct (d s); [reflexivity|]. apply bubbleDown_ext. cbn [q]. intros a I. apply E. apply in_app_iff in I. destruct I as [I|[->|[]]]; [now right|now left].
Qed.
Lemma PopDone_ext p : (forall a, In a (q p) -> d a = d' a) -> PopDone d p = PopDone d' p.
Proof.
  intros E. unfold PopDone. destruct (pLen p =? 0) eqn:L; [reflexivity|]. unfold pTop. rewrite L. destruct (zget (q p) (pLen p - 1)) as [s|] eqn:Z; [|reflexivity]. cbn [obind]. rewrite <- (E s) by (eapply zget_In; eauto). reflexivity.
Qed.
End Ext.

Section Race.
Context {L G : Type} (step : L -> G -> rec L -> Z -> Z -> G * (rec L * option L)).
Context (begin : nat -> Z -> G -> G * Z * Z * list L) (finish : nat -> Z -> G -> Z -> list Z -> G * Z * list Z).
Notation world := (world L G).
Notation pstep := (pstep step begin finish).

(* The step takes an object from the pool, or gives one back. *)
Definition borrows (w : world) (b : nat) : bool := match at_ (breakers w b) with Starting _ _ _ (_ :: _) => true | _ => false end.
Definition returns (w : world) (b : nat) : bool := match at_ (breakers w b) with Releasing _ _ => true | _ => false end.
(* The objects a step of breaker b may look at or change: those in its queue, and the one from the pool. *)
Definition touches (b k : nat) (w : world) : list nat :=
  match at_ (breakers w b) with
  | Starting _ _ _ (_ :: _) => fst (fst (borrow k w)) :: held w b
  | Publishing _ _ (S _) | Releasing _ _ => held w b
  | _ => []
  end.
Definition same_on (l : list nat) (h h' : nat -> cell L) : Prop := forall a, In a l -> h a = h' a.
Definition same_pool (w w' : world) : Prop := idle w = idle w' /\ fresh w = fresh w' /\ gone w = gone w'.

(* A step changes no other object, no other breaker, and the pool only if it borrows or returns an object. *)
Lemma writes b k w w' : ok w -> pstep b k w = Some w' ->
  (forall a, ~ In a (touches b k w) -> heap w' a = heap w a) /\
  (forall c, c <> b -> breakers w' c = breakers w c) /\
  (borrows w b = false -> returns w b = false -> same_pool w' w).
Proof.
  intros O. unfold Pool.pstep, touches, borrows, returns, same_pool. set (x := breakers w b).
  assert (PUT : forall y w', Some (mkw (heap w) (idle w) (fresh w) (gone w) (set_at (breakers w) b y)) = Some w' -> forall l : list nat,
    (forall a, ~ In a l -> heap w' a = heap w a) /\ (forall c, c <> b -> breakers w' c = breakers w c) /\ (idle w' = idle w /\ fresh w' = fresh w /\ gone w' = gone w)).
  { intros y v E l. injection E as <-. cbn [heap breakers idle fresh gone]. split; auto. split; auto. intros c N. now rewrite set_other. }
  destruct (at_ x) as [|r c e [|l ls]|r c [|i]|r c|] eqn:AT.
  - destruct (text x) as [|r t]; [discriminate|]. destruct (begin b r (state x)) as [[[g c] e] ls]. intros E. destruct (PUT _ _ E []) as (P1 & P2 & P3). auto.
  - intros E. destruct (PUT _ _ E []) as (P1 & P2 & P3). auto.
  - destruct (borrow k w) as [[a idl] fr]. intros E. injection E as <-. cbn [heap breakers fst]. split; [|split; [|discriminate]].
    + intros z N. rewrite set_other; auto. intros ->. apply N. now left.
    + intros d N. now rewrite set_other.
  - intros E. destruct (PUT _ _ E []) as (P1 & P2 & P3). auto.
  - destruct (zget (q (queue x)) (Z.of_nat i)) as [a|] eqn:Ga; [|intros E; destruct (PUT _ _ E (held w b)) as (P1 & P2 & P3); auto].
    assert (Ia : In a (held w b)) by (eapply zget_In; eauto).
    rewrite (ok_user w O b a Ia). fold x. cbn zeta. destruct (RuneEvent step r c (state x) (what (heap w a))) as [[g s] pens]. intros E. injection E as <-. cbn [heap breakers idle fresh gone].
    split; [|split; [|auto]].
    + intros z N. rewrite set_other; auto. intros ->. contradiction.
    + intros d N. now rewrite !set_other.
  - destruct (PopDone (done_in (heap w)) (queue x)) as [[[a|] p]|] eqn:P.
    + pose proof (PopDone_perm _ _ _ _ P) as [Q _]. destruct (if Nat.eqb k 0 then _ else _) as [idl gn]. intros E. injection E as <-. cbn [heap breakers]. split; [|split; [|discriminate]].
      * intros z N. rewrite set_other; auto. intros ->. apply N. unfold held. fold x. rewrite Q. apply in_app_iff. right. now left.
      * intros d N. now rewrite set_other.
    + destruct (finish b c (state x) (longest x) (total x)) as [[g lam] ps]. intros E. destruct (PUT _ _ E (held w b)) as (P1 & P2 & P3). split; [auto|]. split; [auto|discriminate].
    + intros E. destruct (PUT _ _ E (held w b)) as (P1 & P2 & P3). split; [auto|]. split; [auto|discriminate].
  - discriminate.
Qed.

(* A step depends on nothing else: on the breaker, the objects touched, and the pool. *)
Lemma reads b k w w' v : ok w -> pstep b k w = Some w' ->
  breakers v b = breakers w b -> same_pool v w -> same_on (touches b k w) (heap v) (heap w) ->
  exists v', pstep b k v = Some v' /\ breakers v' b = breakers w' b /\ same_pool v' w' /\ same_on (touches b k w) (heap v') (heap w').
Proof.
  intros O. unfold Pool.pstep, touches. intros E BV (PI & PF & PG). rewrite BV. revert E. set (x := breakers w b).
  assert (PUT : forall y w' l, Some (mkw (heap w) (idle w) (fresh w) (gone w) (set_at (breakers w) b y)) = Some w' -> same_on l (heap v) (heap w) ->
    exists v', Some (mkw (heap v) (idle v) (fresh v) (gone v) (set_at (breakers v) b y)) = Some v' /\ breakers v' b = breakers w' b /\ same_pool v' w' /\ same_on l (heap v') (heap w')).
  { intros y u l E S. injection E as <-. eexists. split; [reflexivity|]. cbn [breakers heap idle fresh gone same_pool]. rewrite !set_same. unfold same_pool. cbn [idle fresh gone]. auto. }
  destruct (at_ x) as [|r c e [|l ls]|r c [|i]|r c|] eqn:AT.
  - destruct (text x) as [|r t]; [discriminate|]. destruct (begin b r (state x)) as [[[g c] e] ls]. apply PUT.
  - apply PUT.
  - assert (BO : borrow k v = borrow k w) by (unfold borrow; now rewrite PI, PF). rewrite BO. destruct (borrow k w) as [[a idl] fr] eqn:BW. cbn [fst]. intros E S.
    assert (Sa : what (heap v a) = what (heap w a)) by (rewrite (S a) by (now left); reflexivity). rewrite Sa.
    set (c0 := mkcell _ _) in *. injection E as <-. eexists. split; [reflexivity|]. cbn [breakers heap]. rewrite !set_same. split; [|split].
    + assert (X : Push (done_in (set_at (heap v) a c0)) (queue x) a = Push (done_in (set_at (heap w) a c0)) (queue x) a); [|now rewrite X].
      apply Push_ext. intros z I. unfold done_in, set_at. destruct (Nat.eqb_spec z a); [reflexivity|]. now rewrite (S z I).
    + unfold same_pool. cbn [idle fresh gone]. auto.
    + intros z I. unfold set_at. destruct (Nat.eqb_spec z a); [reflexivity|]. exact (S z I).
  - apply PUT.
  - destruct (zget (q (queue x)) (Z.of_nat i)) as [a|] eqn:Ga; [|apply PUT].
    assert (Ia : In a (held w b)) by (eapply zget_In; eauto). intros E S. rewrite (S a Ia). rewrite (ok_user w O b a Ia) in *. rewrite BV. fold x in E |- *. cbn zeta in E |- *.
    destruct (RuneEvent step r c (state x) (what (heap w a))) as [[g s] pens]. rewrite set_same in E. rewrite set_same. cbn [queue state text longest total answers] in E |- *.
    injection E as <-. eexists. split; [reflexivity|]. cbn [breakers heap]. rewrite !set_same. split; [|split].
    + match goal with |- match ?a with _ => _ end = match ?b with _ => _ end => assert (X : a = b) end; [|now rewrite X].
      apply Fix_ext. intros z I. unfold done_in, set_at. destruct (Nat.eqb_spec z a); [reflexivity|]. now rewrite (S z I).
    + unfold same_pool. cbn [idle fresh gone]. auto.
    + intros z I. unfold set_at. destruct (Nat.eqb_spec z a); [reflexivity|]. exact (S z I).
  - intros E S. assert (X : PopDone (done_in (heap v)) (queue x) = PopDone (done_in (heap w)) (queue x)) by (apply PopDone_ext; intros z I; unfold done_in; now rewrite (S z I)). rewrite X. clear X. revert E S.
    destruct (PopDone (done_in (heap w)) (queue x)) as [[[a|] p]|] eqn:P.
    + pose proof (PopDone_perm _ _ _ _ P) as [Q _]. intros E S. assert (Ia : In a (held w b)) by (unfold held; fold x; rewrite Q; apply in_app_iff; right; now left). rewrite (S a Ia), PI, PG.
      destruct (if Nat.eqb k 0 then _ else _) as [idl gn]. injection E as <-. eexists. split; [reflexivity|]. cbn [breakers heap]. rewrite !set_same. split; [reflexivity|]. split; [unfold same_pool; cbn [idle fresh gone]; auto|].
      intros z I. unfold set_at. destruct (Nat.eqb_spec z a); [reflexivity|]. exact (S z I).
    + destruct (finish b c (state x) (longest x) (total x)) as [[g lam] ps]. apply PUT.
    + apply PUT.
  - discriminate.
Qed.

(* Steps of different breakers touch no object in common, unless both are about to take one from the pool. *)
Lemma disjoint w b c j k a : ok w -> b <> c -> In a (touches b j w) -> In a (touches c k w) ->
  borrows w b = true /\ borrows w c = true /\ a = fst (fst (borrow j w)) /\ a = fst (fst (borrow k w)).
Proof.
  intros O N. unfold touches, borrows.
  assert (X : forall d, In a (held w d) -> user (heap w a) = d) by (intros; now apply (ok_user w O)).
  assert (Y : forall m d, a = fst (fst (borrow m w)) -> ~ In a (held w d)).
  { intros m d. destruct (borrow m w) as [[a0 i0] f0] eqn:B. cbn [fst]. intros ->. apply (borrow_ok w m a0 i0 f0 O B). }
  assert (Z0 : In a (held w b) -> In a (held w c) -> False) by (intros I J; apply N; rewrite <- (X b I); now apply X).
  destruct (at_ (breakers w b)) as [|r1 c1 e1 [|l1 ls1]|r1 c1 [|i1]|r1 c1|]; try (intros []; fail);
  destruct (at_ (breakers w c)) as [|r2 c2 e2 [|l2 ls2]|r2 c2 [|i2]|r2 c2|]; try (intros _ []; fail); cbn [In]; intros I J;
  repeat match goal with H : _ \/ _ |- _ => destruct H end;
  first [solve [auto] | exfalso; now apply Z0 | exfalso; match goal with H : fst (fst (borrow ?m w)) = a, I0 : In a (held w ?d) |- _ => exact (Y m d (eq_sym H) I0) end].
Qed.
End Race.
