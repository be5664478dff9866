(* PoolKeep.v -- no object of the pool gets lost: it is idle, or a breaker holds it, or the pool has thrown it away. *)
From Coq Require Import List ZArith Lia Bool Permutation.
From Verif Require Import Base PrioQ PrioQProofs Recognizer Pool PoolProofs PoolMain.
Import ListNotations.
Open Scope Z_scope.

Section Keep.
Context {L G : Type} (step : L -> G -> rec L -> Z -> Z -> G * (rec L * option L)).
Context (begin : nat -> Z -> G -> G * Z * Z * list L) (finish : nat -> Z -> G -> Z -> list Z -> G * Z * list Z).
Notation world := (world L G).
Definition kept (w : world) : Prop := forall a, (a < fresh w)%nat -> In a (idle w) \/ In a (gone w) \/ exists b, In a (held w b).
Lemma kept_put (w : world) b x : kept w -> q (queue x) = held w b -> kept (mkw (heap w) (idle w) (fresh w) (gone w) (set_at (breakers w) b x)).
Proof.
  intros K E a La. destruct (K a La) as [I|[I|[c I]]]; [left; auto|right; left; auto|right; right]. exists c. unfold held. cbn [breakers]. unfold set_at. destruct (Nat.eqb_spec c b) as [->|N]; auto. now rewrite E.
Qed.
Lemma pstep_kept b k w w' : ok w -> kept w -> pstep step begin finish b k w = Some w' -> at_ (breakers w' b) <> Crashed -> kept w'.
Proof.
  intros O K. unfold pstep. set (x := breakers w b). destruct (at_ x) as [|r c e ls|r c i|r c|] eqn:AT.
  - destruct (text x) as [|r t]; [discriminate|]. destruct (begin b r (state x)) as [[[g c] e] ls]. intros E _. injection E as <-. now apply kept_put.
  - destruct ls as [|l ls]; [intros E _; injection E as <-; now apply kept_put|].
    destruct (borrow k w) as [[a idl] fr] eqn:BO. intros E. 
    assert (E' : w' = mkw (set_at (heap w) a (mkcell (NewPooledRecognizer (what (heap w a)) e l) b)) idl fr (gone w) (set_at (breakers w) b (match Push (done_in (set_at (heap w) a (mkcell (NewPooledRecognizer (what (heap w a)) e l) b))) (queue x) a with
            | Some p => mkb p (state x) (text x) (Starting r c e ls) (longest x) (total x) (answers x) | None => crash x end))) by congruence.
    clear E. subst w'. cbn [breakers]. rewrite set_same. destruct (Push _ _ _) as [p|] eqn:P; [|cbn [crash at_]; congruence]. intros _.
    pose proof (Push_perm _ _ _ _ P) as Q. intros z Lz. cbn [fresh] in Lz. cbn [idle].
    assert (HB : forall d, In z (held w d) -> exists d', In z (held (mkw (set_at (heap w) a (mkcell (NewPooledRecognizer (what (heap w a)) e l) b)) idl fr (gone w) (set_at (breakers w) b (mkb p (state x) (text x) (Starting r c e ls) (longest x) (total x) (answers x)))) d')).
    { intros d I. exists d. unfold held. cbn [breakers]. unfold set_at. destruct (Nat.eqb_spec d b) as [->|N]; auto. cbn [queue]. eapply Permutation_in; [symmetry; exact Q|]. now right. }
    destruct (Nat.eq_dec z a) as [->|N].
    + right; right. exists b. unfold held. cbn [breakers]. rewrite set_same. cbn [queue]. eapply Permutation_in; [symmetry; exact Q|]. now left.
    + unfold borrow in BO. destruct (nth_error (idle w) k) as [a0|] eqn:NE; apply pair_equal_spec in BO; destruct BO as [BO <-]; apply pair_equal_spec in BO; [destruct BO as [-> <-]|destruct BO as [<- <-]].
      * destruct (K z Lz) as [I|[I|[d I]]]; [left|auto|right; right; eapply HB; eauto].
        apply nth_error_split in NE. destruct NE as (l1 & l2 & Q1 & KL). rewrite Q1 in I |- *. subst k.
        replace (firstn (length l1) (l1 ++ a :: l2)) with l1 by (rewrite firstn_app, firstn_all, Nat.sub_diag; cbn; now rewrite app_nil_r).
        replace (skipn (Datatypes.S (length l1)) (l1 ++ a :: l2)) with l2 by (rewrite skipn_app, skipn_all2 by lia; replace (Datatypes.S (length l1) - length l1)%nat with 1%nat by lia; reflexivity).
        apply in_app_iff in I. apply in_app_iff. destruct I as [I|[I|I]]; auto. congruence.
      * assert (Lz' : (z < fresh w)%nat) by lia. destruct (K z Lz') as [I|[I|[d I]]]; [left; auto|auto|right; right; eapply HB; eauto].
  - destruct i as [|i]; [intros E _; injection E as <-; now apply kept_put|].
    destruct (zget (q (queue x)) (Z.of_nat i)) as [a|] eqn:Ga; [|intros E _; injection E as <-; now apply kept_put].
    assert (Ia : In a (held w b)) by (unfold zget in Ga; destruct (_ && _) in Ga; [|discriminate Ga]; eapply nth_error_In; eauto).
    rewrite (ok_user w O b a Ia). fold x. cbn zeta. destruct (RuneEvent step r c (state x) (what (heap w a))) as [[g s] pens]. rewrite set_same. cbn [queue state text longest total answers].
    destruct (Fix _ _ _) as [p|] eqn:P; intros E; injection E as <-; intros NC z Lz; (destruct (K z Lz) as [I|[I|[d I]]]; [left; auto|right; left; auto|right; right; exists d]);
    unfold held; cbn [breakers]; (destruct (Nat.eq_dec d b) as [->|N]; [rewrite set_same|rewrite !set_other by auto; exact I]); cbn [queue crash].
    + pose proof (Fix_perm _ _ _ _ P) as Q. eapply Permutation_in; [symmetry; exact Q|exact I].
    + exact I.
  - destruct (PopDone (done_in (heap w)) (queue x)) as [[[a|] p]|] eqn:P.
    + pose proof (PopDone_perm _ _ _ _ P) as [Q _]. destruct (Nat.eqb k 0); intros E _; injection E as <-; intros z Lz; cbn [fresh] in Lz; (destruct (K z Lz) as [I|[I|[d I]]]; [left; cbn [idle]; auto using in_cons|right; left; cbn [gone]; auto using in_cons|]);
      cbn [idle gone]; (destruct (Nat.eq_dec d b) as [->|N]; [|right; right; exists d; unfold held; cbn [breakers]; now rewrite set_other]);
      unfold held in I; fold x in I; rewrite Q in I; apply in_app_iff in I; (destruct I as [I|[->|[]]]; [|auto using in_eq]);
      right; right; exists b; unfold held; cbn [breakers]; now rewrite set_same.
    + pose proof (PopDone_perm _ _ _ _ P) as Q. cbn beta iota in Q. subst p. destruct (finish b c (state x) (longest x) (total x)) as [[g lam] ps]. intros E _. injection E as <-. now apply kept_put.
    + intros E _. injection E as <-. now apply kept_put.
  - discriminate.
Qed.
Lemma prun_app : forall s1 s2 w, prun step begin finish (s1 ++ s2) w = match prun step begin finish s1 w with Some w1 => prun step begin finish s2 w1 | None => None end.
Proof. induction s1 as [|[b k] s1 IH]; intros s2 w; cbn [app prun]; auto. destruct (pstep _ _ _ _ _ _); auto. Qed.
Lemma reached_kept g0 texts : forall sched w, reached step begin finish g0 texts sched w -> kept w.
Proof.
  induction sched as [|[b k] sched IH] using rev_ind; intros w R; unfold reached in R.
  - injection R as <-. intros a La. cbn in La. lia.
  - rewrite prun_app in R. destruct (prun step begin finish sched (world0 g0 texts)) as [w1|] eqn:R1; [|discriminate R]. cbn [prun] in R.
    destruct (pstep step begin finish b k w1) as [w2|] eqn:P; [|discriminate R]. injection R as ->.
    assert (R' : reached step begin finish g0 texts (sched ++ [(b, k)]) w) by (unfold reached; rewrite prun_app, R1; cbn [prun]; now rewrite P).
    destruct (world_ok step begin finish g0 texts b) as (g & p & l & N & _ & _ & H). destruct (H _ _ R') as (_ & _ & NC & _).
    eapply pstep_kept; eauto. eapply reached_ok; exact R1.
Qed.
End Keep.
