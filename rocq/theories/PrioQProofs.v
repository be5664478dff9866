(* PrioQProofs.v -- partition invariant of the publisher queue and correctness of PublishRuneEvent. *)
From Coq Require Import List ZArith Lia Bool Permutation.
From Verif Require Import Base PrioQ.
Import ListNotations.
Open Scope Z_scope.

Section ListFacts.
Context {A : Type}.
Lemma zget_mid (x : list A) s y : zget (x ++ s :: y) (zlen x) = Some s.
Proof.
  rewrite zget_app. destruct (Z.ltb_spec (zlen x) (zlen x)); try lia.
  replace (zlen x - zlen x) with 0 by lia. reflexivity.
Qed.
Lemma nset_mid (x : list A) s y a : nset (x ++ s :: y) (length x) a = x ++ a :: y.
Proof. induction x; simpl; auto. now rewrite IHx. Qed.
Lemma zset_mid (x : list A) s y a : zset (x ++ s :: y) (zlen x) a = Some (x ++ a :: y).
Proof.
  unfold zset. pose proof (zlen_nonneg x). rewrite zlen_app, zlen_cons. pose proof (zlen_nonneg y).
  destruct (Z.leb_spec 0 (zlen x)), (Z.ltb_spec (zlen x) (zlen x + (zlen y + 1))); try lia.
  simpl. unfold zlen. rewrite Nat2Z.id. now rewrite nset_mid.
Qed.
Lemma split_at (l : list A) i : 0 <= i < zlen l -> exists x s y, l = x ++ s :: y /\ zlen x = i.
Proof.
  intros H. destruct (zget l i) as [s|] eqn:E.
  - unfold zget in E. destruct (_ && _); [|discriminate].
    apply nth_error_split in E. destruct E as [x [y [-> L]]]. exists x, s, y. split; auto.
    unfold zlen. lia.
  - exfalso. apply zget_Some_iff in H. destruct H; congruence.
Qed.
Lemma app_eq_split (a b x y : list A) : a ++ b = x ++ y -> zlen x <= zlen a ->
  exists m, a = x ++ m /\ y = m ++ b.
Proof.
  revert x. induction a as [|h a IH]; intros [|k x] H L; simpl in *.
  - exists []; auto.
  - rewrite zlen_cons, zlen_nil in L. pose proof (zlen_nonneg x). lia.
  - exists (h :: a). auto.
  - inversion H; subst. destruct (IH x) as [m [E1 E2]]; auto.
    { rewrite !zlen_cons in L. lia. }
    exists m. subst. auto.
Qed.
End ListFacts.

Section Proofs.
Context {Sub : Type} (done : Sub -> bool).
Notation pqueue := (@pqueue Sub).

Definition alive (l : list Sub) := Forall (fun s => done s = false) l.
Definition ended (l : list Sub) := Forall (fun s => done s = true) l.

(* All unfinished subscribers before the gap, all finished ones from the gap on. *)
Definition Inv (p : pqueue) : Prop :=
  exists a b, q p = a ++ b /\ gap p = zlen a /\ alive a /\ ended b.

Lemma swap_fwd (x y z : list Sub) a b :
  swap (x ++ a :: y ++ b :: z) (zlen x) (zlen x + 1 + zlen y) = Some (x ++ b :: y ++ a :: z).
Proof.
  unfold swap. rewrite zget_mid. cbn [obind].
  replace (zlen x + 1 + zlen y) with (zlen (x ++ a :: y)) by (rewrite zlen_app, zlen_cons; lia).
  replace (x ++ a :: y ++ b :: z) with ((x ++ a :: y) ++ b :: z) by (rewrite <- app_assoc; auto).
  rewrite zget_mid. cbn [obind]. rewrite <- app_assoc. simpl. rewrite zset_mid. cbn [obind].
  replace (x ++ b :: y ++ b :: z) with ((x ++ b :: y) ++ b :: z) by (rewrite <- app_assoc; auto).
  replace (zlen (x ++ a :: y)) with (zlen (x ++ b :: y)) by (rewrite !zlen_app, !zlen_cons; lia).
  rewrite zset_mid. rewrite <- app_assoc. auto.
Qed.

Lemma swap_bwd (x y z : list Sub) a b :
  swap (x ++ a :: y ++ b :: z) (zlen x + 1 + zlen y) (zlen x) = Some (x ++ b :: y ++ a :: z).
Proof.
  unfold swap. rewrite zget_mid.
  replace (zlen x + 1 + zlen y) with (zlen (x ++ a :: y)) by (rewrite zlen_app, zlen_cons; lia).
  replace (x ++ a :: y ++ b :: z) with ((x ++ a :: y) ++ b :: z) by (rewrite <- app_assoc; auto).
  rewrite zget_mid. cbn [obind]. rewrite zset_mid. cbn [obind]. rewrite <- app_assoc. simpl.
  apply zset_mid.
Qed.

Lemma check_ok p : Inv p -> check done p = Some p.
Proof.
  intros [a [b [Hq [Hg [Ha Hb]]]]]. unfold check, pLen. rewrite Hq, Hg, zlen_app.
  pose proof (zlen_nonneg b). destruct (Z.leb_spec (zlen a) (zlen a + zlen b)); try lia.
  unfold zlen. rewrite Nat2Z.id, firstn_app, firstn_all, Nat.sub_diag. simpl. rewrite app_nil_r.
  replace (forallb (fun s => negb (done s)) a) with true; auto.
  symmetry. apply forallb_forall. intros s Hs. unfold alive in Ha. rewrite Forall_forall in Ha. now rewrite (Ha s Hs).
Qed.

(* Fix after the subscriber at position |x| changed from s to s', when it stood before the gap. *)
Lemma Fix_front x s' a2 b :
  alive x -> alive a2 -> ended b ->
  exists y a' b',
    Fix done (mkpq (x ++ s' :: a2 ++ b) (zlen x + 1 + zlen a2)) (zlen x) = Some (mkpq (x ++ y) (zlen x + zlen a'))
    /\ y = a' ++ b' /\ alive a' /\ ended b' /\ Permutation y (s' :: a2 ++ b).
Proof.
  intros Hx Ha Hb. unfold Fix, pLen; cbn [q gap].
  pose proof (zlen_nonneg x); pose proof (zlen_nonneg a2); pose proof (zlen_nonneg b).
  rewrite zlen_app, zlen_cons, zlen_app.
  destruct (Z.ltb_spec (zlen x) (zlen x + (zlen a2 + zlen b + 1))); try lia.
  rewrite zget_mid. cbn [obind].
  destruct (done s') eqn:D.
  - (* becomes finished *)
    unfold bubbleUp, pLen; cbn [q gap]. rewrite zlen_app, zlen_cons, zlen_app.
    destruct a2 as [|t a2 _] using rev_ind.
    + rewrite zlen_nil, Z.add_0_r. destruct (Z.ltb_spec (zlen x) (zlen x + 1 - 1)); try lia.
      cbn [obind]. destruct (Z.gtb_spec (zlen x + 1) 0); try lia.
      replace (zlen x + 1 - 1) with (zlen x) by lia. simpl app. rewrite zget_mid. cbn [obind]. rewrite D.
      assert (ended (s' :: b)) by (constructor; auto).
      exists (s' :: b), [], (s' :: b). split; [|auto].
      rewrite check_ok; [rewrite zlen_nil, Z.add_0_r; auto|].
      exists x, (s' :: b). simpl. auto.
    + rewrite zlen_app in *. change (zlen [t]) with 1 in *. pose proof (zlen_nonneg a2).
      apply Forall_app in Ha. destruct Ha as [Ha Ht]. inversion Ht as [|? ? Ht1 _]; subst.
      destruct (Z.ltb_spec (zlen x) (zlen x + 1 + (zlen a2 + 1) - 1)); try lia.
      assert (SW : (if zlen x + 1 + (zlen a2 + 1) <? zlen x + (zlen a2 + 1 + zlen b + 1)
                    then swap (x ++ s' :: (a2 ++ [t]) ++ b) (zlen x) (zlen x + 1 + (zlen a2 + 1) - 1)
                    else if zlen x <? zlen x + (zlen a2 + 1 + zlen b + 1) - 1
                    then swap (x ++ s' :: (a2 ++ [t]) ++ b) (zlen x) (zlen x + (zlen a2 + 1 + zlen b + 1) - 1)
                    else Some (x ++ s' :: (a2 ++ [t]) ++ b)) = Some (x ++ t :: a2 ++ s' :: b)).
      { destruct (Z.ltb_spec (zlen x + 1 + (zlen a2 + 1)) (zlen x + (zlen a2 + 1 + zlen b + 1))).
        - rewrite <- app_assoc. simpl. rewrite <- swap_fwd. f_equal. lia.
        - destruct (Z.ltb_spec (zlen x) (zlen x + (zlen a2 + 1 + zlen b + 1) - 1)); try lia.
          rewrite <- app_assoc. simpl. rewrite <- swap_fwd. f_equal. lia. }
      rewrite SW. cbn [obind]. destruct (Z.gtb_spec (zlen x + 1 + (zlen a2 + 1)) 0); try lia.
      replace (x ++ t :: a2 ++ s' :: b) with ((x ++ t :: a2) ++ s' :: b) by (rewrite <- app_assoc; auto).
      replace (zlen x + 1 + (zlen a2 + 1) - 1) with (zlen (x ++ t :: a2)) by (rewrite zlen_app, zlen_cons; lia).
      rewrite zget_mid. cbn [obind]. rewrite D.
      exists (t :: a2 ++ s' :: b), (t :: a2), (s' :: b).
      assert (alive (t :: a2)) by (constructor; auto). assert (ended (s' :: b)) by (constructor; auto).
      repeat split; auto.
      * rewrite check_ok.
        -- f_equal. f_equal; [rewrite <- app_assoc; auto|]. rewrite zlen_app. auto.
        -- exists (x ++ t :: a2), (s' :: b). simpl. repeat split; auto. apply Forall_app; auto.
      * simpl. rewrite <- app_assoc. simpl.
        etransitivity; [apply perm_skip; symmetry; apply Permutation_middle|].
        etransitivity; [apply perm_swap|]. apply perm_skip. apply Permutation_middle.
  - (* still unfinished *)
    unfold bubbleDown; cbn [q gap]. destruct (Z.geb_spec (zlen x) (zlen x + 1 + zlen a2)); try lia.
    cbn [obind].
    assert (R : (if zlen x + 1 + zlen a2 <? zlen (x ++ s' :: a2 ++ b)
      then do s <- zget (x ++ s' :: a2 ++ b) (zlen x + 1 + zlen a2);
           Some (mkpq (x ++ s' :: a2 ++ b) (if done s then zlen x + 1 + zlen a2 else zlen x + 1 + zlen a2 + 1))
      else Some (mkpq (x ++ s' :: a2 ++ b) (zlen x + 1 + zlen a2)))
      = Some (mkpq (x ++ s' :: a2 ++ b) (zlen x + 1 + zlen a2))).
    { rewrite zlen_app, zlen_cons, zlen_app.
      destruct (Z.ltb_spec (zlen x + 1 + zlen a2) (zlen x + (zlen a2 + zlen b + 1))); auto.
      destruct b as [|t b]; [rewrite zlen_nil in *; lia|].
      replace (x ++ s' :: a2 ++ t :: b) with ((x ++ s' :: a2) ++ t :: b) by (rewrite <- app_assoc; auto).
      replace (zlen x + 1 + zlen a2) with (zlen (x ++ s' :: a2)) by (rewrite zlen_app, zlen_cons; lia).
      rewrite zget_mid. cbn [obind]. inversion Hb as [|? ? Ht _]; subst. now rewrite Ht. }
    rewrite R. cbn [obind].
    assert (alive (s' :: a2)) by (constructor; auto).
    exists (s' :: a2 ++ b), (s' :: a2), b. repeat split; auto.
    rewrite check_ok.
    + f_equal. f_equal. rewrite zlen_cons. lia.
    + exists (x ++ s' :: a2), b. simpl. rewrite <- app_assoc. simpl. repeat split; auto.
      * rewrite zlen_app, zlen_cons. lia.
      * apply Forall_app; auto.
Qed.

Lemma alive_last a r : alive a -> 0 < zlen a ->
  exists t, zget (a ++ r) (zlen a - 1) = Some t /\ done t = false.
Proof.
  intros Ha Hp. destruct a as [|t a _] using rev_ind; [rewrite zlen_nil in *; lia|].
  exists t. rewrite zlen_app. change (zlen [t]) with 1. replace (zlen a + 1 - 1) with (zlen a) by lia.
  rewrite <- app_assoc. simpl. rewrite zget_mid. split; auto.
  apply Forall_app in Ha. destruct Ha as [_ Ht]. inversion Ht; auto.
Qed.

(* Fix of a subscriber standing behind the gap. *)
Lemma Fix_back a b1 s' b2 :
  alive a -> ended b1 -> ended b2 ->
  exists p', Fix done (mkpq (a ++ b1 ++ s' :: b2) (zlen a)) (zlen a + zlen b1) = Some p'
    /\ Inv p' /\ Permutation (q p') (a ++ b1 ++ s' :: b2).
Proof.
  intros Ha Hb1 Hb2. unfold Fix, pLen; cbn [q gap].
  pose proof (zlen_nonneg a); pose proof (zlen_nonneg b1); pose proof (zlen_nonneg b2).
  rewrite !zlen_app, zlen_cons.
  destruct (Z.ltb_spec (zlen a + zlen b1) (zlen a + (zlen b1 + (zlen b2 + 1)))); try lia.
  rewrite app_assoc. rewrite <- zlen_app. rewrite zget_mid. cbn [obind].
  rewrite zlen_app, <- app_assoc.
  destruct (done s') eqn:D.
  - unfold bubbleUp, pLen; cbn [q gap]. destruct (Z.ltb_spec (zlen a + zlen b1) (zlen a - 1)); try lia.
    cbn [obind].
    assert (Inv (mkpq (a ++ b1 ++ s' :: b2) (zlen a))).
    { exists a, (b1 ++ s' :: b2). split; [auto|]. split; [auto|]. split; [auto|].
      apply Forall_app; split; auto. }
    exists (mkpq (a ++ b1 ++ s' :: b2) (zlen a)). split; [|split; auto].
    destruct (Z.gtb_spec (zlen a) 0); cbn [obind]; [|apply check_ok; auto].
    destruct (alive_last a (b1 ++ s' :: b2)) as [t [Gt Dt]]; auto.
    rewrite Gt. cbn [obind]. rewrite Dt. apply check_ok; auto.
  - unfold bubbleDown; cbn [q gap]. destruct (Z.geb_spec (zlen a + zlen b1) (zlen a)); try lia.
    destruct b1 as [|t b1].
    + rewrite zlen_nil, Z.add_0_r. destruct (Z.ltb_spec (zlen a) (zlen a)); try lia. cbn [obind].
      simpl app. rewrite zlen_app, zlen_cons. destruct (Z.ltb_spec (zlen a) (zlen a + (zlen b2 + 1))); try lia.
      rewrite zget_mid. cbn [obind]. rewrite D.
      assert (Inv (mkpq (a ++ s' :: b2) (zlen a + 1))).
      { exists (a ++ [s']), b2. rewrite <- app_assoc. repeat split; auto. cbn. rewrite zlen_app. reflexivity.
        apply Forall_app; split; auto. }
      eexists; split; [apply check_ok; auto|]. split; auto.
    + rewrite zlen_cons in *. pose proof (zlen_nonneg b1).
      destruct (Z.ltb_spec (zlen a) (zlen a + (zlen b1 + 1))); try lia.
      simpl app. replace (zlen a + (zlen b1 + 1)) with (zlen a + 1 + zlen b1) by lia.
      rewrite swap_bwd. cbn [obind]. rewrite zlen_app, zlen_cons.
      destruct (Z.ltb_spec (zlen a) (zlen a + (zlen (b1 ++ t :: b2) + 1))); [|pose proof (zlen_nonneg (b1 ++ t :: b2)); lia].
      rewrite zget_mid. cbn [obind]. rewrite D.
      inversion Hb1; subst.
      assert (Inv (mkpq (a ++ s' :: b1 ++ t :: b2) (zlen a + 1))).
      { exists (a ++ [s']), (b1 ++ t :: b2). rewrite <- app_assoc. repeat split; auto. cbn. rewrite zlen_app. reflexivity.
        apply Forall_app; split; auto. apply Forall_app; split; auto. }
      eexists; split; [apply check_ok; auto|]. split; auto. cbn [q].
      apply Permutation_app_head.
      etransitivity; [apply perm_skip; symmetry; apply Permutation_middle|].
      etransitivity; [apply perm_swap|]. apply perm_skip. apply Permutation_middle.
Qed.

(* Fix at any position whose subscriber may just have changed its state from s to s'. *)
Lemma Fix_change p i s' : Inv p -> 0 <= i < zlen (q p) ->
  exists l p' s rest, zset (q p) i s' = Some l /\ Fix done (mkpq l (gap p)) i = Some p' /\ Inv p'
    /\ zget (q p) i = Some s /\ Permutation (q p) (s :: rest) /\ Permutation (q p') (s' :: rest).
Proof.
  intros [a [b [Hq [Hg [Ha Hb]]]]] Hi. destruct (split_at (q p) i Hi) as [x [s [y [Es Lx]]]].
  rewrite Es. rewrite <- Lx. rewrite zset_mid, zget_mid.
  rewrite Hq in Es. pose proof (zlen_nonneg x).
  exists (x ++ s' :: y).
  destruct (Z.ltb_spec (zlen x) (zlen a)).
  - destruct (app_eq_split a b x (s :: y) Es) as [m [E1 E2]]; [lia|].
    destruct m as [|s0 a2]; simpl in E2.
    { subst a. rewrite app_nil_r in *. lia. }
    inversion E2; subst s0 y. subst a.
    apply Forall_app in Ha. destruct Ha as [Hx Ha2]. inversion Ha2; subst.
    destruct (Fix_front x s' a2 b) as [y [a' [b' [F [Ey [A' [B' P]]]]]]]; auto.
    rewrite zlen_app, zlen_cons in Hg. rewrite Hg.
    replace (zlen x + (zlen a2 + 1)) with (zlen x + 1 + zlen a2) by lia. rewrite F.
    eexists; exists s, (x ++ a2 ++ b). repeat split; auto.
    + exists (x ++ a'), b'. subst y. cbn. rewrite <- app_assoc, zlen_app. repeat split; auto.
      apply Forall_app; auto.
    + symmetry. apply Permutation_middle.
    + cbn [q]. etransitivity; [apply Permutation_app_head, P|]. symmetry; apply Permutation_middle.
  - symmetry in Es. destruct (app_eq_split x (s :: y) a b Es) as [b1 [E1 E2]]; [lia|].
    subst x b. apply Forall_app in Hb. destruct Hb as [Hb1 Hb2]. inversion Hb2; subst.
    destruct (Fix_back a b1 s' y) as [p' [F [I P]]]; auto.
    rewrite <- app_assoc. rewrite Hg, zlen_app. rewrite F.
    exists p', s, (a ++ b1 ++ y). repeat split; auto.
    + rewrite <- app_assoc. rewrite app_assoc. etransitivity; [symmetry; apply Permutation_middle|].
      rewrite <- app_assoc. auto.
    + etransitivity; [apply P|]. rewrite app_assoc. etransitivity; [symmetry; apply Permutation_middle|].
      rewrite <- app_assoc. auto.
Qed.

Lemma Push_ok p s : Inv p -> exists p', Push done p s = Some p' /\ Inv p' /\ Permutation (q p') (s :: q p).
Proof.
  intros [a [b [Hq [Hg [Ha Hb]]]]]. unfold Push, pLen. rewrite Hq, Hg.
  assert (P : Permutation ((a ++ b) ++ [s]) (s :: a ++ b)).
  { symmetry. apply Permutation_cons_append. }
  destruct (done s) eqn:D.
  - eexists; split; [reflexivity|]. split; auto.
    exists a, (b ++ [s]). cbn. rewrite app_assoc. repeat split; auto.
    apply Forall_app; split; auto.
  - pose proof (Fix_back a b s [] Ha Hb (Forall_nil _)) as [p' [F [I P']]].
    unfold Fix in F. cbn [q gap] in F. unfold pLen in F. cbn [q] in F.
    rewrite app_assoc in F. rewrite <- zlen_app in F. rewrite zget_mid in F.
    assert (zlen (a ++ b) < zlen ((a ++ b) ++ [s])) by (rewrite (zlen_app _ [s]); change (zlen [s]) with 1; lia).
    destruct (Z.ltb_spec (zlen (a ++ b)) (zlen ((a ++ b) ++ [s]))); try lia.
    cbn [obind] in F. rewrite D in F.
    destruct (bubbleDown done {| q := (a ++ b) ++ [s]; gap := zlen a |} (zlen (a ++ b))) as [p1|]; [|discriminate].
    cbn [obind] in F. unfold check in F.
    destruct (_ && _); inversion F; subst. exists p'. split; auto. split; auto.
    rewrite P', app_assoc. auto.
Qed.

Lemma Pop_ok p : Inv p ->
  exists r p', Pop p = Some (r, p') /\ Inv p' /\
    match r with
    | None => q p = [] /\ p' = p
    | Some s => q p = q p' ++ [s] /\ (done s = false -> alive (q p))
    end.
Proof.
  intros [a [b [Hq [Hg [Ha Hb]]]]]. unfold Pop, pLen.
  destruct (q p) as [|s l _] eqn:E using rev_ind.
  - exists None, p. cbn. split; auto. split; auto. exists [], [].
    destruct a; [|discriminate]. destruct b; [|discriminate]. rewrite E. repeat split; auto.
  - rewrite zlen_app. change (zlen [s]) with 1. pose proof (zlen_nonneg l).
    destruct (Z.eqb_spec (zlen l + 1) 0); try lia.
    replace (zlen l + 1 - 1) with (zlen l) by lia. rewrite zget_mid. cbn [obind].
    assert (FN : firstn (Z.to_nat (zlen l)) (l ++ [s]) = l).
    { unfold zlen. rewrite Nat2Z.id, firstn_app, firstn_all, Nat.sub_diag. simpl. apply app_nil_r. }
    rewrite FN.
    eexists (Some s), _. split; [reflexivity|]. cbn [q gap].
    destruct b as [|t b _] using rev_ind.
    + rewrite app_nil_r in Hq. subst a. rewrite Hg, zlen_app. change (zlen [s]) with 1.
      destruct (Z.gtb_spec (zlen l + 1) (zlen l)); try lia. split.
      * exists l, []. cbn. rewrite app_nil_r. apply Forall_app in Ha. repeat split; try tauto. lia.
      * split; auto.
    + rewrite app_assoc in Hq. apply app_inj_tail in Hq. destruct Hq as [Hl Hs]. subst t l.
      apply Forall_app in Hb. destruct Hb as [Hb Hs]. inversion Hs; subst.
      rewrite Hg. rewrite zlen_app. pose proof (zlen_nonneg b).
      destruct (Z.gtb_spec (zlen a) (zlen a + zlen b)); try lia. split.
      * exists a, b. cbn. auto.
      * split; auto. congruence.
Qed.

Lemma PopDone_ok p : Inv p ->
  exists r p', PopDone done p = Some (r, p') /\ Inv p' /\
    match r with
    | None => alive (q p) /\ p' = p
    | Some s => q p = q p' ++ [s] /\ done s = true
    end.
Proof.
  intros I. unfold PopDone. destruct (Pop_ok p I) as [r [p' [E [I' H]]]].
  destruct (Z.eqb_spec (pLen p) 0) as [L|L].
  - assert (q p = []) as Q.
    { destruct (q p) eqn:Q; auto. unfold pLen in L. rewrite Q, zlen_cons in L. pose proof (zlen_nonneg l). lia. }
    exists None, p. split; auto. split; auto. split; auto. rewrite Q. constructor.
  - destruct r as [s|].
    2:{ destruct H as [Q _]. unfold pLen in L. rewrite Q in L. exfalso; apply L; reflexivity. }
    destruct H as [Q D]. unfold pTop. destruct (Z.eqb_spec (pLen p) 0); try lia.
    assert (zget (q p) (pLen p - 1) = Some s) as G.
    { unfold pLen. rewrite Q. rewrite zlen_app. change (zlen [s]) with 1.
      replace (zlen (q p') + 1 - 1) with (zlen (q p')) by lia. apply zget_mid. }
    rewrite G. cbn [obind]. destruct (done s) eqn:Ds.
    + rewrite E. exists (Some s), p'. auto.
    + exists None, p. split; auto.
Qed.

(* ---- histories of queue operations ---- *)
(* SetFix i s': the subscriber at position i changes to state s', then Fix(i) is called. *)
Inductive pop := PPush (s : Sub) | PPop | PPopDone | PSetFix (i : Z) (s' : Sub).
Definition pexec (o : pop) (p : pqueue) : option (option Sub * pqueue) :=
  match o with
  | PPush s => do p' <- Push done p s; Some (None, p')
  | PPop => Pop p
  | PPopDone => PopDone done p
  | PSetFix i s' => do l <- zset (q p) i s'; do p' <- Fix done (mkpq l (gap p)) i; Some (None, p')
  end.

Fixpoint prun (ops : list pop) (p : pqueue) : option pqueue :=
  match ops with [] => Some p | o :: r => do (_, p') <- pexec o p; prun r p' end.

End Proofs.

Section Publish.
Context {Sub : Type} (done : Sub -> bool).
Notation pqueue := (@pqueue Sub).
Context {G : Type} (ev : G -> Sub -> G * Sub * list Z) (mlen : Sub -> Z).

(* ---- specification of one publication: one event per subscriber ---- *)
Fixpoint events (g : G) (l : list Sub) : G * list (Sub * list Z) :=
  match l with
  | [] => (g, [])
  | s :: r => let '(g1, s', pens) := ev g s in
              let '(g2, rest) := events g1 r in (g2, (s', pens) :: rest)
  end.

Definition sum_at (pp : list (list Z)) (j : nat) : Z :=
  fold_right Z.add 0 (map (fun p => nth j p 0) pp).
Definition max_len (pp : list (list Z)) : nat := fold_right Nat.max O (map (@length Z) pp).
Definition longest_of (l : list Sub) : Z :=
  fold_right Z.max 0 (map mlen (filter (fun s => negb (done s)) l)).

Lemma add_pens_nth : forall pens tot j, nth j (add_pens tot pens) 0 = nth j tot 0 + nth j pens 0.
Proof.
  induction pens as [|p pens IH]; intros tot j; simpl.
  - destruct j; lia.
  - destruct tot as [|t tot]; destruct j; simpl; try lia.
    + rewrite IH. destruct j; simpl; lia.
    + apply IH.
Qed.
Lemma add_pens_len : forall pens tot, length (add_pens tot pens) = Nat.max (length tot) (length pens).
Proof.
  induction pens as [|p pens IH]; intros tot; simpl.
  - lia.
  - destruct tot as [|t tot]; simpl; rewrite IH; simpl; lia.
Qed.

Lemma events_app : forall l1 l2 g,
  events g (l1 ++ l2) = let '(g1, o1) := events g l1 in let '(g2, o2) := events g1 l2 in (g2, o1 ++ o2).
Proof.
  induction l1 as [|s l1 IH]; intros l2 g; simpl.
  - destruct (events g l2); auto.
  - destruct (ev g s) as [[g1 s'] pens]. rewrite IH. destruct (events g1 l1) as [g2 o1].
    destruct (events g2 l2); auto.
Qed.

Lemma fold_max_nonneg l : 0 <= fold_right Z.max 0 l.
Proof. induction l; simpl; lia. Qed.

(* Loop invariant: the first n subscribers have not had their event yet and are unfinished; behind
   them stand the processed ones, partitioned by the gap. *)
Lemma publish_loop_ok : forall n g p x a b longest tot,
  q p = x ++ a ++ b -> length x = n -> gap p = zlen x + zlen a ->
  alive done x -> alive done a -> ended done b -> 0 <= longest ->
  exists g' p' longest' tot' outs a' b',
    events g (rev x) = (g', outs) /\
    publish_loop done ev mlen n g p longest tot = Some (g', p', longest', tot') /\
    q p' = a' ++ b' /\ gap p' = zlen a' /\ alive done a' /\ ended done b' /\
    Permutation (a' ++ b') (map fst outs ++ a ++ b) /\
    (forall j, nth j tot' 0 = nth j tot 0 + sum_at (map snd outs) j) /\
    length tot' = Nat.max (length tot) (max_len (map snd outs)) /\
    longest' = Z.max longest (longest_of (map fst outs)).
Proof.
  induction n as [|n IH]; intros g p x a b longest tot Hq Hl Hg Hx Ha Hb H0.
  - destruct x; [|discriminate]. exists g, p, longest, tot, [], a, b. cbn in *.
    repeat split; auto; try lia.
  - destruct x as [|s x _] using rev_ind; [discriminate|]. rewrite app_length in Hl. simpl in Hl.
    apply Forall_app in Hx. destruct Hx as [Hx Hs].
    rewrite rev_app_distr. cbn [rev app]. cbn [events publish_loop].
    assert (Hn : Z.of_nat n = zlen x) by (unfold zlen; lia).
    rewrite Hn, Hq. rewrite <- app_assoc. cbn [app]. rewrite zget_mid. cbn [obind].
    destruct (ev g s) as [[g1 s'] pens] eqn:EV. rewrite zset_mid. cbn [obind].
    destruct (Fix_front done x s' a b) as [y [a1 [b1 [F [Ey [A1 [B1 P1]]]]]]]; auto.
    rewrite Hg, zlen_app. change (zlen [s]) with 1. rewrite F. cbn [obind].
    set (longest1 := if negb (done s') && (mlen s' >? longest) then mlen s' else longest).
    assert (0 <= longest1) by (unfold longest1; destruct (done s'), (Z.gtb_spec (mlen s') longest); simpl; lia).
    destruct (IH g1 (mkpq (x ++ y) (zlen x + zlen a1)) x a1 b1 longest1 (add_pens tot pens))
      as (g' & p' & lo & to & outs & a' & b' & E1 & E2 & Q' & G' & A' & B' & P' & T' & L' & M'); auto; try lia.
    { cbn. subst y. auto. }
    rewrite E1, E2. exists g', p', lo, to, ((s', pens) :: outs), a', b'.
    repeat split; auto.
    + cbn [map fst]. rewrite P'. rewrite <- Ey, P1.
      etransitivity; [|symmetry; apply Permutation_middle with (l1 := []) ].
      simpl. symmetry. apply Permutation_middle.
    + intros j. rewrite T', add_pens_nth. cbn. fold (sum_at (map snd outs) j). unfold sum_at. lia.
    + rewrite L', add_pens_len. cbn. fold (max_len (map snd outs)). unfold max_len. lia.
    + rewrite M'. unfold longest1, longest_of. cbn [map fst filter].
      destruct (done s') eqn:D; cbn; [auto|].
      destruct (Z.gtb_spec (mlen s') longest); cbn [negb andb]; unfold longest_of; lia.
Qed.

Lemma release_loop_ok : forall fuel p a b rel,
  q p = a ++ b -> gap p = zlen a -> alive done a -> ended done b -> (length b < fuel)%nat ->
  exists p', release_loop done fuel p rel = Some (rev rel ++ rev b, p') /\ q p' = a /\ gap p' = zlen a.
Proof.
  induction fuel as [|f IH]; intros p a b rel Hq Hg Ha Hb Hf; [lia|].
  simpl. destruct (PopDone_ok done p) as [r [p' [E [I H]]]]; [exists a, b; auto|].
  rewrite E. cbn [obind]. destruct r as [s|].
  - destruct H as [Q D].
    destruct b as [|t b _] using rev_ind.
    + exfalso. rewrite app_nil_r in Hq. rewrite Q in Hq. subst a. apply Forall_app in Ha.
      destruct Ha as [_ Ha]. inversion Ha; congruence.
    + rewrite Hq in Q. rewrite app_assoc in Q. apply app_inj_tail in Q. destruct Q as [Q <-].
      apply Forall_app in Hb. destruct Hb as [Hb _].
      rewrite app_length in Hf. simpl in Hf.
      assert (G' : gap p' = zlen a).
      { destruct I as [a' [b' [Q' [G' [A' B']]]]]. rewrite <- Q in Q'.
        (* the gap of p' splits the same list into alive/ended in the same way *)
        assert (a' = a) as <-; auto.
        clear -Q' A' B' Ha Hb. revert a Ha Q'. induction a' as [|h a' IHa]; intros [|k a] Ha Q'; auto.
        - simpl in Q'. subst b'. inversion B'; inversion Ha; congruence.
        - simpl in Q'. subst b. inversion Hb; inversion A'; congruence.
        - inversion Q'; subst. f_equal. inversion Ha; inversion A'; subst. apply IHa; auto. }
      destruct (IH p' a b (t :: rel)) as [p'' [E2 [Q2 G2]]]; auto; try lia.
      exists p''. rewrite E2. split; auto. rewrite rev_app_distr. simpl. rewrite <- app_assoc. auto.
  - destruct H as [Al ->]. assert (b = []).
    { destruct b; auto. rewrite Hq in Al. apply Forall_app in Al. destruct Al as [_ Al].
      inversion Al; inversion Hb; congruence. }
    subst b. exists p. rewrite !app_nil_r in *. auto.
Qed.

Lemma filter_perm_split (l a b : list Sub) : Permutation (a ++ b) l -> alive done a -> ended done b ->
  Permutation a (filter (fun s => negb (done s)) l) /\ Permutation b (filter done l).
Proof.
  intros P Ha Hb.
  assert (FP : forall (f : Sub -> bool) l1 l2, Permutation l1 l2 -> Permutation (filter f l1) (filter f l2)).
  { intros f l1 l2 Hp. induction Hp; simpl; auto.
    - destruct (f x); auto.
    - destruct (f x), (f y); auto. apply perm_swap.
    - etransitivity; eauto. }
  assert (F1 : filter (fun s => negb (done s)) a = a /\ filter done a = []).
  { clear -Ha. induction Ha as [|s l Hs _ [IH1 IH2]]; simpl; auto. rewrite Hs. simpl. rewrite IH1, IH2. auto. }
  assert (F2 : filter (fun s => negb (done s)) b = [] /\ filter done b = b).
  { clear -Hb. induction Hb as [|s l Hs _ [IH1 IH2]]; simpl; auto. rewrite Hs. simpl. rewrite IH1, IH2. auto. }
  destruct F1 as [F1 F1'], F2 as [F2 F2'].
  split.
  - rewrite <- (FP _ _ _ P). rewrite filter_app, F1, F2, app_nil_r. auto.
  - rewrite <- (FP _ _ _ P). rewrite filter_app, F1', F2'. auto.
Qed.

Lemma Publish_ok g p : Inv done p -> alive done (q p) ->
  exists g' longest tot rel p' outs,
    events g (rev (q p)) = (g', outs) /\
    Publish done ev mlen g p = Some (g', longest, tot, rel, p') /\
    Permutation (q p') (filter (fun s => negb (done s)) (map fst outs)) /\
    Permutation rel (filter done (map fst outs)) /\
    Inv done p' /\
    (forall j, nth j tot 0 = sum_at (map snd outs) j) /\
    length tot = max_len (map snd outs) /\
    longest = longest_of (map fst outs).
Proof.
  intros [a [b [Hq [Hg [Ha Hb]]]]] Al. unfold Publish.
  assert (b = []).
  { destruct b; auto. rewrite Hq in Al. apply Forall_app in Al. destruct Al as [_ Al].
    inversion Al; inversion Hb; congruence. }
  subst b. rewrite app_nil_r in Hq.
  destruct (publish_loop_ok (length (q p)) g p (q p) [] [] 0 [])
    as (g' & p' & lo & tot & outs & a' & b' & E1 & E2 & Q' & G' & A' & B' & P' & T' & L' & M'); auto.
  { now rewrite app_nil_r. } { rewrite Hg, Hq, zlen_nil. lia. } { constructor. } { lia. }
  rewrite E2. cbn [obind].
  destruct (release_loop_ok (S (length (q p'))) p' a' b' []) as [p'' [R [Q2 G2]]]; auto.
  { rewrite Q', app_length. lia. }
  rewrite R. cbn [obind]. simpl in P'. rewrite app_nil_r in P'.
  destruct (filter_perm_split _ _ _ P' A' B') as [F1 F2].
  exists g', lo, tot, (rev b'), p'', outs.
  assert (Permutation (rev b') (filter done (map fst outs))).
  { rewrite <- F2. symmetry. apply Permutation_rev. }
  pose proof (fold_max_nonneg (map mlen (filter (fun s => negb (done s)) (map fst outs)))).
  repeat split; auto.
  - rewrite Q2. auto.
  - exists a', []. rewrite app_nil_r, Q2, G2. repeat split; auto.
  - intros j. rewrite T'. destruct j; simpl; lia.
  - rewrite M'. unfold longest_of. lia.
Qed.
End Publish.

(* ---- histories of queue operations ---- *)
Section Histories.
Context {Sub : Type} (done : Sub -> bool).

(* What an operation may do to the bag of subscribers; r is the returned subscriber (None = nil). *)
Definition bag_step (o : @pop Sub) (l : list Sub) (r : option Sub) (l' : list Sub) : Prop :=
  match o with
  | PPush s => r = None /\ Permutation l' (s :: l)
  | PPop => match r with
            | None => l = [] /\ l' = []
            | Some s => Permutation l (s :: l') /\ (existsb done l = true -> done s = true)
            end
  | PPopDone => match r with
                | None => existsb done l = false /\ Permutation l l'
                | Some s => Permutation l (s :: l') /\ done s = true
                end
  | PSetFix i s' => r = None /\ exists s rest, nth_error l (Z.to_nat i) = Some s /\
                    Permutation l (s :: rest) /\ Permutation l' (s' :: rest)
  end.

Lemma alive_existsb l : alive done l <-> existsb done l = false.
Proof.
  split; intros H.
  - induction H as [|s l Hs _ IH]; simpl; auto. now rewrite Hs, IH.
  - induction l as [|s l IH]; constructor; simpl in H; apply orb_false_iff in H; destruct H; auto.
    apply IH; auto.
Qed.

Lemma pexec_ok o p : Inv done p ->
  (forall i s', o = PSetFix i s' -> 0 <= i < zlen (q p)) ->
  exists r p', pexec done o p = Some (r, p') /\ Inv done p' /\ bag_step o (q p) r (q p').
Proof.
  intros I H. destruct o as [s| | |i s']; simpl.
  - destruct (Push_ok done p s I) as [p' [E [I' P]]]. rewrite E. cbn [obind]. exists None, p'. auto.
  - destruct (Pop_ok done p I) as [r [p' [E [I' S]]]]. rewrite E. exists r, p'. repeat split; auto.
    destruct r as [s|].
    + destruct S as [Q D]. split.
      * rewrite Q. symmetry. apply Permutation_cons_append.
      * intros X. destruct (done s) eqn:Ds; auto. specialize (D eq_refl). apply alive_existsb in D. congruence.
    + destruct S as [Q ->]. auto.
  - destruct (PopDone_ok done p I) as [r [p' [E [I' S]]]]. rewrite E. exists r, p'. repeat split; auto.
    destruct r as [s|].
    + destruct S as [Q D]. split; auto. rewrite Q. symmetry. apply Permutation_cons_append.
    + destruct S as [Q ->]. split; auto. now apply alive_existsb.
  - specialize (H i s' eq_refl).
    destruct (Fix_change done p i s' I H) as (l & p' & s & rest & E1 & E2 & I' & G & P1 & P2).
    rewrite E1. cbn [obind]. rewrite E2. cbn [obind]. exists None, p'. repeat split; auto.
    exists s, rest. repeat split; auto.
    unfold zget in G. destruct (_ && _); congruence.
Qed.

(* Gap-free statement of the invariant: unfinished subscribers first, then the finished ones. *)
Definition partitioned (l : list Sub) : Prop :=
  forall i j s t, (i < j)%nat -> nth_error l i = Some s -> nth_error l j = Some t ->
    done s = true -> done t = true.

Lemma Inv_partitioned p : Inv done p -> partitioned (q p).
Proof.
  intros [a [b [Hq [Hg [Ha Hb]]]]] i j s t Hij Hi Hj Ds. rewrite Hq in *.
  destruct (le_lt_dec (length a) j) as [L|L].
  - rewrite nth_error_app2 in Hj by auto. apply nth_error_In in Hj.
    unfold ended in Hb. rewrite Forall_forall in Hb. auto.
  - rewrite nth_error_app1 in Hi by lia. apply nth_error_In in Hi.
    unfold alive in Ha. rewrite Forall_forall in Ha. rewrite (Ha s Hi) in Ds. discriminate.
Qed.

(* Every trace of operations from the empty queue. *)
Inductive trace : list (@pop Sub) -> list (option Sub) -> list Sub -> Prop :=
| tr_nil : trace [] [] []
| tr_snoc ops rs l o r l' : trace ops rs l -> bag_step o l r l' -> trace (ops ++ [o]) (rs ++ [r]) l'.

(* Run a program, collecting answers; a panic gives None. *)
Fixpoint prun_ans (ops : list (@pop Sub)) (p : pqueue) : option (list (option Sub) * pqueue) :=
  match ops with
  | [] => Some ([], p)
  | o :: rest => do (r, p1) <- pexec done o p; do (rs, p2) <- prun_ans rest p1; Some (r :: rs, p2)
  end.

Lemma prun_ans_snoc : forall ops o p,
  prun_ans (ops ++ [o]) p = do (rs, p1) <- prun_ans ops p; do (r, p2) <- pexec done o p1; Some (rs ++ [r], p2).
Proof.
  induction ops as [|o' ops IH]; intros o p; simpl.
  - destruct (pexec done o p) as [[r p1]|]; auto.
  - destruct (pexec done o' p) as [[r p1]|]; cbn [obind]; auto. rewrite IH.
    destruct (prun_ans ops p1) as [[rs p2]|]; cbn [obind]; auto.
    destruct (pexec done o p2) as [[r2 p3]|]; cbn [obind]; auto.
Qed.

Lemma prun_trace : forall ops p rs, prun_ans ops empty_pq = Some (rs, p) -> Inv done p /\ trace ops rs (q p).
Proof.
  induction ops as [|o ops IH] using rev_ind; intros p rs H.
  - inversion H; subst. split; [|constructor]. exists [], []. repeat split; constructor.
  - rewrite prun_ans_snoc in H. destruct (prun_ans ops empty_pq) as [[rs1 p1]|]; [|discriminate].
    cbn [obind] in H. destruct (pexec done o p1) as [[r p2]|] eqn:E; [|discriminate].
    cbn [obind] in H. inversion H; subst. destruct (IH p1 rs1 eq_refl) as [I T].
    assert (LG : forall i s', o = PSetFix i s' -> 0 <= i < zlen (q p1)).
    { intros i s' ->. simpl in E. destruct (zset (q p1) i s') eqn:Z; [|discriminate].
      unfold zset in Z. destruct (Z.leb_spec 0 i), (Z.ltb_spec i (zlen (q p1))); simpl in Z; try discriminate. lia. }
    destruct (pexec_ok o p1 I LG) as [r' [p' [E' [I' B]]]]. rewrite E in E'. inversion E'; subst.
    split; auto. econstructor; eauto.
Qed.

(* The only panic is a state change at a position that does not exist. *)
Lemma prun_panic ops o rs p : prun_ans ops empty_pq = Some (rs, p) -> prun_ans (ops ++ [o]) empty_pq = None ->
  exists i s', o = PSetFix i s' /\ ~ (0 <= i < zlen (q p)).
Proof.
  intros H N. destruct (prun_trace _ _ _ H) as [I _]. rewrite prun_ans_snoc, H in N. cbn [obind] in N.
  destruct o as [s| | |i s'].
  4:{ destruct (Z_lt_ge_dec i 0); [exists i, s'; split; auto; lia|].
      destruct (Z_lt_ge_dec i (zlen (q p))); [|exists i, s'; split; auto; lia].
      exfalso. destruct (pexec_ok (PSetFix i s') p I) as [r [p' [E _]]].
      { intros ? ? X; inversion X; subst. lia. }
      rewrite E in N. discriminate. }
  all: exfalso.
  - destruct (pexec_ok (PPush s) p I) as [r [p' [E _]]]; [intros ? ? X; discriminate | rewrite E in N; discriminate].
  - destruct (pexec_ok PPop p I) as [r [p' [E _]]]; [intros ? ? X; discriminate | rewrite E in N; discriminate].
  - destruct (pexec_ok PPopDone p I) as [r [p' [E _]]]; [intros ? ? X; discriminate | rewrite E in N; discriminate].
Qed.
End Histories.

(* ---- order independence ---- *)
Section Order.
Context {Sub : Type} (done : Sub -> bool) {G : Type} (mlen : Sub -> Z).
(* Subscribers that do not communicate: the event function ignores and keeps the shared state. *)
Context (ev1 : Sub -> Sub * list Z).
Let ev (g : G) (s : Sub) : G * Sub * list Z := (g, fst (ev1 s), snd (ev1 s)).

Lemma events_indep g l : events ev g l = (g, map ev1 l).
Proof.
  induction l as [|s l IH]; simpl; auto. rewrite IH. now destruct (ev1 s).
Qed.

Lemma sum_at_perm pp pp' j : Permutation pp pp' -> sum_at pp j = sum_at pp' j.
Proof. intros P. unfold sum_at. induction P; simpl; lia. Qed.
Lemma max_len_perm pp pp' : Permutation pp pp' -> max_len pp = max_len pp'.
Proof. intros P. unfold max_len. induction P; simpl; lia. Qed.
Lemma longest_perm l l' : Permutation l l' -> longest_of done mlen l = longest_of done mlen l'.
Proof.
  intros P. unfold longest_of. induction P; simpl; try lia.
  - destruct (done x); simpl; lia.
  - destruct (done x), (done y); simpl; lia.
Qed.

Lemma publish_order g p1 p2 : Inv done p1 -> Inv done p2 -> alive done (q p1) ->
  Permutation (q p1) (q p2) ->
  exists longest tot rel1 rel2 p1' p2',
    Publish done ev mlen g p1 = Some (g, longest, tot, rel1, p1') /\
    Publish done ev mlen g p2 = Some (g, longest, tot, rel2, p2') /\
    Permutation rel1 rel2 /\ Permutation (q p1') (q p2').
Proof.
  intros I1 I2 A1 P.
  assert (A2 : alive done (q p2)) by (unfold alive; eapply Permutation_Forall; eauto).
  destruct (Publish_ok done ev mlen g p1 I1 A1) as (g1 & lo1 & t1 & r1 & p1' & o1 & E1 & X1 & Q1 & R1 & _ & S1 & L1 & M1).
  destruct (Publish_ok done ev mlen g p2 I2 A2) as (g2 & lo2 & t2 & r2 & p2' & o2 & E2 & X2 & Q2 & R2 & _ & S2 & L2 & M2).
  rewrite events_indep in E1, E2. inversion E1; inversion E2; subst.
  assert (PE : Permutation (map ev1 (rev (q p1))) (map ev1 (rev (q p2)))).
  { apply Permutation_map. rewrite <- !Permutation_rev. auto. }
  assert (PF : forall (f : Sub -> bool) l l', Permutation l l' -> Permutation (filter f l) (filter f l')).
  { intros f l l' Hp. induction Hp; simpl; auto.
    - destruct (f x); auto.
    - destruct (f x), (f y); auto. apply perm_swap.
    - etransitivity; eauto. }
  assert (longest_of done mlen (map fst (map ev1 (rev (q p1)))) = longest_of done mlen (map fst (map ev1 (rev (q p2))))) as LE
    by (apply longest_perm, Permutation_map; auto).
  assert (t1 = t2) as TE.
  { apply nth_ext with (d := 0) (d' := 0).
    - rewrite L1, L2. apply max_len_perm, Permutation_map; auto.
    - intros n _. rewrite S1, S2. apply sum_at_perm, Permutation_map; auto. }
  rewrite X1, X2, <- TE, <- LE. do 6 eexists. repeat split; eauto.
  - rewrite R1, R2. apply PF, Permutation_map; auto.
  - rewrite Q1, Q2. apply PF, Permutation_map; auto.
Qed.
End Order.
