(* PoolProofs.v -- breakers that share the pool of recognisers do not disturb each other. *)
From Coq Require Import List ZArith Lia Bool Permutation.
From Verif Require Import Base PrioQ PrioQProofs Recognizer Pool.
Import ListNotations.
Open Scope Z_scope.

(* ---- the queue on mapped contents ---- *)
Section Map.
Context {A B : Type} (f : A -> B) (dA : A -> bool) (dB : B -> bool) (D : forall a, dA a = dB (f a)).
Definition pmap (p : @pqueue A) : @pqueue B := mkpq (map f (q p)) (gap p).
Lemma zlen_map (l : list A) : zlen (map f l) = zlen l.
Proof. unfold zlen. now rewrite map_length. Qed.
Lemma zget_map (l : list A) i : zget (map f l) i = option_map f (zget l i).
Proof. unfold zget. rewrite zlen_map. destruct (_ && _); auto. apply nth_error_map. Qed.
Lemma nset_map a : forall (l : list A) n, nset (map f l) n (f a) = map f (nset l n a).
Proof. induction l as [|x l IH]; intros [|n]; cbn; auto. now rewrite IH. Qed.
Lemma zset_map (l : list A) i a : zset (map f l) i (f a) = option_map (map f) (zset l i a).
Proof. unfold zset. rewrite zlen_map. destruct (_ && _); auto. cbn [option_map]. now rewrite nset_map. Qed.
Lemma swap_map (l : list A) i j : swap (map f l) i j = option_map (map f) (swap l i j).
Proof.
  unfold swap. rewrite !zget_map. destruct (zget l i) as [a|]; cbn [obind option_map]; auto. destruct (zget l j) as [b|]; cbn [obind option_map]; auto.
  rewrite zset_map. destruct (zset l i b) as [l1|]; cbn [obind option_map]; auto. apply zset_map.
Qed.
Lemma pLen_map p : pLen (pmap p) = pLen p.
Proof. apply zlen_map. Qed.
Lemma bubbleUp_map p i : bubbleUp dB (pmap p) i = option_map pmap (bubbleUp dA p i).
Proof.
  unfold bubbleUp. rewrite pLen_map. change (gap (pmap p)) with (gap p). change (q (pmap p)) with (map f (q p)). rewrite !swap_map.
  assert (K : forall o, (do l <- option_map (map f) o; if gap p >? 0 then do s <- zget l (gap p - 1); Some (mkpq l (if dB s then gap p - 1 else gap p)) else Some (mkpq l (gap p)))
    = option_map pmap (do l <- o; if gap p >? 0 then do s <- zget l (gap p - 1); Some (mkpq l (if dA s then gap p - 1 else gap p)) else Some (mkpq l (gap p)))).
  { intros [l|]; cbn [obind option_map]; auto. destruct (_ >? _); auto. rewrite zget_map. destruct (zget _ _) as [s|]; cbn [obind option_map]; auto. now rewrite D. }
  destruct (_ <? _); [|apply (K (Some (q p)))]. destruct (_ <? _); [apply K|]. destruct (_ <? _); [apply K|apply (K (Some (q p)))].
Qed.
Lemma bubbleDown_map p i : bubbleDown dB (pmap p) i = option_map pmap (bubbleDown dA p i).
Proof.
  unfold bubbleDown. change (gap (pmap p)) with (gap p). change (q (pmap p)) with (map f (q p)). rewrite !swap_map.
  assert (K : forall o, (do l <- option_map (map f) o; if gap p <? zlen l then do s <- zget l (gap p); Some (mkpq l (if dB s then gap p else gap p + 1)) else Some (mkpq l (gap p)))
    = option_map pmap (do l <- o; if gap p <? zlen l then do s <- zget l (gap p); Some (mkpq l (if dA s then gap p else gap p + 1)) else Some (mkpq l (gap p)))).
  { intros [l|]; cbn [obind option_map]; auto. rewrite zlen_map. destruct (_ <? _); auto. rewrite zget_map. destruct (zget _ _) as [s|]; cbn [obind option_map]; auto. now rewrite D. }
  destruct (_ >=? _); [|apply (K (Some (q p)))]. destruct (_ <? _); [apply K|apply (K (Some (q p)))].
Qed.
Lemma check_map p : check dB (pmap p) = option_map pmap (check dA p).
Proof.
  unfold check. rewrite pLen_map. change (gap (pmap p)) with (gap p). change (q (pmap p)) with (map f (q p)). rewrite firstn_map.
  assert (E : forall l, forallb (fun s => negb (dB s)) (map f l) = forallb (fun s => negb (dA s)) l) by (induction l as [|x l IH]; cbn; auto; now rewrite D, IH).
  rewrite E. now destruct (_ && _).
Qed.
Lemma Fix_map p i : Fix dB (pmap p) i = option_map pmap (Fix dA p i).
Proof.
  unfold Fix. rewrite pLen_map. destruct (_ <? _); auto. change (q (pmap p)) with (map f (q p)). rewrite zget_map.
  destruct (zget (q p) i) as [s|]; cbn [obind option_map]; auto. rewrite <- D.
  assert (K : forall o, (do p' <- option_map pmap o; check dB p') = option_map pmap (do p' <- o; check dA p')) by (intros [p'|]; cbn [obind option_map]; auto using check_map).
  destruct (dA s); [rewrite bubbleUp_map|rewrite bubbleDown_map]; apply K.
Qed.
Lemma Push_map p a : Push dB (pmap p) (f a) = option_map pmap (Push dA p a).
Proof.
  unfold Push. rewrite pLen_map, <- D. change (gap (pmap p)) with (gap p). change (q (pmap p)) with (map f (q p)).
  change (map f (q p) ++ [f a]) with (map f (q p) ++ map f [a]). rewrite <- map_app. destruct (dA a); [reflexivity|].
  change (mkpq (map f (q p ++ [a])) (gap p)) with (pmap (mkpq (q p ++ [a]) (gap p))). apply bubbleDown_map.
Qed.
Definition both (x : option A * @pqueue A) : option B * @pqueue B := (option_map f (fst x), pmap (snd x)).
Lemma Pop_map p : Pop (pmap p) = option_map both (Pop p).
Proof.
  unfold Pop. rewrite pLen_map. destruct (_ =? _); auto. change (q (pmap p)) with (map f (q p)). rewrite zget_map.
  destruct (zget _ _) as [s|]; cbn [obind option_map]; auto. rewrite firstn_map, zlen_map. reflexivity.
Qed.
Lemma PopDone_map p : PopDone dB (pmap p) = option_map both (PopDone dA p).
Proof.
  unfold PopDone, pTop. rewrite pLen_map. destruct (_ =? _) eqn:E; [reflexivity|]. change (q (pmap p)) with (map f (q p)). rewrite zget_map.
  destruct (zget _ _) as [s|]; cbn [obind option_map]; auto. rewrite <- D. destruct (dA s); [apply Pop_map|reflexivity].
Qed.
End Map.

(* ---- the queue keeps its contents ---- *)
Section Contents.
Context {A : Type} (d : A -> bool).
Lemma exchange (x y z : list A) a b : Permutation (x ++ b :: y ++ a :: z) (x ++ a :: y ++ b :: z).
Proof.
  apply Permutation_app_head. transitivity (b :: a :: y ++ z).
  - constructor. symmetry. apply Permutation_middle.
  - transitivity (a :: b :: y ++ z); [constructor|]. constructor. apply Permutation_middle.
Qed.
Lemma swap_perm (l l' : list A) i j : swap l i j = Some l' -> Permutation l' l.
Proof.
  intros E. pose proof E as E0. unfold swap in E. destruct (zget l i) as [a|] eqn:Gi; [|discriminate E]. destruct (zget l j) as [b|] eqn:Gj; [|discriminate E]. clear E.
  assert (Ri : 0 <= i < zlen l) by (apply zget_Some_iff; eauto). assert (Rj : 0 <= j < zlen l) by (apply zget_Some_iff; eauto).
  destruct (Z.lt_trichotomy i j) as [C|[C|C]].
  - destruct (split_at l i Ri) as (x & s & y & -> & Lx).
    assert (R : 0 <= j - i - 1 < zlen y) by (rewrite zlen_app, zlen_cons in Rj; lia). destruct (split_at y _ R) as (y1 & t & y2 & -> & Ly).
    pose proof (swap_fwd x y1 y2 s t) as W. replace (zlen x + 1 + zlen y1) with j in W by lia. rewrite Lx in W. rewrite W in E0. injection E0 as <-. apply exchange.
  - subst j. replace l' with l; auto. unfold swap in E0. rewrite Gi in E0. cbn [obind] in E0.
    destruct (zset l i a) as [l1|] eqn:S1; [|discriminate E0]. cbn [obind] in E0. apply zget_ext. intros k. rewrite (zget_zset _ _ _ _ _ E0), (zget_zset _ _ _ _ _ S1).
    destruct (Z.eqb_spec k i); congruence.
  - destruct (split_at l j Rj) as (x & s & y & -> & Lx).
    assert (R : 0 <= i - j - 1 < zlen y) by (rewrite zlen_app, zlen_cons in Ri; lia). destruct (split_at y _ R) as (y1 & t & y2 & -> & Ly).
    pose proof (swap_bwd x y1 y2 s t) as W. replace (zlen x + 1 + zlen y1) with i in W by lia. rewrite Lx in W. rewrite W in E0. injection E0 as <-. apply exchange.
Qed.
Lemma bubbleUp_perm p p' i : bubbleUp d p i = Some p' -> Permutation (q p') (q p).
Proof.
  unfold bubbleUp. match goal with |- obind ?e _ = _ -> _ => destruct e as [l|] eqn:O end; [|discriminate]. cbn [obind]. intros E.
  assert (P : Permutation l (q p)).
  { destruct (_ <? _); [destruct (_ <? _); [|destruct (_ <? _)]|]; try (injection O as <-; reflexivity); eapply swap_perm; eauto. }
  revert E. destruct (_ >? _); [destruct (zget _ _); [|discriminate]|]; cbn [obind]; intros E; injection E as <-; exact P.
Qed.
Lemma bubbleDown_perm p p' i : bubbleDown d p i = Some p' -> Permutation (q p') (q p).
Proof.
  unfold bubbleDown. match goal with |- obind ?e _ = _ -> _ => destruct e as [l|] eqn:O end; [|discriminate]. cbn [obind]. intros E.
  assert (P : Permutation l (q p)).
  { destruct (_ >=? _); [destruct (_ <? _)|]; try (injection O as <-; reflexivity); eapply swap_perm; eauto. }
  revert E. destruct (gap p <? zlen l); [destruct (zget l (gap p)); [|discriminate]|]; cbn [obind]; intros E; injection E as <-; exact P.
Qed.
Lemma Fix_perm p p' i : Fix d p i = Some p' -> Permutation (q p') (q p).
Proof.
  unfold Fix. destruct (_ <? _); [|intros E; injection E as <-; reflexivity]. destruct (zget _ _) as [s|]; [|discriminate]. cbn [obind].
  assert (K : forall o, (forall p1, o = Some p1 -> Permutation (q p1) (q p)) -> (do p1 <- o; check d p1) = Some p' -> Permutation (q p') (q p)).
  { intros [p1|] P E; [|discriminate E]. cbn [obind] in E. unfold check in E. destruct (_ && _); [|discriminate E]. injection E as <-. now apply P. }
  destruct (d s); apply K; intros p1 E; [eapply bubbleUp_perm|eapply bubbleDown_perm]; eauto.
Qed.
Lemma Push_perm p p' a : Push d p a = Some p' -> Permutation (q p') (a :: q p).
Proof.
  unfold Push. intros E. transitivity (q p ++ [a]).
  - destruct (d a); [injection E as <-; reflexivity|]. apply bubbleDown_perm in E. exact E.
  - symmetry. apply Permutation_cons_append.
Qed.
Lemma PopDone_perm p p' o : PopDone d p = Some (o, p') ->
  match o with None => p' = p | Some a => q p = q p' ++ [a] /\ d a = true end.
Proof.
  unfold PopDone. destruct (pLen p =? 0) eqn:E; [intros H; injection H as <- <-; reflexivity|].
  unfold pTop. rewrite E. destruct (zget (q p) (pLen p - 1)) as [s|] eqn:Gs; [|discriminate]. cbn [obind].
  destruct (d s) eqn:Ds; [|intros H; injection H as <- <-; reflexivity].
  unfold Pop. rewrite E, Gs. cbn [obind]. intros H. injection H as <- <-. cbn [q]. split; auto.
  unfold pLen in *. assert (R : 0 <= zlen (q p) - 1 < zlen (q p)) by (apply zget_Some_iff; eauto).
  destruct (split_at (q p) _ R) as (x & t & y & Q & Lx). rewrite Q in Gs, Lx |- *. rewrite zlen_app, zlen_cons in Lx. pose proof (zlen_nonneg y).
  assert (y = []) as -> by (destruct y; auto; rewrite zlen_cons in *; pose proof (zlen_nonneg y); lia).
  rewrite zlen_app, zlen_cons, zlen_nil in *. replace (zlen x + (0 + 1) - 1) with (zlen x) in * by lia. rewrite zget_mid in Gs. injection Gs as ->.
  unfold zlen. rewrite Nat2Z.id, firstn_app, firstn_all, Nat.sub_diag. cbn. now rewrite app_nil_r.
Qed.
End Contents.

(* ---- one breaker alone, with recognisers of its own ---- *)
Section Alone.
Context {L G : Type} (step : L -> G -> rec L -> Z -> Z -> G * (rec L * option L)).
Context (begin : nat -> Z -> G -> G * Z * Z * list L) (finish : nat -> Z -> G -> Z -> list Z -> G * Z * list Z).
Notation own := (breaker L G (rec L)).
Notation world := (world L G).
(* One step of breaker b: rules are started with new recognisers; no pool, no addresses. *)
Definition lstep (b : nat) (x : own) : option own :=
  match at_ x with
  | Idle =>
      match text x with
      | [] => None
      | r :: t => let '(g, c, e, ls) := begin b r (state x) in Some (mkb (queue x) g t (Starting r c e ls) (longest x) (total x) (answers x))
      end
  | Starting r c e [] => Some (mkb (queue x) (state x) (text x) (Publishing r c (length (q (queue x)))) 0 [] (answers x))
  | Starting r c e (l :: ls) =>
      Some (match Push Done (queue x) (NewRecognizer e l) with
            | Some p => mkb p (state x) (text x) (Starting r c e ls) (longest x) (total x) (answers x)
            | None => crash x
            end)
  | Publishing r c (S i) =>
      match zget (q (queue x)) (Z.of_nat i) with
      | None => Some (crash x)
      | Some s =>
          let '(g, s', pens) := RuneEvent step r c (state x) s in
          let y := mkb (mkpq (nset (q (queue x)) i s') (gap (queue x))) g (text x) (at_ x) (longest x) (total x) (answers x) in
          let tot := add_pens (total x) pens in
          let long := if negb (Done s') && (MatchLength s' >? longest x) then MatchLength s' else longest x in
          Some (match Fix Done (queue y) (Z.of_nat i) with
                | Some p => mkb p g (text x) (Publishing r c i) long tot (answers x)
                | None => crash y
                end)
      end
  | Publishing r c 0%nat => Some (mkb (queue x) (state x) (text x) (Releasing r c) (longest x) (total x) (answers x))
  | Releasing r c =>
      match PopDone Done (queue x) with
      | None => Some (crash x)
      | Some (None, p) =>
          let '(g, lam, ps) := finish b c (state x) (longest x) (total x) in
          Some (mkb p g (text x) Idle (longest x) (total x) (answers x ++ [(lam, ps)]))
      | Some (Some a, p) => Some (mkb p (state x) (text x) (Releasing r c) (longest x) (total x) (answers x))
      end
  | Crashed => None
  end.
Fixpoint lsteps (b n : nat) (x : own) : option own :=
  match n with O => Some x | S n => match lstep b x with Some y => lsteps b n y | None => None end end.

(* what a breaker sees of the world *)
Definition bmap (h : nat -> cell L) (x : breaker L G nat) : own :=
  mkb (pmap (fun a => what (h a)) (queue x)) (state x) (text x) (at_ x) (longest x) (total x) (answers x).
Definition view (w : world) (b : nat) : own := bmap (heap w) (breakers w b).
Definition held (w : world) (b : nat) : list nat := q (queue (breakers w b)).

Record ok (w : world) : Prop := mkok {
  ok_idle : NoDup (idle w);
  ok_queue : forall b, NoDup (held w b);
  ok_apart : forall b a, In a (held w b) -> ~ In a (idle w);
  ok_low : forall a, In a (idle w) -> (a < fresh w)%nat;
  ok_low' : forall b a, In a (held w b) -> (a < fresh w)%nat;
  ok_blank : forall a, In a (idle w) \/ (fresh w <= a)%nat -> what (heap w a) = blank;
  ok_user : forall b a, In a (held w b) -> user (heap w a) = b;
  ok_gone : NoDup (gone w);
  ok_gone' : forall a, In a (gone w) -> (a < fresh w)%nat /\ ~ In a (idle w) /\ forall b, ~ In a (held w b) }.

Lemma set_same {A} (f : nat -> A) i x : set_at f i x i = x.
Proof. unfold set_at. now rewrite Nat.eqb_refl. Qed.
Lemma set_other {A} (f : nat -> A) i x j : j <> i -> set_at f i x j = f j.
Proof. intros N. unfold set_at. now destruct (Nat.eqb_spec j i). Qed.
Lemma bmap_ext h h' x : (forall a, In a (q (queue x)) -> what (h a) = what (h' a)) -> bmap h x = bmap h' x.
Proof. intros E. unfold bmap, pmap. do 2 f_equal. now apply map_ext_in. Qed.
Lemma map_nset_other (f g : nat -> rec L) : forall l i a, NoDup l -> nth_error l i = Some a -> (forall c, c <> a -> g c = f c) ->
  map g l = nset (map f l) i (g a).
Proof.
  induction l as [|x l IH]; intros [|i] a N E O; cbn in E; try discriminate E; inversion N; subst.
  - injection E as <-. cbn [map nset]. f_equal. apply map_ext_in. intros c I. apply O. intros ->. contradiction.
  - cbn [map nset]. f_equal; [|now apply IH]. apply O. intros ->. apply H1. eapply nth_error_In; eauto.
Qed.

(* changes that leave pool and objects alone *)
Lemma ok_put w b x : ok w -> q (queue x) = held w b -> ok (mkw (heap w) (idle w) (fresh w) (gone w) (set_at (breakers w) b x)).
Proof.
  intros O E. assert (H : forall c, held (mkw (heap w) (idle w) (fresh w) (gone w) (set_at (breakers w) b x)) c = held w c).
  { intros c. unfold held. cbn [breakers]. unfold set_at. destruct (Nat.eqb_spec c b) as [->|]; auto. }
  destruct O. constructor; cbn [heap idle fresh gone]; intros; try rewrite H in *; eauto. edestruct ok_gone'0 as (X1 & X2 & X3); eauto. repeat split; auto. intros d. rewrite H. apply X3.
Qed.
Lemma view_put w b x c : c <> b -> view (mkw (heap w) (idle w) (fresh w) (gone w) (set_at (breakers w) b x)) c = view w c.
Proof. intros N. unfold view. cbn [heap breakers]. now rewrite set_other. Qed.
Lemma view_put_same w b x : view (mkw (heap w) (idle w) (fresh w) (gone w) (set_at (breakers w) b x)) b = bmap (heap w) x.
Proof. unfold view. cbn [heap breakers]. now rewrite set_same. Qed.

(* An object is handed out to one breaker only, and it is blank. *)
Lemma borrow_ok w k a idl fr : ok w -> borrow k w = (a, idl, fr) ->
  what (heap w a) = blank /\ (forall b, ~ In a (held w b)) /\ ~ In a (gone w) /\ ~ In a idl /\ NoDup idl /\ (forall x, In x idl -> In x (idle w)) /\ (a < fr)%nat /\ (fresh w <= fr)%nat.
Proof.
  intros O. unfold borrow. destruct (nth_error (idle w) k) as [a0|] eqn:E; intros H; apply pair_equal_spec in H; destruct H as [H <-]; apply pair_equal_spec in H; destruct H as [<- <-].
  - pose proof (nth_error_In _ _ E) as I. pose proof E as E1. apply nth_error_split in E1. destruct E1 as (l1 & l2 & Q & K).
    assert (Q' : firstn k (idle w) ++ skipn (S k) (idle w) = l1 ++ l2).
    { rewrite Q. subst k. f_equal.
      - rewrite firstn_app, firstn_all, Nat.sub_diag. cbn. apply app_nil_r.
      - rewrite skipn_app, skipn_all2 by lia. replace (S (length l1) - length l1)%nat with 1%nat by lia. reflexivity. }
    rewrite Q'. pose proof (ok_idle w O) as N. rewrite Q in N. split; [apply (ok_blank w O); auto|]. split; [intros b J; exact (ok_apart w O b _ J I)|]. split; [intros J; now apply (ok_gone' w O) in J|].
    split; [eapply NoDup_remove_2; eauto|]. split; [eapply NoDup_remove_1; eauto|]. split.
    + intros x J. rewrite Q. apply in_app_iff in J. apply in_app_iff. destruct J; auto. right. now right.
    + split; [apply (ok_low w O); auto|lia].
  - split; [apply (ok_blank w O); right; lia|]. split; [intros b J; apply (ok_low' w O) in J; lia|]. split; [intros J; apply (ok_gone' w O) in J; lia|]. split; [intros J; apply (ok_low w O) in J; lia|].
    split; [apply (ok_idle w O)|]. split; [auto|]. split; lia.
Qed.

Lemma crash_queue {A} (x : breaker L G A) : queue (crash x) = queue x.
Proof. reflexivity. Qed.
Lemma bmap_crash h x : bmap h (crash x) = crash (bmap h x).
Proof. reflexivity. Qed.

(* A step of breaker b is the step it would take alone; no other breaker notices. *)
Lemma pstep_ok b k w : ok w ->
  match pstep step begin finish b k w with
  | None => lstep b (view w b) = None
  | Some w' => ok w' /\ lstep b (view w b) = Some (view w' b) /\ forall c, c <> b -> view w' c = view w c
  end.
Proof.
  intros O. unfold pstep, lstep. set (x := breakers w b). change (at_ (view w b)) with (at_ x). change (text (view w b)) with (text x). change (state (view w b)) with (state x).
  change (longest (view w b)) with (longest x). change (total (view w b)) with (total x). change (answers (view w b)) with (answers x). change (queue (view w b)) with (pmap (fun a => what (heap w a)) (queue x)).
  assert (PUT : forall y, q (queue y) = q (queue x) -> let w' := mkw (heap w) (idle w) (fresh w) (gone w) (set_at (breakers w) b y) in
    ok w' /\ Some (bmap (heap w) y) = Some (view w' b) /\ forall c, c <> b -> view w' c = view w c).
  { intros y E w'. split; [apply ok_put; auto|]. split; [unfold w'; now rewrite view_put_same|]. intros c N. now apply view_put. }
  destruct (at_ x) as [|r c e ls|r c i|r c|] eqn:AT.
  - destruct (text x) as [|r t]; auto. destruct (begin b r (state x)) as [[[g c] e] ls]. exact (PUT (mkb (queue x) g t (Starting r c e ls) (longest x) (total x) (answers x)) eq_refl).
  - destruct ls as [|l ls].
    + cbn [q pmap]. rewrite map_length. exact (PUT (mkb (queue x) (state x) (text x) (Publishing r c (length (q (queue x)))) 0 [] (answers x)) eq_refl).
    + destruct (borrow k w) as [[a idl] fr] eqn:BO. destruct (borrow_ok w k a idl fr O BO) as (BL & NH & NG & NI & ND & SUB & LT & LE).
      set (h := set_at (heap w) a _). set (x' := match Push (done_in h) (queue x) a with Some p => _ | None => _ end).
      set (w' := mkw h idl fr (gone w) (set_at (breakers w) b x')).
      assert (HO : forall d, d <> a -> h d = heap w d) by (intros d N; unfold h; now rewrite set_other).
      assert (HA : what (h a) = NewRecognizer e l) by (unfold h; rewrite set_same; cbn [what]; rewrite BL; reflexivity).
      assert (UA : user (h a) = b) by (unfold h; rewrite set_same; reflexivity).
      assert (Qx : Permutation (q (queue x')) (a :: q (queue x)) \/ q (queue x') = q (queue x)).
      { unfold x'. destruct (Push _ _ _) as [p|] eqn:P; [left; cbn [queue]; eapply Push_perm; eauto|right; reflexivity]. }
      assert (Hc : forall d, d <> b -> held w' d = held w d) by (intros d N; unfold held, w'; cbn [breakers]; now rewrite set_other).
      assert (Hb : held w' b = q (queue x')) by (unfold held, w'; cbn [breakers]; now rewrite set_same).
      assert (Ib : forall d z, In z (held w' d) -> In z (held w d) \/ (z = a /\ d = b)).
      { intros d z I. destruct (Nat.eq_dec d b) as [->|N]; [|rewrite Hc in I; auto]. rewrite Hb in I. destruct Qx as [Qx|Qx].
        - apply (Permutation_in _ Qx) in I. destruct I as [<-|I]; auto.
        - rewrite Qx in I. auto. }
      split; [|split].
      * constructor; cbn [idle heap fresh gone w'].
        -- exact ND.
        -- intros d. destruct (Nat.eq_dec d b) as [->|N]; [|rewrite Hc by auto; apply (ok_queue w O)]. rewrite Hb. pose proof (ok_queue w O b) as NB. change (held w b) with (q (queue x)) in NB.
           destruct Qx as [Qx| ->]; auto. eapply Permutation_NoDup; [symmetry; exact Qx|]. constructor; auto. apply (NH b).
        -- intros d z I J. destruct (Ib d z I) as [I'|[-> ->]]; [|contradiction]. exact (ok_apart w O d z I' (SUB z J)).
        -- intros z J. pose proof (ok_low w O z (SUB z J)). lia.
        -- intros d z I. destruct (Ib d z I) as [I'|[-> ->]]; [|auto]. pose proof (ok_low' w O d z I'). lia.
        -- intros z J. assert (z <> a) by (intros ->; destruct J; [contradiction|lia]). rewrite HO by auto. apply (ok_blank w O). destruct J as [J|J]; [left; auto|right; lia].
        -- intros d z I. destruct (Ib d z I) as [I'|[-> ->]]; [|auto]. rewrite HO; [apply (ok_user w O); auto|]. intros ->. exact (NH d I').
        -- apply (ok_gone w O).
        -- intros z J. destruct (ok_gone' w O z J) as (X1 & X2 & X3). split; [lia|]. split; [intros Y; exact (X2 (SUB z Y))|]. intros d I. destruct (Ib d z I) as [I'|[-> ->]]; [exact (X3 d I')|contradiction].
      * assert (E : pmap (fun z => what (heap w z)) (queue x) = pmap (fun z => what (h z)) (queue x)).
        { unfold pmap. f_equal. apply map_ext_in. intros z I. rewrite HO; auto. intros ->. exact (NH b I). }
        rewrite E, <- HA. f_equal.
        rewrite (Push_map (fun z => what (h z)) (done_in h) Done (fun _ => eq_refl)).
        unfold view, w'. cbn [heap breakers]. rewrite set_same. unfold x'. destruct (Push (done_in h) (queue x) a) as [p|]; cbn [option_map]; [reflexivity|].
        rewrite bmap_crash. unfold crash, bmap, view. cbn [queue state text longest total answers]. fold x. now rewrite <- E.
      * intros d N. unfold view, w'. cbn [heap breakers]. rewrite set_other by auto. apply bmap_ext. intros z I. rewrite HO; auto. intros ->. exact (NH d I).
  - destruct i as [|i]; [exact (PUT (mkb (queue x) (state x) (text x) (Releasing r c) (longest x) (total x) (answers x)) eq_refl)|].
    cbn [q pmap]. rewrite zget_map. destruct (zget (q (queue x)) (Z.of_nat i)) as [a|] eqn:Ga; cbn [option_map]; [|exact (PUT (crash x) eq_refl)].
    assert (Na : nth_error (q (queue x)) i = Some a) by (unfold zget in Ga; destruct (_ && _) in Ga; [|discriminate Ga]; now rewrite Nat2Z.id in Ga).
    assert (Ia : In a (held w b)) by (eapply nth_error_In; eauto).
    rewrite (ok_user w O b a Ia). fold x. cbn zeta. destruct (RuneEvent step r c (state x) (what (heap w a))) as [[g s] pens]. rewrite set_same. cbn [queue state text longest total answers].
    set (h := set_at (heap w) a _). set (x1 := mkb (queue x) g (text x) (at_ x) (longest x) (total x) (answers x)).
    set (x' := match Fix (done_in h) (queue x) (Z.of_nat i) with Some p => _ | None => _ end). set (w' := mkw h (idle w) (fresh w) (gone w) _).
    assert (HO : forall d, d <> a -> h d = heap w d) by (intros d N; unfold h; now rewrite set_other).
    assert (HA : what (h a) = s) by (unfold h; rewrite set_same; reflexivity).
    assert (UA : forall d, user (h d) = user (heap w d)) by (intros d; unfold h, set_at; destruct (Nat.eqb_spec d a) as [->|]; auto; cbn [user]; symmetry; now apply (ok_user w O)).
    assert (Qx : Permutation (q (queue x')) (q (queue x))).
    { unfold x'. destruct (Fix _ _ _) as [p|] eqn:P; [eapply Fix_perm; eauto|reflexivity]. }
    assert (Hc : forall d, d <> b -> breakers w' d = breakers w d) by (intros d N; unfold w'; cbn [breakers]; now rewrite !set_other by auto).
    assert (Hb : breakers w' b = x') by (unfold w'; cbn [breakers]; now rewrite set_same).
    assert (Ib : forall d z, In z (held w' d) -> In z (held w d)).
    { intros d z I. unfold held in *. destruct (Nat.eq_dec d b) as [->|N]; [|rewrite Hc in I; auto]. rewrite Hb in I. exact (Permutation_in _ Qx I). }
    split; [|split].
    + constructor; cbn [idle heap fresh gone w'].
      * apply (ok_idle w O).
      * intros d. unfold held. destruct (Nat.eq_dec d b) as [->|N]; [|rewrite Hc by auto; apply (ok_queue w O)]. rewrite Hb. eapply Permutation_NoDup; [symmetry; exact Qx|]. apply (ok_queue w O b).
      * intros d z I. exact (ok_apart w O d z (Ib d z I)).
      * apply (ok_low w O).
      * intros d z I. exact (ok_low' w O d z (Ib d z I)).
      * intros z J. rewrite HO; [apply (ok_blank w O); auto|]. intros ->. destruct J as [J|J]; [exact (ok_apart w O b a Ia J)|]. pose proof (ok_low' w O b a Ia). lia.
      * intros d z I. rewrite UA. apply (ok_user w O); auto.
      * apply (ok_gone w O).
      * intros z J. destruct (ok_gone' w O z J) as (X1 & X2 & X3). split; auto. split; auto. intros d I. exact (X3 d (Ib d z I)).
    + assert (E : mkpq (nset (map (fun z => what (heap w z)) (q (queue x))) i s) (gap (pmap (fun z => what (heap w z)) (queue x))) = pmap (fun z => what (h z)) (queue x)).
      { unfold pmap. cbn [gap]. f_equal. rewrite <- HA. symmetry. apply (map_nset_other (fun z => what (heap w z)) (fun z => what (h z))); auto.
        - apply (ok_queue w O b).
        - intros z N. now rewrite HO. }
      rewrite E. cbn [queue]. rewrite (Fix_map (fun z => what (h z)) (done_in h) Done (fun _ => eq_refl)). f_equal.
      unfold view. rewrite Hb. change (heap w') with h. unfold x'. destruct (Fix (done_in h) (queue x) (Z.of_nat i)) as [p|]; cbn [option_map]; reflexivity.
    + intros d N. unfold view. rewrite Hc by auto. change (heap w') with h. apply bmap_ext. intros z I. rewrite HO; auto. intros ->.
      apply N. rewrite <- (ok_user w O d a I). apply (ok_user w O b a Ia).
  - rewrite (PopDone_map (fun z => what (heap w z)) (done_in (heap w)) Done (fun _ => eq_refl)).
    destruct (PopDone (done_in (heap w)) (queue x)) as [[[a|] p]|] eqn:P; cbn [option_map both fst snd]; [| |exact (PUT (crash x) eq_refl)]; pose proof (PopDone_perm _ _ _ _ P) as Q; cbn beta iota in Q.
    + destruct Q as [Q _]. destruct (if Nat.eqb k 0 then (a :: idle w, gone w) else (idle w, a :: gone w)) as [idl gn] eqn:PL.
      assert (PL' : (idl = a :: idle w /\ gn = gone w) \/ (idl = idle w /\ gn = a :: gone w)) by (destruct (Nat.eqb k 0); injection PL as <- <-; auto). clear PL.
      set (h := set_at (heap w) a _). set (x' := mkb p _ _ _ _ _ _). set (w' := mkw h _ _ _ _).
      assert (HO : forall d, d <> a -> h d = heap w d) by (intros d N; unfold h; now rewrite set_other).
      assert (HA : what (h a) = blank) by (unfold h; rewrite set_same; reflexivity).
      assert (UA : forall d, user (h d) = user (heap w d)) by (intros d; unfold h, set_at; destruct (Nat.eqb_spec d a) as [->|]; auto).
      assert (Ia : In a (held w b)) by (unfold held; fold x; rewrite Q; apply in_app_iff; right; now left).
      assert (Hc : forall d, d <> b -> breakers w' d = breakers w d) by (intros d N; unfold w'; cbn [breakers]; now rewrite set_other).
      assert (Hb : breakers w' b = x') by (unfold w'; cbn [breakers]; now rewrite set_same).
      pose proof (ok_queue w O b) as NB. unfold held in NB. fold x in NB. rewrite Q in NB.
      assert (Np : NoDup (q p) /\ ~ In a (q p)).
      { split; [now apply NoDup_remove_1 in NB; rewrite app_nil_r in NB|]. apply NoDup_remove_2 in NB. now rewrite app_nil_r in NB. }
      assert (Ib : forall d z, In z (held w' d) -> In z (held w d) /\ z <> a).
      { intros d z I. unfold held in *. destruct (Nat.eq_dec d b) as [->|N].
        - rewrite Hb in I. cbn [queue x'] in I. split; [fold x; rewrite Q; apply in_app_iff; now left|]. intros ->. now apply Np.
        - rewrite Hc in I by auto. split; auto. intros ->. apply N. rewrite <- (ok_user w O d a I). apply (ok_user w O b a Ia). }
      split; [|split].
      * constructor; cbn [idle heap fresh gone w'].
        -- destruct PL' as [[-> _]|[-> _]]; [|apply (ok_idle w O)]. constructor; [exact (ok_apart w O b a Ia)|apply (ok_idle w O)].
        -- intros d. unfold held. destruct (Nat.eq_dec d b) as [->|N]; [|rewrite Hc by auto; apply (ok_queue w O)]. rewrite Hb. apply Np.
        -- intros d z I J. destruct (Ib d _ I) as [I' NE]. destruct PL' as [[-> _]|[-> _]]; [destruct J as [<-|J]; [congruence|]|]; exact (ok_apart w O d z I' J).
        -- intros z J. destruct PL' as [[-> _]|[-> _]]; [destruct J as [<-|J]; [exact (ok_low' w O b a Ia)|]|]; now apply (ok_low w O).
        -- intros d z I. apply (ok_low' w O d z). now apply Ib.
        -- intros z J. destruct (Nat.eq_dec z a) as [->|N]; auto. rewrite HO by auto. apply (ok_blank w O). destruct J as [J|J]; auto. destruct PL' as [[-> _]|[-> _]]; auto. destruct J as [->|J]; auto. congruence.
        -- intros d z I. rewrite UA. apply (ok_user w O). now apply Ib.
        -- destruct PL' as [[_ ->]|[_ ->]]; [apply (ok_gone w O)|]. constructor; [|apply (ok_gone w O)]. intros J. destruct (ok_gone' w O a J) as (_ & _ & X3). exact (X3 b Ia).
        -- intros z J. assert (C : (z = a /\ idl = idle w) \/ (In z (gone w) /\ (idl = idle w \/ idl = a :: idle w))) by (destruct PL' as [[-> ->]|[-> ->]]; [auto|]; destruct J as [<-|J]; auto).
           destruct C as [[-> ->]|[J' C]].
           ++ split; [exact (ok_low' w O b a Ia)|]. split; [exact (ok_apart w O b a Ia)|]. intros d I. now destruct (Ib d a I).
           ++ destruct (ok_gone' w O z J') as (X1 & X2 & X3). split; auto. split; [|intros d I; exact (X3 d (proj1 (Ib d z I)))]. destruct C as [-> | ->]; auto.
              intros [<-|Y]; auto. exact (X3 b Ia).
      * f_equal. unfold view. rewrite Hb. change (heap w') with h. unfold x', bmap. cbn [queue state text at_ longest total answers]. f_equal.
        unfold pmap. f_equal. apply map_ext_in. intros z I. rewrite HO; auto. intros ->. now apply Np.
      * intros d N. unfold view. rewrite Hc by auto. change (heap w') with h. apply bmap_ext. intros z I. rewrite HO; auto. intros ->.
        apply N. rewrite <- (ok_user w O d a I). apply (ok_user w O b a Ia).
    + subst p. destruct (finish b c (state x) (longest x) (total x)) as [[g lam] ps].
      exact (PUT (mkb (queue x) g (text x) Idle (longest x) (total x) (answers x ++ [(lam, ps)])) eq_refl).
  - reflexivity.
Qed.

Lemma ok_world0 g0 texts : ok (world0 g0 texts).
Proof. constructor; cbn; intros; try constructor; try contradiction; auto. Qed.
Lemma view_world0 g0 texts b : view (world0 g0 texts) b = new_breaker (g0 b) (texts b).
Proof. reflexivity. Qed.

Definition turns (b : nat) (sched : list (nat * nat)) : nat := length (filter (fun x => Nat.eqb (fst x) b) sched).
(* Under any schedule and any choices of the pool each breaker gets as far as it would alone with as many steps. *)
Lemma prun_ok : forall sched w w', ok w -> prun step begin finish sched w = Some w' ->
  ok w' /\ forall b, lsteps b (turns b sched) (view w b) = Some (view w' b).
Proof.
  induction sched as [|[c k] sched IH]; intros w w' O E; cbn [prun] in E.
  - injection E as <-. split; auto.
  - pose proof (pstep_ok c k w O) as P. destruct (pstep step begin finish c k w) as [w1|]; [|discriminate E]. destruct P as (O1 & S1 & T1).
    destruct (IH _ _ O1 E) as [O' V]. split; auto. intros b. unfold turns. cbn [filter fst]. destruct (Nat.eqb_spec c b) as [->|N].
    + cbn [length lsteps]. rewrite S1. apply V.
    + rewrite <- (T1 b) by auto. apply V.
Qed.
End Alone.
