(* Uax9Rewrite.v -- what the rules of the resolver do to the result of UAX#9, on lists of runs: pairs of
   a class and a length. *)
From Coq Require Import List ZArith Lia Bool.
From Verif Require Import Base Scrap Uax9Spec Scanner ScannerProofs Resolver ResolverFlat ResolverText Uax9Proofs.
Import ListNotations.
Open Scope Z_scope.

Definition cls (l : list (Z * nat)) : list Z := map fst l.

Section Rewrite.
Context (e : Z).

(* The result, spread over the runs. *)
Fixpoint fcP (q : bool) (p : Z) (l : list (Z * nat)) : list Z :=
  match l with
  | [] => []
  | (c, n) :: t =>
      if number q c (cls t) then repeat cL n ++ fcP true cL t
      else if (c =? cL) || (c =? cR) then repeat c n ++ fcP false c t
      else repeat (if p =? ahead e (cls t) then p else e) n ++ fcP false p t
  end.

Lemma fcP_fc : forall l q p, fcP q p l = flat_map (fun x => repeat (fst x) (snd x)) (combine (fc e q p (cls l)) (map snd l)).
Proof.
  induction l as [|[c n] t IH]; intros q p; [reflexivity|]. cbn [fcP cls map fc fst snd]. fold (cls t).
  destruct (number q c (cls t)); [cbn [combine flat_map fst snd]; rewrite IH; reflexivity|].
  destruct (_ || _); cbn [combine flat_map fst snd]; rewrite IH; reflexivity.
Qed.

(* Groups of neutrals: a group that has more than one run is harmless if it ends with a run of class NI
   among the runs which are still to come, for then it will be joined; or if it gets the embedding
   direction.  [g]: the run before is in the group.  [k]: the number of runs that do not count as still
   to come. *)
Definition in_group (cs : list Z) : bool :=
  match cs with
  | [] => false
  | c :: t => negb (number false c t) && negb ((c =? cL) || (c =? cR))
  end.
Fixpoint chk (q : bool) (p : Z) (g : bool) (k : nat) (cs : list Z) : bool :=
  match cs with
  | [] => true
  | c :: t =>
      if number q c t then chk true cL false (pred k) t
      else if (c =? cL) || (c =? cR) then chk false c false (pred k) t
      else (negb g || in_group t || (k =? 0)%nat && (c =? cNI) || negb (p =? ahead e t) || (p =? e)) && chk false p true (pred k) t
  end.

(* The classes of the runs, and of those that are done with in pass 1. *)
Definition run9 : list Z := [cL; cR; cEN; cES; cET; cCS; cNI].
Definition done9 : list Z := [cL; cR; cNI].
Ltac cases H := cbn [In run9 done9] in H; repeat (destruct H as [<-|H]; [|]); try contradiction H.

Lemma chk_mono : forall cs q p g k k', (k' <= k)%nat -> chk q p g k cs = true -> chk q p g k' cs = true.
Proof.
  induction cs as [|c t IH]; intros q p g k k' L H; [reflexivity|]. cbn [chk] in *.
  assert (L' : (pred k' <= pred k)%nat) by lia.
  destruct (number q c t); [eapply IH; eauto|]. destruct (_ || _); [eapply IH; eauto|].
  apply andb_true_iff in H. destruct H as [H1 H2]. apply andb_true_iff. split; [|eapply IH; eauto].
  repeat rewrite orb_true_iff in *. destruct H1 as [[[[H1|H1]|H1]|H1]|H1]; auto.
  apply andb_true_iff in H1. destruct H1 as [H1 H3]. apply Nat.eqb_eq in H1. left. left. right.
  rewrite H3. replace k' with 0%nat by lia. reflexivity.
Qed.

Lemma number_done c t : In c done9 -> number false c t = false.
Proof. intros H. cases H; reflexivity. Qed.

Lemma ahead_app a v v' : ahead e v = ahead e v' -> ahead e (a ++ v) = ahead e (a ++ v').
Proof. intros H. induction a as [|c a IH]; [exact H|]. cbn [app ahead]. rewrite IH. reflexivity. Qed.

Lemma group_app a v v' : Forall (fun c => In c done9) a -> in_group v = in_group v' -> in_group (a ++ v) = in_group (a ++ v').
Proof. intros F H. destruct F as [|c a C F]; [exact H|]. cbn [app in_group]. rewrite !number_done by auto. reflexivity. Qed.

(* Behind runs that are done with. *)
Lemma fcP_cong a v v' : Forall (fun x => In (fst x) done9) a -> ahead e (cls v) = ahead e (cls v') ->
  (forall p, fcP false p v = fcP false p v') -> forall p, fcP false p (a ++ v) = fcP false p (a ++ v').
Proof.
  intros F H1 H2. induction F as [|[c n] a C F IH]; intros p; [apply H2|]. cbn [app fcP]. cbn [fst] in C.
  rewrite !number_done by auto. unfold cls in *. rewrite !map_app, (ahead_app (map fst a) _ _ H1), !IH. reflexivity.
Qed.

Lemma chk_cong a v v' k k' : Forall (fun c => In c done9) a -> ahead e v = ahead e v' -> in_group v = in_group v' ->
  (forall p g, chk false p g k v = true -> chk false p g k' v' = true) ->
  forall p g, chk false p g (length a + k) (a ++ v) = true -> chk false p g (length a + k') (a ++ v') = true.
Proof.
  intros F H1 H2 H3. induction F as [|c a C F IH]; intros p g; [apply H3|]. cbn [app chk length Nat.add pred Nat.eqb andb].
  rewrite !number_done by auto. rewrite (ahead_app a v v' H1), (group_app a v v' F H2).
  destruct (_ || _); [apply IH|]. intros H. apply andb_true_iff in H. destruct H as [A B]. rewrite A, (IH _ _ B). reflexivity.
Qed.

(* ---- the rules of pass 1 ---- *)
Lemma repeat_app {A} (x : A) n m : repeat x (n + m) = repeat x n ++ repeat x m.
Proof. induction n as [|n IH]; [reflexivity|]. cbn. rewrite IH. reflexivity. Qed.

Lemma fcP_q l q p : hd cNI (cls l) <> cET -> fcP q p l = fcP false p l.
Proof.
  destruct l as [|[c n] t]; [reflexivity|]. cbn [cls map hd fst fcP]. intros H. apply Z.eqb_neq in H. unfold number. rewrite H. reflexivity.
Qed.
Lemma chk_q cs q p g k : hd cNI cs <> cET -> chk q p g k cs = chk false p g k cs.
Proof.
  destruct cs as [|c t]; [reflexivity|]. cbn [hd chk]. intros H. apply Z.eqb_neq in H. unfold number. rewrite H. reflexivity.
Qed.

(* The context of a rewriting step: what holds of the old rest [v] and the new rest [v'], the stack
   pointer being at their beginning. *)
Record step_ok (k' : nat) (v v' : list (Z * nat)) : Prop := {
  so_fc : forall p, fcP false p v = fcP false p v';
  so_ahead : ahead e (cls v) = ahead e (cls v');
  so_group : in_group (cls v) = in_group (cls v');
  so_chk : forall p g, chk false p g 1 (cls v) = true -> chk false p g k' (cls v') = true }.

Ltac start := constructor; [intros p|reflexivity|reflexivity|intros p g H].

Lemma step_W4 c n1 n2 n3 t : c = cES \/ c = cCS -> step_ok 1 ((cEN, n1) :: (c, n2) :: (cEN, n3) :: t) ((cEN, (n1 + n2 + n3)%nat) :: t).
Proof.
  intros [-> | ->]; start.
  1,3: change (repeat cL n1 ++ repeat cL n2 ++ repeat cL n3 ++ fcP true cL t = repeat cL (n1 + n2 + n3) ++ fcP true cL t);
       rewrite !repeat_app, <- !app_assoc; reflexivity.
  1,2: exact H.
Qed.
Lemma step_W5_1 n1 n2 t : step_ok 1 ((cET, n1) :: (cEN, n2) :: t) ((cEN, (n1 + n2)%nat) :: t).
Proof.
  start.
  - change (repeat cL n1 ++ repeat cL n2 ++ fcP true cL t = repeat cL (n1 + n2) ++ fcP true cL t). rewrite repeat_app, <- app_assoc. reflexivity.
  - exact H.
Qed.
Lemma step_W5_2 n1 n2 t : step_ok 1 ((cEN, n1) :: (cET, n2) :: t) ((cEN, (n1 + n2)%nat) :: t).
Proof.
  start.
  - change (repeat cL n1 ++ repeat cL n2 ++ fcP true cL t = repeat cL (n1 + n2) ++ fcP true cL t). rewrite repeat_app, <- app_assoc. reflexivity.
  - exact H.
Qed.
Lemma step_W7 n t : hd cNI (cls t) <> cET -> step_ok 1 ((cEN, n) :: t) ((cL, n) :: t).
Proof.
  intros N. start.
  - change (repeat cL n ++ fcP true cL t = repeat cL n ++ fcP false cL t). rewrite fcP_q by auto. reflexivity.
  - change (chk true cL false 0 (cls t) = true) in H. rewrite chk_q in H by auto. exact H.
Qed.
Lemma step_W6_1 n t : en_ahead (cls t) = false -> step_ok 1 ((cET, n) :: t) ((cNI, n) :: t).
Proof.
  intros N. constructor.
  - intros p. cbn [fcP]. unfold number. rewrite N. reflexivity.
  - reflexivity.
  - cbn [cls map fst in_group]. fold (cls t). unfold number. rewrite N. reflexivity.
  - intros p g H. cbn [cls map fst chk] in *. fold (cls t) in *. unfold number in *. rewrite N in H. exact H.
Qed.
Lemma step_W6 c n t : c = cES \/ c = cCS -> step_ok 1 ((c, n) :: t) ((cNI, n) :: t).
Proof. intros [-> | ->]; start; try reflexivity; exact H. Qed.
Lemma step_W6x n1 n2 t : step_ok 0 ((cNI, n1) :: (cNI, n2) :: t) ((cNI, (n1 + n2)%nat) :: t).
Proof.
  start.
  - cbn. change (ahead e (cls ((cNI, n2) :: t))) with (ahead e (cls t)). rewrite repeat_app, <- app_assoc. reflexivity.
  - cbn [cls map fst chk number] in *. fold (cls t) in *. cbn in H |- *. rewrite orb_true_r. cbn [orb andb].
    apply andb_true_iff in H. destruct H as [_ H]. apply andb_true_iff in H. destruct H as [_ H]. exact H.
Qed.
Lemma step_W6x_first p n1 n2 t : chk false p false 1 (cls ((cNI, n1) :: (cNI, n2) :: t)) = true ->
  chk false p false 1 (cls ((cNI, (n1 + n2)%nat) :: t)) = true.
Proof. intros H. cbn [cls map fst] in *. cbn in H |- *. apply andb_true_iff in H. destruct H as [_ H]. exact H. Qed.

(* Passing a run. *)
Lemma chk_pass a c t p g : Forall (fun c => In c done9) a -> In c done9 -> (c = cNI -> hd cL t <> cNI) ->
  chk false p g (length a + 1) (a ++ c :: t) = true -> chk false p g (length a + 2) (a ++ c :: t) = true.
Proof.
  intros F C N. apply chk_cong; auto. clear - C N. intros p g. cbn [chk]. rewrite !number_done by auto. cbn [pred].
  destruct (_ || _) eqn:E.
  - destruct t as [|d t]; [auto|]. cbn [chk]. auto.
  - assert (CN : c = cNI) by (cases C; discriminate E || reflexivity). subst c. specialize (N eq_refl).
    cbn [Nat.eqb andb]. intros H. apply andb_true_iff in H. destruct H as [A B]. rewrite A. cbn [andb].
    destruct t as [|d t]; [auto|]. cbn [hd] in N. apply Z.eqb_neq in N. cbn [chk] in *. rewrite N in *. rewrite !andb_false_r in *. exact B.
Qed.

(* ---- pass 2 ---- *)
(* Two neutral runs in succession get the embedding direction. *)
Fixpoint nn (p : Z) (cs : list Z) : Prop :=
  match cs with
  | [] => True
  | c :: t =>
      if c =? cNI then (hd cL t = cNI -> p <> ahead e t \/ p = e) /\ nn p t
      else nn c t
  end.

Lemma chk_nn : forall cs p g k, Forall (fun c => In c done9) cs -> (length cs < k)%nat -> chk false p g k cs = true -> nn p cs.
Proof.
  induction cs as [|c t IH]; intros p g k F K H; [exact I|]. inversion F as [|? ? C F']; subst. cbn [length] in K.
  assert (K' : (length t < pred k)%nat) by lia. assert (K0 : (k =? 0)%nat = false) by (apply Nat.eqb_neq; lia).
  cbn [chk] in H. rewrite number_done, K0 in H by auto. cbn [andb] in H. rewrite orb_false_r in H.
  cases C; cbn in H |- *.
  - eapply IH; eauto.
  - eapply IH; eauto.
  - apply andb_true_iff in H. destruct H as [_ H]. split; [|eapply IH; eauto]. intros E. clear IH K0. revert k K K' H E. clear F g.
    assert (G : forall k, (length t < k)%nat -> chk false p true k t = true -> hd cL t = cNI -> p <> ahead e t \/ p = e).
    { induction t as [|d t IH]; intros k K H E; [discriminate E|]. cbn [hd] in E. subst d. inversion F' as [|? ? _ F'']; subst. cbn [length] in K.
      cbn [chk] in H. rewrite number_done in H by (cbn; auto). cbn in H. assert (K0 : (k =? 0)%nat = false) by (apply Nat.eqb_neq; lia). rewrite K0 in H. cbn [andb] in H.
      rewrite orb_false_r in H. apply andb_true_iff in H. destruct H as [A B].
      change (ahead e (cNI :: t)) with (ahead e t).
      destruct (in_group t) eqn:G.
      - apply (IH F'' (pred k)); auto; [lia|]. destruct t as [|d t]; [discriminate G|]. inversion F'' as [|? ? D _]; subst. cases D; try discriminate G. reflexivity.
      - cbn [orb] in A. apply orb_true_iff in A. destruct A as [A|A]; [left; apply negb_true_iff, Z.eqb_neq in A; exact A|right; apply Z.eqb_eq; exact A]. }
    intros k K K' H E. apply (G (pred k)); auto.
Qed.

Lemma repeat_nat_app (x : Z) n m (l : list Z) : repeat x n ++ repeat x m ++ l = repeat x (n + m) ++ l.
Proof. rewrite repeat_app, <- app_assoc. reflexivity. Qed.

(* Runs of class L and R only, before the rest. *)
Definition lr9 : list Z := [cL; cR].
Lemma lr_done c : In c lr9 -> In c done9.
Proof. intros [<-|[<-|[]]]; cbn; auto. Qed.

Lemma fcP_cong2 a v v' p : Forall (fun x => In (fst x) lr9) a ->
  (forall p', (a = [] -> p' = p) -> (forall b x, a = b ++ [x] -> p' = fst x) -> fcP false p' v = fcP false p' v') ->
  fcP false p (a ++ v) = fcP false p (a ++ v').
Proof.
  intros F. revert p. induction F as [|[c n] a C F IH]; intros p H; [apply H; auto; intros [|? ?] ? X; discriminate X|].
  cbn [app fcP]. cbn [fst] in C. rewrite !number_done by (apply lr_done; exact C).
  assert (E : (c =? cL) || (c =? cR) = true) by (destruct C as [<-|[<-|[]]]; reflexivity). rewrite E. f_equal.
  apply IH. intros p' P1 P2. apply H; [discriminate|]. intros b x X. destruct b as [|y b].
  - injection X as <- ->. cbn [fst]. auto.
  - injection X as <- ->. eapply P2. reflexivity.
Qed.

Lemma nn_cong2 a v v' p : Forall (fun c => In c lr9) a ->
  (forall p', (a = [] -> p' = p) -> (forall b x, a = b ++ [x] -> p' = x) -> nn p' v -> nn p' v') ->
  nn p (a ++ v) -> nn p (a ++ v').
Proof.
  intros F. revert p. induction F as [|c a C F IH]; intros p H; [apply H; auto; intros [|? ?] ? X; discriminate X|].
  cbn [app nn]. assert (E : (c =? cNI) = false) by (destruct C as [<-|[<-|[]]]; reflexivity). rewrite E.
  apply IH. intros p' P1 P2. apply H; [discriminate|]. intros b x X. destruct b as [|y b].
  - injection X as <- ->. auto.
  - injection X as <- ->. eapply P2. reflexivity.
Qed.

(* N1: strong, neutral, strong. *)
Lemma fcP_N1 c n1 n2 n3 t p : In c lr9 -> fcP false p ((c, n1) :: (cNI, n2) :: (c, n3) :: t) = fcP false p ((c, (n1 + n2 + n3)%nat) :: t).
Proof.
  intros [<-|[<-|[]]].
  - change (repeat cL n1 ++ repeat cL n2 ++ repeat cL n3 ++ fcP false cL t = repeat cL (n1 + n2 + n3) ++ fcP false cL t). rewrite !repeat_nat_app, ?Nat.add_assoc. reflexivity.
  - change (repeat cR n1 ++ repeat cR n2 ++ repeat cR n3 ++ fcP false cR t = repeat cR (n1 + n2 + n3) ++ fcP false cR t). rewrite !repeat_nat_app, ?Nat.add_assoc. reflexivity.
Qed.
Lemma fcP_same c n1 n2 t p : In c lr9 -> fcP false p ((c, n1) :: (c, n2) :: t) = fcP false p ((c, (n1 + n2)%nat) :: t).
Proof.
  intros [<-|[<-|[]]].
  - change (repeat cL n1 ++ repeat cL n2 ++ fcP false cL t = repeat cL (n1 + n2) ++ fcP false cL t). rewrite !repeat_nat_app. reflexivity.
  - change (repeat cR n1 ++ repeat cR n2 ++ fcP false cR t = repeat cR (n1 + n2) ++ fcP false cR t). rewrite !repeat_nat_app. reflexivity.
Qed.
Lemma nn_N1 c t p : In c lr9 -> nn p (c :: cNI :: c :: t) -> nn p (c :: t).
Proof. intros [<-|[<-|[]]]; cbn; tauto. Qed.
Lemma nn_same c t p : In c lr9 -> nn p (c :: c :: t) -> nn p (c :: t).
Proof. intros [<-|[<-|[]]]; cbn; tauto. Qed.

(* N2: a neutral run that is not between two runs of the same class.  [p] is the class before it. *)
Lemma ahead_lr c t : In c lr9 -> ahead e (c :: t) = c.
Proof. intros [<-|[<-|[]]]; reflexivity. Qed.

Lemma fcP_e : forall t p p', Forall (fun x => In (fst x) done9) t -> p <> ahead e (cls t) -> p' <> ahead e (cls t) \/ p' = e ->
  fcP false p t = fcP false p' t.
Proof.
  induction t as [|[c n] t IH]; intros p p' F N N'; [reflexivity|]. inversion F as [|? ? C F']; subst. cbn [fst] in C. cbn [fcP].
  rewrite number_done by auto. cases C; try reflexivity.
  change (ahead e (cls ((cNI, n) :: t))) with (ahead e (cls t)) in N, N'.
  change (repeat (if p =? ahead e (cls t) then p else e) n ++ fcP false p t = repeat (if p' =? ahead e (cls t) then p' else e) n ++ fcP false p' t).
  rewrite (IH p p' F' N N'). f_equal. f_equal.
  apply Z.eqb_neq in N. rewrite N. destruct N' as [N'|N']; [apply Z.eqb_neq in N'; rewrite N'; reflexivity|]. subst p'. destruct (e =? _); reflexivity.
Qed.

Lemma fcP_N2 n t p : Forall (fun x => In (fst x) done9) t -> e = cL \/ e = cR -> nn p (cls ((cNI, n) :: t)) -> p <> hd cNULL (cls t) \/ p = e ->
  p <> cNI ->
  fcP false p ((cNI, n) :: t) = fcP false p ((e, n) :: t).
Proof.
  intros F E H N PN. cbn [cls map fst nn] in H. change (cNI =? cNI) with true in H. cbv iota in H. fold (cls t) in H. destruct H as [H _].
  assert (V : p <> ahead e (cls t) \/ p = e).
  { destruct t as [|[c m] t]; [cbn; destruct (Z.eq_dec p e); auto|]. inversion F as [|? ? C F']; subst. cbn [cls map hd fst] in H, N. cbn [fst] in C. cases C.
    - exact N.
    - exact N.
    - apply H. reflexivity. }
  assert (EL : fcP false p ((e, n) :: t) = repeat e n ++ fcP false e t) by (destruct E as [-> | ->]; reflexivity). rewrite EL.
  change (repeat (if p =? ahead e (cls t) then p else e) n ++ fcP false p t = repeat e n ++ fcP false e t).
  destruct (Z.eq_dec p e) as [->|NE]; [destruct (_ =? _); reflexivity|].
  destruct V as [V|V]; [|contradiction]. rewrite (fcP_e t p e F V (or_intror eq_refl)). apply Z.eqb_neq in V. rewrite V. reflexivity.
Qed.
Lemma nn_N2 t p : e = cL \/ e = cR -> Forall (fun c => In c done9) t -> nn p (cNI :: t) -> nn p (e :: t).
Proof.
  intros E F H. cbn [nn] in H. change (cNI =? cNI) with true in H. cbv iota in H. destruct H as [_ H].
  assert (X : nn e t).
  { clear - F H. revert p H. induction F as [|c t C F IH]; intros p H; [exact I|]. cbn [nn] in *. destruct (c =? cNI); [|exact H].
    destruct H as [_ H]. split; [auto|]. eapply IH, H. }
  destruct E as [-> | ->]; exact X.
Qed.

(* Nothing is left to be done. *)
Lemma fcP_done : forall l p, Forall (fun x => In (fst x) lr9) l -> fcP false p l = flat_map (fun x => repeat (fst x) (snd x)) l.
Proof.
  induction l as [|[c n] t IH]; intros p F; [reflexivity|]. inversion F as [|? ? C F']; subst. cbn [fst] in C.
  cbn [fcP flat_map fst snd]. rewrite number_done by (apply lr_done; auto).
  assert (E : (c =? cL) || (c =? cR) = true) by (destruct C as [<-|[<-|[]]]; reflexivity). rewrite E, IH; auto.
Qed.
End Rewrite.
