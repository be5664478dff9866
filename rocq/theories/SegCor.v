(* SegCor.v -- corollaries used by PropertiesSegmenter.v. *)
From Coq Require Import List ZArith Lia Bool.
From Verif Require Import Base RuneWrite Segmenter SegSpec SegProofs SegInv SegNext SegCut SegFacade SegTheorems SimpleWord SimpleWordProofs.
From Verif Require Deque.
Import ListNotations.
Open Scope Z_scope.

Lemma cut_to_limit (l : list (list Z * (Z * Z))) lim : Forall (fun x => zlen (fst x) <= lim) l ->
  map (fun x => (firstn (Z.to_nat lim) (fst x), snd x)) l = l.
Proof.
  induction 1 as [|[w p] l H _ IH]; simpl; auto. rewrite IH. rewrite firstn_all2; auto. unfold zlen in H. simpl in H. lia.
Qed.

(* every break lies inside the text, hence inside what is decided when the final match is short *)
Lemma break_inside {B} (bstep : B -> Z -> B * Z * list Z) z p ss rs :
  eot_safe (matrix bstep [p] (rs ++ [0])) -> longest (last (matrix bstep (p :: ss) (rs ++ [0])) []) <= 1 ->
  forall e p0 p1, In (e, (p0, p1)) (ends 0 (spec_of bstep z [p] rs)) ->
    (e <= reach (matrix bstep (p :: ss) (rs ++ [0%Z])))%nat.
Proof.
  intros Es Ll e p0 p1 H. rewrite spec_impl in H. apply ends_cut in H. destruct H as (i & a & H1 & H2 & H3 & _). simpl in H3.
  apply nth_error_effs in H1. destruct H1 as (_ & I2 & ->). rewrite matrix_len, app_length in I2. simpl in I2.
  assert (Ne : matrix bstep (p :: ss) (rs ++ [0]) <> []).
  { intros X. apply (f_equal (@length _)) in X. rewrite matrix_len, app_length in X. simpl in X. lia. }
  pose proof (reach_last _ Ne Ll) as R. rewrite matrix_len, app_length in R. simpl in R.
  destruct (Nat.eq_dec i (length rs)) as [E|]; [exfalso|lia].
  pose proof (eot_not_break bstep [p] (ones rs) EOF z eq_refl) as X. unfold mat in X. rewrite irunes_EOF, ones_fst in X.
  specialize (X Es). unfold Tf, mat in X. rewrite irunes_EOF, ins_EOF, ones_fst in X. unfold ones in X. rewrite map_length in X.
  unfold test0 in X. unfold test_of in H2. rewrite E in H2. congruence.
Qed.

Lemma swb_slice (isSpace : Z -> bool) b n : isSpace 0 = false -> Forall (fun r => r <> 0) b -> zlen b < MaxInt -> (length b + 1 < n)%nat ->
  exists s1 s', InitFromSlice deque_ops b (NewSegmenter [NewSimpleWordBreaker]) = Ok s1 /\
    loop deque_ops (swb_step isSpace) n s1 = Ok (map (run_out isSpace) (runs isSpace b), true, s') /\ Err s' = None.
Proof.
  intros S0 NZ Tt Hn. destruct (swb_cut isSpace S0 b NZ) as (Ob & Es & C).
  destruct (slice_cut (swb_step isSpace) [] [NewSimpleWordBreaker] _ b n (Forall_nil _) eq_refl Tt Ob Es Hn) as (s1 & s' & I & L & E).
  exists s1, s'. split; auto. rewrite spec_impl in L. cbn zeta in C.
  assert (X : cut (test_of (boz (NewSegmenter (Q := @Deque.deque atom) [NewSimpleWordBreaker])) (brks (NewSegmenter (Q := @Deque.deque atom) [NewSimpleWordBreaker])))
     (firstn (reach (matrix (swb_step isSpace) [NewSimpleWordBreaker] (b ++ [0]))) (effs (inputs b) (matrix (swb_step isSpace) [NewSimpleWordBreaker] (b ++ [0])))) [] = map (run_out isSpace) (runs isSpace b)) by exact C.
  split; [rewrite <- X; exact L|]. unfold Err. rewrite E. reflexivity.
Qed.
Lemma swb_reader_any (isSpace : Z -> bool) its n : isSpace 0 = false -> Forall (fun r => r <> 0) (map fst its) ->
    Forall (fun it => 1 <= snd it) its -> sizes its < MaxInt -> (length its + 1 < n)%nat ->
    exists s1 s', Init deque_ops (mkrd its EOF) (NewSegmenter [NewSimpleWordBreaker]) = Ok s1 /\
      loop deque_ops (swb_step isSpace) n s1 = Ok (map (fun x => (firstn (Z.to_nat 4096) (fst x), snd x)) (map (run_out isSpace) (runs isSpace (map fst its))), true, s') /\ Err s' = None.
Proof.
  intros S0 NZ Sz Tt Hn. destruct (swb_cut isSpace S0 (map fst its) NZ) as (Ob & Es & C).
  destruct (reader_cut (swb_step isSpace) [] [NewSimpleWordBreaker] _ its n (Forall_nil _) eq_refl Sz Tt Ob Hn) as (s1 & s' & I & L & E).
  exists s1, s'. split; auto. cbn zeta in C.
  split; [|unfold Err; rewrite E; reflexivity].
  rewrite spec_impl in L. rewrite <- C. exact L.
Qed.
Lemma swb_reader (isSpace : Z -> bool) its n : isSpace 0 = false -> Forall (fun r => r <> 0) (map fst its) ->
    Forall (fun it => 1 <= snd it) its -> sizes its < MaxInt -> (length its + 1 < n)%nat ->
    Forall (fun w => zlen w <= 4096) (runs isSpace (map fst its)) ->
    exists s1 s', Init deque_ops (mkrd its EOF) (NewSegmenter [NewSimpleWordBreaker]) = Ok s1 /\
      loop deque_ops (swb_step isSpace) n s1 = Ok (map (run_out isSpace) (runs isSpace (map fst its)), true, s') /\ Err s' = None.
Proof.
  intros S0 NZ Sz Tt Hn Hl. destruct (swb_reader_any isSpace its n S0 NZ Sz Tt Hn) as (s1 & s' & I & L & E).
  rewrite cut_to_limit in L. eauto.
  apply Forall_forall. intros x Hx. apply in_map_iff in Hx. destruct Hx as (w & <- & Hw). rewrite Forall_forall in Hl. simpl. auto.
Qed.

Lemma runs_repeat (isSpace : Z -> bool) r : forall n, runs isSpace (repeat r (S n)) = [repeat r (S n)].
Proof.
  induction n; [reflexivity|]. cbn [repeat]. cbn [repeat] in IHn. rewrite (runs_cons isSpace r r (repeat r n) (repeat r n) [] IHn).
  now rewrite eqb_reflx.
Qed.
Lemma long_word n : 4096 < Z.of_nat n -> Z.of_nat n < MaxInt ->
    exists s1 s', Init deque_ops (mkrd (map (fun r => (r, 1)) (repeat 97 n)) EOF) (NewSegmenter [NewSimpleWordBreaker]) = Ok s1 /\
      loop deque_ops (swb_step (fun r => r =? 32)) (n + 2) s1 = Ok ([(repeat 97 (Z.to_nat 4096), (100, 0))], true, s') /\ Err s' = None.
Proof.
  intros H1 H2. set (its := map (fun r => (r, 1)) (repeat 97 n)).
  assert (Li : length its = n) by (unfold its; rewrite map_length, repeat_length; auto).
  assert (Mf : map fst its = repeat 97 n) by (unfold its; rewrite map_map; cbn; apply map_id).
  assert (Z1 : Forall (fun it : Z * Z => 1 <= snd it) its) by (exact (proj1 (ones_sizes (repeat 97 n)))).
  assert (Z2 : sizes its = zlen (repeat 97 n)) by (exact (proj2 (ones_sizes (repeat 97 n)))).
  destruct (swb_reader_any (fun r => r =? 32) its (n + 2)) as (s1 & s' & I & L & E); auto.
  - rewrite Mf. apply Forall_forall. intros x Hx. apply repeat_spec in Hx. rewrite Hx. discriminate.
  - rewrite Z2. unfold zlen. now rewrite repeat_length.
  - lia.
  - exists s1, s'. split; auto. split; auto. rewrite L. rewrite Mf. replace n with (S (n - 1)) at 1 by lia. rewrite runs_repeat. replace (S (n - 1)) with n by lia.
    unfold run_out. cbn [map fst snd]. replace n with (S (n - 1)) at 1 2 by lia.
    assert (X : forall a b (x : Z), (a <= b)%nat -> firstn a (repeat x b) = repeat x a).
    { induction a; intros b x Hab; auto. destruct b; [lia|]. simpl. f_equal. apply IHa. lia. }
    rewrite X by lia. reflexivity.
Qed.
