(* UcdProofs.v -- lemmas on the range-table collector. *)
From Coq Require Import List ZArith Lia Bool.
From Verif Require Import Base Ucd.
Import ListNotations.
Open Scope Z_scope.

Lemma member_app c a b : member c (a ++ b) <-> member c a \/ member c b.
Proof. apply Exists_app. Qed.
Lemma member_one c x : member c [x] <-> within c x.
Proof. unfold member. rewrite Exists_cons, Exists_nil. tauto. Qed.
Lemma member_cons c x l : member c (x :: l) <-> within c x \/ member c l.
Proof. apply Exists_cons. Qed.

Lemma sorted_above : forall rs k, sorted_from k rs -> forall c, member c rs -> k < c.
Proof.
  induction rs as [|[l r] t IH]; intros k H c M; [inversion M|]. destruct H as (K & L & S).
  apply member_cons in M. destruct M as [[M1 M2]|M]; cbn [fst snd] in *; [lia|]. specialize (IH r S c M). lia.
Qed.

(* the collector in the middle of the loop: current range l..r *)
Lemma collect_from : forall rs k s3 ks xs l r, l <= r -> sorted_from r rs ->
  (forall c, member c xs -> c < l \/ (c = 0 /\ l = 0)) ->
  let rt := fold_left (fun rt x => Append rt (fst x) (snd x)) rs (mkrt ks k s3 xs l r) in
  (lo rt, hi rt) = last_block l r rs /\
  forall c, member c (ranges rt) <-> member c xs \/ (member c ((l, r) :: rs) /\ ~ within c (last_block l r rs)).
Proof.
  induction rs as [|[a b] t IH]; intros k s3 ks xs l r Hlr S B rt.
  - subst rt. cbn [fold_left last_block ranges lo hi]. split; [reflexivity|]. intros c. rewrite member_one. tauto.
  - destruct S as (S1 & S2 & S3). subst rt. cbn [fold_left fst snd]. set (st := Append (mkrt ks k s3 xs l r) a b). cbn [last_block].
    unfold Append in st. cbn [hi lo cnt latinOffset switch32 ranges] in st. subst st.
    destruct (Z.eqb_spec a (r + 1)) as [->|N].
    + destruct (IH k s3 ks xs l b ltac:(lia) S3 B) as [P Q]. split; [exact P|]. intros c. rewrite Q.
      rewrite !member_cons. unfold within at 1 3 4. cbn [fst snd].
      split; (intros [M|[M W]]; [auto|right; split; [|exact W]]).
      * destruct M as [M|M]; [|auto]. destruct (Z.le_gt_cases c r); [left|right; left]; lia.
      * destruct M as [M|[M|M]]; [left; lia|left; lia|auto].
    + set (k' := if (k =? 0) && (r >? MaxLatin1) then ks else k). set (s' := if (s3 =? 0) && _ then ks else s3).
      destruct (IH k' s' (ks + 1) (xs ++ [(l, r)]) a b S2 S3) as [P Q].
      { intros c M. apply member_app in M. destruct M as [M|M].
        - specialize (B c M). lia.
        - apply member_one in M. destruct M as [M1 M2]. cbn [fst snd] in *. lia. }
      split; [exact P|]. intros c. rewrite Q. rewrite member_app, member_one.
      assert (X : within c (l, r) -> ~ within c (last_block a b t)).
      { intros [W1 W2] [V1 V2]. cbn [fst snd] in W1, W2.
        assert (LB : forall t a b, a <= b -> sorted_from b t -> a <= fst (last_block a b t)).
        { clear. induction t as [|[x y] t IH]; intros a b H S; cbn [last_block]; [cbn; lia|]. destruct S as (S1 & S2 & S3).
          destruct (x =? b + 1); [apply IH; [lia|exact S3]|]. specialize (IH x y S2 S3). lia. }
        specialize (LB t a b S2 S3). lia. }
      rewrite (member_cons c (l, r)). split.
      * intros [[M|M]|[M W]]; auto.
      * intros [M|[[M|M] W]]; auto.
Qed.

Lemma collect_spec rs : sorted_from (-1) rs ->
  forall c, member c (ranges (collect rs)) <-> (c = 0 \/ member c rs) /\ ~ within c (last_block 0 0 rs) \/ (c = 0 /\ exists r t, rs = (0, r) :: t).
Proof.
  intros S c. destruct rs as [|[a b] t].
  - cbn. unfold member. rewrite Exists_nil. unfold within. cbn. split; [tauto|]. intros [[[H1|[]] H]|(_ & r & t & H)]; [lia|discriminate].
  - destruct S as (S1 & S2 & S3).
    destruct (Z.eqb_spec a 0) as [->|N].
    + unfold collect. cbn [fold_left fst snd]. change (Append new_collector 0 b) with (mkrt 1 0 0 ([] ++ [(0, 0)]) 0 b).
      destruct (collect_from t 0 0 1 ([] ++ [(0, 0)]) 0 b S2 S3) as [_ Q].
      { intros x M. apply member_one in M. destruct M; cbn [fst snd] in *. lia. }
      rewrite Q. cbn [app]. rewrite member_one.
      assert (E : last_block 0 0 ((0, b) :: t) = last_block 0 b t) by reflexivity. rewrite E.
      assert (Z0 : c = 0 <-> within c (0, 0)) by (unfold within; cbn; lia).
      assert (Z1 : c = 0 -> member c ((0, b) :: t)) by (intros ->; apply member_cons; left; unfold within; cbn; lia).
      split.
      * intros [M|[M W]]; [right; split; [tauto|eauto]|left; tauto].
      * intros [[[M|M] W]|[M _]]; [right; tauto|right; tauto|left; tauto].
    + destruct (collect_from ((a, b) :: t) 0 0 0 [] 0 0) as [_ Q]; [lia|split; [lia|split; assumption]| |].
      { intros x M. inversion M. }
      unfold collect. rewrite Q. rewrite (member_cons c (0, 0)).
      assert (Z0 : c = 0 <-> within c (0, 0)) by (unfold within; cbn; lia).
      split.
      * intros [M|[M W]]; [inversion M|left; tauto].
      * intros [[M W]|[_ (r & u & H)]]; [right; tauto|congruence].
Qed.

Lemma output_ranges rt : let '(r16, r32, _) := Output rt in r16 ++ r32 = ranges rt.
Proof. unfold Output. destruct (switch32 rt >? 0); [apply firstn_skipn|apply app_nil_r]. Qed.

(* what the emitted table contains *)
Lemma collected rs : sorted_from (-1) rs -> let '(r16, r32, _) := Output (collect rs) in
  forall c, member c (r16 ++ r32) <-> (c = 0 \/ member c rs) /\ ~ within c (last_block 0 0 rs) \/ (c = 0 /\ exists r t, rs = (0, r) :: t).
Proof. intros S. pose proof (output_ranges (collect rs)) as H. destruct (Output (collect rs)) as [[a b] o]. rewrite H. apply collect_spec, S. Qed.

Lemma last_block_snoc : forall rs l r x y, l <= r -> sorted_from r (rs ++ [(x, y)]) -> (forall c, c = r \/ member c rs -> c + 1 < x) -> last_block l r (rs ++ [(x, y)]) = (x, y).
Proof.
  induction rs as [|[a b] t IH]; intros l r x y Hl S G.
  - cbn [app last_block]. destruct (Z.eqb_spec x (r + 1)); [|reflexivity]. specialize (G r). lia.
  - cbn [app last_block]. destruct S as (S1 & S2 & S3).
    assert (G' : forall c, c = b \/ member c t -> c + 1 < x).
    { intros c [->|M]; apply G; right; apply member_cons; [left; unfold within; cbn; lia|auto]. }
    destruct (a =? r + 1); apply IH; auto; lia.
Qed.
(* With a sentinel range behind the data everything collected is there, and NUL. *)
Lemma collected_sentinel rs x y : sorted_from 0 (rs ++ [(x, y)]) -> (forall c, c = 0 \/ member c rs -> c + 1 < x) ->
  let '(r16, r32, _) := Output (collect (rs ++ [(x, y)])) in forall c, member c (r16 ++ r32) <-> c = 0 \/ member c rs.
Proof.
  intros S G.
  assert (S' : sorted_from (-1) (rs ++ [(x, y)])) by (destruct rs as [|[a b] t]; cbn in *; intuition lia).
  pose proof (collected _ S') as H. destruct (Output _) as [[r16 r32] o]. intros c. rewrite H.
  rewrite last_block_snoc; [|lia|exact S|exact G]. rewrite member_app, member_one.
  assert (N0 : forall r t, rs ++ [(x, y)] <> (0, r) :: t).
  { intros r t E. rewrite E in S. cbn in S. lia. }
  assert (W : c = 0 \/ member c rs -> ~ within c (x, y)).
  { intros M [W1 W2]. cbn in *. specialize (G c M). lia. }
  split.
  - intros [[[M|[M|M]] N]|[_ (r & t & E)]]; [auto|auto|tauto|destruct (N0 _ _ E)].
  - intros M. left. tauto.
Qed.
